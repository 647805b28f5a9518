(** * The project's own tests, run in the model

    src/test/engine/pagedstack.fut.cpp, one [Example] per test case, in the order of that file.
    These are not properties: they check that the model behaves as the tests say the code does.
    The allocator tests are left out (the model has no allocator), except for the numbers of
    pages; so are const variants. *)

From Coq Require Import List Arith ZArith String.
From Verif Require Import Base PagedStackModel PagedStackExec.
Import ListNotations.
Open Scope m_scope.

(** L38: std::variant<int, std::string, SomeStruct> *)
Inductive datatype : Type := I (n : Z) | S (s : string).

Open Scope Z_scope.
Open Scope string_scope.
Open Scope nat_scope.

Notation SM := (M (stack datatype)).

(** L41: PagedStack m_stack{4,2}; the test passes *)
Definition result {A : Type} (m : SM A) : option A :=
  match m (construct 4 2) with ROk _ a => Some a | _ => None end.

(** for(i = a; i < a + n; ++i) m_stack.push(i) *)
Fixpoint push_from (a : Z) (n : nat) : SM unit :=
  match n with O => ret tt | Datatypes.S n' => push (I a) [] ;;; push_from (a + 1) n' end.
Fixpoint pops (n : nat) : SM unit :=
  match n with O => ret tt | Datatypes.S n' => pop true ;;; pops n' end.
Definition stats : SM (nat * nat * nat) :=
  r <- getStats ;; let '(b, _, cb, cd) := r in ret (b, cb, cd).

Definition Is (l : list Z) : list datatype := map I l.

Example smoke : result (a <- empty ;; b <- size ;; ret (a, b)) = Some (true, 0).
Proof. reflexivity. Qed.

Example simple_push : result (push (S "Hello world") [] ;;; a <- empty ;; b <- size ;; c <- top ;; ret (a, b, c))
  = Some (false, 1, S "Hello world").
Proof. reflexivity. Qed.

Example double_push : result (push (I 1) [S "Hello world"] ;;; a <- empty ;; b <- size ;; c <- top ;; ret (a, b, c))
  = Some (false, 2, S "Hello world").
Proof. reflexivity. Qed.

Example simple_emplace : result (push_emplace (S "Hello world") ;;; a <- empty ;; b <- size ;; c <- top ;; ret (a, b, c))
  = Some (false, 1, S "Hello world").
Proof. reflexivity. Qed.

Example double_emplace : result (push_emplace (S "Hello world") ;;; push_emplace (S "Hello again") ;;;
                               a <- empty ;; b <- size ;; c <- top ;; ret (a, b, c))
  = Some (false, 2, S "Hello again").
Proof. reflexivity. Qed.

Example top_ : result (push_emplace (S "Hello world") ;;; a <- empty ;; set_top (S "Changed") ;;; c <- top ;; ret (a, c))
  = Some (false, S "Changed").
Proof. reflexivity. Qed.

Example fill_one_buffer : result (push (I 1) [I 2; I 3; S "top"] ;;; a <- top ;; b <- stats ;; ret (a, b))
  = Some (S "top", (2, 1, 4)).
Proof. reflexivity. Qed.

Example pure_pop : result (push (S "top") [] ;;; push (S "discarded") [] ;;; pop true ;;; a <- top ;; b <- stats ;; ret (a, b))
  = Some (S "top", (2, 1, 1)).
Proof. reflexivity. Qed.

Example pure_pop_clear : result (push (S "top") [] ;;; pop true ;;; stats) = Some (2, 1, 0).
Proof. reflexivity. Qed.

Example pop_first : result (push (S "top") [] ;;; a <- pop_values true 1 ;; b <- stats ;; ret (a, b)) = Some ([S "top"], (2, 1, 0)).
Proof. reflexivity. Qed.

Example pop_last : result (push (I 1) [I 2; I 3; S "top"] ;;; a <- pop_values true 1 ;; b <- stats ;; ret (a, b))
  = Some ([S "top"], (2, 1, 3)).
Proof. reflexivity. Qed.

Example pop_all : result (push (I 1) [I 2; I 3; S "top"] ;;; a <- pop_values true 4 ;; b <- stats ;; ret (a, b))
  = Some ([S "top"; I 3; I 2; I 1], (2, 1, 0)).
Proof. reflexivity. Qed.

Example next_buff : result (push (I 1) [I 2; I 3; I 4; S "top"] ;;; a <- top ;; b <- stats ;; ret (a, b))
  = Some (S "top", (2, 2, 1)).
Proof. reflexivity. Qed.

Example pop_across_buffs :
  result (push (I 1) [I 2; I 3; I 4; S "top"] ;;; a <- top ;; b <- stats ;; c <- pop_values true 4 ;; d <- stats ;; ret (a, b, c, d))
  = Some (S "top", (2, 2, 1), [S "top"; I 4; I 3; I 2], (2, 1, 1)).
Proof. reflexivity. Qed.

Example realloc : result (push_from 1 16 ;;; push (S "top") [] ;;; a <- top ;; b <- stats ;; ret (a, b)) = Some (S "top", (6, 5, 1)).
Proof. reflexivity. Qed.

Example realloc_and_repush :
  result (push (S "top") [] ;;; push_from 1 16 ;;; pops 16 ;;; a <- top ;; pop true ;;; b <- empty ;; ret (a, b)) = Some (S "top", true).
Proof. reflexivity. Qed.

Example empty_and_repush :
  result (push (S "top") [] ;;; push_from 1 16 ;;; pops 16 ;;; pop true ;;; push (S "bottom") [I 2; I 3; I 4; S "top"] ;;;
        a <- top ;; b <- pop_values true 5 ;; c <- empty ;; ret (a, b, c))
  = Some (S "top", [S "top"; I 4; I 3; I 2; S "bottom"], true).
Proof. reflexivity. Qed.

Example shrink :
  result (push (S "top") [] ;;; push_from 1 16 ;;; pops 7 ;;; shrink_to_fit ;;; a <- stats ;; b <- size ;; c <- top ;; ret (a, b, c))
  = Some ((3, 3, 2), 10, I 9).
Proof. reflexivity. Qed.

Example shrink_and_reuse :
  result (push (S "top") [] ;;; push_from 1 16 ;;; pops 7 ;;; shrink_to_fit ;;; push_from 1 16 ;;; a <- top ;; pops 25 ;;;
        b <- stats ;; c <- size ;; d <- top ;; ret (a, b, c, d))
  = Some (I 16, (7, 1, 1), 1, S "top").
Proof. reflexivity. Qed.

(** The loop of check_iterator (L57-66): the elements visited, at most [n]. *)
Fixpoint walk {J : Type} (eqb : J -> J -> bool) (deref : J -> SM datatype) (inc : J -> SM J) (n : nat) (it last : J) : SM (list datatype) :=
  if eqb it last then ret []
  else match n with
       | O => fail UB
       | Datatypes.S n' => v <- deref it ;; it' <- inc it ;; vs <- walk eqb deref inc n' it' last ;; ret (v :: vs)
       end.
(** L57-82, the three parts of check_iterator *)
Definition check_iterator {J : Type} (eqb : J -> J -> bool) (deref : J -> SM datatype) (inc dec : J -> SM J) (first last : J) :=
  l <- walk eqb deref inc 20 first last ;;
  e <- dec last ;; e <- dec e ;; a <- deref e ;; e <- inc e ;; b <- deref e ;;
  ret (l, a, b).

Example direct_iterator :
  result (push (I 1) (Is [2; 3; 4; 5]%Z) ;;; x <- begin ;; y <- end_ ;; check_iterator f_eqb f_deref f_inc f_dec x y)
  = Some (Is [5; 4; 3; 2; 1]%Z, I 2, I 1).
Proof. reflexivity. Qed.

Example reverse_iterator :
  result (push (I 1) (Is [2; 3; 4; 5]%Z) ;;; x <- rbegin ;; y <- rend ;; check_iterator r_eqb r_deref r_inc r_dec x y)
  = Some (Is [1; 2; 3; 4; 5]%Z, I 4, I 5).
Proof. reflexivity. Qed.

(** for(; iter != sync_end(); ++iter) iter.get(j): the temporaries of sync_end() are destroyed;
    the iterator left over is returned *)
Fixpoint sync_walk (n : nat) (it : siter) : SM (siter * list datatype) :=
  e <- sync_end ;; same <- s_eq it e ;; s_destroy e ;;;
  if same then ret (it, [])
  else match n with
       | O => fail UB
       | Datatypes.S n' => r <- s_get it ;; it <- s_inc (fst r) ;; rs <- sync_walk n' it ;; ret (fst rs, snd r :: snd rs)
       end.

Example sync_iterator :
  result (push (I 1) (Is [2; 3; 4; 5]%Z) ;;; it <- sync_begin ;; r <- sync_walk 20 it ;; s_destroy (fst r) ;;; ret (snd r))
  = Some (Is [5; 4; 3; 2; 1]%Z).
Proof. reflexivity. Qed.

Example sync_iterator_shrink :
  result (push (I 1) (Is [2; 3; 4; 5]%Z ++ [S "one"; S "two"; S "three"]) ;;;
        si <- sync_begin ;; a <- pop_values true 3 ;;
        b <- s_get si ;; si <- s_inc (fst b) ;; c <- s_get si ;; si <- s_inc (fst c) ;; d <- s_get si ;; si <- s_inc (fst d) ;;
        e <- pop_values true 2 ;; shrink_to_fit ;;; f <- stats ;;
        r <- sync_walk 20 si ;; s_destroy (fst r) ;;; g <- stats ;;
        ret (a, [snd b; snd c; snd d], e, fst (fst f), snd r, fst (fst g)))
  = Some ([S "three"; S "two"; S "one"], Is [5; 4; 3]%Z, Is [5; 4]%Z, 2, Is [2; 1]%Z, 1).
Proof. reflexivity. Qed.

(** get then ++, [n] times *)
Fixpoint sync_steps (n : nat) (it : siter) : SM (siter * list datatype) :=
  match n with
  | O => ret (it, [])
  | Datatypes.S n' => r <- s_get it ;; it <- s_inc (fst r) ;; rs <- sync_steps n' it ;; ret (fst rs, snd r :: snd rs)
  end.

Example sync_iterator_jump_base :
  result (push_from 0 17 ;;; si <- sync_begin ;; a <- sync_steps 9 si ;;
        discard true 5 ;;; b <- sync_steps 1 (fst a) ;;
        discard true 8 ;;; c <- sync_steps 1 (fst b) ;;
        d <- s_get (fst c) ;; e <- top ;; si <- s_inc (fst d) ;; s_destroy si ;;;
        ret (snd a, snd b, snd c, e))
  = Some (Is [16; 15; 14; 13; 12; 11; 10; 9; 8]%Z, [I 7], [I 3], I 3).
Proof. reflexivity. Qed.

Example from_top_ :
  result (push (I 1) (Is [2; 3; 4; 5; 6]%Z) ;;; x <- from_top true 6 ;; y <- rend ;; check_iterator r_eqb r_deref r_inc r_dec x y)
  = Some (Is [1; 2; 3; 4; 5; 6]%Z, I 5, I 6).
Proof. reflexivity. Qed.

Example peek_ : result (push (S "bottom") [I 1; I 2; I 3; S "top"] ;;; a <- peek true 5 ;; b <- top ;; ret (a, b))
  = Some ([S "top"; I 3; I 2; I 1; S "bottom"], S "top").
Proof. reflexivity. Qed.

Example peek_reverse_one : result (push (S "bottom") [I 1; I 2; I 3; S "top"] ;;; a <- peek_depth true 1 1 ;; b <- top ;; ret (a, b))
  = Some ([S "top"], S "top").
Proof. reflexivity. Qed.

Example peek_reverse_ : result (push (S "bottom") [I 1; I 2; I 3; S "top"] ;;; peek_reverse true 5)
  = Some [S "bottom"; I 1; I 2; I 3; S "top"].
Proof. reflexivity. Qed.

Example peek_depth_ : result (push (S "not read") [S "bottom"; I 1; I 2; I 3; S "top"] ;;; peek_depth true 5 5)
  = Some [S "bottom"; I 1; I 2; I 3; S "top"].
Proof. reflexivity. Qed.

Definition six : SM unit := push (S "new top") [S "bottom"; I 1; I 2; I 3; S "top"].

Example discard_count :
  result (six ;;; discard true 0 ;;; a <- top ;; discard true 1 ;;; b <- top ;; discard true 1 ;;; c <- top ;; discard true 3 ;;; d <- top ;;
        discard true 1 ;;; e <- empty ;; discard true 0 ;;; f <- empty ;; ret (a, b, c, d, e, f))
  = Some (S "top", I 3, I 2, S "new top", true, true).
Proof. reflexivity. Qed.

Example discard_direct :
  result (six ;;; it <- begin ;; discard_f it ;;; a <- top ;; it <- begin ;; discard_f it ;;; b <- top ;;
        it <- begin ;; it <- f_inc it ;; discard_f it ;;; c <- top ;; it <- begin ;; discard_f it ;;; d <- top ;;
        it <- begin ;; discard_f it ;;; e <- empty ;; ret (a, b, c, d, e))
  = Some (I 3, I 2, S "bottom", S "new top", true).
Proof. reflexivity. Qed.

Example discard_direct_all : result (six ;;; it <- begin ;; it <- f_plus 4 it ;; discard_f it ;;; top) = Some (S "new top").
Proof. reflexivity. Qed.

Example discard_reverse : result (six ;;; it <- rbegin ;; it <- r_plus 4 it ;; discard_r it ;;; top) = Some (I 2).
Proof. reflexivity. Qed.

Example discard_reverse_all : result (six ;;; it <- rbegin ;; discard_r it ;;; empty) = Some true.
Proof. reflexivity. Qed.

Example pop_reverse_ : result (six ;;; a <- pop_reverse true 5 ;; b <- top ;; ret (a, b))
  = Some ([S "bottom"; I 1; I 2; I 3; S "top"], S "new top").
Proof. reflexivity. Qed.

(** L704-738: the pages allocated *)
Example allocator :
  result (a <- stats ;; push_from 1 12 ;;; b <- stats ;; c <- pop_values true 5 ;; push (I 12) (Is [11; 10; 9; 8; 13]%Z) ;;; d <- stats ;;
        ret (fst (fst a), fst (fst b), c, fst (fst d)))
  = Some (2, 4, Is [12; 11; 10; 9; 8]%Z, 4).
Proof. reflexivity. Qed.
