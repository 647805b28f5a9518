(** * Running API histories on the PagedStack model.
    Each API call of [PagedStackSpec.op] is mapped to the modelled member
    function of pagedstack.h (the lines are on the model's definitions). *)

From Coq Require Import List Arith ZArith Bool.
From Verif Require Import Base PagedStackModel PagedStackSpec.
Import ListNotations.
Open Scope m_scope.

Section Exec.
Context {T : Type}.

(** The member function behind each API call; [debug] tells whether assertions
    are compiled in. *)
Definition exec (debug : bool) (o : op T) : M (stack T) (retval T) :=
  match o with
  | Push x xs => push x xs ;;; ret RUnit
  | PushEmplace x => push_emplace x ;;; ret RUnit
  | Pop => pop debug ;;; ret RUnit
  | PopN n => vs <- pop_values debug (S n) ;; ret (RVals vs)
  | Top => v <- top ;; ret (RVals [v])
  | SetTop x => set_top x ;;; ret RUnit
  | Discard n => discard debug n ;;; ret RUnit
  | Peek n => vs <- peek debug (S n) ;; ret (RVals vs)
  | PeekDepth d n => vs <- peek_depth debug d (S n) ;; ret (RVals vs)
  | PeekReverse n => vs <- peek_reverse debug (S n) ;; ret (RVals vs)
  | Size => n <- size ;; ret (RNat n)
  | Empty => b <- empty ;; ret (RBool b)
  | Shrink => shrink_to_fit ;;; ret RUnit
  | PopReverse n => vs <- pop_reverse debug (S n) ;; ret (RVals vs)
  | DiscardAt k =>
      it <- begin ;; it' <- f_plus k it ;; discard_f it' ;;; ret RUnit
  | DiscardFromTop d =>
      it <- from_top debug d ;; discard_r it ;;; ret RUnit
  | Clear => clear ;;; ret RUnit
  end.

(** A history of calls, one after the other. *)
Fixpoint run (debug : bool) (ops : list (op T)) : M (stack T) (list (retval T)) :=
  match ops with
  | [] => ret []
  | o :: ops' => r <- exec debug o ;; rs <- run debug ops' ;; ret (r :: rs)
  end.

(** [reaches debug ps pa ops s l]: the object built with page size [ps] and
    pre-allocation [pa] has gone through the history [ops] of core calls and is
    now [s]; an ideal stack would hold [l] (top first). *)
Definition reaches (debug : bool) (ps pa : nat) (ops : list (op T))
           (s : stack T) (l : list T) : Prop :=
  1 <= pa /\ forallb core_op ops = true /\
  exists rs, spec_run ops [] = Some (l, rs) /\ run debug ops (construct ps pa) = ROk s rs.

(** The same with all the calls, in histories that are [careful]. *)
Definition reaches_careful (debug : bool) (ps pa : nat) (ops : list (op T))
           (s : stack T) (l : list T) : Prop :=
  1 <= ps /\ 1 <= pa /\ careful ps false ops [] = true /\
  exists rs, spec_run ops [] = Some (l, rs) /\ run debug ops (construct ps pa) = ROk s rs.

(** The client loop [for(it = a; it != e; ++it) visit( *it )] on the unchanged
    stack [s] terminates and visits exactly the listed elements, in order. *)
Inductive loop {I : Type} (eqb : I -> I -> bool) (deref : I -> M (stack T) T)
          (inc : I -> M (stack T) I) (s : stack T) (e : I) : I -> list T -> Prop :=
| loop_end : forall it, eqb it e = true -> loop eqb deref inc s e it []
| loop_next : forall it it' x xs,
    eqb it e = false -> deref it s = ROk s x -> inc it s = ROk s it' ->
    loop eqb deref inc s e it' xs ->
    loop eqb deref inc s e it (x :: xs).

Definition f_loop (s : stack T) (from to : fiter) (xs : list T) : Prop :=
  loop f_eqb f_deref f_inc s to from xs.
Definition r_loop (s : stack T) (from to : riter) (xs : list T) : Prop :=
  loop r_eqb r_deref r_inc s to from xs.

End Exec.
