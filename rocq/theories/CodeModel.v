(** * Model of Code (src/include/falcon/engine/code.h, src/engine/code.cpp) and Compiler
    (src/engine/compiler.cpp).

    Not modelled: failure of new; the locale (isspace is that of the "C" locale); width set on
    the input stream. *)

From Coq Require Import ZArith String Ascii Bool List Arith.
From Verif Require Import Base.
Import ListNotations.
Open Scope list_scope.

(** ** Buffers *)

Definition CAP : Z := 1000.
Definition NUL : ascii := "000"%char.

(** A buffer of new char[1000]: the characters stored from its start on; what follows them is
    not initialised.  [None]: deleted. *)
Definition buffers : Type := list (option (list ascii)).

(** A Code object (code.h L30-32); m_source and m_line are never read. *)
Record code : Type := mkCode { c_source : string; c_line : Z; c_data : option nat }.

(** The Code objects of a program, by name. *)
Record cstate : Type := mkC { bufs : buffers; objs : list (nat * code) }.

Definition cs0 : cstate := mkC [] [].

Fixpoint find (x : nat) (l : list (nat * code)) : option code :=
  match l with [] => None | (y, c) :: l' => if x =? y then Some c else find x l' end.
Fixpoint del (x : nat) (l : list (nat * code)) : list (nat * code) :=
  match l with [] => [] | (y, c) :: l' => if x =? y then l' else (y, c) :: del x l' end.
Definition bind_obj (x : nat) (c : code) (l : list (nat * code)) : list (nat * code) := (x, c) :: del x l.

Definition put_objs (o : list (nat * code)) (s : cstate) : cstate := mkC (bufs s) o.

(** code.cpp L21-26: std::copy and the final 0, both without a test of the size. *)
Definition construct (source : string) (line : Z) (s : cstate) : res cstate code :=
  let text := list_ascii_of_string source in
  if (Z.of_nat (List.length text) <? CAP)%Z
  then ROk (mkC (bufs s ++ [Some (text ++ [NUL])]) (objs s)) (mkCode source line (Some (List.length (bufs s))))
  else RBad UB.

(** L41-43: delete[] m_data; a null pointer is allowed. *)
Definition release (c : code) (s : cstate) : res cstate unit :=
  match c_data c with
  | None => ROk s tt
  | Some p => match nth_error (bufs s) p with
              | Some (Some _) => ROk (mkC (upd p (fun _ => None) (bufs s)) (objs s)) tt
              | _ => RBad UB
              end
  end.

(** The characters before the first 0; [None]: there is none. *)
Fixpoint cstr (l : list ascii) : option (list ascii) :=
  match l with
  | [] => None
  | a :: l' => if Ascii.eqb a NUL then Some [] else option_map (cons a) (cstr l')
  end.

(** L46-48: std::string(m_data) *)
Definition toString (c : code) (s : cstate) : res cstate string :=
  match c_data c with
  | None => RBad UB
  | Some p => match nth_error (bufs s) p with
              | Some (Some b) => match cstr b with Some t => ROk s (string_of_list_ascii t) | None => RBad UB end
              | _ => RBad UB
              end
  end.

(** What a program does with Code objects.  An operation the compiler would not accept there,
    on an object that does not exist or the construction of one that does, changes nothing. *)
Inductive cop : Type :=
| CNew (x : nat) (source : string)    (** Code x(source); *)
| CCopy (x y : nat)                   (** Code x(y);  L28-30 *)
| CMove (x y : nat)                   (** Code x(std::move(y));  L32-38 *)
| CAssign (x y : nat)                 (** x = y; the generated member-wise assignment (code.h L26) *)
| CDestroy (x : nat)                  (** end of x's life *)
| CToString (x : nat)                 (** x.toString() *).

Definition cstep (op : cop) (s : cstate) : res cstate (option string) :=
  match op with
  | CNew x source =>
      match find x (objs s) with
      | Some _ => ROk s None
      | None => match construct source 0 s with
                | ROk s' c => ROk (put_objs (bind_obj x c (objs s')) s') None
                | RThrow s' => RThrow s'
                | RBad b => RBad b
                end
      end
  | CCopy x y =>
      match find x (objs s), find y (objs s) with
      | None, Some c => ROk (put_objs (bind_obj x (mkCode (c_source c) (c_line c) (c_data c)) (objs s)) s) None
      | _, _ => ROk s None
      end
  | CMove x y =>
      match find x (objs s), find y (objs s) with
      | None, Some c =>
          (* the standard leaves the moved-from m_source unspecified; it is not read again *)
          ROk (put_objs (bind_obj x c (bind_obj y (mkCode "" (c_line c) None) (objs s))) s) None
      | _, _ => ROk s None
      end
  | CAssign x y =>
      match find x (objs s), find y (objs s) with
      | Some _, Some c => ROk (put_objs (bind_obj x c (objs s)) s) None
      | _, _ => ROk s None
      end
  | CDestroy x =>
      match find x (objs s) with
      | None => ROk s None
      | Some c => match release c s with
                  | ROk s' _ => ROk (put_objs (del x (objs s')) s') None
                  | RThrow s' => RThrow s'
                  | RBad b => RBad b
                  end
      end
  | CToString x =>
      match find x (objs s) with
      | None => ROk s None
      | Some c => match toString c s with
                  | ROk s' t => ROk s' (Some t)
                  | RThrow s' => RThrow s'
                  | RBad b => RBad b
                  end
      end
  end.

(** The texts returned by toString, in order. *)
Fixpoint crun (ops : list cop) (s : cstate) : res cstate (list string) :=
  match ops with
  | [] => ROk s []
  | op :: ops' =>
      match cstep op s with
      | ROk s' r => match crun ops' s' with
                    | ROk s'' l => ROk s'' (match r with Some t => t :: l | None => l end)
                    | r' => r'
                    end
      | RThrow s' => RThrow s'
      | RBad b => RBad b
      end
  end.

(** ** Compiler *)

(** An input stream: the characters left, its state bits, and whether exceptions(failbit) is on. *)
Record istream : Type := mkIn { i_left : list ascii; i_eof : bool; i_fail : bool; i_exc : bool }.

(** isspace *)
Definition blank (c : ascii) : bool := let n := nat_of_ascii c in (n =? 32) || ((9 <=? n) && (n <=? 13)).

Fixpoint skip_blanks (l : list ascii) : list ascii :=
  match l with [] => [] | c :: l' => if blank c then skip_blanks l' else l end.
Fixpoint token (l : list ascii) : list ascii * list ascii :=
  match l with
  | [] => ([], [])
  | c :: l' => if blank c then ([], l) else let (t, r) := token l' in (c :: t, r)
  end.

(** operator>>(istream, string).  The value stays empty if nothing was read.  [RThrow]: with
    exceptions(failbit), failure is reported by an exception. *)
Definition extract (i : istream) : res istream string :=
  if i_eof i || i_fail i
  then let i' := mkIn (i_left i) (i_eof i) true (i_exc i) in if i_exc i then RThrow i' else ROk i' EmptyString
  else
    let (t, r) := token (skip_blanks (i_left i)) in
    match t with
    | [] => let i' := mkIn [] true true (i_exc i) in if i_exc i then RThrow i' else ROk i' EmptyString
    | _ => ROk (mkIn r (match r with [] => true | _ => false end) false (i_exc i)) (string_of_list_ascii t)
    end.

(** compiler.cpp L22-27; the function is noexcept *)
Definition compile (i : istream) (s : cstate) : res (istream * cstate) code :=
  match extract i with
  | ROk i' value => match construct value 1 s with
                    | ROk s' c => ROk (i', s') c
                    | RThrow _ => RBad Terminate
                    | RBad b => RBad b
                    end
  | RThrow _ => RBad Terminate
  | RBad b => RBad b
  end.
