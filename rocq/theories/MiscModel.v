(** * Models of Singleton (src/include/falcon/singleton.h) and distribute
    (src/include/falcon/engine/distribute.h). *)

From Coq Require Import List Arith Bool.
From Verif Require Import Base.
Import ListNotations.

(** ** Singleton *)

Section Singleton.
(** Types are numbered; [V] are the values objects of those types may have and [init t] is the
    value of a default-constructed T. *)
Variable V : Type.
Variable init : nat -> V.

(** Objects of static storage created so far: the type each belongs to and its value. *)
Record sstate : Type := mkS { insts : list (nat * V); objects : list (nat * nat) }.
(** [objects]: the Singleton objects of the program, with their types. *)

Fixpoint inst_of (t : nat) (k : nat) (l : list (nat * V)) : option nat :=
  match l with [] => None | (u, _) :: l' => if t =? u then Some k else inst_of t (S k) l' end.

Fixpoint type_of (x : nat) (l : list (nat * nat)) : option nat :=
  match l with [] => None | (y, t) :: l' => if x =? y then Some t else type_of x l' end.

(** singleton.h L31-34: the function-local static of Singleton<T>::get, one for each T, is
    created by the first call (and by one thread only, which the language guarantees).  The
    result is the address of the instance. *)
Definition sget (t : nat) (s : sstate) : sstate * nat :=
  match inst_of t 0 (insts s) with
  | Some k => (s, k)
  | None => (mkS (insts s ++ [(t, init t)]) (objects s), length (insts s))
  end.

Inductive sop : Type :=
| SNew (x t : nat)            (** Singleton<T> x; L58 *)
| SAddr (x : nat)             (** x.get(), x.operator->(), &*x; L31, L36-37 *)
| SRead (x : nat)             (** *x, x->...; L36-37 *)
| SWrite (x : nat) (v : V)    (** *x.mtbl = v, x.mtbl->...; L49-55 *).

Inductive sout : Type := OAddr (k : nat) | OVal (v : V).

(** An access to an object that does not exist, or a second creation, does nothing. *)
Definition sstep (op : sop) (s : sstate) : sstate * option sout :=
  match op with
  | SNew x t => match type_of x (objects s) with
                | Some _ => (s, None)
                | None => (mkS (insts s) ((x, t) :: objects s), None)
                end
  | SAddr x => match type_of x (objects s) with
               | None => (s, None)
               | Some t => let (s', k) := sget t s in (s', Some (OAddr k))
               end
  | SRead x => match type_of x (objects s) with
               | None => (s, None)
               | Some t => let (s', k) := sget t s in
                           (s', match nth_error (insts s') k with Some (_, v) => Some (OVal v) | None => None end)
               end
  | SWrite x v => match type_of x (objects s) with
                  | None => (s, None)
                  | Some t => let (s', k) := sget t s in
                              (mkS (upd k (fun p => (fst p, v)) (insts s')) (objects s'), None)
                  end
  end.

Fixpoint sruns (ops : list sop) (s : sstate) : sstate * list sout :=
  match ops with
  | [] => (s, [])
  | op :: ops' => let (s', r) := sstep op s in
                  let (s'', l) := sruns ops' s' in
                  (s'', match r with Some o => o :: l | None => l end)
  end.

Definition s0 : sstate := mkS [] [].
End Singleton.

(** ** distribute *)

Section Distribute.
(** The values of the sequence; assigning one to a target always works. *)
Variable A : Type.

(** A position in a sequence: dereferencing or advancing the end position is undefined. *)
Definition at_pos (l : list A) (p : nat) : option A := nth_error l p.
Definition next (l : list A) (p : nat) : option nat := if p <? length l then Some (S p) else None.

(** The targets are variables, possibly the same one several times. *)
Definition vars : Type := nat -> option A.
Definition assign (x : nat) (v : A) (r : vars) : vars := fun y => if y =? x then Some v else r y.

(** distribute.h L21-25 and L42-48.  [None]: undefined behaviour.  The position returned is that
    of the iterator of the caller if it passed a variable.  There is no overload without a
    target. *)
Fixpoint distribute (l : list A) (p : nat) (targets : list nat) (r : vars) : option (nat * vars) :=
  match targets with
  | [] => None
  | [x] => match at_pos l p with Some v => Some (p, assign x v r) | None => None end
  | x :: targets' =>
      match at_pos l p with
      | None => None
      | Some v => match next l p with
                  | None => None
                  | Some p' => distribute l p' targets' (assign x v r)
                  end
      end
  end.
End Distribute.
