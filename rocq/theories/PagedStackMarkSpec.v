(** * Specification of iterators kept as marks. *)
From Coq Require Import List Arith Bool.
From Verif Require Import PagedStackModel PagedStackSpec.
Import ListNotations.

(** After each of the calls [ops], made one after the other on the ideal stack
    [l], at least [n] elements are left: the [n] lowest are never removed. *)
Fixpoint never_below {T : Type} (n : nat) (ops : list (op T)) (l : list T) : bool :=
  match ops with
  | [] => true
  | o :: ops' =>
      match spec_step o l with
      | None => false
      | Some (l', _) => (n <=? length l') && never_below n ops' l'
      end
  end.

(** Element [x], which has [j] elements below it, lives at offset [off] of the page
    whose node is [id]: this is what a reference to the element points to. *)
Definition lives_at {T : Type} (s : stack T) (j id off : nat) (x : T) : Prop :=
  exists i p, nth_error (ids s) i = Some id /\ nth_error (pages s) i = Some p /\
    nth_error p off = Some x /\ length (concat (firstn i (pages s))) + off = j.
