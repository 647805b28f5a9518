(** * Specification of fair schedules. *)
From Coq Require Import List Arith NArith Bool.
From Verif Require Import FutexModel.
Import ListNotations.

(** An infinite schedule: which thread has its turn, and whether its
    compare-exchange, if it makes one, fails spuriously. *)
Definition schedule : Type := nat -> nat * bool.

(** Thread [t] has its turn again and again, and again and again two of its turns
    in a row are free of spurious failures. *)
Definition fair_to (t : nat) (sg : schedule) : Prop :=
  forall N, exists i j, N <= i < j /\ sg i = (t, false) /\ sg j = (t, false) /\ forall m, i < m < j -> fst (sg m) <> t.

Definition fair (threads : nat) (sg : schedule) : Prop := forall t, t < threads -> fair_to t sg.

(** The state after [n] turns; the turn of a thread with nothing to do is void. *)
Fixpoint after {D L : Type} (spin : N) (sg : schedule) (n : nat) (s : fstate D L) : fstate D L :=
  match n with
  | O => s
  | S n' =>
      let s' := after spin sg n' s in
      match fstep spin (fst (sg n')) (snd (sg n')) s' with
      | Some (s'', _) => s''
      | None => s'
      end
  end.
