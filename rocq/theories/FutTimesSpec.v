(** * The times that a test program reports. *)

From Coq Require Import ZArith String Bool List Arith.
From Verif Require Import FutModel FutSpec.
Import ListNotations.
Local Open Scope Z_scope.

(** After a run: the time of a test, of each component, in order, and of the run. *)
Definition time_of_test (u : unit_test) (t : nat) : Z := elapsed (t_begin (caseof u t)) (t_end (caseof u t)).
Definition comp_times (u : unit_test) : list (string * Z) := map (fun c => (c_name c, elapsed (c_begin c) (c_end c))) (u_comps u).
Definition total_time (u : unit_test) : Z := elapsed (u_begin u) (u_end u).

Fixpoint sum (l : list Z) : Z := match l with [] => 0 | x :: l' => x + sum l' end.

(** The clock is read a number of times in a run; these are the first and the last of them. *)
Definition first_reading (u : unit_test) : nat := w_tick (u_world u).
Definition last_reading (u' : unit_test) : nat := pred (w_tick (u_world u')).

(** [x]: the time of each reading in milliseconds.  The clock does not go back; it gives this time, or
    the time of day if the run takes less than a day. *)
Definition keeps_time (E : env) (x : nat -> Z) (u u' : unit_test) : Prop :=
  (forall i j, (i <= j)%nat -> x i <= x j)
  /\ ((forall k, clock E k = x k)
      \/ (forall k, clock E k = x k mod 86400000) /\ x (last_reading u') - x (first_reading u) < 86400000).
