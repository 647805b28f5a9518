(** * Futex and RFutex: properties C21 to C27.

    [freaches spin d0 progs s tr]: some schedule of the threads, that have the
    sections and local data [progs] and share the data [d0] and a new Futex<spin>,
    leads to the state [s] and shows the events [tr]. *)

From Coq Require Import List Arith NArith Bool Lia.
From Verif Require Import Base FutexModel FutexSpec FutexProofs FutexMore.
Import ListNotations.

(** Two threads with one counter section each; thread 0 is half-way. *)
Example C21_witness : exists s tr, freaches 1 0 [([increment], 0); ([increment], 0)] s tr /\
  holds s 0 /\ trying s 1 /\ acquisitions tr = [(0, increment)].
Proof.
  eexists. eexists. split.
  - exists [(0, false); (1, false); (1, true); (0, false); (1, false); (1, false); (1, false); (0, false)]. vm_compute. reflexivity.
  - split; [eexists; eexists; split; reflexivity|]. split; [eexists; eexists; eexists; split; reflexivity|reflexivity].
Qed.

(** ** C21 *)
Theorem C21_mutual_exclusion : forall (D L : Type) spin d0 progs (s : fstate D L) tr t1 t2,
  freaches spin d0 progs s tr -> holds s t1 -> holds s t2 -> t1 = t2.
Proof. exact @holds_unique. Qed.
Print Assumptions C21_mutual_exclusion.

(** No attempt succeeds, whatever thread makes it, while some thread holds the futex. *)
Theorem C21_no_acquisition_while_held : forall (D L : Type) spin d0 progs (s : fstate D L) tr t t' sp s' e,
  freaches spin d0 progs s tr -> holds s t' -> fstep spin t sp s = Some (s', e) ->
  forall b, e <> Acquired b.
Proof. exact @no_acquire_when_held. Qed.
Print Assumptions C21_no_acquisition_while_held.

(** ** C22.  Between sections the memory is that of the serial execution of the
    sections in acquisition order; during one, its holder has executed [pre] of it. *)
Theorem C22_serialised : forall (D L : Type) spin d0 progs (s : fstate D L) tr,
  freaches spin d0 progs s tr ->
  ((forall t, ~ holds s t) -> memory s = serial (acquisitions tr) (d0, map snd progs)) /\
  (forall t th rest, nth_error (threads s) t = Some th -> t_pc th = FutexModel.In rest ->
     exists done pre, acquisitions tr = done ++ [(t, pre ++ rest)] /\
       memory s = run_section (t, pre) (serial done (d0, map snd progs))).
Proof. exact @serialised. Qed.
Print Assumptions C22_serialised.

(** Each thread's sections are executed once each, in its program order. *)
Theorem C22_program_order : forall (D L : Type) spin d0 progs (s : fstate D L) tr t todo l,
  freaches spin d0 progs s tr -> nth_error progs t = Some (todo, l) ->
  exists th, nth_error (threads s) t = Some th /\ todo = acquired_by t tr ++ t_todo th.
Proof. exact @sections_in_order. Qed.
Print Assumptions C22_program_order.

(** No increment is lost. *)
Theorem C22_counter : forall spin d0 progs (s : fstate nat nat) tr,
  freaches spin d0 progs s tr -> Forall (fun p => Forall (fun b => b = increment) (fst p)) progs ->
  all_done s -> data s = d0 + list_sum (map (fun p => length (fst p)) progs).
Proof. exact @counter_exact. Qed.
Print Assumptions C22_counter.

Example C22_witness : exists s tr, freaches 0 5 [([increment], 0); ([increment; increment], 0)] s tr /\ all_done s /\ data s = 8.
Proof.
  eexists. eexists. split.
  - exists [(0, false); (1, false); (0, false); (1, false); (0, false); (1, false); (0, false); (0, false);
            (1, true); (1, false); (1, false); (1, false); (1, false); (1, false);
            (1, false); (1, false); (1, false); (1, false); (1, false)]. vm_compute. reflexivity.
  - split; [|reflexivity]. intros th [<-|[<-|[]]]; split; reflexivity.
Qed.

(** ** C23 *)
Theorem C23_acquires_when_free : forall (D L : Type) spin d0 progs (s : fstate D L) tr t,
  freaches spin d0 progs s tr -> (forall t', ~ holds s t') -> trying s t ->
  exists s' b, fstep spin t false s = Some (s', Acquired b) /\ holds s' t.
Proof. exact @acquire_when_free. Qed.
Print Assumptions C23_acquires_when_free.

Theorem C23_isLocked : forall (D L : Type) spin d0 progs (s : fstate D L) tr,
  freaches spin d0 progs s tr -> (isLocked s = true <-> exists t, holds s t).
Proof. exact @isLocked_iff. Qed.
Print Assumptions C23_isLocked.

(** No reachable state is stuck: the threads can all run to their ends. *)
Theorem C23_can_finish : forall (D L : Type) spin d0 progs (s : fstate D L) tr,
  freaches spin d0 progs s tr ->
  exists sched s' tr', frun spin sched s = Some (s', tr') /\ all_done s'.
Proof. exact @can_finish. Qed.
Print Assumptions C23_can_finish.

Example C23_witness : exists s tr, freaches 0 tt [([[]], tt); ([[]], tt)] s tr /\
  (forall t', ~ holds s t') /\ trying s 1 /\ isLocked s = false.
Proof.
  eexists. eexists. split.
  - exists [(0, false); (0, false); (1, false); (0, false)]. vm_compute. reflexivity.
  - split; [|split; [eexists; eexists; eexists; split; reflexivity|reflexivity]].
    intros t' (th & r & A & B). destruct t' as [|[|t']]; cbn in A; try (injection A as <-; discriminate).
    destruct t'; discriminate.
Qed.

(** ** C24.  What the code does: the [i]-th failed attempt of a call yields iff
    [i mod 2^32] is the spin count. *)
Theorem C24_yields_actual : forall (D L : Type) spin d0 progs (s : fstate D L) tr t,
  (spin < 2 ^ 32)%N -> freaches spin d0 progs s tr -> t < length progs ->
  call_yields t tr = map (code_yield spin) (attempts (length (call_yields t tr))).
Proof. exact @yields_actual. Qed.
Print Assumptions C24_yields_actual.

(** This is the documented behaviour for spin count 0, and for the first
    [2 * spin - 1] failed attempts of a call. *)
Theorem C24_first_attempts_partial : forall spin i, (0 < spin < 2 ^ 32)%N -> (1 <= i < 2 * spin)%N ->
  code_yield spin i = documented_yield spin i.
Proof. exact documented_prefix. Qed.
Print Assumptions C24_first_attempts_partial.

Theorem C24_no_spin : forall i, code_yield 0 i = documented_yield 0 i.
Proof. exact documented_zero. Qed.
Print Assumptions C24_no_spin.

(** For every other spin count the documented behaviour fails in some execution. *)
Theorem C24_documented_refuted : forall spin, (0 < spin < 2 ^ 32)%N -> exists s tr,
  freaches spin tt [([[]], tt); ([[]], tt)] s tr /\
  exists i, nth_error (call_yields 1 tr) (i - 1) = Some false /\ documented_yield spin (N.of_nat i) = true /\ 1 <= i.
Proof. exact yields_refuted. Qed.
Print Assumptions C24_documented_refuted.

(** Spin count 1: a yield on the first failure only. *)
Example C24_witness : exists s tr, freaches 1 tt [([[]], tt); ([[]], tt)] s tr /\ call_yields 1 tr = [true; false; false].
Proof.
  eexists. eexists. split.
  - exists [(0, false); (0, false); (1, false); (1, false); (1, false); (1, false); (1, false); (1, false); (1, false)].
    vm_compute. reflexivity.
  - reflexivity.
Qed.

(** ** C25 is false: whatever the schedule, no call of RFutex::lock() ever returns, with
    any number of threads below 2^32. *)
Theorem C25_lock_never_returns_refuted : forall n sched s t th,
  (N.of_nat n < 2 ^ 32)%N -> rrun sched (rinit n) = Some s ->
  nth_error (r_threads s) t = Some th -> r_returns th = 0.
Proof. exact lock_never_returns. Qed.
Print Assumptions C25_lock_never_returns_refuted.

(** In particular: alone, on a free futex, it takes it and stays inside for ever. *)
Theorem C25_alone_refuted : forall n sched s t th, (N.of_nat n < 2 ^ 32)%N -> rrun sched (rinit n) = Some s ->
  r_isLocked s = false -> nth_error (r_threads s) t = Some th -> r_pc th = ROut ->
  forall k, exists s' th', rrun (repeat (t, CLock) (2 + k)) s = Some s' /\ r_isOwner t s' = true /\ r_isLocked s' = true /\
    nth_error (r_threads s') t = Some th' /\ r_won th' = true /\ r_pc th' <> ROut.
Proof. exact lock_alone. Qed.
Print Assumptions C25_alone_refuted.

Example C25_witness : exists s, rrun [(0, CUnlock)] (rinit 2) = Some s /\ r_isLocked s = false /\
  nth_error (r_threads s) 0 = Some (mkRT 0 ROut 0 false).
Proof. eexists. split; [reflexivity|]. split; reflexivity. Qed.

(** ** C26 is false for the same reason: re-entry cannot happen, and the futex that a
    thread has taken is never released, whatever any thread does later. *)
Theorem C26_never_released_refuted : forall n sched s sched' s', (N.of_nat n < 2 ^ 32)%N ->
  rrun sched (rinit n) = Some s -> r_isLocked s = true -> rrun sched' s = Some s' ->
  r_isLocked s' = true /\ r_owner s' = r_owner s.
Proof. exact locked_for_ever. Qed.
Print Assumptions C26_never_released_refuted.

(** What holds: it is locked exactly when a thread has taken it, and never two threads have.
    Missing: return from lock(), re-entry and release. *)
Theorem C26_exclusive_partial : forall n sched s, (N.of_nat n < 2 ^ 32)%N -> rrun sched (rinit n) = Some s ->
  (r_isLocked s = true <-> exists t th, nth_error (r_threads s) t = Some th /\ r_won th = true) /\
  (forall t1 t2 th1 th2, nth_error (r_threads s) t1 = Some th1 -> nth_error (r_threads s) t2 = Some th2 ->
     r_won th1 = true -> r_won th2 = true -> t1 = t2).
Proof. exact won_unique. Qed.
Print Assumptions C26_exclusive_partial.

Example C26_witness : exists s s', rrun [(0, CLock); (0, CLock)] (rinit 2) = Some s /\ r_isLocked s = true /\
  rrun [(1, CUnlock); (0, CLock); (1, CLock); (0, CUnlock)] s = Some s'.
Proof. eexists. eexists. split; [reflexivity|]. split; reflexivity. Qed.

(** ** C27.  Exact for a thread that has called lock(); false for every thread that has
    not, on every free futex. *)
Theorem C27_isOwner_partial : forall n sched s t th, (N.of_nat n < 2 ^ 32)%N -> rrun sched (rinit n) = Some s ->
  nth_error (r_threads s) t = Some th -> r_id th <> 0%N -> (r_isOwner t s = true <-> r_won th = true).
Proof. exact isOwner_won. Qed.
Print Assumptions C27_isOwner_partial.

Theorem C27_isOwner_refuted : forall n sched s t th, (N.of_nat n < 2 ^ 32)%N -> rrun sched (rinit n) = Some s ->
  r_isLocked s = false -> nth_error (r_threads s) t = Some th -> r_pc th = ROut ->
  r_isOwner t s = true /\ r_won th = false.
Proof. exact isOwner_wrong. Qed.
Print Assumptions C27_isOwner_refuted.

Example C27_witness : exists s th, rrun [(1, CLock); (0, CLock); (1, CLock); (0, CLock)] (rinit 2) = Some s /\
  nth_error (r_threads s) 1 = Some th /\ r_id th <> 0%N /\ r_isOwner 1 s = true /\ r_isOwner 0 s = false.
Proof. eexists. eexists. split; [reflexivity|]. split; [reflexivity|]. split; [discriminate|]. split; reflexivity. Qed.
