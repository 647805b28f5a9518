(** * C120: measuring and waiting. *)
From Coq Require Import ZArith Bool Lia.
From Verif Require Import Base FutModel MarkTimeModel MarkTimeSpec MarkTimeProofs.
Open Scope Z_scope.

(** A reading on Unix with 64-bit times is the time in milliseconds; on Windows, the time of day. *)
Theorem C120_readings : forall t, within t ->
  mark_unix 64 (Some (timeval t)) = ROk tt (t / 1000) /\
  mark_win (hour_of t) (minute_of t) (second_of t) (millisecond_of t) = ROk tt ((t / 1000) mod 86400000).
Proof. exact readings. Qed.
Print Assumptions C120_readings.

(** With 32-bit times every reading after 25 January 1970 overflows. *)
Theorem C120_32bit_refuted : forall t, 2147484 * 1000000 <= t -> mark_unix 32 (Some (timeval t)) = RBad UB.
Proof. exact narrow_refuted. Qed.
Print Assumptions C120_32bit_refuted.

(** What is measured between two times is right up to a millisecond, on Windows for less than a
    day... *)
Theorem C120_measure_partial : forall t1 t2, 0 <= t1 <= t2 ->
  measures (elapsed (t1 / 1000) (t2 / 1000)) (t2 - t1) /\
  (t2 - t1 < day - 1000 -> measures (elapsed ((t1 / 1000) mod 86400000) ((t2 / 1000) mod 86400000)) (t2 - t1)).
Proof. exact measure_partial. Qed.
Print Assumptions C120_measure_partial.

(** ... and is not for more than a day on Windows, nor on Unix if the clock is set back. *)
Theorem C120_measure_refuted : forall t1 t2,
  (t1 + day + 1000 <= t2 -> ~ measures (elapsed ((t1 / 1000) mod 86400000) ((t2 / 1000) mod 86400000)) (t2 - t1)) /\
  (t2 <= t1 - 1000 -> elapsed (t1 / 1000) (t2 / 1000) = 86400000 + (t2 / 1000 - t1 / 1000) /\ ~ measures (elapsed (t1 / 1000) (t2 / 1000)) (t2 - t1)).
Proof. exact measure_refuted. Qed.
Print Assumptions C120_measure_refuted.

(** waitTime(d) waits for [d] milliseconds, and the time measured around it is at least [d]: on Unix for less
    than 2^32 microseconds, on Windows for less than 2^32 - 1 milliseconds (and for a day if it is measured). *)
Theorem C120_wait_partial : forall d t1 t2, 0 <= d -> 0 <= t1 ->
  (d * 1000 < 2 ^ 32 -> exists us, wait_unix d = ROk tt us /\ us = 1000 * d /\
     (t1 + us <= t2 -> d <= elapsed (t1 / 1000) (t2 / 1000))) /\
  (d < 2 ^ 32 - 1 -> wait_win d = ROk tt d /\
     (t1 + 1000 * d <= t2 < t1 + day - 1000 -> d <= elapsed ((t1 / 1000) mod 86400000) ((t2 / 1000) mod 86400000))).
Proof. exact wait_partial. Qed.
Print Assumptions C120_wait_partial.

(** Longer waits are cut, on Unix from 72 minutes on; up to 292 million years this is not even undefined. *)
Theorem C120_wait_refuted : forall d,
  (2 ^ 32 <= d * 1000 < 2 ^ 63 -> exists us, wait_unix d = ROk tt us /\ us < 2 ^ 32 /\ us < 1000 * d) /\
  (2 ^ 32 <= d < 2 ^ 63 -> exists ms, wait_win d = ROk tt ms /\ ms < 2 ^ 32 /\ ms < d).
Proof. exact wait_refuted. Qed.
Print Assumptions C120_wait_refuted.

(** 17 November 2026, 19:35:12.123456, and half a second before midnight. *)
Example C120_witness :
  let t := 1794944112123456 in let m := 1794959999500000 in
  within t /\ mark_unix 64 (Some (timeval t)) = ROk tt 1794944112123 /\
  mark_win (hour_of t) (minute_of t) (second_of t) (millisecond_of t) = ROk tt (((19 * 60 + 35) * 60 + 12) * 1000 + 123) /\
  mark_unix 32 (Some (timeval t)) = RBad UB /\
  elapsed ((m / 1000) mod 86400000) (((m + 700000) / 1000) mod 86400000) = 700 /\
  wait_unix 4294967 = ROk tt 4294967000 /\ wait_unix 4294968 = ROk tt 704.
Proof. cbv zeta. split; [unfold within; lia|]. repeat split; vm_compute; reflexivity. Qed.
