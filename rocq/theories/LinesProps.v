(** * C119: log lines written by several threads. *)
From Coq Require Import ZArith String Ascii Bool List Arith.
From Verif Require Import LogModel StreamModel LogStreamModel LogStreamSpec LinesModel LinesSpec LinesProofs.
Import ListNotations.
Open Scope string_scope.
Open Scope list_scope.

(** Whatever threads call onMessage, directing listeners to streams meanwhile: a stream that is
    written through one listener only contains the complete lines of the messages written on it, in order, and
    while a line is being written, a beginning of that line after them. *)
Theorem C119_whole_partial : forall l k x progs w tr, mreaches x progs w tr -> tm_ok x -> times_ok progs -> only_through l k progs ->
  (~ writing w k -> fst (ms_str w k) = lines (written_on k tr)) /\
  (forall t th l' now y m rest, nth_error (ms_threads w) t = Some th -> m_pc th = MPut l' (Some k) now y m rest ->
     exists a b, log_line y m = (a ++ b)%string /\ fst (ms_str w k) = (lines (written_on k tr) ++ a)%string).
Proof. exact whole_lines. Qed.
Print Assumptions C119_whole_partial.

(** With two listeners on one stream the insertions of two lines can come in any order... *)
Theorem C119_merge_refuted : forall x t1 t2 m1 m2 z, merge (line_ins t1 m1) (line_ins t2 m2) z ->
  exists w tr, mreaches x (two_writers t1 t2 m1 m2) w tr /\ fst (ms_str w 0) = fst (emit z os0) /\
    In (t1, m1) (written_on 0 tr) /\ In (t2, m2) (written_on 0 tr) /\ ~ writing w 0.
Proof. exact any_merge. Qed.
Print Assumptions C119_merge_refuted.

(** ... so that, whatever the messages, the stream may not even begin with the line of a message. *)
Theorem C119_whole_refuted : forall x t1 t2 m1 m2, tm_ok t1 -> tm_ok t2 ->
  exists w tr, mreaches x (two_writers t1 t2 m1 m2) w tr /\ ~ writing w 0 /\ In (t1, m1) (written_on 0 tr) /\ In (t2, m2) (written_on 0 tr) /\
    forall y m rest, tm_ok y -> fst (ms_str w 0) <> (log_line y m ++ rest)%string.
Proof. exact mixed. Qed.
Print Assumptions C119_whole_refuted.

(** If one thread makes all the calls of onMessage, every line shows the time of its call... *)
Theorem C119_time_partial : forall t0 x progs w tr, mreaches x progs w tr -> one_caller t0 progs ->
  forall t l s now y m, In (t, Wrote l s now y m) tr -> y = now.
Proof. exact own_time. Qed.
Print Assumptions C119_time_partial.

(** ... otherwise a line can show the time of the call of another thread, even on a listener of its own. *)
Theorem C119_time_refuted : forall x t1 t2 m1 m2,
  exists w tr, mreaches x (two_writers t1 t2 m1 m2) w tr /\ In (0, Wrote 0 (Some 0) t1 t2 m1) tr.
Proof. exact wrong_time. Qed.
Print Assumptions C119_time_refuted.

(** Two threads write through one listener; the second is half way in its line. *)
Definition now1 : tm := mkTm 126 10 17 19 5 9.
Definition now2 : tm := mkTm 126 10 17 20 15 39.
Definition hello : msg := mkMsg "/src/a.cpp" 12 0 "" "hello".
Definition world : msg := mkMsg "b.cpp" 7 4 "net" "world".
Definition prog1 : list (list mcall) := [[Direct 3 8; OnMsg 3 now1 hello]; [OnMsg 3 now2 world]].

Example C119_witness :
  tm_ok now1 /\ times_ok prog1 /\ only_through 3 8 prog1 /\
  (* thread 1 cannot begin its line while thread 0 is writing *)
  mrun (repeat 0 20 ++ repeat 1 4) (minit now1 prog1) = None /\
  exists w tr, mrun (repeat 0 38 ++ repeat 1 10) (minit now1 prog1) = Some (w, tr) /\
    written_on 8 tr = [(now1, hello)] /\ writing w 8 /\ fst (ms_str w 8) = (log_line now1 hello ++ "2026-11-")%string.
Proof.
  assert (K : forall n, n = now1 \/ n = now2 -> tm_ok n) by (intros n [-> | ->]; vm_compute; intuition discriminate).
  split; [apply K; auto|]. split.
  { intros p l now m I J. apply K. cbn in I. destruct I as [<-|[<-|[]]]; cbn in J;
      repeat match goal with H : _ \/ _ |- _ => destruct H as [H|H] | H : False |- _ => destruct H | H : _ = OnMsg _ _ _ |- _ => try discriminate H; injection H as <- <- <- end; auto. }
  split.
  { intros p l' I J. cbn in I. destruct I as [<-|[<-|[]]]; cbn in J;
      repeat match goal with H : _ \/ _ |- _ => destruct H as [H|H] | H : False |- _ => destruct H end; congruence. }
  split; [vm_compute; reflexivity|].
  destruct (mrun (repeat 0 38 ++ repeat 1 10) (minit now1 prog1)) as [[w tr]|] eqn:E; [|vm_compute in E; discriminate].
  exists w, tr. vm_compute in E. injection E as <- <-. split; [reflexivity|]. split; [reflexivity|]. split; [|vm_compute; reflexivity].
  exists 1. cbn. repeat eexists; reflexivity.
Qed.

(** One thread calls onMessage while another directs the listener elsewhere. *)
Example C119_time_witness :
  let progs := [[Direct 3 8]; [OnMsg 3 now1 hello; OnMsg 3 now2 world]] in
  one_caller 1 progs /\
  exists w tr, mrun (repeat 1 37 ++ [0] ++ repeat 1 40) (minit now1 progs) = Some (w, tr) /\
    In (1, Wrote 3 None now1 now1 hello) tr /\ In (1, Wrote 3 (Some 8) now2 now2 world) tr.
Proof.
  cbv zeta. split.
  - intros [|[|i]] p l now m E I; auto; cbn in E; [injection E as <-; cbn in I; destruct I as [I|[]]; discriminate|destruct i; discriminate].
  - eexists _, _. split; [vm_compute; reflexivity|]. cbn. split; auto 100.
Qed.
