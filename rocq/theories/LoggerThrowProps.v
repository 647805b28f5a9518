(** * Log statements that throw: property C102, and exceptions in blocks (C48).

    C102 in full: an exception thrown by an operand reaches the handler around the statement,
    the statement sends nothing, and the other statements send what they would send without
    it.  The middle part is false of the code. *)

From Coq Require Import ZArith String Bool List Arith.
From Verif Require Import Base LogModel StreamModel LoggerModel LoggerSpec LoggerProofs LoggerFilter LoggerThrowSpec LoggerThrow.
Import ListNotations.
Open Scope string_scope.
Open Scope list_scope.

(** Any number of threads, any schedule, any statements throwing: all that can be seen (tests,
    texts, messages and their order among the threads) can be seen of the programs in which
    each throwing statement ends before the operand that throws, and nothing throws.  Missing:
    these statements should not send a message. *)
Theorem C102_as_if_cut_partial : forall min ps w tr, lreaches min (map (map embed_risky) ps) w tr ->
  exists w', lreaches min (map (fun p => map embed (map cut_short p)) ps) w' tr /\ forall i, lfinished w i -> lfinished w' i.
Proof. exact as_if_cut. Qed.
Print Assumptions C102_as_if_cut_partial.

(** A thread among others that do anything: its messages are those of its statements, the
    throwing ones cut short, in order. *)
Theorem C102_messages_partial : forall min progs i p w tr, lreaches min progs w tr -> nth_error progs i = Some (map embed_risky p) ->
  (exists cur, expect "" (map cut_short p) (tests (of_thread i tr)) = commits (of_thread i tr) ++ cur /\ List.length cur <= 1) /\
  (lfinished w i -> commits (of_thread i tr) = expect "" (map cut_short p) (tests (of_thread i tr))).
Proof. exact risky_messages. Qed.
Print Assumptions C102_messages_partial.

(** Every enabled statement that throws sends the text inserted before the exception, as if
    it were complete; the statements around it are not disturbed. *)
Theorem C102_partial_text_sent_refuted : forall min p1 f l v c texts late lost p2 w tr,
  lreaches min [map embed_risky (p1 ++ Throwing f l v c texts late lost :: p2)] w tr -> lfinished w 0 ->
  let q := map cut_short p1 in
  accepts (of_thread 0 tr) =
    messages min TRACE "" q ++
    (if (v <=? min)%Z && (v <=? level_of TRACE q)%Z then [mkMsg f l v (override c (category_of min TRACE "" q)) (joined texts)] else []) ++
    messages min (level_of TRACE q) (category_of min TRACE "" q) (map cut_short p2).
Proof.
  intros min p1 f l v c texts late lost p2 w tr R F. cbn zeta. rewrite (risky_alone _ _ _ _ R F), map_app. cbn [map cut_short]. apply messages_app.
Qed.
Print Assumptions C102_partial_text_sent_refuted.

Definition demo_risky : list risky :=
  [Throwing "a.cpp" 1 WARN (Some "net") ["size="] true [" bytes"]; Safe (SetLevel INFO);
   Throwing "a.cpp" 2 TRACE None ["x"] false ["y"]; Safe (LogLine "a.cpp" 3 INFO None ["end"])].

Ltac lrun sched := eexists; eexists; split; [exists sched; vm_compute; reflexivity|].

Example C102_witness : exists w tr, lreaches TRACE [map embed_risky demo_risky; map embed [LogLine "b.cpp" 1 WARN None ["u"]]] w tr /\
  lfinished w 0 /\ lfinished w 1 /\
  commits (of_thread 0 tr) = [mkMsg "a.cpp" 1 WARN "net" "size="; mkMsg "a.cpp" 3 INFO "" "end"] /\
  commits (of_thread 1 tr) = [mkMsg "b.cpp" 1 WARN "" "u"].
Proof. lrun ([0; 1; 0; 0; 1; 0] ++ repeat 0 19 ++ repeat 1 2). repeat split; eexists; reflexivity. Qed.

(** A block left by an exception: its text goes to the next message. *)
Theorem C48_exception_refuted : forall min f l v f2 l2 v2 (t1 t2 : string) w tr, enabled min TRACE v = true -> enabled min TRACE v2 = true ->
  lreaches min [[STry [SBlock f l v [SPut t1; SThrow] false]; SLog f2 l2 v2 None [Op [] [SPut t2]]]] w tr -> lfinished w 0 ->
  commits (of_thread 0 tr) = [mkMsg f2 l2 v2 "" (t1 ++ t2)].
Proof. exact thrown_block. Qed.
Print Assumptions C48_exception_refuted.

Example C48_exception_witness : exists w tr,
  lreaches TRACE [[STry [SBlock "a.cpp" 1 WARN [SPut "half"; SThrow] false]; SLog "a.cpp" 5 INFO None [Op [] [SPut "next"]]]] w tr /\
  lfinished w 0 /\ commits (of_thread 0 tr) = [mkMsg "a.cpp" 5 INFO "" "halfnext"].
Proof. lrun (repeat 0 11). split; [eexists; reflexivity|reflexivity]. Qed.
