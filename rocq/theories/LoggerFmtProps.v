(** * C105: formatting in log statements. *)

From Coq Require Import ZArith NArith String Bool List.
From Verif Require Import Base LogModel LogSpec StreamModel LoggerModel LoggerSpec LoggerFmtSpec LoggerProofs LoggerFmt.
Import ListNotations.
Open Scope string_scope.
Open Scope list_scope.

(** Any number of threads, any schedule.  A thread whose statements leave the default format
    as they found it: every message has the text of its own operands in default format.
    Missing: other statements, refuted below. *)
Theorem C105_own_text_partial : forall min progs i p w tr, lreaches min progs w tr -> nth_error progs i = Some (map fembed p) -> Forall tidy p ->
  (exists cur, own_messages "" p (tests (of_thread i tr)) = commits (of_thread i tr) ++ cur /\ List.length cur <= 1) /\
  (forall q, between w i (map fembed q) -> commits (of_thread i tr) = own_messages "" p (tests (of_thread i tr))).
Proof. exact tidy_messages. Qed.
Print Assumptions C105_own_text_partial.

(** Statements without manipulators do. *)
Theorem C105_no_manipulators : forall s, Forall (fun i => is_manip i = false) (operands s) -> tidy s.
Proof. exact no_manip_tidy. Qed.
Print Assumptions C105_no_manipulators.

(** An insertion that fails costs the rest of its own message, and nothing of the others. *)
Theorem C105_failure_contained : forall min progs i p w tr, lreaches min progs w tr -> nth_error progs i = Some (map fembed p) ->
  Forall (fun s => Forall (fun o => is_manip o = false) (operands s)) p ->
  (exists cur, own_messages "" (map cut_failed p) (tests (of_thread i tr)) = commits (of_thread i tr) ++ cur /\ List.length cur <= 1) /\
  (forall q, between w i (map fembed q) -> commits (of_thread i tr) = own_messages "" (map cut_failed p) (tests (of_thread i tr))).
Proof. exact failed_messages. Qed.
Print Assumptions C105_failure_contained.

(** Whatever the statements: the format a thread starts with is the default one, and passes
    from each statement it executes to the next; the other threads do not matter. *)
Theorem C105_format_carried : forall min progs i p w tr, lreaches min progs w tr -> nth_error progs i = Some (map fembed p) ->
  (exists cur, fexpect fmt0 "" p (tests (of_thread i tr)) = commits (of_thread i tr) ++ cur /\ List.length cur <= 1) /\
  (forall q, between w i (map fembed q) -> commits (of_thread i tr) = fexpect fmt0 "" p (tests (of_thread i tr))).
Proof. exact fthread_messages. Qed.
Print Assumptions C105_format_carried.

(** So LOG << std::hex << y; LOG << z; sends both in hexadecimal. *)
Theorem C105_format_leaks_refuted : forall min f l v y f2 l2 v2 z w tr, enabled min TRACE v = true -> enabled min TRACE v2 = true ->
  (0 <= y < 2 ^ 31)%Z -> (0 <= z < 2 ^ 31)%Z ->
  lreaches min [map fembed [FmtLine f l v None [PManip (MBase BHex); PInt y]; FmtLine f2 l2 v2 None [PInt z]]] w tr -> lfinished w 0 ->
  map m_text (commits (of_thread 0 tr)) = [radix false 16 (Z.to_N y); radix false 16 (Z.to_N z)].
Proof. exact hex_leaks. Qed.
Print Assumptions C105_format_leaks_refuted.

Ltac lrun s := eexists; eexists; split; [exists s; vm_compute; reflexivity|].

Example C105_witness : exists w tr,
  lreaches TRACE [map fembed [FmtLine "a.cpp" 1 INFO None [PText "x="; PManip (MSetw 5); PInt 42]; FmtLine "a.cpp" 2 INFO None [PText "y"; PFail; PText "z"];
    FmtLine "a.cpp" 3 INFO None [PManip (MBase BHex); PInt 255; PManip (MBase BDec); PInt 7]; FmtBlock "a.cpp" 4 INFO [PInt (-1)]]] w tr /\ lfinished w 0 /\
  map m_text (commits (of_thread 0 tr)) = ["x=   42"; "y"; "ff7"; "-1"].
Proof. lrun (repeat 0 30). split; [eexists; reflexivity|reflexivity]. Qed.

Example C105_witness_tidy : Forall tidy [FmtLine "a.cpp" 1 INFO None [PText "x="; PManip (MSetw 5); PInt 42]; FmtLine "a.cpp" 2 INFO None [PText "y"; PFail; PText "z"];
    FmtLine "a.cpp" 3 INFO None [PManip (MBase BHex); PInt 255; PManip (MBase BDec); PInt 7]; FmtBlock "a.cpp" 4 INFO [PInt (-1)]].
Proof. repeat constructor. Qed.

Example C105_witness_leak : exists w tr,
  lreaches TRACE [map fembed [FmtLine "a.cpp" 1 INFO None [PManip (MBase BHex); PInt 255]; FmtLine "a.cpp" 2 INFO None [PInt 16]]; map fembed [FmtLine "b.cpp" 1 INFO None [PInt 16]]] w tr /\
  lfinished w 0 /\ lfinished w 1 /\ map m_text (commits (of_thread 0 tr)) = ["ff"; "10"] /\ map m_text (commits (of_thread 1 tr)) = ["16"].
Proof. lrun ([0; 0; 0; 0] ++ repeat 1 4 ++ repeat 0 6). repeat split; eexists; reflexivity. Qed.
