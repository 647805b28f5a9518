(** * C106: the reports of the test framework and the state of std::cout. *)

From Coq Require Import ZArith NArith String Ascii Bool List Arith.
From Verif Require Import Base TextModel StreamModel FutModel FutSpec FutFmtModel FutFmtSpec FutFmt.
Import ListNotations.
Open Scope string_scope.
Open Scope list_scope.

(** If every test leaves std::cout in plain decimal, and, unless output is captured, without an
    error, then the framework reports what it should, whatever else the tests did with std::cout.
    Missing: tests that leave it otherwise, refuted below. *)
Theorem C106_reports_partial : forall capture v l count o, plain_format o -> o_bad o = false -> Forall (leaves_plain capture) l ->
  map framework_part (cout_run capture v count l o) = expected_reports v count l.
Proof. exact plain_reports. Qed.
Print Assumptions C106_reports_partial.

(** The expected reports are those of the model of C67-C93. *)
Theorem C106_same_model : forall u count t,
  (on_console u -> exists K, w_console (u_world (beginTest count t u)) = w_console (u_world u) ++ K
     /\ lines_text (map ch_text K) = reported (begin_ins (u_verbosity u) count (caseof u t))) /\
  ((u_capture u = false -> on_console u) -> let u' := endTest Console Console count t u in
   exists K, w_console (u_world u') = w_console (u_world u) ++ K
     /\ lines_text (map ch_text K) = reported (end_ins (u_verbosity u) count (caseof u' t))).
Proof. intros u count t. split; [apply begin_console|apply end_console]. Qed.
Print Assumptions C106_same_model.

(** After a test that leaves std::hex, the number of the case and of the line of a failed check are
    shown in hexadecimal, without any prefix, ... *)
Theorem C106_hex_refuted : forall v n c o, 1 <= v -> t_status c = FAIL -> t_outStr c = "" -> t_errStr c = "" ->
  o_bad o = false -> fm_base (o_fmt o) = BHex -> fm_showbase (o_fmt o) = false -> fm_width (o_fmt o) = 0 ->
  (Z.of_nat n < 2 ^ 31)%Z -> (0 <= t_line c < 2 ^ 31)%Z ->
  fst (emit (end_ins v n c) o) = (rule ++ "Failure in case " ++ radix (fm_upper (o_fmt o)) 16 (N.of_nat n) ++ ": " ++ t_name c ++ " at " ++ t_file c
     ++ ": " ++ radix (fm_upper (o_fmt o)) 16 (Z.to_N (t_line c)) ++ nl ++ t_desc c ++ nl)%string.
Proof. exact hex_failure. Qed.
Print Assumptions C106_hex_refuted.

(** ... and an exception in case 16 is reported as one in case 10. *)
Theorem C106_wrong_case_refuted : forall v c o, 1 <= v -> t_status c = ERROR -> t_outStr c = "" -> t_errStr c = "" ->
  o_bad o = false -> fm_base (o_fmt o) = BHex -> fm_showbase (o_fmt o) = false -> fm_width (o_fmt o) = 0 ->
  fst (emit (end_ins v 16 c) o) = reported (end_ins v 10 c).
Proof. exact hex_16_10. Qed.
Print Assumptions C106_wrong_case_refuted.

(** After a test that leaves std::cout failed nothing at all is reported, if output is not captured. *)
Theorem C106_failed_refuted : forall v l count o, o_bad o = true -> Forall (fun r => r = ("", "", "")) (cout_run false v count l o).
Proof. exact failed_run. Qed.
Print Assumptions C106_failed_refuted.

Definition fmt_case (n : string) (s : stat) (d f : string) (l : Z) : tcase := mkT "Fmt" n ("Fmt::" ++ n) s "" "" "" "" d l f 0 0 1.

(** Two tests, the first of which leaves an error; the second prints in hexadecimal and restores. *)
Definition careful : list test :=
  [(fmt_case "one" SUCCESS "" "" 0, [PText "x"; PFail]);
   (fmt_case "two" FAIL "a < b" "fmt.cpp" 26, [PManip (MBase BHex); PManip (MSetw 5); PInt 255; PManip (MBase BDec)])].

Example C106_witness : Forall (leaves_plain true) careful /\
  map framework_part (cout_run true 1 0 careful os0) =
  [("", ""); ("", (rule ++ "Failure in case 2: Fmt::two at fmt.cpp: 26" ++ nl ++ "a < b" ++ nl)%string)] /\
  map framework_part (cout_run false 1 0 careful os0) = [("", ""); ("", "")].
Proof.
  split; [|split; vm_compute; reflexivity].
  repeat (apply Forall_cons; [intros [f b] (P1 & P2 & P3) B; cbn in *; subst b; split; [repeat split; assumption || reflexivity|discriminate]|]).
  apply Forall_nil.
Qed.

Example C106_witness_hex : fst (emit (end_ins 1 2 (fst (nth 1 careful (fmt_case "" NONE "" "" 0, [])))) (mkOS (apply_manip (MBase BHex) fmt0) false)) =
  (rule ++ "Failure in case 2: Fmt::two at fmt.cpp: 1a" ++ nl ++ "a < b" ++ nl)%string.
Proof. vm_compute. reflexivity. Qed.
