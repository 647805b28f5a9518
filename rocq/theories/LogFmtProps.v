(** * C104: log lines and the format state of the stream. *)

From Coq Require Import ZArith NArith String Ascii Bool List.
From Verif Require Import Base LogModel TextModel StreamModel LogStreamModel LogStreamSpec LogFmt.
Import ListNotations.
Open Scope string_scope.
Open Scope list_scope.

(** On a usual stream a line is the one on a new stream.  Missing: the other formats, refuted below. *)
Theorem C104_same_line_partial : forall t m o, tm_ok t -> usual o -> fst (emit (line_ins t m) o) = log_line t m.
Proof. intros t m o T U. rewrite same_line by auto. reflexivity. Qed.
Print Assumptions C104_same_line_partial.

(** A stream that the program uses too: as long as the program does not leave it in another
    base, with showpos, left adjustment, a width above four or an error, every line on it is
    the one on a new stream, whatever was inserted before. *)
Theorem C104_shared_stream_partial : forall us o, Forall tame us -> usual o ->
  fst (emit (flat_map use_ins us) o) = fold_right (fun a b => (a ++ b)%string) "" (uses us o) /\
  Forall2 (fun u s => match u with UseLine t m => s = log_line t m | UseIns _ => True end) us (uses us o).
Proof. intros us o T U. split; [apply uses_all|apply uses_lines; auto]. Qed.
Print Assumptions C104_shared_stream_partial.

(** After std::left a line of January and one of October are the same. *)
Theorem C104_left_refuted : forall y d h mi s m o, o_bad o = false -> fm_base (o_fmt o) = BDec -> fm_showpos (o_fmt o) = false ->
  fm_adjust (o_fmt o) = ALeft -> emit (line_ins (mkTm y 0 d h mi s) m) o = emit (line_ins (mkTm y 9 d h mi s) m) o.
Proof. exact left_months. Qed.
Print Assumptions C104_left_refuted.

(** After std::hex the line number is in hexadecimal. *)
Theorem C104_hex_refuted : forall t m o, o_bad o = false -> fm_base (o_fmt o) = BHex -> fm_showbase (o_fmt o) = false -> (0 <= m_line m < 2 ^ 31)%Z ->
  exists pre, fst (emit (line_ins t m) o) = (pre ++ ":" ++ radix (fm_upper (o_fmt o)) 16 (Z.to_N (m_line m)) ++ " " ++ m_text m ++ nl)%string.
Proof. exact hex_line_number. Qed.
Print Assumptions C104_hex_refuted.

(** After std::showpos the line number has a sign, ... *)
Theorem C104_sign_refuted : forall t m o, o_bad o = false -> fm_base (o_fmt o) = BDec -> fm_showpos (o_fmt o) = true ->
  exists pre, fst (emit (line_ins t m) o) =
    (pre ++ ":" ++ (if (m_line m <? 0)%Z then "-" else "+") ++ dec (Z.abs (m_line m)) ++ " " ++ m_text m ++ nl)%string.
Proof. exact sign_line_number. Qed.
Print Assumptions C104_sign_refuted.

(** ... and the year too, with std::internal before the characters that fill a pending width. *)
Theorem C104_internal_refuted : forall t m o, tm_ok t -> o_bad o = false -> fm_base (o_fmt o) = BDec -> fm_showpos (o_fmt o) = true -> fm_adjust (o_fmt o) = AInternal ->
  exists rest, fst (emit (line_ins t m) o) = ("+" ++ fill (fm_width (o_fmt o) - 5) (fm_fill (o_fmt o)) ++ dec (tm_year t + 1900) ++ "-" ++ rest)%string.
Proof. exact internal_year. Qed.
Print Assumptions C104_internal_refuted.

(** A pending width pads the year. *)
Theorem C104_width_refuted : forall t m o, tm_ok t -> o_bad o = false -> fm_base (o_fmt o) = BDec -> fm_showpos (o_fmt o) = false ->
  fm_adjust (o_fmt o) <> ALeft -> fst (emit (line_ins t m) o) = (fill (fm_width (o_fmt o) - 4) (fm_fill (o_fmt o)) ++ log_line t m)%string.
Proof. exact wide_line. Qed.
Print Assumptions C104_width_refuted.

(** On a stream in an error state nothing is written, and the error stays. *)
Theorem C104_failed_stream : forall t m o, o_bad o = true -> emit (line_ins t m) o = ("", left_behind o).
Proof. exact failed_line. Qed.
Print Assumptions C104_failed_stream.

(** What a line leaves behind, on any stream: fill character '0', no width, the rest as found. *)
Theorem C104_state_left : forall t m o, snd (emit (line_ins t m) o) = left_behind o.
Proof. exact state_after_line. Qed.
Print Assumptions C104_state_left.

(** So a number that the program pads on the same stream is padded with zeros after a line. *)
Theorem C104_state_kept_refuted : forall t m o n z, usual o -> (0 <= z)%Z ->
  fst (emit [PManip (MSetw n); PInt z] o) = padl n (fm_fill (o_fmt o)) (dec z) /\
  fst (emit [PManip (MSetw n); PInt z] (snd (emit (line_ins t m) o))) = padl n "0" (dec z).
Proof. exact zeros_left. Qed.
Print Assumptions C104_state_kept_refuted.

Definition demo_tm : tm := mkTm 126 2 7 9 5 0.
Definition demo_msg : msg := mkMsg "src/a.cpp" 26 3%Z "net" "hello".

Example C104_witness : tm_ok demo_tm /\ usual os0 /\
  uses [UseIns (PManip (MSetw 4)); UseIns (PInt 42); UseLine demo_tm demo_msg; UseIns (PManip (MSetw 4)); UseIns (PInt 42)] os0 =
  [""; "  42"; log_line demo_tm demo_msg; ""; "0042"] /\
  Forall tame [UseIns (PManip (MSetw 4)); UseIns (PInt 42); UseLine demo_tm demo_msg; UseIns (PManip (MSetw 4)); UseIns (PInt 42)] /\
  log_line demo_tm demo_msg = ("2026-03-07 09:05:00 [" ++ levelToString 3 ++ "] (net) a.cpp:26 hello" ++ nl)%string.
Proof.
  assert (T : tm_ok demo_tm) by (repeat split; vm_compute; discriminate).
  split; [exact T|]. split; [repeat split; try discriminate; auto with arith|]. split; [vm_compute; reflexivity|].
  split; [|vm_compute; reflexivity]. repeat (apply Forall_cons; [first [exact T | exact I | apply le_n]|]). apply Forall_nil.
Qed.

Example C104_witness_left : let o := mkOS (apply_manip (MAdjust ALeft) fmt0) false in
  fst (emit (line_ins demo_tm demo_msg) o) = ("2026-30-70 90:50:00 [" ++ levelToString 3 ++ "] (net) a.cpp:26 hello" ++ nl)%string.
Proof. vm_compute. reflexivity. Qed.

Example C104_witness_hex : let o := mkOS (apply_manip (MBase BHex) fmt0) false in
  fst (emit (line_ins demo_tm demo_msg) o) = ("7ea-03-07 09:05:00 [" ++ levelToString 3 ++ "] (net) a.cpp:1a hello" ++ nl)%string.
Proof. vm_compute. reflexivity. Qed.

Example C104_witness_sign : let o := mkOS (apply_manip (MSetw 7) (apply_manip (MAdjust AInternal) (apply_manip (MShowpos true) fmt0))) false in
  fst (emit (line_ins demo_tm demo_msg) o) = ("+  2026-+3-+7 +9:+5:+0 [" ++ levelToString 3 ++ "] (net) a.cpp:+26 hello" ++ nl)%string.
Proof. vm_compute. reflexivity. Qed.

Example C104_witness_width : let o := mkOS (apply_manip (MSetw 6) fmt0) false in
  fst (emit (line_ins demo_tm demo_msg) o) = ("  " ++ log_line demo_tm demo_msg)%string /\
  fst (emit (line_ins demo_tm demo_msg) (mkOS fmt0 true)) = "".
Proof. split; vm_compute; reflexivity. Qed.
