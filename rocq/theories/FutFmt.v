(** * The reports on std::cout in any state: proofs. *)

From Coq Require Import ZArith NArith String Ascii Bool List Arith Lia.
From Verif Require Import Base TextModel TextSpec TextFacts StreamModel LogStreamProofs LogFmt FutModel FutSpec FutProofs FutFmtModel FutFmtSpec.
Import ListNotations.
Open Scope string_scope.
Open Scope list_scope.

Definition simple (i : ins) : Prop := match i with PText _ | PInt _ => True | _ => False end.

(** Text of strings and numbers in plain decimal. *)
Definition said (i : ins) : string := match i with PText s => s | PInt z => dec z | _ => "" end.
Definition all_said (l : list ins) : string := fold_right (fun i s => (said i ++ s)%string) "" l.

Lemma insert_simple : forall i f, simple i -> plain_format (mkOS f false) -> insert i (mkOS f false) = (said i, mkOS f false).
Proof.
  intros i f S (B & P & W). cbn [o_fmt] in *.
  assert (Z : set_width 0 f = f) by (destruct f; cbn in *; subst; reflexivity).
  destruct i; try contradiction.
  - rewrite insert_text by exact W. now rewrite Z.
  - rewrite insert_int, shown_dec by assumption. now rewrite Z.
Qed.
Lemma emit_simple : forall l f, Forall simple l -> plain_format (mkOS f false) -> emit l (mkOS f false) = (all_said l, mkOS f false).
Proof.
  induction l as [|i l IH]; intros f S P; [reflexivity|]. inversion S; subst. cbn [emit]. rewrite insert_simple by assumption. rewrite IH by assumption. reflexivity.
Qed.
Lemma plain0 : plain_format os0.
Proof. repeat split; reflexivity. Qed.
Lemma reported_simple : forall l, Forall simple l -> reported l = all_said l.
Proof. intros l S. unfold reported. change os0 with (mkOS fmt0 false). now rewrite emit_simple by (try exact plain0; assumption). Qed.

Lemma simple_name : forall n a b m, Forall simple (name_ins n a b m).
Proof. intros. unfold name_ins. cbv zeta. repeat constructor. Qed.
Lemma simple_begin : forall v n c, Forall simple (begin_ins v n c).
Proof. intros. unfold begin_ins. destruct (3 <=? v)%nat; [apply simple_name|constructor]. Qed.
Lemma simple_end : forall v n c, Forall simple (end_ins v n c).
Proof.
  intros. unfold end_ins. cbv zeta. repeat rewrite Forall_app.
  split; [|split].
  - destruct (negb _ && _); [unfold captured_ins; repeat constructor|constructor].
  - destruct (negb _ && _); [unfold captured_ins; repeat constructor|constructor].
  - destruct ((0 <? v)%nat && _); [repeat constructor|]. destruct ((1 <=? v)%nat && _); [repeat constructor|].
    destruct (2 <=? v)%nat; [apply simple_name|constructor].
Qed.

(** ** Tests that leave plain decimal *)

Lemma usable : forall o, o_bad o = false -> o = mkOS (o_fmt o) false.
Proof. intros [f b] H. cbn in *. now subst. Qed.

Lemma plain_reports : forall cap v l n o, plain_format o -> o_bad o = false -> Forall (leaves_plain cap) l ->
  map framework_part (cout_run cap v n l o) = expected_reports v n l.
Proof.
  induction l as [|[c own] l IH]; intros n o P G L; [reflexivity|]. inversion L as [|? ? L1 L2]; subst.
  cbn [cout_run expected_reports]. unfold cout_test. rewrite (usable o G), emit_simple by (try exact P; apply simple_begin).
  assert (R1 : rdbuf cap (mkOS (o_fmt o) false) = mkOS (o_fmt o) false) by (destruct cap; reflexivity). rewrite R1.
  specialize (L1 (mkOS (o_fmt o) false) P eq_refl). cbn [snd] in L1.
  destruct (emit own (mkOS (o_fmt o) false)) as [t o2]. cbn [snd] in L1. destruct L1 as [P2 G2].
  assert (R2 : rdbuf cap o2 = mkOS (o_fmt o2) false).
  { destruct cap; [reflexivity|]. cbn [rdbuf]. apply usable. auto. }
  rewrite R2, emit_simple by (try exact P2; apply simple_end).
  cbn [map]. rewrite IH by auto. unfold framework_part at 1. cbn [fst snd]. rewrite !reported_simple by (apply simple_begin || apply simple_end). reflexivity.
Qed.

(** ** A failed stream *)

Lemma insert_failed : forall i o, o_bad o = true -> fst (insert i o) = "" /\ o_bad (snd (insert i o)) = true.
Proof. intros i o B. destruct i; cbn [insert]; rewrite ?B; split; try reflexivity; exact B. Qed.
Lemma emit_failed : forall l o, o_bad o = true -> fst (emit l o) = "" /\ o_bad (snd (emit l o)) = true.
Proof.
  induction l as [|i l IH]; intros o B; [split; [reflexivity|exact B]|]. cbn [emit]. destruct (insert_failed i o B) as [A1 A2].
  destruct (insert i o) as [s o1]. cbn [fst snd] in *. destruct (IH o1 A2) as [B1 B2]. destruct (emit l o1) as [s' o2]. cbn [fst snd] in *. subst. auto.
Qed.
Lemma failed_run : forall v l n o, o_bad o = true -> Forall (fun r => r = ("", "", "")) (cout_run false v n l o).
Proof.
  induction l as [|[c own] l IH]; intros n o B; [constructor|]. cbn [cout_run]. unfold cout_test, rdbuf.
  destruct (emit_failed (begin_ins v (S n) c) o B) as [X1 B1]. destruct (emit (begin_ins v (S n) c) o) as [b o1]. cbn [fst snd] in X1, B1.
  destruct (emit_failed own o1 B1) as [X2 B2]. destruct (emit own o1) as [t o2]. cbn [fst snd] in X2, B2.
  destruct (emit_failed (end_ins v (S n) c) o2 B2) as [X3 B3]. destruct (emit (end_ins v (S n) c) o2) as [e o3]. cbn [fst snd] in X3, B3.
  subst. constructor; [reflexivity|]. exact (IH (S n) o3 B3).
Qed.

(** ** Other bases *)

Lemma insert_hex : forall f z, fm_base f = BHex -> fm_showbase f = false -> fm_width f = 0%nat -> (0 <= z < 2 ^ 31)%Z ->
  insert (PInt z) (mkOS f false) = (radix (fm_upper f) 16 (Z.to_N z), mkOS f false).
Proof.
  intros f z B S W L. rewrite insert_int. unfold shown, int_text. rewrite B, S. cbn [andb]. rewrite pad_none by exact W. rewrite Z.mod_small by lia.
  assert (Z : set_width 0 f = f) by (destruct f; cbn in *; subst; reflexivity). rewrite Z. reflexivity.
Qed.
Lemma insert_text0 : forall f s, fm_width f = 0%nat -> insert (PText s) (mkOS f false) = (s, mkOS f false).
Proof. intros f s W. rewrite insert_text by exact W. assert (Z : set_width 0 f = f) by (destruct f; cbn in *; subst; reflexivity). now rewrite Z. Qed.

Lemma hex_failure : forall v n c o, (1 <= v)%nat -> t_status c = FAIL -> t_outStr c = "" -> t_errStr c = "" ->
  o_bad o = false -> fm_base (o_fmt o) = BHex -> fm_showbase (o_fmt o) = false -> fm_width (o_fmt o) = 0%nat ->
  (Z.of_nat n < 2 ^ 31)%Z -> (0 <= t_line c < 2 ^ 31)%Z ->
  fst (emit (end_ins v n c) o) = (nl ++ line70 ++ nl ++ "Failure in case " ++ radix (fm_upper (o_fmt o)) 16 (N.of_nat n) ++ ": " ++ t_name c ++ " at " ++ t_file c
     ++ ": " ++ radix (fm_upper (o_fmt o)) 16 (Z.to_N (t_line c)) ++ nl ++ t_desc c ++ nl)%string.
Proof.
  intros v n c o V S SO SE G B SB W LN LL. rewrite (usable o G). set (f := o_fmt o) in *. clearbody f. cbn [o_fmt].
  unfold end_ins, capturedOut, capturedErr. rewrite S, SO, SE. cbn [c_str]. cbn [is_empty negb andb app is_success]. rewrite andb_false_r.
  assert (V1 : (1 <=? v)%nat = true) by (apply Nat.leb_le; exact V). rewrite V1. cbn [andb].
  replace (N.of_nat n) with (Z.to_N (Z.of_nat n)) by lia.
  repeat (cbn [emit]; rewrite ?(insert_text0 f) by exact W; rewrite ?(insert_hex f (Z.of_nat n)) by (try assumption; lia); rewrite ?(insert_hex f (t_line c)) by assumption).
  cbn [fst]. rewrite !str_app_assoc. cbn [String.append]. rewrite ?str_app_nil_r. reflexivity.
Qed.

Lemma hex_16_10 : forall v c o, (1 <= v)%nat -> t_status c = ERROR -> t_outStr c = "" -> t_errStr c = "" ->
  o_bad o = false -> fm_base (o_fmt o) = BHex -> fm_showbase (o_fmt o) = false -> fm_width (o_fmt o) = 0%nat ->
  fst (emit (end_ins v 16 c) o) = reported (end_ins v 10 c).
Proof.
  intros v c o V S SO SE G B SB W. rewrite reported_simple by apply simple_end. rewrite (usable o G). set (f := o_fmt o) in *. clearbody f.
  unfold end_ins, capturedOut, capturedErr. rewrite S, SO, SE. cbn [c_str]. cbn [is_empty negb andb app is_success].
  assert (V1 : (0 <? v)%nat = true) by (apply Nat.ltb_lt; exact V). rewrite V1. cbn [andb].
  assert (X : insert (PInt (Z.of_nat 16)) (mkOS f false) = ("10", mkOS f false)).
  { rewrite insert_hex by (try assumption; vm_compute; split; congruence). destruct (fm_upper f); reflexivity. }
  repeat (cbn [emit]; rewrite ?(insert_text0 f) by exact W; rewrite ?X). reflexivity.
Qed.

(** ** The texts are those of FutModel.v *)


Lemma all_said_app : forall a b, all_said (a ++ b) = (all_said a ++ all_said b)%string.
Proof. induction a as [|i a IH]; intro b; [reflexivity|]. cbn [app all_said fold_right]. fold (all_said (a ++ b)). fold (all_said a). now rewrite IH, str_app_assoc. Qed.
Lemma lines_app : forall a b, lines_text (a ++ b) = (lines_text a ++ lines_text b)%string.
Proof. induction a as [|i a IH]; intro b; [reflexivity|]. cbn [app lines_text fold_right]. fold (lines_text (a ++ b)). fold (lines_text a). now rewrite IH, str_app_assoc. Qed.

Lemma begin_text : forall v n c, lines_text (begin_lines v n (t_name c)) = reported (begin_ins v n c).
Proof.
  intros v n c. rewrite reported_simple by apply simple_begin. unfold begin_lines, begin_ins. destruct (3 <=? v)%nat; [|reflexivity].
  unfold name_ins. cbv zeta. unfold all_said, lines_text, fold_right, said. rewrite !str_app_assoc. reflexivity.
Qed.
Lemma end_text : forall v n c, lines_text (end_lines v n c) = reported (end_ins v n c).
Proof.
  intros v n c. rewrite reported_simple by apply simple_end. unfold end_lines, end_ins. cbv zeta. rewrite !all_said_app, !lines_app.
  assert (C : forall title s, lines_text [(nl ++ line70 ++ nl ++ title ++ t_name c ++ nl ++ line70 ++ nl ++ s ++ nl)%string] = all_said (captured_ins title c s)).
  { intros. unfold captured_ins, all_said, lines_text, fold_right, said. rewrite !str_app_assoc. reflexivity. }
  f_equal; [|f_equal].
  - destruct (negb _ && _); [apply (C "STDOUT ")|reflexivity].
  - destruct (negb _ && _); [apply (C "STDERR ")|reflexivity].
  - destruct ((0 <? v)%nat && _); [unfold all_said, lines_text, fold_right, said; rewrite !str_app_assoc; reflexivity|].
    destruct ((1 <=? v)%nat && _); [unfold all_said, lines_text, fold_right, said; rewrite !str_app_assoc; reflexivity|].
    destruct (2 <=? v)%nat; [|reflexivity]. unfold name_ins. cbv zeta. unfold all_said, lines_text, fold_right, said. rewrite !str_app_assoc. reflexivity.
Qed.

(** What has been added to the console. *)
Lemma says_text : forall L u, exists K, w_console (u_world (says L u)) = w_console (u_world u) ++ K /\ lines_text (map ch_text K) = lines_text L.
Proof.
  intros L u. exists (framework_says L). split; [reflexivity|]. unfold framework_says. rewrite map_map. f_equal. rewrite <- (map_id L) at 2. apply map_ext. reflexivity.
Qed.

Lemma begin_console : forall u n t, on_console u ->
  exists K, w_console (u_world (beginTest n t u)) = w_console (u_world u) ++ K /\ lines_text (map ch_text K) = reported (begin_ins (u_verbosity u) n (caseof u t)).
Proof.
  intros u n t H. rewrite beginTest_eq by exact H. destruct (says_text (begin_lines (u_verbosity u) n (t_name (caseof u t))) u) as (K & A & B).
  exists K. rewrite begin_text in B. split; [|exact B]. rewrite <- A. unfold tc_begin, in_world. destruct (u_capture u); reflexivity.
Qed.
Lemma end_console : forall u n t, (u_capture u = false -> on_console u) ->
  let u' := endTest Console Console n t u in
  exists K, w_console (u_world u') = w_console (u_world u) ++ K /\ lines_text (map ch_text K) = reported (end_ins (u_verbosity u) n (caseof u' t)).
Proof.
  intros u n t H. cbv zeta. rewrite endTest_eq by exact H. cbv zeta. set (u1 := in_world _ u).
  destruct (says_text (end_lines (u_verbosity u) n (caseof u1 t)) u1) as (K & A & B).
  exists K. split.
  - rewrite A. f_equal. unfold u1, tc_end, in_world. destruct (u_capture u); reflexivity.
  - rewrite end_text in B. exact B.
Qed.
