(** * Proofs about log lines on a stream whose format state is not the default one (C104). *)

From Coq Require Import ZArith NArith String Ascii Bool List Arith Lia.
From Verif Require Import Base LogModel TextModel TextSpec TextFacts StreamModel LogStreamModel LogStreamSpec LogStreamProofs.
Import ListNotations.
Open Scope string_scope.
Open Scope list_scope.

Lemma good_state : forall o, o_bad o = false -> o = mkOS (o_fmt o) false.
Proof. intros [f b] H. cbn in *. congruence. Qed.

Lemma padl_none : forall w c s, w <= String.length s -> padl w c s = s.
Proof. intros w c s L. unfold padl. replace (w - String.length s) with 0 by lia. reflexivity. Qed.

Lemma fill_0 : forall c s, (fill 0 c ++ s)%string = s.
Proof. reflexivity. Qed.

(** Decimal, right or internal: only the width at the start matters. *)
Lemma wide_line : forall t m o, tm_ok t -> o_bad o = false -> fm_base (o_fmt o) = BDec -> fm_showpos (o_fmt o) = false ->
  fm_adjust (o_fmt o) <> ALeft -> fst (emit (line_ins t m) o) = (fill (fm_width (o_fmt o) - 4) (fm_fill (o_fmt o)) ++ log_line t m)%string.
Proof.
  intros t m o T B1 B2 B3 B4. rewrite (good_state o B1). rewrite emit_line. cbn [fst]. rewrite log_line_text by auto.
  destruct T as (Y & Mo & D & H & Mi & S). cbn [o_fmt]. unfold any_line, line_text, date_text.
  rewrite (shown_right (o_fmt o)) by (auto; lia). rewrite !(shown_right (with_width (o_fmt o) 2)) by (auto; lia).
  rewrite shown_dec by auto. unfold padl at 1. rewrite year_length by lia. rewrite !str_app_assoc. reflexivity.
Qed.

Lemma state_after_line : forall t m o, snd (emit (line_ins t m) o) = left_behind o.
Proof.
  intros t m [f []].
  - unfold line_ins, field_ins, left_behind. destruct (String.eqb (m_cat m) ""); reflexivity.
  - rewrite emit_line. reflexivity.
Qed.

Lemma same_line : forall t m o, tm_ok t -> usual o -> emit (line_ins t m) o = (log_line t m, left_behind o).
Proof.
  intros t m o T (B1 & B2 & B3 & B4 & B5).
  rewrite <- (state_after_line t m o).
  pose proof (wide_line t m o T B1 B2 B3 B4) as W. replace (fm_width (o_fmt o) - 4) with 0 in W by lia. rewrite fill_0 in W.
  rewrite <- W. apply surjective_pairing.
Qed.

Lemma usual_after : forall u o, tame u -> usual o -> usual (snd (emit (use_ins u) o)).
Proof.
  intros [i|t m] o T U.
  - destruct U as (B1 & B2 & B3 & B4 & B5). destruct o as [f b]. cbn [o_bad o_fmt] in *. subst b.
    assert (K : usual (mkOS (set_width 0 f) false)).
    { split; [reflexivity|]. cbn [o_fmt]. destruct f. cbn in *. repeat split; auto with arith. }
    destruct i as [s|c|z| |mn]; cbn [use_ins emit tame insert o_bad o_fmt] in *.
    + exact K.
    + exact K.
    + destruct (int_text f z). exact K.
    + contradiction.
    + destruct f as [ba ad sb sp up fl wi]. cbn in B2, B3, B4, B5. subst ba sp.
      destruct mn; cbn [apply_manip set_width fm_base fm_adjust fm_showbase fm_showpos fm_upper fm_fill fm_width snd]; subst; repeat split; auto.
  - cbn [use_ins]. rewrite state_after_line. destruct U as (B1 & B2 & B3 & B4 & B5). repeat split; auto with arith.
Qed.

Lemma uses_lines : forall us o, Forall tame us -> usual o ->
  Forall2 (fun u s => match u with UseLine t m => s = log_line t m | UseIns _ => True end) us (uses us o).
Proof.
  intros us. induction us as [|u us IH]; intros o T U; cbn [uses]; [constructor|]. inversion T as [|? ? T1 T2]; subst.
  destruct (emit (use_ins u) o) as [s o'] eqn:E. constructor.
  - destruct u as [i|t m]; auto. cbn [use_ins] in E. rewrite same_line in E by auto. injection E as <- _. auto.
  - apply IH; auto. replace o' with (snd (emit (use_ins u) o)) by (rewrite E; auto). apply usual_after; auto.
Qed.

Lemma uses_all : forall us o, fst (emit (flat_map use_ins us) o) = fold_right (fun a b => (a ++ b)%string) "" (uses us o).
Proof.
  intros us. induction us as [|u us IH]; intros o; cbn [flat_map uses]; [reflexivity|].
  rewrite emit_app. cbn [fst]. rewrite IH. destruct (emit (use_ins u) o) as [s o']. reflexivity.
Qed.

Lemma failed_line : forall t m o, o_bad o = true -> emit (line_ins t m) o = ("", left_behind o).
Proof.
  intros t m [f b] B. cbn in B. subst b. unfold line_ins, field_ins, left_behind. destruct (String.eqb (m_cat m) ""); reflexivity.
Qed.

Lemma left_months : forall y d h mi s m o, o_bad o = false -> fm_base (o_fmt o) = BDec -> fm_showpos (o_fmt o) = false ->
  fm_adjust (o_fmt o) = ALeft -> emit (line_ins (mkTm y 0 d h mi s) m) o = emit (line_ins (mkTm y 9 d h mi s) m) o.
Proof.
  intros y d h mi s m o B1 B2 B3 B4. rewrite (good_state o B1), !emit_line. unfold any_line. cbn [tm_year tm_mon tm_mday tm_hour tm_min tm_sec].
  rewrite (shown_left (with_width (o_fmt o) 2) (0 + 1)), (shown_left (with_width (o_fmt o) 2) (9 + 1)) by (auto; lia). reflexivity.
Qed.

Lemma hex_line_number : forall t m o, o_bad o = false -> fm_base (o_fmt o) = BHex -> fm_showbase (o_fmt o) = false -> (0 <= m_line m < 2 ^ 31)%Z ->
  exists pre, fst (emit (line_ins t m) o) = (pre ++ ":" ++ radix (fm_upper (o_fmt o)) 16 (Z.to_N (m_line m)) ++ " " ++ m_text m ++ nl)%string.
Proof.
  intros t m o B1 B2 B3 L. rewrite (good_state o B1), emit_line. cbn [fst o_fmt]. unfold any_line.
  assert (X : shown (with_width (o_fmt o) 0) (m_line m) = radix (fm_upper (o_fmt o)) 16 (Z.to_N (m_line m))).
  { unfold shown, int_text. cbn [with_width fm_base fm_showbase fm_upper]. rewrite B2, B3. cbn [andb]. rewrite pad_none by reflexivity.
    rewrite Z.mod_small by lia. reflexivity. }
  rewrite X. clear X.
  assert (P : forall a b r, (exists pre, b = (pre ++ r)%string) -> exists pre, (a ++ b)%string = (pre ++ r)%string).
  { intros a b r (pre & ->). exists (a ++ pre)%string. rewrite str_app_assoc. auto. }
  do 17 apply P. exists "". reflexivity.
Qed.

Lemma sign_line_number : forall t m o, o_bad o = false -> fm_base (o_fmt o) = BDec -> fm_showpos (o_fmt o) = true ->
  exists pre, fst (emit (line_ins t m) o) =
    (pre ++ ":" ++ (if (m_line m <? 0)%Z then "-" else "+") ++ dec (Z.abs (m_line m)) ++ " " ++ m_text m ++ nl)%string.
Proof.
  intros t m o B1 B2 B3. rewrite (good_state o B1), emit_line. cbn [fst o_fmt]. unfold any_line.
  assert (X : shown (with_width (o_fmt o) 0) (m_line m) = ((if (m_line m <? 0)%Z then "-" else "+") ++ dec (Z.abs (m_line m)))%string).
  { unfold shown, int_text. cbn [with_width fm_base fm_showpos]. rewrite B2, B3. rewrite pad_none by reflexivity. reflexivity. }
  rewrite X, (str_app_assoc (if (m_line m <? 0)%Z then "-" else "+")). clear X.
  assert (P : forall a b r, (exists pre, b = (pre ++ r)%string) -> exists pre, (a ++ b)%string = (pre ++ r)%string).
  { intros a b r (pre & ->). exists (a ++ pre)%string. rewrite str_app_assoc. auto. }
  do 17 apply P. exists "". reflexivity.
Qed.

Lemma internal_year : forall t m o, tm_ok t -> o_bad o = false -> fm_base (o_fmt o) = BDec -> fm_showpos (o_fmt o) = true -> fm_adjust (o_fmt o) = AInternal ->
  exists rest, fst (emit (line_ins t m) o) = ("+" ++ fill (fm_width (o_fmt o) - 5) (fm_fill (o_fmt o)) ++ dec (tm_year t + 1900) ++ "-" ++ rest)%string.
Proof.
  intros t m o T B1 B2 B3 B4. rewrite (good_state o B1), emit_line. cbn [fst o_fmt]. unfold any_line. destruct T as (Y & _).
  assert (X : shown (o_fmt o) (tm_year t + 1900) = ("+" ++ fill (fm_width (o_fmt o) - 5) (fm_fill (o_fmt o)) ++ dec (tm_year t + 1900))%string).
  { unfold shown, int_text. rewrite B2, B3. destruct (Z.ltb_spec (tm_year t + 1900) 0); [lia|]. rewrite Z.abs_eq by auto. unfold pad. rewrite B4.
    cbn [append String.length]. rewrite year_length by lia. reflexivity. }
  rewrite X, !str_app_assoc. eexists. reflexivity.
Qed.

Lemma zeros_left : forall t m o n z, usual o -> (0 <= z)%Z ->
  fst (emit [PManip (MSetw n); PInt z] o) = padl n (fm_fill (o_fmt o)) (dec z) /\
  fst (emit [PManip (MSetw n); PInt z] (snd (emit (line_ins t m) o))) = padl n "0" (dec z).
Proof.
  intros t m o n z U L.
  assert (G : forall o, usual o -> fst (emit [PManip (MSetw n); PInt z] o) = padl n (fm_fill (o_fmt o)) (dec z)).
  { clear o U. intros o (B1 & B2 & B3 & B4 & _). rewrite (good_state o B1). 
    change (emit [PManip (MSetw n); PInt z] (mkOS (o_fmt o) false)) with
      (let (s', o2) := let (s, o1) := insert (PInt z) (mkOS (set_width n (o_fmt o)) false) in ((s ++ "")%string, o1) in (("" ++ s')%string, o2)).
    rewrite insert_int. rewrite shown_right by auto. cbn [fst append o_fmt set_width fm_width fm_fill]. apply str_app_nil_r. }
  split; [apply G; auto|]. rewrite state_after_line. rewrite G; auto.
  destruct U as (B1 & B2 & B3 & B4 & _). repeat split; auto with arith.
Qed.
