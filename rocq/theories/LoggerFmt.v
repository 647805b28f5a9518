(** * Proofs about log statements with formatted operands (C105). *)

From Coq Require Import ZArith NArith String Bool List Lia.
From Verif Require Import Base LogModel LogSpec StreamModel LoggerModel LoggerSpec LoggerFmtSpec LoggerProofs.
Import ListNotations.
Open Scope string_scope.
Open Scope list_scope.

Lemma tidy_own : forall p cat ts, Forall tidy p -> fexpect fmt0 cat p ts = own_messages cat p ts.
Proof.
  intros p. induction p as [|s p IH]; intros cat ts T; [reflexivity|]. inversion T as [|? ? T1 T2]; subst.
  destruct s as [f l v c ops|f l v ops|c|z]; unfold tidy in T1; cbn [operands] in T1; cbn [fexpect own_messages].
  - destruct ts as [|[] ts]; cbn [app]; auto. rewrite T1, IH; auto.
  - destruct ts as [|b [|b' ts]]; auto. destruct (b && b'); cbn [app]; auto. rewrite T1, IH; auto.
  - destruct ts; auto.
  - auto.
Qed.

Lemma no_manip_fmt : forall ops b, Forall (fun i => is_manip i = false) ops -> o_fmt (snd (emit ops (mkOS fmt0 b))) = fmt0.
Proof.
  intros ops. induction ops as [|i ops IH]; intros b F; [reflexivity|]. inversion F as [|? ? F1 F2]; subst. cbn [emit].
  assert (X : exists s b', insert i (mkOS fmt0 b) = (s, mkOS fmt0 b')).
  { destruct i as [s|c|z| |m]; [| | | |discriminate]; unfold insert; cbn [o_bad o_fmt]; destruct b; eauto.
    destruct (int_text fmt0 z). eauto. }
  destruct X as (s & b' & ->). specialize (IH b' F2). destruct (emit ops (mkOS fmt0 b')). auto.
Qed.

Lemma no_manip_tidy : forall s, Forall (fun i => is_manip i = false) (operands s) -> tidy s.
Proof. intros s F. apply no_manip_fmt. auto. Qed.

Lemma failed_emit : forall ops f, fst (emit ops (mkOS f true)) = "" /\ o_bad (snd (emit ops (mkOS f true))) = true.
Proof.
  intros ops. induction ops as [|i ops IH]; intros f; [auto|]. cbn [emit].
  destruct i as [s|c|z| |m]; cbn [insert o_bad o_fmt]; try (specialize (IH f); destruct (emit ops (mkOS f true)); exact IH).
  specialize (IH (apply_manip m f)). destruct (emit ops (mkOS (apply_manip m f) true)). exact IH.
Qed.

Lemma cut_text : forall ops fm, text_in fm ops = text_in fm (before_failure ops).
Proof.
  unfold text_in. intros ops. induction ops as [|i ops IH]; intros fm; [reflexivity|].
  destruct (insert i (mkOS fm false)) as [s [f b]] eqn:E.
  destruct i as [x|c|z| |m]; cbn [before_failure emit]; rewrite ?E.
  - cbn in E. injection E as <- <- <-. specialize (IH (set_width 0 fm)).
    destruct (emit ops _), (emit (before_failure ops) _). cbn [fst] in *. congruence.
  - cbn in E. injection E as <- <- <-. specialize (IH (set_width 0 fm)).
    destruct (emit ops _), (emit (before_failure ops) _). cbn [fst] in *. congruence.
  - unfold insert in E. cbn [o_bad o_fmt] in E. destruct (int_text fm z). injection E as <- <- <-. specialize (IH (set_width 0 fm)).
    destruct (emit ops _), (emit (before_failure ops) _). cbn [fst] in *. congruence.
  - cbn in E. injection E as <- <- <-. destruct (failed_emit ops fm) as (X & _). destruct (emit ops (mkOS fm true)). cbn [fst] in *. rewrite X. auto.
  - cbn in E. injection E as <- <- <-. specialize (IH (apply_manip m fm)).
    destruct (emit ops _), (emit (before_failure ops) _). cbn [fst] in *. congruence.
Qed.

Lemma cut_own : forall p cat ts, own_messages cat (map cut_failed p) ts = own_messages cat p ts.
Proof.
  intros p. induction p as [|[f l v c ops|f l v ops|c|z] p IH]; intros cat ts; cbn [map cut_failed own_messages]; auto.
  - rewrite <- cut_text. destruct ts; auto. rewrite IH. auto.
  - rewrite <- cut_text. destruct ts as [|b [|b' ts]]; auto. rewrite IH. auto.
  - destruct ts; auto.
Qed.

Section Runs.
Variable min : Z.

Lemma tidy_messages : forall progs i p w tr, lreaches min progs w tr -> nth_error progs i = Some (map fembed p) -> Forall tidy p ->
  (exists cur, own_messages "" p (tests (of_thread i tr)) = commits (of_thread i tr) ++ cur /\ List.length cur <= 1) /\
  (forall q, between w i (map fembed q) -> commits (of_thread i tr) = own_messages "" p (tests (of_thread i tr))).
Proof.
  intros progs i p w tr R Hp T. destruct (fthread_messages min _ _ _ _ _ R Hp) as (A & B). rewrite tidy_own in A, B by auto. auto.
Qed.

Lemma failed_messages : forall progs i p w tr, lreaches min progs w tr -> nth_error progs i = Some (map fembed p) ->
  Forall (fun s => Forall (fun o => is_manip o = false) (operands s)) p ->
  (exists cur, own_messages "" (map cut_failed p) (tests (of_thread i tr)) = commits (of_thread i tr) ++ cur /\ List.length cur <= 1) /\
  (forall q, between w i (map fembed q) -> commits (of_thread i tr) = own_messages "" (map cut_failed p) (tests (of_thread i tr))).
Proof.
  intros progs i p w tr R Hp F. rewrite cut_own. eapply tidy_messages; eauto.
  eapply Forall_impl; [|exact F]. intros s. apply no_manip_tidy.
Qed.

Lemma carried_format : forall f l v c1 ops1 f2 l2 v2 c2 ops2 w tr, enabled min TRACE v = true -> enabled min TRACE v2 = true ->
  lreaches min [map fembed [FmtLine f l v c1 ops1; FmtLine f2 l2 v2 c2 ops2]] w tr -> lfinished w 0 ->
  map m_text (commits (of_thread 0 tr)) = [text_in fmt0 ops1; text_in (fmt_after fmt0 ops1) ops2].
Proof.
  intros f l v c1 ops1 f2 l2 v2 c2 ops2 w tr E1 E2 R F. rewrite (proj1 (falone_program min _ _ _ R F)). cbn [fmessages].
  unfold enabled in E1, E2. rewrite E1, E2. reflexivity.
Qed.

Lemma hex_text : forall fm z, fm = apply_manip (MBase BHex) fmt0 -> (0 <= z < 2 ^ 31)%Z -> text_in fm [PInt z] = radix false 16 (Z.to_N z).
Proof.
  intros fm z -> L. unfold text_in. cbn [emit].
  assert (X : insert (PInt z) (mkOS (apply_manip (MBase BHex) fmt0) false) =
    (radix false 16 (Z.to_N (z mod 2 ^ 32)), mkOS (apply_manip (MBase BHex) fmt0) false)) by reflexivity.
  rewrite X. cbn [fst]. rewrite sapp_nil_r. rewrite Z.mod_small by lia. reflexivity.
Qed.

Lemma hex_leaks : forall f l v y f2 l2 v2 z w tr, enabled min TRACE v = true -> enabled min TRACE v2 = true -> (0 <= y < 2 ^ 31)%Z -> (0 <= z < 2 ^ 31)%Z ->
  lreaches min [map fembed [FmtLine f l v None [PManip (MBase BHex); PInt y]; FmtLine f2 l2 v2 None [PInt z]]] w tr -> lfinished w 0 ->
  map m_text (commits (of_thread 0 tr)) = [radix false 16 (Z.to_N y); radix false 16 (Z.to_N z)].
Proof.
  intros f l v y f2 l2 v2 z w tr E1 E2 L1 L2 R F. rewrite (carried_format _ _ _ _ _ _ _ _ _ _ _ _ E1 E2 R F). f_equal; [|f_equal].
  - rewrite <- (hex_text (apply_manip (MBase BHex) fmt0) y) by auto. unfold text_in. cbn [emit].
    change (insert (PManip (MBase BHex)) (mkOS fmt0 false)) with ("", mkOS (apply_manip (MBase BHex) fmt0) false). cbv beta iota.
    destruct (insert (PInt y) _). reflexivity.
  - apply hex_text; auto.
Qed.
End Runs.
