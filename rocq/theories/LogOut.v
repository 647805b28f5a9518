(** * What the log system writes on standard output: proofs for C103. *)

From Coq Require Import ZArith String Bool List Arith Lia.
From Verif Require Import Base ListFacts LogModel LogSpec LogProofs LogOrder LogCount LogFilter LogSettings.
From Verif Require TextModel.
Import ListNotations.
Open Scope string_scope.
Open Scope list_scope.

Section Out.
Context {RE : Type}.
Variable compile : string -> option RE.
Variable rmatch : string -> RE -> bool.
Notation reaches := (@reaches RE compile rmatch).
Notation settings := (@settings RE compile).
Notation cs := (@cs RE compile).
Notation ls := (@ls RE compile rmatch).
Notation st := (@st RE compile rmatch).

Lemma concat_cons : forall s l, String.concat "" (s :: l) = (s ++ String.concat "" l)%string.
Proof.
  intros s [|t l]; auto. cbn. induction s; cbn; f_equal; auto.
Qed.
Lemma concat_app : forall a b, String.concat "" (a ++ b) = (String.concat "" a ++ String.concat "" b)%string.
Proof.
  induction a as [|s a IH]; intros b; auto. cbn [app]. rewrite !concat_cons, IH.
  generalize (String.concat "" a) as x, (String.concat "" b) as y. intros. induction s; cbn; f_equal; auto.
Qed.
Lemma stdout_app : forall a b, stdout_of (a ++ b) = (stdout_of a ++ stdout_of b)%string.
Proof. intros. unfold stdout_of. rewrite pick_app. apply concat_app. Qed.

Lemma check_cs : forall t c s c' s' es q l m out r, cs t c s c' s' es -> es = q ++ EvCheck l m out :: r -> False.
Proof. intros t c s c' s' es q l m out r H E. destruct H; try (destruct q as [|? [|? [|? ?]]]; discriminate). Qed.

Lemma check_st : forall w w' q l m out r, st w w' (q ++ EvCheck l m out :: r) ->
  q = [] /\ out = checkCategory_out rmatch (lst (w_sys w) l) (m_cat m) /\ exists o rest, logt (w_sys w) = TCat o l rest /\ m = content (w_sys w) o.
Proof.
  intros w w' q l m out r H. inversion H; subst.
  - exfalso. eapply check_cs; eauto.
  - inversion H1; subst; try (destruct q as [|? [|? [|? ?]]]; discriminate).
    + destruct q as [|? [|? [|? ?]]]; try discriminate. match goal with H : [_; _] = _ |- _ => injection H as <- <- <- _ end. repeat split; eauto.
    + destruct q as [|? [|? ?]]; try discriminate. match goal with H : [_] = _ |- _ => injection H as <- <- <- _ end. repeat split; eauto.
    + exfalso. eapply check_cs; eauto.
  - destruct q; discriminate.
Qed.

Lemma check_line : forall sn g lf progs w t1 l m out t2, reaches sn g lf progs w (t1 ++ EvCheck l m out :: t2) ->
  out = checkCategory_out rmatch (settings l t1 (lf l)) (m_cat m).
Proof.
  intros sn g lf progs w t1 l m out t2 H. apply reaches_split in H. destruct H as (w1 & w2 & p & q & r & R & S & ->).
  apply check_st in S. destruct S as (-> & -> & _). rewrite app_nil_r, <- (settings_now _ _ _ _ _ _ _ _ l R). auto.
Qed.

Lemma check_current : forall sn g lf progs w t1 l m out t2, reaches sn g lf progs w (t1 ++ EvCheck l m out :: t2) ->
  begun t1 = ended t1 ++ [m].
Proof.
  intros sn g lf progs w t1 l m out t2 H. apply reaches_split in H. destruct H as (w1 & w2 & p & q & r & R & S & ->).
  apply check_st in S. destruct S as (-> & _ & o & rest & E & ->). rewrite app_nil_r.
  apply reaches_good in R. destruct R as (_ & _ & _ & _ & B & En & _). unfold unbegun, unended in *. rewrite E in *.
  rewrite app_nil_r in B. congruence.
Qed.

(** Each call of a listener comes right after the check. *)
Lemma checked : forall sn g lf progs w t1 l m t2, reaches sn g lf progs w (t1 ++ EvDeliver l m :: t2) ->
  exists t0, t1 = t0 ++ [EvCheck l m (checkCategory_out rmatch (settings l t1 (lf l)) (m_cat m))] /\
    checkCategory rmatch (settings l t1 (lf l)) (m_cat m) = true.
Proof.
  intros sn g lf progs w t1 l m t2 H. apply reaches_split in H. destruct H as (w1 & w2 & p & q & r & R & S & ->).
  apply deliver_st in S. destruct S as (-> & _ & o & rest & _ & _ & C). exists p.
  assert (E : settings l (p ++ [EvCheck l m (checkCategory_out rmatch (lst (w_sys w1) l) (m_cat m))]) (lf l) = lst (w_sys w1) l).
  { rewrite (settings_now _ _ _ _ _ _ _ _ l R). generalize (lf l) as L. clear. intros L.
    generalize (checkCategory_out rmatch (settings l p L) (m_cat m)) as out. revert L. induction p as [|e p IH]; intros L out; auto.
    destruct e; cbn; auto. }
  rewrite E. auto.
Qed.

Lemma check_out_line : forall (L : @listener RE) cat, cat <> "" -> l_category L <> "" ->
  checkCategory_out rmatch L cat =
    ("Category filtering: " ++ cat ++ " vs. " ++ l_category L ++ ": " ++ (if checkCategory rmatch L cat then "1" else "0") ++ TextModel.nl)%string.
Proof.
  intros L cat A B. unfold checkCategory_out, checkCategory. apply String.eqb_neq in A, B. rewrite A, B. auto.
Qed.

Lemma stdout_delivery : forall sn g lf progs w t1 l m t2, reaches sn g lf progs w (t1 ++ EvDeliver l m :: t2) ->
  m_cat m <> "" -> l_category (settings l t1 (lf l)) <> "" ->
  exists before, stdout_of t1 = (before ++ "Category filtering: " ++ m_cat m ++ " vs. " ++ l_category (settings l t1 (lf l)) ++ ": 1" ++ TextModel.nl)%string.
Proof.
  intros sn g lf progs w t1 l m t2 H A B. destruct (checked _ _ _ _ _ _ _ _ _ H) as (t0 & E & C).
  rewrite (check_out_line _ _ A B), C in E. exists (stdout_of t0). rewrite E at 1. rewrite stdout_app. f_equal.
Qed.

(** Silence. *)
Lemma stdout_silent : forall tr, (forall l m out, In (EvCheck l m out) tr -> out = "") -> stdout_of tr = "".
Proof.
  induction tr as [|e tr IH]; intros H; auto. change (e :: tr) with ([e] ++ tr). rewrite stdout_app, IH by (intros; eapply H; right; eauto).
  destruct e; auto. cbn. rewrite (H _ _ _ (or_introl eq_refl)). auto.
Qed.

Lemma uncategorised : forall tr l (L : @listener RE), l_category L = "" -> (forall re, In (EvSet l (CCategory l re)) tr -> re = "") ->
  (forall l' k, In (EvSet l' k) tr -> match k with CCategory l'' _ => l' = l'' | _ => True end) ->
  l_category (settings l tr L) = "".
Proof.
  induction tr as [|e tr IH]; intros l L E N W; auto. destruct e; cbn; try (apply IH; auto; intros; first [apply N; right; auto|apply (W _ _ (or_intror H))]; fail).
  apply IH; [|intros; apply N; right; auto|intros; apply (W _ _ (or_intror H))].
  destruct (Nat.eqb_spec l l0); auto. subst. destruct k; auto. cbn. destruct (compile re) eqn:C; auto. cbn.
  specialize (W _ _ (or_introl eq_refl)). cbn in W. subst. apply N. left. auto.
Qed.

Lemma cs_set : forall t c s c' s' es l k, cs t c s c' s' es -> In (EvSet l k) es -> match k with CCategory l' _ => l = l' | _ => True end.
Proof.
  intros t c s c' s' es l k H I. destruct H; cbn in I; intuition (try discriminate); try (match goal with H : EvSet _ _ = EvSet _ _ |- _ => injection H as <- <- end; auto).
Qed.

Lemma set_own : forall sn g lf progs w tr l k, reaches sn g lf progs w tr -> In (EvSet l k) tr -> match k with CCategory l' _ => l = l' | _ => True end.
Proof.
  intros sn g lf progs w tr l k H I. apply in_split in I. destruct I as (t1 & t2 & ->).
  apply reaches_split in H. destruct H as (w1 & w2 & p & q & r & R & S & ->). inversion S; subst.
  - eapply cs_set; eauto. apply in_or_app. right. left. auto.
  - inversion H0; subst; try (destruct q as [|? [|? [|? ?]]]; discriminate).
    eapply cs_set; [eassumption|]. apply in_or_app. right. left. auto.
  - destruct q; discriminate.
Qed.

Lemma silent : forall sn g lf progs w tr, reaches sn g lf progs w tr ->
  (forall m, In m (begun tr) -> m_cat m = "") \/
  ((forall l, l_category (lf l) = "") /\ forall l re, In (EvSet l (CCategory l re)) tr -> re = "") ->
  stdout_of tr = "".
Proof.
  intros sn g lf progs w tr H Q. apply stdout_silent. intros l m out I. pose proof I as I'. apply in_split in I. destruct I as (t1 & t2 & ->).
  pose proof (check_line _ _ _ _ _ _ _ _ _ _ H) as ->. unfold checkCategory_out. destruct (String.eqb (m_cat m) "") eqn:E; auto.
  destruct Q as [Q|(Q & N)].
  - exfalso. apply String.eqb_neq in E. apply E, Q. unfold begun. rewrite pick_app. fold (begun t1).
    rewrite (check_current _ _ _ _ _ _ _ _ _ _ H). rewrite !in_app_iff. left. right. left. auto.
  - rewrite uncategorised; auto.
    + intros re J. apply (N l). apply in_or_app. auto.
    + intros l' k J. eapply set_own; [exact H|]. apply in_or_app. eauto.
Qed.

End Out.
