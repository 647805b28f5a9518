(** * LogSystem: listeners whose settings change; every call takes effect *)
From Coq Require Import ZArith String Bool List Arith Lia.
From Verif Require Import Base ListFacts LogModel LogSpec LogProofs LogOrder LogCount LogStop LogFilter.
Import ListNotations.
Open Scope list_scope.

Section Log.
Context {RE : Type}.
Variable compile : string -> option RE.
Variable rmatch : string -> RE -> bool.
Notation sys := (@sys RE).
Notation world := (@world RE).
Notation cs := (@cs RE compile).
Notation ls := (@ls RE compile rmatch).
Notation st := (@st RE compile rmatch).
Notation run := (run compile rmatch).
Notation step := (step compile rmatch).
Notation reaches := (reaches compile rmatch).
Notation setting := (setting compile).
Notation settings := (settings compile).
Notation owed := (owed compile rmatch).
Implicit Types (s : sys) (w : world).

(** ** Settings that change *)

Fixpoint regsL (L : @listener RE) (l : nat) (tr : list ev) (a p : nat) : nat * nat :=
  match tr with
  | [] => (a, p)
  | EvAdd l' :: tr' => regsL L l tr' a (if l =? l' then S p else p)
  | EvSet l' k :: tr' => regsL (if l =? l' then setting k L else L) l tr' a p
  | EvBegin _ :: tr' => regsL L l tr' (a + p) 0
  | EvClean :: tr' => regsL L l tr' (if l_detached L then 0 else a) p
  | _ :: tr' => regsL L l tr' a p
  end.

Fixpoint busy (tr : list ev) (b : bool) : bool :=
  match tr with
  | [] => b
  | EvBegin _ :: tr' => busy tr' true
  | EvClean :: tr' => busy tr' false
  | _ :: tr' => busy tr' b
  end.

Lemma settings_app : forall l x y L, settings l (x ++ y) L = settings l y (settings l x L).
Proof. intros l x. induction x as [|[] x IH]; intros; simpl; auto. Qed.
Lemma regsL_app : forall l x y L a p, regsL L l (x ++ y) a p =
  regsL (settings l x L) l y (fst (regsL L l x a p)) (snd (regsL L l x a p)).
Proof. intros l x. induction x as [|[] x IH]; intros; simpl; auto. Qed.
Lemma busy_app : forall x y b, busy (x ++ y) b = busy y (busy x b).
Proof. intros x. induction x as [|[] x IH]; intros; simpl; auto. Qed.
Lemma steady_app : forall l x y b, steady l (x ++ y) b <-> steady l x b /\ steady l y (busy x b).
Proof. intros l x. induction x as [|[] x IH]; intros; simpl; try rewrite IH; tauto. Qed.
Lemma owed_app : forall l x y L a p, owed L l (x ++ y) a p =
  owed L l x a p ++ owed (settings l x L) l y (fst (regsL L l x a p)) (snd (regsL L l x a p)).
Proof. intros l x. induction x as [|[] x IH]; intros; simpl; auto. rewrite IH, app_assoc. auto. Qed.

Definition in_dispatch s : bool :=
  match logt s with TCount _ | TSend _ _ | TLevel _ _ _ | TCat _ _ _ | TCall _ _ _ | TClean _ _ _ => true | _ => false end.

Definition over_inv (L0 : @listener RE) l w tr : Prop :=
  let s := w_sys w in let L := lst s l in
  settings l tr L0 = L /\
  regsL L0 l tr 0 0 = (cnt l (active s), cnt l (pending s)) /\
  owed L0 l tr 0 0 = delivered_to l tr ++ (if wants rmatch L (current s) then repeat (current s) (cnt l (left_now s)) else []) /\
  busy tr false = in_dispatch s /\
  match logt s with
  | TLevel _ l' _ => l' = l -> l_enabled L = true
  | TCat o l' _ => l' = l -> l_enabled L = true /\ (m_level (content s o) <= l_level L)%Z
  | TClean _ k t => if l_detached L then cnt l k = 0 else cnt l k + cnt l t = cnt l (active s)
  | _ => True
  end.

(** A call, alone. *)
Lemma cs_over : forall t c s c' s' es, cs t c s c' s' es -> forall l,
  delivered_to l es = [] /\ (forall L a p, owed L l es a p = []) /\
  active s' = active s /\
  (forall L a, regsL L l es a (cnt l (pending s)) = (a, cnt l (pending s'))) /\
  settings l es (lst s l) = lst s' l /\
  (lst s' l = lst s l \/ forall b, steady l es b -> b = false) /\
  (forall b, busy es b = b).
Proof.
  intros t c s c' s' es H l.
  destruct H; sfields; nsimp; cbn [delivered_to pick owed regsL settings busy steady]; try (repeat split; auto; fail).
  - repeat split; auto. intros L a. f_equal. rewrite cnt_app, cnt_cons, cnt_nil.
    destruct (Nat.eqb_spec l l0), (Nat.eq_dec l0 l); try congruence; lia.
  - repeat split; auto; unfold upd_lst; destruct (Nat.eqb_spec l l0); subst; auto. right. intros ? (X & _); auto.
  - repeat split; auto; unfold upd_lst; destruct (Nat.eqb_spec l l0); subst; auto. right. intros ? (X & _); auto.
  - repeat split; auto; unfold upd_lst; destruct (Nat.eqb_spec l l0); subst; auto. right. intros ? (X & _); auto.
  - repeat split; auto; unfold upd_lst; destruct (Nat.eqb_spec l l0); subst; auto.
    + unfold LogSpec.setting. match goal with H : compile _ = _ |- _ => rewrite H end. auto.
    + right. intros ? (X & _); auto.
  - psimp o s. rewrite P10, P11, P12. repeat split; auto.
Qed.

Lemma not_in_dispatch : forall s l, in_dispatch s = false -> cnt l (left_now s) = 0 /\
  match logt s with TLevel _ _ _ | TCat _ _ _ | TClean _ _ _ => False | _ => True end.
Proof. intros s l. unfold in_dispatch, left_now. destruct (logt s); try discriminate; auto. Qed.

Lemma st_over : forall L0 l w w' tr es, own w -> steady l es (busy tr false) -> over_inv L0 l w tr -> st w w' es ->
  over_inv L0 l w' (tr ++ es).
Proof.
  intros L0 l w w' tr es O Ns (A & R & X & B & K) H. unfold over_inv.
  rewrite settings_app, regsL_app, owed_app, delivered_app, busy_app, R, X, B, A in *. cbn [fst snd].
  destruct H as [w i c c' s' es Hc Hi H | w s' es Hc H | w Hc Hs]; sfields.
  - destruct (st_current compile w _ es i c c' s' O Hc Hi H eq_refl) as (Cu & Xt).
    destruct (cs_over _ _ _ _ _ _ H l) as (S1 & S2 & S3 & S4 & S5 & S6 & S7).
    rewrite S1, S2, S4, Cu, S3, S5, S7, !app_nil_r. split; [auto|]. split; [auto|].
    assert (Ln : left_now s' = left_now (w_sys w)).
    { unfold left_now. rewrite S3. destruct (cs_logt _ _ _ _ _ _ _ H) as [->|[E1 E2]]; auto.
      pose proof (cs_held _ _ _ _ _ _ _ H) as E3. rewrite E1 in E3. destruct (logt (w_sys w)), (logt s'); try discriminate; auto. }
    assert (Bs : in_dispatch s' = in_dispatch (w_sys w)).
    { unfold in_dispatch. destruct (cs_logt _ _ _ _ _ _ _ H) as [->|[E1 E2]]; auto.
      pose proof (cs_held _ _ _ _ _ _ _ H) as E3. rewrite E1 in E3. destruct (logt (w_sys w)), (logt s'); try discriminate; auto. }
    rewrite Ln, Bs. destruct S6 as [S6|S6].
    + rewrite S6. split; [auto|]. split; [auto|].
      destruct (cs_logt _ _ _ _ _ _ _ H) as [->|[E1 E2]].
      * destruct (logt (w_sys w)); auto. rewrite Xt; auto. left; auto.
      * pose proof (cs_held _ _ _ _ _ _ _ H) as E3. rewrite E1 in E3. destruct (logt (w_sys w)), (logt s'); try discriminate; auto.
    + specialize (S6 _ Ns). destruct (not_in_dispatch _ l S6) as (C0 & _). rewrite C0. cbn [repeat]. rewrite !ite_nil. split; [auto|]. split; [auto|].
      rewrite S6 in Bs. destruct (not_in_dispatch _ l Bs) as (_ & C1). destruct (logt s'); auto; contradiction.
  - destruct w as [s cl]. sfields. unfold left_now, current, in_dispatch in *.
    destruct H; try (match goal with H : logt _ = _ |- _ => rewrite H in * end); sfields; cbn [delivered_to pick owed regsL settings busy steady] in *;
      rewrite ?app_nil_r, ?cnt_nil in *; cbn [repeat] in *;
      rewrite ?ite_nil in *; try (repeat split; auto; fail).
    + (* begin *) split; [auto|]. split; [rewrite cnt_app; auto|]. split; [|auto]. rewrite app_nil_r, cnt_app. reflexivity.
    + (* end *) split; [auto|]. split; [auto|]. split; [auto|]. split; [auto|]. destruct (l_detached (lst s l)); auto.
    + (* enabled *) split; [auto|]. split; [auto|]. split; [reflexivity|]. split; [auto|]. intros ->. congruence.
    + (* disabled *) split; [auto|]. split; [auto|]. split; [|auto]. rewrite cnt_cons, content_set_logt.
      destruct (Nat.eq_dec l0 l) as [->|N]; [|reflexivity]. rewrite !wants_off; auto; congruence.
    + (* level *) split; [auto|]. split; [auto|]. split; [reflexivity|]. split; [auto|]. intros ->. split; [auto|].
      rewrite content_set_logt. auto.
    + (* no level *) split; [auto|]. split; [auto|]. split; [|auto]. rewrite cnt_cons, content_set_logt.
      destruct (Nat.eq_dec l0 l) as [->|N]; [|reflexivity]. rewrite !wants_level; auto; congruence.
    + (* deliver *) split; [auto|]. split; [auto|]. split; [|auto]. rewrite cnt_cons, content_set_logt.
      destruct (Nat.eq_dec l0 l) as [->|N].
      * rewrite Nat.eqb_refl. destruct (K eq_refl) as (K1 & K2).
        rewrite wants_cat by auto. rewrite H0. rewrite <- app_assoc. reflexivity.
      * destruct (Nat.eqb_spec l l0); [congruence|]. rewrite app_nil_r. reflexivity.
    + (* no category *) split; [auto|]. split; [auto|]. split; [|auto]. rewrite cnt_cons, content_set_logt.
      destruct (Nat.eq_dec l0 l) as [->|N]; [|reflexivity].
      destruct (K eq_refl) as (K1 & K2). rewrite wants_cat by auto. rewrite H0. auto.
    + (* nested *) pose proof (nested_content compile _ _ _ _ _ _ _ _ O H H0) as Ct.
      destruct (cs_over _ _ _ _ _ _ H0 l) as (S1 & S2 & S3 & S4 & S5 & S6 & S7).
      destruct S6 as [S6|S6]; [|specialize (S6 _ Ns); discriminate].
      rewrite S1, S2, S4, S3, S5, S7, S6, content_set_logt, Ct, !app_nil_r. auto.
    + (* ask *) split; [auto|]. split; [auto|]. split; [auto|]. split; [auto|]. rewrite cnt_cons in K.
      destruct (Nat.eq_dec l0 l) as [->|N].
      * destruct (l_detached (lst s l)); auto. rewrite cnt_app, cnt_cons, cnt_nil. destruct (Nat.eq_dec l l); [lia|congruence].
      * destruct (l_detached (lst s l)), (l_detached (lst s l0)); rewrite ?cnt_app, ?cnt_cons, ?cnt_nil;
          destruct (Nat.eq_dec l0 l); try congruence; lia.
    + (* clean *) split; [auto|]. split; [|auto]. f_equal. destruct (l_detached (lst s l)); lia.
  - cbn [delivered_to pick owed regsL settings busy]. unfold left_now, current, in_dispatch in *. rewrite Hs in *. sfields. rewrite ?ite_nil, !app_nil_r. cbn [cnt].
    auto.
Qed.

Lemma reaches_over : forall sn g lf progs w tr l, reaches sn g lf progs w tr -> steady l tr false -> over_inv (lf l) l w tr.
Proof.
  intros sn g lf progs w tr l H N.
  assert (I : own w /\ (steady l tr false -> over_inv (lf l) l w tr)).
  { eapply (reaches_inv compile rmatch (fun w tr => own w /\ (steady l tr false -> over_inv (lf l) l w tr))); [| |exact H].
    - split; [apply init_own|]. intros _. split; [reflexivity|]. split; [reflexivity|]. split; [|destruct sn; split; reflexivity || exact I].
      unfold left_now, current. destruct sn; cbn; rewrite ite_nil; auto.
    - clear w tr H N. intros w w' tr es (O & I) S. split; [eapply st_own; eauto|].
      intros N. rewrite steady_app in N. destruct N. eapply st_over; eauto. }
  apply I; auto.
Qed.

Lemma over_exact : forall sn g lf progs w tr l, reaches sn g lf progs w tr -> steady l tr false ->
  (exists n, owed (lf l) l tr 0 0 = delivered_to l tr ++ flat_map (fun m => repeat m n) (unended w)) /\
  (unended w = [] -> delivered_to l tr = owed (lf l) l tr 0 0).
Proof.
  intros sn g lf progs w tr l H N. destruct (reaches_over _ _ _ _ _ _ _ H N) as (_ & _ & X & _).
  unfold left_now, current, unended in *. split.
  - rewrite X. destruct (logt (w_sys w)); cbn [cnt count_occ] in *; try (exists 0; cbn; rewrite ite_nil; auto; fail);
    destruct (wants _ _ _); try (exists 0; reflexivity); eexists; cbn [flat_map]; rewrite app_nil_r; reflexivity.
  - rewrite X. destruct (logt (w_sys w)); try discriminate; intros _; cbn; rewrite ite_nil, app_nil_r; auto.
Qed.

(** The settings are those of the last changes, at any moment. *)
Lemma settings_now : forall sn g lf progs w tr l, reaches sn g lf progs w tr -> lst (w_sys w) l = settings l tr (lf l).
Proof.
  intros sn g lf progs w tr l H.
  eapply (reaches_inv compile rmatch (fun w tr => lst (w_sys w) l = settings l tr (lf l))); [| |exact H]; [reflexivity|].
  clear. intros w w' tr es I H. rewrite settings_app, <- I. destruct H as [w i c c' s' es Hc Hi H | w s' es Hc H | w Hc Hs]; sfields; auto.
  - destruct (cs_over _ _ _ _ _ _ H l) as (_ & _ & _ & _ & <- & _). auto.
  - destruct H; sfields; auto. destruct (cs_over _ _ _ _ _ _ H0 l) as (_ & _ & _ & _ & <- & _). auto.
Qed.

Lemma valid_filters : forall sn g lf progs w tr l l' re, reaches sn g lf progs w tr -> In (EvSet l (CCategory l' re)) tr -> compile re <> None.
Proof.
  intros sn g lf progs w tr l l' re H.
  eapply (reaches_inv compile rmatch (fun _ tr => In (EvSet l (CCategory l' re)) tr -> compile re <> None)); [intros []| |exact H].
  clear. intros w w' tr es IH H I. apply in_app_or in I. destruct I as [I|I]; auto.
  assert (C : forall t c s c' s', cs t c s c' s' es -> compile re <> None).
  { intros t c s c' s' K. destruct K; cbn in I; repeat (destruct I as [I|I]; [try discriminate I|]); try (destruct I; fail). injection I as <- <- <-. congruence. }
  destruct H as [w i c c' s' es Hc Hi H | w s' es Hc H | w Hc Hs]; [eauto| |destruct I].
  destruct H; eauto; cbn in I; repeat (destruct I as [I|I]; [try discriminate I|]); destruct I.
Qed.

Lemma last_filter_app : forall l x y f, last_filter l (x ++ y) f = last_filter l y (last_filter l x f).
Proof. intros l x. induction x as [|e x IH]; intros y f; auto. destruct e; cbn; auto. destruct k; auto. Qed.

Lemma filter_in_force : forall l tr (L : @listener RE), (forall l0 l' re, In (EvSet l0 (CCategory l' re)) tr -> compile re <> None) ->
  forall cat, checkCategory rmatch (settings l tr L) cat =
    match last_filter l tr None with
    | None => checkCategory rmatch L cat
    | Some re => match compile re with
                 | Some r => String.eqb cat "" || String.eqb re "" || rmatch cat r
                 | None => false
                 end
    end.
Proof.
  intros l tr L V cat. induction tr as [|e tr IH] using rev_ind; auto.
  rewrite settings_app, last_filter_app. assert (V' : forall l0 l' re, In (EvSet l0 (CCategory l' re)) tr -> compile re <> None).
  { intros l0 l' re I. apply (V l0 l' re). apply in_or_app. auto. }
  specialize (IH V'). destruct e; cbn [settings last_filter]; auto.
  destruct k; cbn [setting]; try (destruct (l =? l0); exact IH).
  destruct (l =? l0); [|exact IH]. destruct (compile re) as [r|] eqn:E.
  - unfold checkCategory. cbn. destruct (String.eqb cat ""); auto.
  - exfalso. eapply (V l0 l1 re); auto. apply in_or_app. right. left. auto.
Qed.

Lemma category_in_force : forall sn g lf progs w tr l, reaches sn g lf progs w tr ->
  (forall l0 l' re, In (EvSet l0 (CCategory l' re)) tr -> compile re <> None) /\
  forall cat, checkCategory rmatch (lst (w_sys w) l) cat =
    match last_filter l tr None with
    | None => checkCategory rmatch (lf l) cat
    | Some re => match compile re with
                 | Some r => String.eqb cat "" || String.eqb re "" || rmatch cat r
                 | None => false
                 end
    end.
Proof.
  intros sn g lf progs w tr l H. assert (V : forall l0 l' re, In (EvSet l0 (CCategory l' re)) tr -> compile re <> None).
  { intros. eapply valid_filters; eauto. }
  split; auto. intros cat. rewrite (settings_now _ _ _ _ _ _ _ H). apply filter_in_force; auto.
Qed.

(** ** Every call takes effect *)

Lemma sub_refl : forall (A : Type) (a : list A), sub a a.
Proof. intros A a. induction a; [apply sub_nil|apply sub_take; auto]. Qed.
Lemma sub_app : forall (A : Type) (a b c d : list A), sub a b -> sub c d -> sub (a ++ c) (b ++ d).
Proof. intros A a b c d H. induction H; intros K; cbn; [|apply sub_skip; auto|apply sub_take; auto]. induction b; cbn; auto. apply sub_skip; auto. Qed.
Lemma sub_right : forall (A : Type) (a b c : list A), sub a b -> sub a (b ++ c).
Proof. intros A a b c H. rewrite <- (app_nil_r a). apply sub_app; auto. constructor. Qed.

(** The call in progress and its events so far. *)
Definition underway (t : tid) (p : cpc) (k : call) (es : list ev) : Prop :=
  match p with
  | Idle => False
  | LogAlloc m | LogNew m | LogMake m | LogCtor m _ => k = CLog m /\ es = [EvLog t m true]
  | LogPush m _ => (k = CLog m /\ es = [EvLog t m true]) \/ (k = CPass m /\ es = [EvPass t m])
  | StopNotify | StopLock | StopJoin => k = CStop /\ es = []
  | StartLock => k = CStart /\ es = []
  | DiagCount _ _ fs => k = CDiags /\ exists vs, map fst vs ++ FEnabled :: fs = [FCreated; FDiscarded; FActive; FEnabled; FReceived; FMaxQueue; FPool; FPending] /\
      es = map (fun x => EvRead t (fst x) (snd x)) vs
  | Diag fs => k = CDiags /\ exists vs, map fst vs ++ fs = [FCreated; FDiscarded; FActive; FEnabled; FReceived; FMaxQueue; FPool; FPending] /\
      es = map (fun x => EvRead t (fst x) (snd x)) vs
  end.

Definition progress (t : tid) (p : list call) (c : cthread) (es : list ev) : Prop :=
  exists done ess, Forall2 (effect compile t) done ess /\
    ((c_pc c = Idle /\ p = done ++ c_todo c /\ es = concat ess) \/
     (exists k part, underway t (c_pc c) k part /\ p = done ++ k :: c_todo c /\ es = concat ess ++ part)).

Lemma effect_diags : forall t vs, map fst vs = [FCreated; FDiscarded; FActive; FEnabled; FReceived; FMaxQueue; FPool; FPending] ->
  effect compile t CDiags (map (fun x => EvRead t (fst x) (snd x)) vs).
Proof.
  intros t vs E. do 8 (destruct vs as [|[? ?] vs]; [discriminate|]; cbn [map fst] in E; injection E as -> E).
  destruct vs; [|discriminate]. cbn. constructor.
Qed.

Lemma cs_progress : forall t p c s c' s' es es0, cs t c s c' s' es -> progress t p c es0 -> progress t p c' (es0 ++ es).
Proof.
  intros t p c s c' s' es es0 H (done & ess & F & P).
  assert (Fin : forall k k' es1, effect compile t k es1 -> p = done ++ k :: k' -> progress t p (mkC Idle k') (concat ess ++ es1)).
  { intros k k' es1 Ef E. exists (done ++ [k]), (ess ++ [es1]). split; [apply Forall2_app; auto|]. left.
    rewrite concat_app. cbn. rewrite app_nil_r, <- app_assoc. auto. }
  assert (Und : forall pc k k' es1, underway t pc k es1 -> p = done ++ k :: k' -> progress t p (mkC pc k') (concat ess ++ es1)).
  { intros pc k k' es1 Ef E. exists done, ess. split; auto. right. exists k, es1. auto. }
  destruct H; cbn [c_pc c_todo] in P;
    (destruct P as [(P1 & P2 & ->)|(k0 & part & P1 & P2 & ->)]; try discriminate P1; cbn [underway] in P1; try contradiction P1);
    rewrite <- ?app_assoc; cbn [app].
  all: try (eapply Fin; [econstructor; eauto|eauto]; fail).
  all: try (eapply Und; [|eauto]; cbn; auto; fail).
  all: try (rewrite ?app_nil_r; eapply Und; [|eauto]; cbn; auto; fail).
  all: try (destruct P1 as (-> & ->); eapply Fin; [econstructor; eauto|eauto]; fail).
  - (* diags *) eapply Und; [|eauto]. cbn. split; auto. exists []. auto.
  - (* push *) destruct P1 as [(-> & ->)|(-> & ->)]; eapply Fin; eauto; constructor.
  - (* diags read *) destruct P1 as (-> & vs & E & ->). rewrite app_nil_r in *. eapply Fin; eauto. apply effect_diags; auto.
  - destruct P1 as (-> & vs & E & ->). eapply Und; eauto. cbn. split; auto. exists (vs ++ [(f, read_field s f)]).
    rewrite !map_app, <- app_assoc. auto.
  - destruct P1 as (-> & vs & E & ->). eapply Und; eauto. cbn. split; auto. exists (vs ++ [(FEnabled, n)]).
    rewrite !map_app, <- app_assoc. auto.
Qed.

Definition all_progress (progs : list (list call)) w tr : Prop :=
  forall i c, nth_error (w_clients w) i = Some c -> exists p es, nth_error progs i = Some p /\ progress (Client i) p c es /\ sub es tr.

Lemma reaches_progress : forall sn g lf progs w tr, reaches sn g lf progs w tr -> all_progress progs w tr.
Proof.
  intros sn g lf progs w tr H. eapply (reaches_inv compile rmatch (all_progress progs)); [| |exact H].
  - intros i c Hi. cbn in Hi. rewrite nth_error_map in Hi. destruct (nth_error progs i) as [p|]; [|discriminate]. injection Hi as <-.
    exists p, []. split; auto. split; [|constructor]. exists [], []. split; [constructor|]. left. auto.
  - clear. intros w w' tr es I H j d Hj. destruct H as [w i c c' s' es Hc Hi H | w s' es Hc H | w Hc Hs]; sfields.
    + destruct (Nat.eq_dec i j) as [->|N].
      * rewrite (nth_error_upd_eq _ _ _ _ Hi) in Hj. injection Hj as <-. destruct (I j c Hi) as (p & es0 & Hp & Pr & Sb).
        exists p, (es0 ++ es). split; auto. split; [eapply cs_progress; eauto|]. apply sub_app; auto. apply sub_refl.
      * rewrite nth_error_upd_neq in Hj by auto. destruct (I j d Hj) as (p & es0 & Hp & Pr & Sb).
        exists p, es0. split; auto. split; auto. apply sub_right; auto.
    + destruct (I j d Hj) as (p & es0 & Hp & Pr & Sb). exists p, es0. split; auto. split; auto. apply sub_right; auto.
    + destruct (I j d Hj) as (p & es0 & Hp & Pr & Sb). exists p, es0. split; auto. split; auto. apply sub_right; auto.
Qed.

Lemma sub_left : forall (A : Type) (a b c : list A), sub (a ++ b) c -> sub a c.
Proof.
  intros A a b c H. remember (a ++ b) as x eqn:E. revert a E. induction H; intros a' E.
  - destruct a'; [constructor|discriminate].
  - apply sub_skip; auto.
  - destruct a'; [constructor|]. injection E as <- E. apply sub_take; auto.
Qed.

Lemma calls_effective : forall sn g lf progs w tr i p c, reaches sn g lf progs w tr ->
  nth_error progs i = Some p -> nth_error (w_clients w) i = Some c ->
  exists done now ess, p = done ++ now ++ c_todo c /\ List.length now <= 1 /\ (c_pc c = Idle -> now = []) /\
    Forall2 (effect compile (Client i)) done ess /\ sub (concat ess) tr.
Proof.
  intros sn g lf progs w tr i p c H Hp Hi.
  destruct (reaches_progress _ _ _ _ _ _ H i c Hi) as (p' & es & Hp' & (done & ess & F & P) & Sb).
  rewrite Hp in Hp'. injection Hp' as <-. destruct P as [(P1 & -> & ->)|(k & part & P1 & -> & ->)].
  - exists done, [], ess. repeat split; auto.
  - exists done, [k], ess. split; [auto|]. split; [auto|]. split; [intros E; rewrite E in P1; destruct P1|]. split; auto. eapply sub_left; eauto.
Qed.

(** ** C39: when a detached listener is left alone *)

(** 1: detached; 2: and the dispatch of a message began; 3: and ended.  Being added again
    leads back to 1. *)
Fixpoint phase (l : nat) (tr : list ev) (n : nat) : nat :=
  match tr with
  | [] => n
  | EvDetach l' :: tr' => phase l tr' (if l =? l' then Nat.max n 1 else n)
  | EvBegin _ :: tr' => phase l tr' (if n =? 1 then 2 else n)
  | EvClean :: tr' => phase l tr' (if n =? 2 then 3 else n)
  | EvAdd l' :: tr' => phase l tr' (if l =? l' then Nat.min n 1 else n)
  | _ :: tr' => phase l tr' n
  end.

Lemma phase_app : forall l x y n, phase l (x ++ y) n = phase l y (phase l x n).
Proof. intros l x. induction x as [|[] x IH]; intros; simpl; auto. Qed.

Lemma phase_1 : forall l tr n, 1 <= n -> 1 <= phase l tr n.
Proof.
  intros l tr. induction tr as [|e tr IH]; intros n H; [auto|].
  destruct e; cbn [phase]; try (apply IH; auto; fail); apply IH.
  - destruct (n =? 1); lia.
  - destruct (n =? 2); lia.
  - destruct (l =? l0); lia.
  - destruct (l =? l0); lia.
Qed.
Lemma phase_up : forall l tr k n, 2 <= k -> ~ In (EvAdd l) tr -> k <= n -> k <= phase l tr n.
Proof.
  intros l tr k. induction tr as [|e tr IH]; intros n K N H; [auto|].
  assert (N' : ~ In (EvAdd l) tr) by (intros I; apply N; right; auto).
  destruct e; cbn [phase]; try (apply IH; auto; fail); apply IH; auto.
  - destruct (Nat.eqb_spec n 1); lia.
  - destruct (Nat.eqb_spec n 2); lia.
  - destruct (Nat.eqb_spec l l0); [subst; exfalso; apply N; left; auto|auto].
  - destruct (l =? l0); lia.
Qed.

Definition phase_inv l w tr : Prop :=
  let n := phase l tr 0 in
  (1 <= n -> l_detached (lst (w_sys w) l) = true) /\
  (2 <= n -> cnt l (pending (w_sys w)) = 0) /\
  (3 <= n -> cnt l (active (w_sys w)) = 0 /\ cnt l (left_now (w_sys w)) = 0) /\
  (2 <= n -> match logt (w_sys w) with TClean _ k _ => cnt l k = 0 | _ => True end).

Lemma cs_phase : forall t c s c' s' es, cs t c s c' s' es -> forall l n,
  (1 <= n -> l_detached (lst s l) = true) -> (2 <= n -> cnt l (pending s) = 0) ->
  (1 <= phase l es n -> l_detached (lst s' l) = true) /\ (2 <= phase l es n -> cnt l (pending s') = 0) /\ (3 <= phase l es n -> 3 <= n) /\ (2 <= phase l es n -> 2 <= n).
Proof.
  intros t c s c' s' es H l n A B.
  assert (D : l_detached (lst s l) = true -> l_detached (lst s' l) = true) by (intros; eapply cs_detached; eauto).
  destruct H; sfields; nsimp; cbn [phase]; try (repeat split; auto; fail).
  - destruct (Nat.eqb_spec l l0); [split; [|split]; try lia|]; [intros; apply A; lia|].
    split; [auto|]. split; [|auto]. intros X. rewrite cnt_app, cnt_cons, cnt_nil, B by auto. destruct (Nat.eq_dec l0 l); [congruence|auto].
  - destruct (Nat.eqb_spec l l0); [|split; [auto|split; auto]]. subst l0. split; [intros _; unfold upd_lst; rewrite Nat.eqb_refl; auto|].
    split; [|lia]. intros X. apply B. lia.
  - psimp o s. rewrite P10, P12. auto.
Qed.

Lemma st_phase : forall l w w' tr es, phase_inv l w tr -> st w w' es -> phase_inv l w' (tr ++ es).
Proof.
  intros l w w' tr es (A & B & C & D) H. unfold phase_inv. rewrite phase_app. set (n := phase l tr 0) in *. clearbody n.
  destruct H as [w i c c' s' es Hc Hi H | w s' es Hc H | w Hc Hs]; sfields.
  - destruct (left_same compile rmatch _ _ _ _ _ _ H) as (-> & ->). destruct (cs_phase _ _ _ _ _ _ H l n A B) as (X & Y & Z & V).
    split; [auto|]. split; [auto|]. split; [auto|]. intros Q. exact (cs_clean compile _ _ _ _ _ _ H (fun k _ => cnt l k = 0) (D (V Q))).
  - destruct w as [s cl]. sfields. unfold left_now in *.
    destruct H; try (match goal with H : logt _ = _ |- _ => rewrite H in * end); sfields; cbn [phase cnt count_occ]; try (split; [auto|split; auto]; fail).
    + destruct (Nat.eqb_spec n 1); (split; [|split; [|split]]); intros X; try (apply A; lia); auto; try lia.
      rewrite cnt_app, B by lia. destruct (C X) as (-> & _). auto.
    + split; [auto|]. split; [auto|]. split; [|auto]. intros X. destruct (C X) as (C1 & C2). rewrite cnt_cons in C2. split; auto. lia.
    + split; [auto|]. split; [auto|]. split; [|auto]. intros X. destruct (C X) as (C1 & C2). rewrite cnt_cons in C2. split; auto. lia.
    + split; [auto|]. split; [auto|]. split; [|auto]. intros X. destruct (C X) as (C1 & C2). rewrite cnt_cons in C2. split; auto. lia.
    + split; [auto|]. split; [auto|]. split; [|auto]. intros X. destruct (C X) as (C1 & C2). rewrite cnt_cons in C2. split; auto. lia.
    + destruct (cs_phase _ _ _ _ _ _ H0 l n A B) as (X & Y & Z & V). split; [auto|]. split; [auto|]. split; [|auto].
      intros W. destruct (C (Z W)). destruct (cs_over _ _ _ _ _ _ H0 l) as (_ & _ & -> & _). auto.
    + split; [auto|]. split; [auto|]. split; [auto|]. intros X. specialize (D X). destruct (Nat.eq_dec l0 l) as [->|N]; [rewrite A by lia; auto|].
      destruct (l_detached (lst s l0)); auto. rewrite cnt_app, cnt_cons, cnt_nil. destruct (Nat.eq_dec l0 l); [congruence|lia].
    + destruct (Nat.eqb_spec n 2); (split; [|split; [|split]]); intros X; try (apply A; lia); try (apply B; lia); auto.
      * split; auto. apply D. lia.
      * split; auto. apply D. lia.
  - unfold left_now in *. rewrite Hs in *. cbn [phase]. auto.
Qed.

Lemma detached_quiet : forall sn g lf progs w t1 l t2 m t3 t4,
  reaches sn g lf progs w (t1 ++ EvDetach l :: t2 ++ EvBegin m :: t3 ++ EvClean :: t4) ->
  ~ In (EvAdd l) (t3 ++ t4) -> delivered_to l t4 = [].
Proof.
  intros sn g lf progs w t1 l t2 m t3 t4 H N. rewrite in_app_iff in N.
  destruct (delivered_to l t4) as [|m' ms] eqn:E; auto. exfalso.
  assert (I : exists m', In (EvDeliver l m') t4).
  { clear - E. exists m'. revert E. induction t4 as [|e t4 IH]; cbn; [discriminate|].
    destruct e; cbn; intros E; auto. destruct (Nat.eqb_spec l l0); [|auto]. injection E as -> E. subst. auto. }
  destruct I as (m1 & I). apply in_split in I. destruct I as (u & v & ->).
  replace (t1 ++ EvDetach l :: t2 ++ EvBegin m :: t3 ++ EvClean :: u ++ EvDeliver l m1 :: v)
    with ((t1 ++ EvDetach l :: t2 ++ EvBegin m :: t3 ++ EvClean :: u) ++ EvDeliver l m1 :: v) in H
    by (repeat rewrite <- app_assoc; cbn; repeat rewrite <- app_assoc; cbn; repeat rewrite <- app_assoc; reflexivity).
  apply reaches_split in H. destruct H as (w1 & w2 & p & q & r & R & S & Ep).
  apply deliver_st in S. destruct S as (-> & -> & o & rest & L & _).
  assert (P : phase_inv l w1 p).
  { eapply (reaches_inv compile rmatch (phase_inv l)); [| |exact R].
    - split; [|split; [|split]]; cbn; try lia.
    - clear. intros. eapply st_phase; eauto. }
  destruct P as (_ & _ & P & _). replace (phase l p 0) with (phase l (t1 ++ EvDetach l :: t2 ++ EvBegin m :: t3 ++ EvClean :: u) 0) in P
    by (rewrite Ep, phase_app; reflexivity).
  destruct P as (_ & P).
  - rewrite phase_app. cbn [phase]. rewrite Nat.eqb_refl, phase_app. cbn [phase].
    rewrite phase_app. cbn [phase]. apply phase_up; [lia|intros I; apply N; right; apply in_app_iff; auto|].
    pose proof (phase_1 l t2 (Nat.max (phase l t1 0) 1)). 
    assert (2 <= phase l t3 (if phase l t2 (Nat.max (phase l t1 0) 1) =? 1 then 2 else phase l t2 (Nat.max (phase l t1 0) 1))).
    { apply phase_up; [lia|tauto|]. destruct (Nat.eqb_spec (phase l t2 (Nat.max (phase l t1 0) 1)) 1); lia. }
    set (x := phase l t3 _) in *. destruct (Nat.eqb_spec x 2); lia.
  - unfold left_now in P. rewrite L, cnt_cons in P. destruct (Nat.eq_dec l l); [lia|congruence].
Qed.

End Log.
