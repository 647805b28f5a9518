(** * LogSystem: what each listener receives *)
From Coq Require Import ZArith String Bool List Arith Lia.
From Verif Require Import Base ListFacts LogModel LogSpec LogProofs LogOrder LogCount LogStop.
Import ListNotations.
Open Scope list_scope.

Section Log.
Context {RE : Type}.
Variable compile : string -> option RE.
Variable rmatch : string -> RE -> bool.
Notation sys := (@sys RE).
Notation world := (@world RE).
Notation cs := (@cs RE compile).
Notation ls := (@ls RE compile rmatch).
Notation st := (@st RE compile rmatch).
Notation run := (run compile rmatch).
Notation step := (step compile rmatch).
Notation reaches := (reaches compile rmatch).
Implicit Types (s : sys) (w : world).

Lemma adds_app : forall l a b, adds l (a ++ b) = adds l a + adds l b.
Proof. intros. unfold adds. rewrite pick_app, app_length. auto. Qed.
Lemma delivered_app : forall l a b, delivered_to l (a ++ b) = delivered_to l a ++ delivered_to l b.
Proof. intros. unfold delivered_to. rewrite pick_app. auto. Qed.

(** Registrations of [l] after a trace: active, pending. *)
Fixpoint regs (l : nat) (tr : list ev) (a p : nat) : nat * nat :=
  match tr with
  | [] => (a, p)
  | EvAdd l' :: tr' => regs l tr' a (if l =? l' then S p else p)
  | EvBegin _ :: tr' => regs l tr' (a + p) 0
  | _ :: tr' => regs l tr' a p
  end.

Lemma regs_app : forall l x y a p, regs l (x ++ y) a p = regs l y (fst (regs l x a p)) (snd (regs l x a p)).
Proof. intros l x. induction x as [|[] x IH]; intros; simpl; auto. Qed.

Lemma expected_app : forall L l x y a p, expected rmatch L l (x ++ y) a p =
  expected rmatch L l x a p ++ expected rmatch L l y (fst (regs l x a p)) (snd (regs l x a p)).
Proof. intros L l x. induction x as [|[] x IH]; intros; simpl; auto. rewrite IH, app_assoc. auto. Qed.

(** Listeners still to be served in this dispatch. *)
Definition left_now s : list nat :=
  match logt s with
  | TCount _ => active s
  | TSend _ rest | TCall _ rest _ => rest
  | TLevel _ l rest | TCat _ l rest => l :: rest
  | _ => []
  end.

Definition current s : msg :=
  match logt s with
  | TGot o | TCount o | TSend o _ | TLevel o _ _ | TCat o _ _ | TCall o _ _ => content s o
  | _ => empty_msg
  end.

Definition filter_inv (L : @listener RE) l w tr : Prop :=
  lst (w_sys w) l = L /\
  regs l tr 0 0 = (cnt l (active (w_sys w)), cnt l (pending (w_sys w))) /\
  expected rmatch L l tr 0 0 = delivered_to l tr ++
    (if wants rmatch L (current (w_sys w)) then repeat (current (w_sys w)) (cnt l (left_now (w_sys w))) else []) /\
  match logt (w_sys w) with
  | TLevel _ l' _ => l' = l -> l_enabled L = true
  | TCat o l' _ => l' = l -> l_enabled L = true /\ (m_level (content (w_sys w) o) <= l_level L)%Z
  | TClean _ k t => cnt l k + cnt l t = cnt l (active (w_sys w))
  | _ => True
  end.

Lemma cs_silent : forall t c s c' s' es, cs t c s c' s' es -> forall l L,
  delivered_to l es = [] /\ (forall a p, expected rmatch L l es a p = []) /\
  active s' = active s /\
  (forall a, regs l es a (cnt l (pending s)) = (a, cnt l (pending s'))) /\
  (~ In l (changed es) -> lst s' l = lst s l).
Proof.
  intros t c s c' s' es H l L.
  destruct H; sfields; nsimp; cbn [delivered_to pick expected regs]; try (repeat split; auto; fail).
  - repeat split; auto. intros a. f_equal. rewrite cnt_app, cnt_cons, cnt_nil.
    destruct (Nat.eqb_spec l l0), (Nat.eq_dec l0 l); try congruence; lia.
  - repeat split; auto. intros N. unfold upd_lst. destruct (Nat.eqb_spec l l0); auto. subst. exfalso. apply N. left; reflexivity.
  - repeat split; auto. intros N. unfold upd_lst. destruct (Nat.eqb_spec l l0); auto. subst. exfalso. apply N. left; reflexivity.
  - repeat split; auto. intros N. unfold upd_lst. destruct (Nat.eqb_spec l l0); auto. subst. exfalso. apply N. left; reflexivity.
  - repeat split; auto. intros N. unfold upd_lst. destruct (Nat.eqb_spec l l0); auto. subst. exfalso. apply N. left; reflexivity.
  - psimp o s. rewrite P10, P11, P12. repeat split; auto.
Qed.

(** The message in the log thread's hands does not change under it. *)
Lemma st_current : forall w w' es i c c' s', own w -> crashed (w_sys w) = None -> nth_error (w_clients w) i = Some c ->
  cs (Client i) c (w_sys w) c' s' es -> w' = mkWorld s' (upd i (fun _ => c') (w_clients w)) ->
  current s' = current (w_sys w) /\ (forall o, In o (held_t (logt (w_sys w))) -> content s' o = content (w_sys w) o).
Proof.
  intros w w' es i c c' s' O C Hi H E.
  assert (X : forall o, In o (held_t (logt (w_sys w))) -> content s' o = content (w_sys w) o).
  { intros o Io. eapply cs_content; eauto.
    - apply own_live; auto. unfold places. rewrite !in_app_iff. auto.
    - intros Ic. apply (client_held _ _ _ _ Hi) in Ic. pose proof (own_le _ o O) as L. unfold places in L. rewrite !cnt_app in L.
      apply cnt_pos in Io, Ic. lia. }
  split; auto. unfold current. destruct (cs_logt _ _ _ _ _ _ _ H) as [E1|[E1 E2]].
  - rewrite E1. destruct (logt (w_sys w)); auto; apply X; left; auto.
  - pose proof (cs_held _ _ _ _ _ _ _ H) as E3. rewrite E1 in E3. destruct (logt (w_sys w)), (logt s'); try discriminate; auto.
Qed.

Lemma nested_content : forall s cl o rest c c' s' es, own (mkWorld s cl) -> logt s = TCall o rest c -> cs LogThread c s c' s' es ->
  content s' o = content s o.
Proof.
  intros s cl o rest c c' s' es O H H0. eapply cs_content; eauto.
  - apply (own_live (mkWorld s cl)); auto. unfold places. rewrite !in_app_iff. sfields. rewrite H. cbn. auto.
  - intros Ic. pose proof (own_le _ o O) as L. unfold places in L. sfields. rewrite H in L. cbn [held_t] in L.
    rewrite !cnt_app, cnt_cons in L. apply cnt_pos in Ic. destruct (Nat.eq_dec o o); [lia|congruence].
Qed.

Lemma cnt_filter : forall l f xs, f l = true -> cnt l (filter f xs) = cnt l xs.
Proof.
  intros l f xs H. induction xs as [|x xs IH]; auto. cbn [filter]. destruct (f x) eqn:E.
  - rewrite !cnt_cons, IH. auto.
  - rewrite cnt_cons, IH. destruct (Nat.eq_dec x l); [congruence|auto].
Qed.
Lemma cnt_filter0 : forall l f xs, f l = false -> cnt l (filter f xs) = 0.
Proof.
  intros l f xs H. induction xs as [|x xs IH]; auto. cbn [filter]. destruct (f x) eqn:E; auto.
  rewrite !cnt_cons, IH. destruct (Nat.eq_dec x l); [congruence|auto].
Qed.

Lemma wants_off : forall (L : @listener RE) m, l_enabled L = false -> wants rmatch L m = false.
Proof. intros L m H. unfold wants. rewrite H. auto. Qed.
Lemma wants_level : forall (L : @listener RE) m, (m_level m > l_level L)%Z -> wants rmatch L m = false.
Proof. intros L m H. unfold wants. rewrite (proj2 (Z.leb_gt _ _)) by lia. rewrite andb_false_r. auto. Qed.
Lemma check_or : forall (L : @listener RE) cat, checkCategory rmatch L cat =
  (String.eqb cat "" || String.eqb (l_category L) "" || rmatch cat (l_regex L)).
Proof. intros L cat. unfold checkCategory. destruct (String.eqb cat ""), (String.eqb (l_category L) ""); auto. Qed.
Lemma wants_cat : forall (L : @listener RE) m, l_enabled L = true -> (m_level m <= l_level L)%Z ->
  wants rmatch L m = checkCategory rmatch L (m_cat m).
Proof. intros L m H1 H2. unfold wants. rewrite H1, (proj2 (Z.leb_le _ _)), check_or by lia. auto. Qed.

Lemma ite_nil : forall (A : Type) (b : bool), (if b then @nil A else []) = [].
Proof. destruct b; auto. Qed.

Lemma st_filter : forall L l w w' tr es, own w -> l_detached L = false -> ~ In l (changed es) -> filter_inv L l w tr -> st w w' es ->
  filter_inv L l w' (tr ++ es).
Proof.
  intros L l w w' tr es O Hd Ns (A & R & X & K) H. unfold filter_inv.
  rewrite regs_app, expected_app, delivered_app, R, X. cbn [fst snd].
  destruct H as [w i c c' s' es Hc Hi H | w s' es Hc H | w Hc Hs]; sfields.
  - destruct (st_current w _ es i c c' s' O Hc Hi H eq_refl) as (Cu & Xt).
    destruct (cs_silent _ _ _ _ _ _ H l L) as (S1 & S2 & S3 & S4 & S5).
    rewrite S1, S2, S4, Cu, S3, !app_nil_r. split; [rewrite S5; auto|]. split; [auto|].
    assert (Ln : left_now s' = left_now (w_sys w)).
    { unfold left_now. rewrite S3. destruct (cs_logt _ _ _ _ _ _ _ H) as [->|[E1 E2]]; auto.
      pose proof (cs_held _ _ _ _ _ _ _ H) as E3. rewrite E1 in E3. destruct (logt (w_sys w)), (logt s'); try discriminate; auto. }
    split; [rewrite Ln; auto|].
    destruct (cs_logt _ _ _ _ _ _ _ H) as [->|[E1 E2]].
    + destruct (logt (w_sys w)); auto. rewrite Xt; auto. left; auto.
    + pose proof (cs_held _ _ _ _ _ _ _ H) as E3. rewrite E1 in E3. destruct (logt (w_sys w)), (logt s'); try discriminate; auto.
  - destruct w as [s cl]. sfields. unfold left_now, current in *.
    destruct H; try (match goal with H : logt _ = _ |- _ => rewrite H in * end); sfields; cbn [delivered_to pick expected regs] in *;
      rewrite ?app_nil_r, ?cnt_nil in *; cbn [repeat] in *;
      rewrite ?ite_nil in *; try (repeat split; auto; fail).
    + (* begin *) split; [auto|]. split; [rewrite cnt_app; auto|]. split; [|auto]. rewrite app_nil_r, cnt_app. reflexivity.
    + (* enabled *) split; [auto|]. split; [auto|]. split; [reflexivity|]. intros ->. congruence.
    + (* disabled *) split; [auto|]. split; [auto|]. split; [|auto]. rewrite cnt_cons, content_set_logt.
      destruct (Nat.eq_dec l0 l) as [->|N]; [|reflexivity]. rewrite !wants_off; auto; congruence.
    + (* level *) split; [auto|]. split; [auto|]. split; [reflexivity|]. intros ->. split; [auto|].
      rewrite content_set_logt. rewrite A in H0. auto.
    + (* no level *) split; [auto|]. split; [auto|]. split; [|auto]. rewrite cnt_cons, content_set_logt.
      destruct (Nat.eq_dec l0 l) as [->|N]; [|reflexivity]. rewrite !wants_level; auto; congruence.
    + (* deliver *) split; [auto|]. split; [auto|]. split; [|auto]. rewrite cnt_cons, content_set_logt.
      destruct (Nat.eq_dec l0 l) as [->|N].
      * rewrite Nat.eqb_refl. destruct (K eq_refl) as (K1 & K2).
        rewrite wants_cat by auto. rewrite A in H0. rewrite H0. rewrite <- app_assoc. reflexivity.
      * destruct (Nat.eqb_spec l l0); [congruence|]. rewrite app_nil_r. reflexivity.
    + (* no category *) split; [auto|]. split; [auto|]. split; [|auto]. rewrite cnt_cons, content_set_logt.
      destruct (Nat.eq_dec l0 l) as [->|N]; [|reflexivity].
      destruct (K eq_refl) as (K1 & K2). rewrite wants_cat by auto. rewrite A in H0. rewrite H0. auto.
    + (* nested *) pose proof (nested_content _ _ _ _ _ _ _ _ O H H0) as Ct.
      destruct (cs_silent _ _ _ _ _ _ H0 l L) as (S1 & S2 & S3 & S4 & S5).
      rewrite S1, S2, S4, S3, content_set_logt, Ct, !app_nil_r. split; [rewrite S5; auto|]. auto.
    + (* ask *) split; [auto|]. split; [auto|]. split; [auto|]. rewrite <- K, cnt_cons.
      destruct (Nat.eq_dec l0 l) as [->|N]; [rewrite A, Hd, cnt_app, cnt_cons, cnt_nil; destruct (Nat.eq_dec l l); [lia|congruence]|].
      destruct (l_detached (lst s l0)); [|rewrite cnt_app, cnt_cons, cnt_nil; destruct (Nat.eq_dec l0 l); [congruence|]]; lia.
    + (* clean *) split; [auto|]. split; [|auto]. rewrite <- K. f_equal. lia.
  - cbn [delivered_to pick expected regs]. unfold left_now, current in *. rewrite Hs in *. sfields. rewrite ?ite_nil, !app_nil_r. cbn [cnt].
    auto.
Qed.

Lemma reaches_filter : forall sn g lf progs w tr l, reaches sn g lf progs w tr -> ~ In l (changed tr) -> l_detached (lf l) = false ->
  filter_inv (lf l) l w tr.
Proof.
  intros sn g lf progs w tr l H N D.
  assert (I : own w /\ (~ In l (changed tr) -> filter_inv (lf l) l w tr)).
  { eapply (reaches_inv compile rmatch (fun w tr => own w /\ (~ In l (changed tr) -> filter_inv (lf l) l w tr))); [| |exact H].
    - split; [apply init_own|]. intros _. split; [reflexivity|]. split; [reflexivity|]. split; [|destruct sn; exact I].
      unfold left_now, current. destruct sn; cbn; rewrite ite_nil; auto.
    - clear w tr H N. intros w w' tr es (O & I) S. split; [eapply st_own; eauto|].
      intros N. rewrite changed_app, in_app_iff in N. eapply st_filter; eauto. }
  apply I; auto.
Qed.

Lemma filter_exact : forall sn g lf progs w tr l, reaches sn g lf progs w tr -> ~ In l (changed tr) -> l_detached (lf l) = false ->
  (exists n, expected rmatch (lf l) l tr 0 0 = delivered_to l tr ++ flat_map (fun m => repeat m n) (unended w)) /\
  (unended w = [] -> delivered_to l tr = expected rmatch (lf l) l tr 0 0).
Proof.
  intros sn g lf progs w tr l H N D. destruct (reaches_filter _ _ _ _ _ _ _ H N D) as (_ & _ & X & _).
  unfold left_now, current, unended in *. split.
  - rewrite X. destruct (logt (w_sys w)); cbn [cnt count_occ] in *; try (exists 0; cbn; rewrite ite_nil; auto; fail);
    destruct (wants _ _ _); try (exists 0; reflexivity); eexists; cbn [flat_map]; rewrite app_nil_r; reflexivity.
  - rewrite X. destruct (logt (w_sys w)); try discriminate; intros _; cbn; rewrite ite_nil, app_nil_r; auto.
Qed.

(** Added once. *)
Lemma expected_before : forall L l tr, ~ In (EvAdd l) tr -> expected rmatch L l tr 0 0 = [] /\ regs l tr 0 0 = (0, 0).
Proof.
  intros L l tr. induction tr as [|e tr IH]; intros N; [auto|].
  assert (N' : ~ In (EvAdd l) tr) by (intros I; apply N; right; auto). specialize (IH N').
  destruct e; cbn [expected regs]; auto.
  - destruct (wants rmatch L m); auto.
  - destruct (Nat.eqb_spec l l0); [subst; exfalso; apply N; left; auto|]. auto.
Qed.

Lemma expected_once : forall L l tr, ~ In (EvAdd l) tr -> forall a p, a + p = 1 -> expected rmatch L l tr a p = filter (wants rmatch L) (begun tr).
Proof.
  intros L l tr. induction tr as [|e tr IH]; intros N a p E; [auto|].
  assert (N' : ~ In (EvAdd l) tr) by (intros I; apply N; right; auto). specialize (IH N').
  destruct e; cbn [expected]; try (apply IH; auto; fail).
  - cbn [begun pick filter]. change (pick _ tr) with (begun tr). rewrite (IH (a + p) 0) by lia. rewrite E. destruct (wants rmatch L m); auto.
  - destruct (Nat.eqb_spec l l0); [subst; exfalso; apply N; left; auto|]. apply IH; auto.
Qed.

Lemma filter_once : forall sn g lf progs w t1 t2 l, reaches sn g lf progs w (t1 ++ EvAdd l :: t2) ->
  ~ In (EvAdd l) t1 -> ~ In (EvAdd l) t2 -> ~ In l (changed (t1 ++ t2)) -> l_detached (lf l) = false ->
  prefix (delivered_to l (t1 ++ EvAdd l :: t2)) (filter (wants rmatch (lf l)) (begun t2)) /\
  (unended w = [] -> delivered_to l (t1 ++ EvAdd l :: t2) = filter (wants rmatch (lf l)) (begun t2)).
Proof.
  intros sn g lf progs w t1 t2 l H N1 N2 N3 D.
  assert (N : ~ In l (changed (t1 ++ EvAdd l :: t2))).
  { rewrite changed_app, in_app_iff in *. auto. }
  destruct (filter_exact _ _ _ _ _ _ _ H N D) as ((n & E) & U).
  assert (X : expected rmatch (lf l) l (t1 ++ EvAdd l :: t2) 0 0 = filter (wants rmatch (lf l)) (begun t2)).
  { rewrite expected_app. destruct (expected_before (lf l) l t1 N1) as (-> & ->). cbn [fst snd expected app]. rewrite Nat.eqb_refl.
    apply expected_once; auto. }
  rewrite X in *. split; [eexists; eauto|auto].
Qed.

Lemma cs_pending_in : forall t c s c' s' es k, cs t c s c' s' es -> In k (pending s') -> In k (pending s) \/ 0 < adds k es.
Proof.
  intros t c s c' s' es k H Hk. destruct H; sfields; nsimp; auto.
  - apply in_app_iff in Hk. destruct Hk as [Hk|[->|[]]]; auto. right. unfold adds. cbn. rewrite Nat.eqb_refl. cbn. lia.
  - psimp o s. rewrite P10 in Hk. auto.
Qed.

(** Nobody receives a message that their filter refused at the time of the check, whatever
    happens to the settings. *)
Lemma delivered_accepted : forall sn g lf progs w t1 l m t2, reaches sn g lf progs w (t1 ++ EvDeliver l m :: t2) -> 0 < adds l t1.
Proof.
  intros sn g lf progs w t1 l m t2 H. apply reaches_split in H. destruct H as (w1 & w2 & p & q & r & R & S & ->).
  apply deliver_st in S. destruct S as (-> & -> & o & rest & E & _). rewrite adds_app. cut (0 < adds l p); [lia|].
  assert (I : forall k, In k (pending (w_sys w1)) \/ In k (active (w_sys w1)) \/ In k (left_now (w_sys w1)) -> 0 < adds k p).
  { clear - R. eapply (reaches_inv_r compile rmatch sn g lf progs (fun w tr => forall k, In k (pending (w_sys w)) \/ In k (active (w_sys w)) \/ In k (left_now (w_sys w)) -> 0 < adds k tr)); [| |exact R].
    - intros k. unfold left_now. destruct sn; cbn; tauto.
    - clear. intros w w' tr es R I H k Hk. rewrite adds_app. apply (reaches_kept compile rmatch) in R. unfold kept_inv in R.
      destruct H as [w i c c' s' es Hc Hi H | w s' es Hc H | w Hc Hs]; sfields.
      + destruct (cs_silent _ _ _ _ _ _ H k (lst (w_sys w) k)) as (_ & _ & S3 & S4 & _).
        assert (Ln : left_now s' = left_now (w_sys w)).
        { unfold left_now. rewrite S3. destruct (cs_logt _ _ _ _ _ _ _ H) as [->|[E1 E2]]; auto.
          pose proof (cs_held _ _ _ _ _ _ _ H) as E3. rewrite E1 in E3. destruct (logt (w_sys w)), (logt s'); try discriminate; auto. }
        rewrite Ln, S3 in Hk. destruct Hk as [Hk|Hk]; [|assert (0 < adds k tr) by (apply I; tauto); lia].
        assert (In k (pending (w_sys w)) \/ 0 < adds k es) as [J|J]; [|assert (0 < adds k tr) by (apply I; tauto); lia|lia].
        eapply cs_pending_in; eauto.
      + destruct w as [s cl]. sfields. unfold left_now in *.
        assert (G : forall x, In k x -> (forall y, In y x -> In y (pending s) \/ In y (active s) \/ In y (left_now s)) -> 0 < adds k tr).
        { intros x Ix Hx. apply I. apply Hx. auto. }
        destruct H; try (match goal with H : logt _ = _ |- _ => rewrite H in I, R end); sfields; cbn [In] in *;
          try (assert (0 < adds k tr) by (apply I; cbn; intuition auto); lia).
        * assert (0 < adds k tr); [|lia]. apply I. rewrite in_app_iff in Hk. tauto.
        * destruct (cs_silent _ _ _ _ _ _ H0 k (lst s k)) as (_ & _ & S3 & S4 & _). rewrite S3 in Hk.
          destruct Hk as [Hk|Hk]; [|assert (0 < adds k tr) by (apply I; tauto); lia].
          assert (In k (pending s) \/ 0 < adds k es) as [J|J]; [|assert (0 < adds k tr) by (apply I; tauto); lia|lia].
          eapply cs_pending_in; eauto.
        * assert (0 < adds k tr); [|lia]. apply I. destruct Hk as [Hk|[Hk|Hk]]; auto. right; left. apply cnt_pos. apply cnt_pos in Hk.
          destruct R as (R & _). specialize (R k). lia.
      + unfold left_now in *. cbn in Hk. rewrite Hs in I. assert (0 < adds k tr); [|lia]. apply I. tauto. }
  apply I. right; right. unfold left_now. rewrite E. left; auto.
Qed.

(** ** C39 *)
(** How often [l] can still be called if it is detached. *)
Definition possible l s : nat :=
  match logt s with
  | TCount _ | TSend _ _ | TLevel _ _ _ | TCat _ _ _ | TCall _ _ _ => cnt l (left_now s) + cnt l (pending s)
  | TClean _ kept _ => cnt l kept + cnt l (pending s)
  | _ => cnt l (active s) + cnt l (pending s)
  end.

Definition reg_inv l w tr : Prop :=
  cnt l (active (w_sys w)) + cnt l (pending (w_sys w)) <= adds l tr /\ cnt l (left_now (w_sys w)) <= cnt l (active (w_sys w)).

Lemma cs_pending : forall t c s c' s' es l, cs t c s c' s' es ->
  cnt l (pending s') = cnt l (pending s) + adds l es.
Proof.
  intros t c s c' s' es l H. destruct H; sfields; nsimp; cbn [adds pick]; auto.
  - unfold adds. cbn [pick]. rewrite cnt_app, cnt_cons, cnt_nil. destruct (Nat.eqb_spec l l0), (Nat.eq_dec l0 l); try congruence; cbn; lia.
  - psimp o s. rewrite P10. unfold adds. cbn. lia.
Qed.

Lemma ls_adds : forall s s' es l, ls s s' es -> (forall o rest c, logt s <> TCall o rest c) -> adds l es = 0.
Proof. intros s s' es l H N. destruct H; auto. exfalso. eapply N; eauto. Qed.

Lemma left_same : forall i c s c' s' es, cs (Client i) c s c' s' es -> left_now s' = left_now s /\ active s' = active s.
Proof.
  intros i c s c' s' es H. destruct (cs_silent _ _ _ _ _ _ H 0 (lst s 0)) as (_ & _ & S3 & _). split; auto.
  unfold left_now. rewrite S3. destruct (cs_logt _ _ _ _ _ _ _ H) as [->|[E1 E2]]; auto.
  pose proof (cs_held _ _ _ _ _ _ _ H) as E3. rewrite E1 in E3. destruct (logt s), (logt s'); try discriminate; auto.
Qed.

Lemma st_reg : forall w w' tr es l, kept_inv (w_sys w) -> reg_inv l w tr -> st w w' es -> reg_inv l w' (tr ++ es).
Proof.
  intros w w' tr es l K (A & B) H. unfold kept_inv in K. unfold reg_inv. rewrite adds_app.
  destruct H as [w i c c' s' es Hc Hi H | w s' es Hc H | w Hc Hs]; sfields.
  - rewrite (cs_pending _ _ _ _ _ _ l H). destruct (left_same _ _ _ _ _ _ H) as (-> & ->). lia.
  - destruct w as [s cl]. sfields. unfold left_now in *.
    destruct H; try (match goal with H : logt _ = _ |- _ => rewrite H in B, K end); sfields; rewrite ?cnt_cons, ?cnt_nil in *;
      try (split; lia).
    + rewrite cnt_app. lia.
    + rewrite (cs_pending _ _ _ _ _ _ l H0). destruct (cs_silent _ _ _ _ _ _ H0 l (lst s l)) as (_ & _ & -> & _). lia.
    + destruct K as (K & _). specialize (K l). rewrite cnt_nil in K. lia.
  - unfold left_now in *. rewrite Hs in B. sfields. cbn in *. lia.
Qed.

Lemma reaches_reg : forall sn g lf progs w tr l, reaches sn g lf progs w tr -> reg_inv l w tr.
Proof.
  intros sn g lf progs w tr l H. eapply (reaches_inv_r compile rmatch sn g lf progs (reg_inv l)); [| |exact H].
  - split; cbn; auto. unfold left_now. destruct sn; auto.
  - clear. intros w w' tr es R I H. eapply st_reg; eauto. eapply reaches_kept; eauto.
Qed.

Lemma cs_detached : forall t c s c' s' es l, cs t c s c' s' es -> l_detached (lst s l) = true -> l_detached (lst s' l) = true.
Proof.
  intros t c s c' s' es l H D. destruct H; sfields; nsimp; auto; try (unfold upd_lst; destruct (Nat.eqb_spec l l0); [subst|]; auto).
  psimp o s. rewrite P12. auto.
Qed.

Lemma st_detached : forall w w' es l, l_detached (lst (w_sys w) l) = true -> st w w' es ->
  l_detached (lst (w_sys w') l) = true /\ List.length (delivered_to l es) + possible l (w_sys w') <= possible l (w_sys w) + adds l es.
Proof.
  intros w w' es l D H. destruct H as [w i c c' s' es Hc Hi H | w s' es Hc H | w Hc Hs]; sfields.
  - split; [eapply cs_detached; eauto|]. destruct (cs_silent _ _ _ _ _ _ H l (lst (w_sys w) l)) as (-> & _).
    destruct (left_same _ _ _ _ _ _ H) as (L1 & L2). unfold possible. rewrite L1, L2, (cs_pending _ _ _ _ _ _ l H). cbn [List.length].
    destruct (cs_logt _ _ _ _ _ _ _ H) as [->|[E1 E2]]; [destruct (logt (w_sys w)); lia|].
    pose proof (cs_held _ _ _ _ _ _ _ H) as E3. rewrite E1 in E3. destruct (logt (w_sys w)), (logt s'); try discriminate; lia.
  - destruct w as [s cl]. sfields. unfold possible, left_now in *.
    destruct H; try (match goal with H : logt _ = _ |- _ => rewrite H end); sfields; cbn [delivered_to pick List.length];
      rewrite ?cnt_cons, ?cnt_nil; try (split; [auto|lia]).
    + split; auto. rewrite cnt_app. lia.
    + split; auto. destruct (Nat.eqb_spec l l0), (Nat.eq_dec l0 l); try congruence; cbn; lia.
    + split; [eapply cs_detached; eauto|]. destruct (cs_silent _ _ _ _ _ _ H0 l (lst s l)) as (-> & _).
      rewrite (cs_pending _ _ _ _ _ _ l H0). cbn [List.length]. lia.
    + split; auto. destruct (Nat.eq_dec l0 l) as [->|N]; [rewrite D; lia|].
      destruct (l_detached (lst s l0)); [lia|]. rewrite cnt_app, cnt_cons, cnt_nil. destruct (Nat.eq_dec l0 l); [congruence|]. lia.
  - split; auto. unfold possible. sfields. rewrite Hs. cbn [delivered_to pick List.length]. lia.
Qed.

Lemma run_detached : forall l sched w w' tr, l_detached (lst (w_sys w) l) = true -> run sched w = Some (w', tr) ->
  List.length (delivered_to l tr) + possible l (w_sys w') <= possible l (w_sys w) + adds l tr.
Proof.
  intros l sched. induction sched as [|ch sched IH]; intros w w' tr D H; simpl in H.
  - injection H as <- <-. cbn. lia.
  - destruct (step ch w) as [[w1 es]|] eqn:E; [|discriminate].
    destruct (run sched w1) as [[w2 es']|] eqn:E2; [|discriminate]. injection H as <- <-.
    apply step_st in E. destruct (st_detached _ _ _ _ D E) as (D1 & L1). specialize (IH _ _ _ D1 E2).
    rewrite delivered_app, adds_app, app_length. lia.
Qed.

Lemma detach_ev : forall t c s c' s' es q l r, cs t c s c' s' es -> es = q ++ EvDetach l :: r ->
  r = [] /\ q = [EvSet l (CDetach l)] /\ l_detached (lst s' l) = true.
Proof.
  intros t c s c' s' es q l r H E. destruct H; try (destruct q as [|? [|? [|? ?]]]; discriminate).
  destruct q as [|? [|? [|? ?]]]; try discriminate. injection E as <- -> <-. repeat split; auto. cbn. unfold upd_lst. rewrite Nat.eqb_refl. auto.
Qed.

Lemma detach_bound : forall sn g lf progs w t1 l t2, reaches sn g lf progs w (t1 ++ EvDetach l :: t2) ->
  List.length (delivered_to l t2) <= adds l (t1 ++ t2).
Proof.
  intros sn g lf progs w t1 l t2 H. apply reaches_split2 in H.
  destruct H as (w1 & w2 & p & q & r & t2' & sched & R & S & -> & -> & R2).
  assert (X : r = [] /\ q = [EvSet l (CDetach l)] /\ l_detached (lst (w_sys w2) l) = true).
  { inversion S; subst.
    - eapply detach_ev in H1; eauto.
    - inversion H0; subst; try (destruct q as [|? [|? [|? ?]]]; discriminate).
      match goal with H : cs _ _ _ _ _ _ |- _ => eapply detach_ev in H; eauto end.
    - destruct q; discriminate. }
  destruct X as (-> & -> & D). cbn [app] in *.
  assert (R1 : reaches sn g lf progs w1 p) by auto.
  pose proof (run_detached _ _ _ _ _ D R2) as L.
  assert (Rg : reg_inv l w2 (p ++ [EvSet l (CDetach l); EvDetach l])).
  { eapply st_reg; [| |exact S]; [eapply reaches_kept; exact R|eapply reaches_reg; exact R]. }
  assert (Rk : kept_inv (w_sys w2)) by (eapply st_kept; [eapply reaches_kept; exact R|exact S]).
  destruct Rg as (G1 & G2). rewrite !adds_app in *. cbn in G1.
  assert (possible l (w_sys w2) <= cnt l (active (w_sys w2)) + cnt l (pending (w_sys w2))).
  { unfold possible, kept_inv in *. destruct (logt (w_sys w2)); try lia. destruct Rk as (Rk & _). specialize (Rk l). lia. }
  change (adds l [EvSet l (CDetach l)]) with 0. change (adds l [EvSet l (CDetach l); EvDetach l]) with 0 in G1. lia.
Qed.

End Log.
