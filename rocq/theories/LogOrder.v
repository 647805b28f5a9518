(** * LogSystem: FIFO order, conservation, counters *)
From Coq Require Import ZArith String Bool List Arith Lia.
From Verif Require Import Base ListFacts LogModel LogSpec LogProofs.
Import ListNotations.
Open Scope list_scope.

Section Log.
Context {RE : Type}.
Variable compile : string -> option RE.
Variable rmatch : string -> RE -> bool.
Notation sys := (@sys RE).
Notation world := (@world RE).
Notation cs := (@cs RE compile).
Notation ls := (@ls RE compile rmatch).
Notation st := (@st RE compile rmatch).
Notation run := (run compile rmatch).
Notation reaches := (reaches compile rmatch).
Implicit Types (s : sys) (w : world).

Ltac nsimp := rewrite ?notify_heap, ?notify_pool, ?notify_queue, ?notify_terminated, ?notify_unpooled, ?notify_discarded,
  ?notify_maxq, ?notify_received, ?notify_slevel, ?notify_pending, ?notify_active, ?notify_lst, ?notify_mtx,
  ?notify_crashed, ?notify_built, ?notify_torn, ?notify_logt in *.
Ltac psimp o s := let P := fresh in pose proof (pushed_fields o s) as P;
  destruct P as (?P1 & ?P2 & ?P3 & ?P4 & ?P5 & ?P6 & ?P7 & ?P8 & ?P9 & ?P10 & ?P11 & ?P12 & ?P13 & ?P14 & ?P15 & ?P16 & ?P17).

(** ** Contents *)
Lemma content_heap : forall s s' o, nth_error (heap s') o = nth_error (heap s) o -> content s' o = content s o.
Proof. intros s s' o H. unfold content. rewrite H. auto. Qed.

Lemma content_set_logt : forall t s o, content (set_logt t s) o = content s o.
Proof. reflexivity. Qed.

Lemma cs_content : forall t c s c' s' es o, cs t c s c' s' es -> liven s o = 1 -> ~ In o (held_c c) ->
  content s' o = content s o.
Proof.
  intros t c s c' s' es o H L N. apply content_heap. destruct H; sfields; nsimp; auto.
  - rewrite nth_error_app1; auto. unfold liven in L. destruct (le_lt_dec (List.length (heap s)) o); auto.
    rewrite (proj2 (nth_error_None _ _)) in L by auto. discriminate.
  - rewrite nth_error_app1; auto. unfold liven in L. destruct (le_lt_dec (List.length (heap s)) o); auto.
    rewrite (proj2 (nth_error_None _ _)) in L by auto. discriminate.
  - rewrite nth_error_upd_lt. unfold held_c in N. cbn in N. destruct (Nat.eq_dec o o0); auto. subst. tauto.
  - psimp o0 s. rewrite P1. auto.
Qed.

Lemma own_live : forall w o, own w -> In o (places w) -> liven (w_sys w) o = 1.
Proof.
  intros w o H I. specialize (H o). apply cnt_pos in I. unfold liven in *.
  destruct (nth_error _ o) as [[?|]|]; auto; lia.
Qed.

Lemma own_le : forall w o, own w -> cnt o (places w) <= 1.
Proof. intros w o H. rewrite (H o). unfold liven. destruct (nth_error _ o) as [[?|]|]; auto. Qed.

Definition pushok s (c : cthread) : Prop := match c_pc c with LogPush m o => content s o = m | _ => True end.

Definition nested (t : tpc) : option cthread := match t with TCall _ _ c => Some c | _ => None end.

(** Contents are what they should be. *)
Definition good w (tr : list ev) : Prop :=
  own w /\ (forall i c, nth_error (w_clients w) i = Some c -> pushok (w_sys w) c) /\
  (forall c, nested (logt (w_sys w)) = Some c -> pushok (w_sys w) c) /\
  accepted tr = popped tr ++ waiting w /\
  popped tr = begun tr ++ unbegun w /\
  popped tr = ended tr ++ unended w /\
  match logt (w_sys w) with TCount o => begun tr = sent tr ++ [content (w_sys w) o] | _ => begun tr = sent tr end.

Lemma in_mid : forall (A : Type) (x : A) (l : list A) i, nth_error l i = Some x -> In x l.
Proof. intros. eapply nth_error_In; eauto. Qed.

Lemma client_held : forall w i c o, nth_error (w_clients w) i = Some c -> In o (held_c c) -> In o (flat_map held_c (w_clients w)).
Proof. intros. apply in_flat_map. exists c. split; auto. eapply nth_error_In; eauto. Qed.

(** Two different holders. *)
Lemma two_clients : forall w i j c c' o, own w -> nth_error (w_clients w) i = Some c -> nth_error (w_clients w) j = Some c' ->
  i <> j -> In o (held_c c) -> In o (held_c c') -> False.
Proof.
  intros w i j c c' o H Hi Hj N I1 I2. pose proof (own_le _ o H) as L. unfold places in L. rewrite !cnt_app in L.
  pose proof (flat_map_upd_cnt _ held_c o _ _ _ (mkC Idle []) Hi) as F. simpl (held_c (mkC Idle [])) in F. rewrite cnt_nil in F.
  assert (Hj' : nth_error (upd i (fun _ => mkC Idle []) (w_clients w)) j = Some c') by (rewrite nth_error_upd_neq; auto).
  assert (In o (flat_map held_c (upd i (fun _ => mkC Idle []) (w_clients w)))) as I3.
  { apply in_flat_map. exists c'. split; auto. eapply nth_error_In; eauto. }
  apply cnt_pos in I1. apply cnt_pos in I3. lia.
Qed.

Ltac own_contra H o := exfalso; let L := fresh in pose proof (own_le _ o H) as L; unfold places in L; rewrite !cnt_app in L;
  repeat match goal with I : In o _ |- _ => apply cnt_pos in I end; lia.

Lemma waiting_same : forall w w', queue (w_sys w') = queue (w_sys w) ->
  (forall o, In o (queue (w_sys w)) -> content (w_sys w') o = content (w_sys w) o) -> waiting w' = waiting w.
Proof. intros w w' H1 H2. unfold waiting. rewrite H1. apply map_ext_in. auto. Qed.

Lemma pick_nil_app : forall (A B : Type) (f : A -> option B) l, pick f (l ++ []) = pick f l.
Proof. intros. rewrite app_nil_r. auto. Qed.

(** What a step of API calls shows. *)
Lemma cs_quiet : forall t c s c' s' es, cs t c s c' s' es -> popped es = [] /\ begun es = [] /\ sent es = [] /\ ended es = [] /\ handed es = [].
Proof. intros t c s c' s' es H. destruct H; cbn; auto. Qed.

Lemma cs_accept : forall t c s c' s' es, cs t c s c' s' es ->
  (accepted es = [] /\ queue s' = queue s) \/
  (exists m o, c_pc c = LogPush m o /\ accepted es = [m] /\ queue s' = queue s ++ [o] /\ heap s' = heap s).
Proof.
  intros t c s c' s' es H. destruct H; try (left; split; auto; sfields; nsimp; auto; fail).
  right. exists m, o. psimp o s. repeat split; auto.
Qed.

Lemma cs_pushok : forall t c s c' s' es, cs t c s c' s' es -> (forall o, In o (held_c c) -> liven s o = 1) -> pushok s' c'.
Proof.
  intros t c s c' s' es H L. destruct H; unfold pushok; cbn; auto.
  { unfold content. cbn. rewrite nth_error_app2, Nat.sub_diag by auto. reflexivity. }
  specialize (L o (or_introl eq_refl)). unfold content, liven in *. cbn. rewrite nth_error_upd_lt.
  destruct (Nat.eq_dec o o); [|congruence]. destruct (nth_error (heap s) o) as [[?|]|]; cbn; auto; discriminate.
Qed.

Lemma pushok_ext : forall s s' c, pushok s c -> (forall o, In o (held_c c) -> content s' o = content s o) -> pushok s' c.
Proof.
  intros s s' c H E. unfold pushok, held_c in *. destruct (c_pc c); auto. rewrite E; auto. left; auto.
Qed.

Lemma unbegun_eq : forall w w', held_t (logt (w_sys w')) = held_t (logt (w_sys w)) ->
  (forall o, In o (held_t (logt (w_sys w))) -> content (w_sys w') o = content (w_sys w) o) ->
  logt (w_sys w') = logt (w_sys w) \/ (held_t (logt (w_sys w)) = []) ->
  unbegun w' = unbegun w /\ unended w' = unended w.
Proof.
  intros w w' H E [D|D].
  - unfold unbegun, unended. rewrite D. destruct (logt (w_sys w)); cbn in E; rewrite ?E; auto.
  - rewrite D in H. unfold unbegun, unended. destruct (logt (w_sys w)), (logt (w_sys w')); try discriminate; auto.
Qed.

Lemma cs_logt : forall i c s c' s' es, cs (Client i) c s c' s' es -> logt s' = logt s \/ (held_t (logt s) = [] /\ nested (logt s') = None).
Proof.
  intros i c s c' s' es H. destruct H; sfields; nsimp; auto; try congruence.
  - psimp o s. rewrite P17. destruct (logt s); auto.
  - destruct (logt s); auto.
  - rewrite H0. auto.
  - rewrite H0. auto.
Qed.

Lemma picks_app : forall a b, accepted (a ++ b) = accepted a ++ accepted b /\ popped (a ++ b) = popped a ++ popped b /\
  begun (a ++ b) = begun a ++ begun b /\ sent (a ++ b) = sent a ++ sent b /\ ended (a ++ b) = ended a ++ ended b /\ handed (a ++ b) = handed a ++ handed b.
Proof. intros. unfold accepted, popped, begun, sent, ended, handed. rewrite !pick_app. repeat split; auto. Qed.

Lemma st_good : forall w w' tr es, good w tr -> st w w' es -> good w' (tr ++ es).
Proof.
  intros w w' tr es (O & C & N & A & B & E & S) H.
  split; [eapply st_own; eauto|].
  destruct (picks_app tr es) as (Q1 & Q2 & Q3 & Q4 & Q5 & _). rewrite Q1, Q2, Q3, Q4, Q5.
  destruct H as [w i c c' s' es Hc Hi H | w s' es Hc H | w Hc Hs].
  - (* a client *)
    sfields.
    assert (X : forall o, In o (places w) -> ~ In o (held_c c) -> content s' o = content (w_sys w) o).
    { intros o Io Nc. eapply cs_content; eauto. apply own_live; auto. }
    assert (Xq : forall o, In o (queue (w_sys w)) -> content s' o = content (w_sys w) o).
    { intros o Io. apply X; [unfold places; rewrite !in_app_iff; auto|]. intros Ic.
      apply (client_held _ _ _ _ Hi) in Ic. own_contra O o. }
    assert (Xt : forall o, In o (held_t (logt (w_sys w))) -> content s' o = content (w_sys w) o).
    { intros o Io. apply X; [unfold places; rewrite !in_app_iff; auto|]. intros Ic.
      apply (client_held _ _ _ _ Hi) in Ic. own_contra O o. }
    destruct (unbegun_eq w (mkWorld s' (upd i (fun _ => c') (w_clients w)))) as (U1 & U2); auto.
    { cbn. eapply cs_held; eauto. }
    { cbn. destruct (cs_logt _ _ _ _ _ _ H) as [|[? ?]]; auto. }
    destruct (cs_quiet _ _ _ _ _ _ H) as (Z1 & Z2 & Z3 & Z4 & _). rewrite Z1, Z2, Z3, Z4, !app_nil_r, U1, U2.
    split.
    { intros j cj Hj. destruct (Nat.eq_dec j i) as [->|Nij].
      - rewrite (nth_error_upd_eq _ _ _ _ Hi) in Hj. injection Hj as <-.
        eapply cs_pushok; eauto. intros o Io. apply own_live; auto. unfold places. rewrite !in_app_iff. right; right; right.
        eapply client_held; eauto.
      - rewrite nth_error_upd_neq in Hj by auto. eapply pushok_ext; [eapply C; eauto|].
        intros o Io. apply X.
        + unfold places. rewrite !in_app_iff. right; right; right. eapply client_held; eauto.
        + intros Ic. exact (two_clients _ _ _ _ _ _ O Hi Hj (not_eq_sym Nij) Ic Io). }
    split.
    { intros n Hn. destruct (cs_logt _ _ _ _ _ _ H) as [El|[El1 El2]]; [|congruence].
      rewrite El in Hn. eapply pushok_ext; [apply N; auto|]. intros o Io. apply Xt.
      destruct (logt (w_sys w)); try discriminate. injection Hn as ->. right; auto. }
    split; [|split; [auto|split; [auto|]]].
    + destruct (cs_accept _ _ _ _ _ _ H) as [(Ea & Eq)|(m & o & Ep & Ea & Eq & Eh)]; rewrite Ea.
      * rewrite app_nil_r, A. f_equal. symmetry. apply waiting_same; auto.
      * rewrite A, <- app_assoc. f_equal. unfold waiting. cbn [w_sys]. rewrite Eq, map_app.
        f_equal; [symmetry; apply map_ext_in; auto|]. cbn. f_equal.
        rewrite (content_heap (w_sys w)) by (rewrite Eh; auto). symmetry.
        specialize (C _ _ Hi). unfold pushok in C. rewrite Ep in C. auto.
    + destruct (cs_logt _ _ _ _ _ _ H) as [El|[El1 El2]].
      * rewrite El. destruct (logt (w_sys w)) eqn:D; auto. rewrite Xt; auto. left; auto.
      * pose proof (cs_held _ _ _ _ _ _ _ H) as Eh. rewrite El1 in Eh.
        destruct (logt (w_sys w)), (logt s'); try discriminate; auto.
  - (* the log thread *)
    unfold unbegun, unended, waiting in *. destruct w as [s cl]. sfields.
    destruct H; try (match goal with H : logt _ = _ |- _ => rewrite H in * end); sfields; cbn [nested accepted popped begun sent ended pick] in *;
      rewrite ?app_nil_r in *;
      try (split; [exact C|]; split; [congruence|]; repeat (split; auto); congruence).
    + (* pop *)
      rewrite H1 in A. cbn [map] in A. split; [exact C|]. split; [intros ? ?; discriminate|].
      split; [rewrite <- app_assoc; exact A|]. split; [rewrite B; reflexivity|]. split; [rewrite E; reflexivity|auto].
    + (* begin *) split; [exact C|]. split; [intros ? ?; discriminate|]. split; [exact A|]. split; [exact B|].
      split; [exact E|]. rewrite S. reflexivity.
    + (* call *) split; [exact C|]. split; [|split; [exact A|]; split; [exact B|]; split; [exact E|]; exact S].
      intros c Hc'. injection Hc' as <-. exact I.
    + (* nested *)
      assert (X : forall o', In o' (places (mkWorld s cl)) -> ~ In o' (held_c c) -> content s' o' = content s o').
      { intros o' Io Nc. eapply cs_content; eauto. apply (own_live (mkWorld s cl)); auto. }
      assert (Xq : forall o', In o' (queue s) -> content s' o' = content s o').
      { intros o' Io. apply X; [unfold places; rewrite !in_app_iff; auto|]. intros Ic.
        pose proof (own_le _ o' O) as L. unfold places in L. sfields. rewrite H in L. cbn [held_t] in L.
        rewrite !cnt_app, cnt_cons in L. apply cnt_pos in Io, Ic. lia. }
      assert (Xo : content s' o = content s o).
      { apply X; [unfold places; rewrite !in_app_iff; sfields; rewrite H; cbn; auto|]. intros Ic.
        pose proof (own_le _ o O) as L. unfold places in L. sfields. rewrite H in L. cbn [held_t] in L.
        rewrite !cnt_app, cnt_cons in L. apply cnt_pos in Ic. destruct (Nat.eq_dec o o); [lia|congruence]. }
      destruct (cs_quiet _ _ _ _ _ _ H0) as (Z1 & Z2 & Z3 & Z4 & _). rewrite Z1, Z2, Z3, Z4, !app_nil_r, content_set_logt, Xo.
      split.
      { intros j cj Hj. eapply pushok_ext with (s := s); [eapply C; eauto|].
        intros o' Io. rewrite content_set_logt. apply X.
        - unfold places. rewrite !in_app_iff. right; right; right. eapply client_held; eauto.
        - intros Ic. apply (client_held (mkWorld s cl) _ _ _ Hj) in Io. sfields.
          pose proof (own_le _ o' O) as L. unfold places in L. sfields. rewrite H in L. cbn [held_t] in L.
          rewrite !cnt_app, cnt_cons in L. apply cnt_pos in Io, Ic. lia. }
      split.
      { intros c0 Ec. injection Ec as <-. unfold pushok. cbn. change (pushok s' c'). eapply cs_pushok; eauto.
        intros o' Io. apply (own_live (mkWorld s cl)); auto. unfold places. sfields. rewrite H. cbn [held_t].
        rewrite !in_app_iff. cbn. auto. }
      split; [|split; [auto|split; [auto|auto]]].
      destruct (cs_accept _ _ _ _ _ _ H0) as [(Ea & Eq)|(m & o' & Ep & Ea & Eq & Eh)]; rewrite Ea, Eq.
      * rewrite app_nil_r, A. f_equal. apply map_ext_in. intros o' Io. symmetry. apply Xq; auto.
      * rewrite A, <- app_assoc. f_equal. rewrite map_app. f_equal; [apply map_ext_in; intros; symmetry; apply Xq; auto|]. cbn. f_equal.
        rewrite content_set_logt. rewrite (content_heap s) by (rewrite Eh; auto).
        specialize (N _ eq_refl). unfold pushok in N. rewrite Ep in N. auto.
    + (* delete *)
      assert (X : forall o', o' <> o -> content (set_logt TCheck
         (set_torn (Datatypes.S (torn s))
            (set_heap (upd o (fun _ : option msg => None) (heap s))
               (set_discarded (Datatypes.S (discarded s)) s)))) o' = content s o').
      { intros o' No. apply content_heap. sfields. rewrite nth_error_upd_lt. destruct (Nat.eq_dec o' o); congruence. }
      pose proof (own_le _ o O) as L. unfold places in L. sfields. rewrite H in L. cbn [held_t] in L.
      rewrite !cnt_app, cnt_cons, cnt_nil in L. destruct (Nat.eq_dec o o); [|congruence].
      split.
      { intros j cj Hj. eapply pushok_ext with (s := s); [eapply C; eauto|]. intros o' Io. apply X. intros ->.
        apply (client_held (mkWorld s cl) _ _ _ Hj) in Io. sfields. apply cnt_pos in Io. lia. }
      split; [intros ? ?; discriminate|]. split; [|auto].
      rewrite A. f_equal. apply map_ext_in. intros o' Io. symmetry. apply X. intros ->. apply cnt_pos in Io. lia.
  - (* spurious wake-up *)
    unfold unbegun, unended, waiting in *. sfields. rewrite Hs in *. cbn in *. rewrite !app_nil_r in *.
    repeat split; auto; congruence.
Qed.

Lemma cnt_rev : forall o l, cnt o (rev l) = cnt o l.
Proof. intros o l. induction l as [|x l IH]; cbn [rev]; auto. rewrite cnt_app, !cnt_cons, cnt_nil, IH. lia. Qed.

Lemma cnt_seq : forall o n, cnt o (rev (seq 0 n)) = if o <? n then 1 else 0.
Proof.
  intros o n. rewrite cnt_rev. destruct (Nat.ltb_spec o n).
  - assert (NoDup (seq 0 n)) as ND by apply seq_NoDup. pose proof (proj1 (NoDup_count_occ Nat.eq_dec _) ND o).
    assert (In o (seq 0 n)) by (apply in_seq; lia). apply cnt_pos in H1. unfold cnt in *. lia.
  - assert (~ In o (seq 0 n)) by (rewrite in_seq; lia). rewrite cnt_pos in H0. lia.
Qed.

Lemma nth_repeat_some : forall (A : Type) (x : A) n o, nth_error (repeat x n) o = if o <? n then Some x else None.
Proof.
  intros A x n o. destruct (Nat.ltb_spec o n).
  - apply nth_error_repeat; auto.
  - apply nth_error_None. rewrite repeat_length. auto.
Qed.

Lemma init_own : forall sn g lf progs, own (init sn g lf progs : world).
Proof.
  intros sn g lf progs o. unfold places.
  assert (E : flat_map held_c (w_clients (init sn g lf progs : world)) = []) by (cbn [init w_clients]; induction progs; simpl; auto).
  assert (E2 : held_t (logt (w_sys (init sn g lf progs : world))) = []) by (destruct sn; reflexivity).
  assert (E3 : queue (w_sys (init sn g lf progs : world)) = []) by reflexivity.
  assert (E4 : pool (w_sys (init sn g lf progs : world)) = rev (seq 0 POOL)) by reflexivity.
  assert (E5 : heap (w_sys (init sn g lf progs : world)) = repeat (Some empty_msg) POOL) by reflexivity.
  rewrite E, E2, E3, E4, !app_nil_r, cnt_seq. unfold liven. rewrite E5, nth_repeat_some. destruct (o <? POOL); auto.
Qed.

Lemma init_client : forall sn g lf progs i c, nth_error (w_clients (init sn g lf progs : world)) i = Some c -> exists p, c = mkC Idle p /\ nth_error progs i = Some p.
Proof.
  intros sn g lf progs i c H. unfold init in H. sfields. rewrite nth_error_map in H.
  destruct (nth_error progs i); [|discriminate]. injection H as <-. eauto.
Qed.

Lemma reaches_good : forall sn g lf progs w tr, reaches sn g lf progs w tr -> good w tr.
Proof.
  intros sn g lf progs w tr H. eapply reaches_inv; [| |exact H].
  - split; [apply init_own|]. split.
    + intros i c E. apply init_client in E. destruct E as (p & -> & _). exact I.
    + destruct sn; cbn; repeat split; auto; discriminate.
  - intros. eapply st_good; eauto.
Qed.

End Log.
