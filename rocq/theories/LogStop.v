(** * LogSystem: stopping, progress *)
From Coq Require Import ZArith String Bool List Arith Lia.
From Verif Require Import Base ListFacts LogModel LogSpec LogProofs LogOrder LogCount.
Import ListNotations.
Open Scope list_scope.

Section Log.
Context {RE : Type}.
Variable compile : string -> option RE.
Variable rmatch : string -> RE -> bool.
Notation sys := (@sys RE).
Notation world := (@world RE).
Notation cs := (@cs RE compile).
Notation ls := (@ls RE compile rmatch).
Notation st := (@st RE compile rmatch).
Notation run := (run compile rmatch).
Notation step := (step compile rmatch).
Notation reaches := (reaches compile rmatch).
Notation drive := (drive compile rmatch).
Notation alone := (alone compile rmatch).
Implicit Types (s : sys) (w : world).

(** ** Once terminated and out of the loop, for ever *)
Definition out (t : tpc) : Prop := t = TNone \/ t = TCheck \/ t = TExited.
Definition halted w : Prop := terminated (w_sys w) = true /\ out (logt (w_sys w)).

Lemma cs_terminated : forall t c s c' s' es, cs t c s c' s' es -> terminated s = true -> terminated s' = true.
Proof. intros t c s c' s' es H T. destruct H; sfields; nsimp; auto. psimp o s. congruence. Qed.

Lemma st_halted : forall w w' es, halted w -> st w w' es -> halted w' /\ popped es = [] /\ begun es = [] /\ handed es = [] /\
  prefix (queue (w_sys w)) (queue (w_sys w')).
Proof.
  intros w w' es (T & O) H. destruct H as [w i c c' s' es Hc Hi H | w s' es Hc H | w Hc Hs]; sfields.
  - pose proof (cs_quiet _ _ _ _ _ _ _ H) as (Q1 & Q2 & _ & _ & Q3). repeat split; auto; sfields.
    + eapply cs_terminated; eauto.
    + destruct H; sfields; nsimp; auto.
      * psimp o s. rewrite P17. destruct O as [->|[->| ->]]; unfold out; auto.
      * destruct O as [->|[->| ->]]; unfold out; auto.
      * left; auto.
      * right; left; auto.
    + destruct (cs_accept _ _ _ _ _ _ _ H) as [(_ & ->)|(m & o & _ & _ & -> & _)]; [exists []; rewrite app_nil_r|eexists]; eauto.
  - destruct w as [s cl]; sfields. assert (R : prefix (queue s) (queue s)) by (exists []; rewrite app_nil_r; auto).
    destruct H; sfields; try congruence; try (destruct O as [D|[D|D]]; congruence).
    repeat split; auto. right; right; auto.
  - destruct O as [D|[D|D]]; congruence.
Qed.

Lemma run_halted : forall sched w w' tr, halted w -> run sched w = Some (w', tr) ->
  halted w' /\ popped tr = [] /\ begun tr = [] /\ handed tr = [] /\ prefix (queue (w_sys w)) (queue (w_sys w')).
Proof.
  intros sched. induction sched as [|ch sched IH]; intros w w' tr Hh H; simpl in H.
  - injection H as <- <-. repeat split; try apply Hh. exists []. rewrite app_nil_r. auto.
  - destruct (step ch w) as [[w1 es]|] eqn:E; [|discriminate].
    destruct (run sched w1) as [[w2 es']|] eqn:E2; [|discriminate]. injection H as <- <-.
    apply step_st in E. destruct (st_halted _ _ _ Hh E) as (H1 & P1 & B1 & D1 & (x & X)).
    destruct (IH _ _ _ H1 E2) as (H2 & P2 & B2 & D2 & (y & Y)).
    destruct (picks_app es es') as (_ & -> & -> & _ & _ & ->). rewrite P1, P2, B1, B2, D1, D2. split; [auto|]. repeat split; auto.
    exists (x ++ y). rewrite Y, X, app_assoc. auto.
Qed.

(** ** Invariants of stop() *)

Definition owns (t : tid) w : Prop :=
  match t with
  | Client i => exists c, nth_error (w_clients w) i = Some c /\ c_pc c = StopJoin
  | LogThread => exists c, nested (logt (w_sys w)) = Some c /\ c_pc c = StopJoin
  end.

Definition stop_inv w : Prop :=
  (forall i c, nth_error (w_clients w) i = Some c -> stopping c -> terminated (w_sys w) = true) /\
  (forall c, nested (logt (w_sys w)) = Some c -> stopping c -> terminated (w_sys w) = true) /\
  (forall t, owns t w <-> mtx (w_sys w) = Some t) /\
  (mtx (w_sys w) <> None -> logt (w_sys w) <> TNone) /\
  (logt (w_sys w) = TExited -> terminated (w_sys w) = true).

Lemma cs_stopping : forall t c s c' s' es, cs t c s c' s' es -> stopping c' -> stopping c \/ terminated s' = true.
Proof.
  intros t c s c' s' es H S. unfold stopping in *. destruct H; sfields; auto; try (destruct S as [S|[S|S]]; discriminate).
Qed.

(** How [m_mtxThread] changes. *)
Lemma cs_mtx : forall t c s c' s' es, cs t c s c' s' es ->
  (mtx s' = mtx s /\ (c_pc c' = StopJoin <-> c_pc c = StopJoin)) \/
  (mtx s = None /\ mtx s' = Some t /\ c_pc c <> StopJoin /\ c_pc c' = StopJoin /\ logt s' <> TNone) \/
  (mtx s' = None /\ c_pc c = StopJoin /\ c_pc c' <> StopJoin /\ logt s = TExited).
Proof.
  intros t c s c' s' es H. destruct H; sfields; nsimp; try (left; split; [reflexivity|split; intros; congruence]).
  - left. psimp o s. split; auto. split; discriminate.
  - right; left. repeat split; auto; discriminate.
  - right; right. repeat split; auto; discriminate.
Qed.

Lemma cs_logt_kind : forall i c s c' s' es, cs (Client i) c s c' s' es ->
  logt s' = logt s \/ (logt s = TAsleep /\ logt s' = TCheck) \/ (logt s = TExited /\ logt s' = TNone /\ c_pc c = StopJoin) \/
  (logt s = TNone /\ logt s' = TCheck /\ mtx s = None).
Proof.
  intros i c s c' s' es H. destruct H; sfields; nsimp; auto; try congruence.
  - psimp o s. rewrite P17. destruct (logt s); auto.
  - destruct (logt s); auto.
  - right; right; left. auto.
  - right; right; right. auto.
Qed.

Lemma st_stop_inv : forall w w' es, stop_inv w -> st w w' es -> stop_inv w'.
Proof.
  intros w w' es (A & B & M & N & X) H. destruct H as [w i c c' s' es Hc Hi H | w s' es Hc H | w Hc Hs].
  - pose proof (cs_terminated _ _ _ _ _ _ H) as T. pose proof (cs_logt_kind _ _ _ _ _ _ H) as K.
    assert (Nst : nested (logt s') = nested (logt (w_sys w))).
    { destruct K as [->|[[-> ->]|[[-> [-> _]]|[-> [-> _]]]]]; auto. }
    assert (Own : forall t, t <> Client i -> owns t (mkWorld s' (upd i (fun _ => c') (w_clients w))) <-> owns t w).
    { intros [j|] Nt; unfold owns; sfields.
      - rewrite nth_error_upd_neq by congruence. tauto.
      - rewrite Nst. tauto. }
    assert (OwnI : forall x, (exists c0, nth_error (upd i (fun _ => x) (w_clients w)) i = Some c0 /\ c_pc c0 = StopJoin) <-> c_pc x = StopJoin).
    { intros x. rewrite (nth_error_upd_eq _ _ _ _ Hi). split; [intros (? & E & ?); injection E as <-; auto|eauto]. }
    assert (Self : owns (Client i) w <-> c_pc c = StopJoin).
    { unfold owns. rewrite Hi. split; [intros (? & E & ?); injection E as <-; auto|eauto]. }
    split; [|split; [|split; [|split]]]; sfields.
    + intros j cj Hj S. destruct (Nat.eq_dec j i) as [->|Nj].
      * rewrite (nth_error_upd_eq _ _ _ _ Hi) in Hj. injection Hj as <-.
        destruct (cs_stopping _ _ _ _ _ _ H S) as [S'|S']; auto. apply T. eauto.
      * rewrite nth_error_upd_neq in Hj by auto. apply T. eauto.
    + intros n Hn S. rewrite Nst in Hn. apply T. eauto.
    + intros t. destruct (cs_mtx _ _ _ _ _ _ H) as [(E & P)|[(E1 & E2 & P1 & P2 & _)|(E2 & P1 & P2 & _)]].
      * rewrite E, <- M. destruct t as [j|]; [|apply Own; discriminate].
        destruct (Nat.eq_dec j i) as [->|Nj]; [|apply Own; congruence].
        rewrite Self. unfold owns. sfields. rewrite OwnI. tauto.
      * rewrite E2. destruct t as [j|].
        -- destruct (Nat.eq_dec j i) as [->|Nj].
           ++ unfold owns. sfields. rewrite OwnI. tauto.
           ++ rewrite Own by congruence. rewrite M, E1. split; congruence.
        -- rewrite Own by congruence. rewrite M, E1. split; congruence.
      * rewrite E2. apply Self, M in P1. destruct t as [j|].
        -- destruct (Nat.eq_dec j i) as [->|Nj].
           ++ unfold owns. sfields. rewrite OwnI. split; [tauto|discriminate].
           ++ rewrite Own by congruence. rewrite M, P1. split; congruence.
        -- rewrite Own by congruence. rewrite M, P1. split; congruence.
    + intros Mn. destruct (cs_mtx _ _ _ _ _ _ H) as [(E & P)|[(E1 & E2 & P1 & P2 & P3)|(E2 & P1 & P2 & _)]]; auto.
      rewrite E in Mn. destruct K as [->|[[_ ->]|[(K1 & K2 & K3)|(K1 & K2 & K3)]]]; auto; try congruence.
      exfalso. apply P in K3.
      (* joined: then the mutex was released *)
      remember (w_sys w) as s0 eqn:Es. clear - H K1 K2 E Mn. destruct H; sfields; nsimp; try congruence. { psimp o s. rewrite P17, K1 in K2. discriminate. } rewrite K1 in K2. discriminate.
    + intros E. apply T. destruct K as [K|[[_ K]|[(K1 & K2 & K3)|(K1 & K2 & K3)]]]; try congruence. apply X. congruence.
  - destruct w as [s cl]. sfields.
    assert (G : forall s1, mtx s1 = mtx s -> terminated s1 = terminated s -> logt s1 <> TNone ->
       (forall c, nested (logt s) = Some c -> c_pc c <> StopJoin) ->
       (forall c, nested (logt s1) = Some c -> ~ stopping c) -> logt s1 <> TExited -> stop_inv (mkWorld s1 cl)).
    { intros s1 E1 E2 E3 E4 E5 E6. split; [|split; [|split; [|split]]]; sfields; rewrite ?E1, ?E2; auto.
      - intros c Hn S. exfalso. eapply E5; eauto.
      - intros t. rewrite <- M. destruct t as [j|]; [reflexivity|]. unfold owns. sfields. split; intros (c & C1 & C2).
        + exfalso. apply (E5 c C1). right; right; auto.
        + exfalso. eapply E4; eauto. }
    destruct H; try (apply G; sfields; auto; try congruence; try rewrite H; cbn; try congruence; fail).
    + (* exit *) split; [|split; [|split; [|split]]]; sfields; auto; try congruence; try discriminate.
      intros t. rewrite <- M. destruct t as [j|]; [reflexivity|]. unfold owns. sfields. rewrite H. cbn. tauto.
    + (* call *) apply G; sfields; auto; try congruence. rewrite H. discriminate.
      intros c E. injection E as <-. intros [S|[S|S]]; discriminate.
    + (* return *) apply G; sfields; auto; try congruence. rewrite H. cbn. intros c E. injection E as <-. discriminate. cbn. discriminate.
    + (* nested *)
      rewrite H in *. cbn [nested] in *. pose proof (cs_terminated _ _ _ _ _ _ H0) as T.
      split; [|split; [|split; [|split]]]; sfields; auto; try discriminate.
      * intros i ci Hi S. apply T. eauto.
      * intros c0 E S. injection E as <-. destruct (cs_stopping _ _ _ _ _ _ H0 S) as [S'|S']; auto. apply T. eauto.
      * assert (Self : owns LogThread (mkWorld s cl) <-> c_pc c = StopJoin).
        { unfold owns. sfields. rewrite H. cbn. split; [intros (? & E & ?); injection E as <-; auto|eauto]. }
        assert (Self' : owns LogThread (mkWorld (set_logt (TCall o rest c') s') cl) <-> c_pc c' = StopJoin).
        { unfold owns. sfields. cbn. split; [intros (? & E & ?); injection E as <-; auto|eauto]. }
        intros t. destruct (cs_mtx _ _ _ _ _ _ H0) as [(E & P)|[(E1 & E2 & P1 & P2 & _)|(E2 & P1 & P2 & P3)]]; [| |congruence].
        -- rewrite E, <- M. destruct t as [j|]; [reflexivity|]. rewrite Self, Self'. auto.
        -- rewrite E2. destruct t as [j|]; [|rewrite Self'; tauto].
           change (owns (Client j) (mkWorld s cl) <-> Some LogThread = Some (Client j)).
           rewrite M, E1. split; discriminate.
  - split; [|split; [|split; [|split]]]; sfields; auto; try discriminate.
    intros t. rewrite <- M. destruct t as [j|]; [reflexivity|]. unfold owns. sfields. rewrite Hs. tauto.
Qed.

Lemma reaches_stop : forall sn g lf progs w tr, reaches sn g lf progs w tr -> stop_inv w.
Proof.
  intros sn g lf progs w tr H. eapply (reaches_inv compile rmatch (fun w _ => stop_inv w)); [| |exact H].
  - split; [|split; [|split; [|split]]].
    + intros i c E. apply init_client in E. destruct E as (p & -> & _). intros [S|[S|S]]; discriminate.
    + destruct sn; discriminate.
    + intros [i|]; (split; [|discriminate]).
      * intros (c & E & S). apply init_client in E. destruct E as (p & -> & _). discriminate.
      * intros (c & E & S). destruct sn; discriminate.
    + cbn. congruence.
    + destruct sn; discriminate.
  - intros. eapply st_stop_inv; eauto.
Qed.

(** ** C35 to C37 *)
Lemma cs_stopped : forall t c s c' s' es q u r, cs t c s c' s' es -> es = q ++ EvStopped u :: r ->
  q = [] /\ r = [] /\ u = t /\ stopping c /\ logt s' = TNone /\ held_t (logt s) = [] /\ (t = LogThread -> logt s = TNone) /\
  terminated s' = terminated s.
Proof.
  intros t c s c' s' es q u r H E.
  destruct H; try (destruct q as [|? [|? [|? ?]]]; discriminate);
    (destruct q as [|? [|? ?]]; try discriminate); injection E as <- <-; unfold stopping; sfields; repeat split; auto; try congruence.
  - rewrite H0. auto.
  - rewrite H0. auto.
Qed.

Lemma stopped_halted : forall sn g lf progs w t1 u t2, reaches sn g lf progs w (t1 ++ EvStopped u :: t2) ->
  (exists i, u = Client i) /\ popped t2 = [] /\ begun t2 = [] /\ handed t2 = [] /\ popped t1 = ended t1 /\ terminated (w_sys w) = true.
Proof.
  intros sn g lf progs w t1 u t2 H. apply reaches_split2 in H.
  destruct H as (w1 & w2 & p & q & r & t2' & sched & R & S & -> & -> & R2).
  pose proof (reaches_stop _ _ _ _ _ _ R) as (A & B & _). pose proof (reaches_good _ _ _ _ _ _ _ _ R) as G.
  destruct G as (_ & _ & _ & _ & _ & G & _).
  assert (X : q = [] /\ r = [] /\ (exists i, u = Client i) /\ halted w2 /\ held_t (logt (w_sys w1)) = []).
  { inversion S; subst.
    - eapply cs_stopped in H1; [|eauto]. destruct H1 as (-> & -> & -> & Sc & L & Lh & _ & T). split; [auto|]. split; [auto|]. split; [eauto|]. split; [|auto].
      split; sfields; [rewrite T; eapply A; eauto|left; auto].
    - exfalso. inversion H0; subst; try (destruct q as [|? [|? [|? ?]]]; discriminate).
      match goal with H : cs _ _ _ _ _ _ |- _ => eapply cs_stopped in H; [|eauto]; destruct H as (_ & _ & _ & _ & _ & _ & T & _) end.
      specialize (T eq_refl). congruence.
    - destruct q; discriminate. }
  destruct X as (-> & -> & Hu & Hh & Ht). rewrite app_nil_r. cbn [app].
  destruct (run_halted _ _ _ _ Hh R2) as ((T & _) & P1 & P2 & P3 & _). repeat split; auto.
  rewrite G. unfold unended. destruct (logt (w_sys w1)); try discriminate; apply app_nil_r.
Qed.

Lemma handed_delivered : forall tr, handed tr = [] -> forall l m, ~ In (EvDeliver l m) tr.
Proof.
  intros tr H l m I. apply in_split in I. destruct I as (a & b & ->). unfold handed in H. rewrite pick_app in H. simpl in H.
  destruct (pick _ a); discriminate.
Qed.

Lemma no_callback_after_stop : forall sn g lf progs w t1 u t2, reaches sn g lf progs w (t1 ++ EvStopped u :: t2) ->
  forall l m, ~ In (EvDeliver l m) t2.
Proof. intros sn g lf progs w t1 u t2 H. apply handed_delivered. apply stopped_halted in H. tauto. Qed.

(** What is in the queue when the log thread notices the request is never dispatched. *)
Lemma pending_dropped : forall sn g lf progs w tr w' tr', reaches sn g lf progs w tr ->
  terminated (w_sys w) = true -> held_t (logt (w_sys w)) = [] -> follows compile rmatch w w' tr' ->
  popped tr' = [] /\ (forall l m, ~ In (EvDeliver l m) tr') /\ prefix (waiting w) (waiting w').
Proof.
  intros sn g lf progs w tr w' tr' R T Ht [sched Hr].
  assert (R' : reaches sn g lf progs w' (tr ++ tr')).
  { destruct R as [s0 R0]. exists (s0 ++ sched). rewrite (run_app _ _ _ _ _ _ _ R0), Hr. auto. }
  assert (P : popped tr' = [] /\ handed tr' = []).
  { pose proof (no_lost_wakeup _ _ _ _ _ _ _ _ R) as W.
    assert (D : halted w \/ logt (w_sys w) = TAsleep).
    { unfold halted, out. destruct (logt (w_sys w)); try discriminate; auto. }
    destruct D as [D|D].
    { destruct (run_halted _ _ _ _ D Hr) as (_ & ? & _ & ? & _). auto. }
    clear W Ht R R'. revert w tr' T D Hr. induction sched as [|ch sched IH]; intros w tr' T D Hr; simpl in Hr.
    - injection Hr as <- <-. auto.
    - destruct (step ch w) as [[w1 es]|] eqn:E; [|discriminate].
      destruct (run sched w1) as [[w2 es']|] eqn:E2; [|discriminate]. injection Hr as <- <-.
      apply step_st in E.
      assert (Y : popped es = [] /\ handed es = [] /\ terminated (w_sys w1) = true /\ (halted w1 \/ logt (w_sys w1) = TAsleep)).
      { inversion E; subst.
        - pose proof (cs_quiet _ _ _ _ _ _ _ H1) as (Q1 & _ & _ & _ & Q2). sfields.
          pose proof (cs_terminated _ _ _ _ _ _ H1 T) as T1. repeat split; auto.
          unfold halted, out. sfields. destruct (cs_logt_kind _ _ _ _ _ _ H1) as [K|[(_ & K)|[(K & _)|(K & _)]]]; try congruence; auto.
          right. congruence.
        - inversion H0; subst; congruence.
        - cbn. repeat (split; auto). left. split; auto. right; left; auto. }
      destruct Y as (Y1 & Y2 & Y3 & [Y4|Y4]); destruct (picks_app es es') as (_ & -> & _ & _ & _ & ->); rewrite Y1, Y2.
      + destruct (run_halted _ _ _ _ Y4 E2) as (_ & ? & _ & ? & _). auto.
      + destruct (IH w1 es' Y3 Y4 E2) as (-> & ->). auto. }
  destruct P as (P1 & P2). split; auto. split; [apply handed_delivered; auto|].
  pose proof (reaches_good _ _ _ _ _ _ _ _ R) as (_ & _ & _ & G1 & _).
  pose proof (reaches_good _ _ _ _ _ _ _ _ R') as (_ & _ & _ & G2 & _).
  destruct (picks_app tr tr') as (E1 & E2 & _). rewrite E1, E2, P1, app_nil_r, G1, <- app_assoc in G2.
  apply app_inv_head in G2. exists (accepted tr'). auto.
Qed.

(** ** C38 *)
Lemma garbage_dead : forall sn lf progs w tr, reaches sn true lf progs w tr -> popped tr = [] /\ forall l m, ~ In (EvDeliver l m) tr.
Proof.
  intros sn lf progs w tr [sched H].
  assert (Hh : halted (init sn true lf progs : world)).
  { split; auto. destruct sn; unfold out; cbn; auto. }
  destruct (run_halted _ _ _ _ Hh H) as (_ & ? & _ & ? & _). split; auto. apply handed_delivered. auto.
Qed.

End Log.
