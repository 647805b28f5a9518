(** * The end of a LogSystem: proofs *)
From Coq Require Import ZArith String Bool List Arith Lia.
From Verif Require Import Base ListFacts LogModel LogSpec LogProofs LogOrder LogCount LogStop LogEndModel.
Import ListNotations.
Open Scope list_scope.

Section End.
Context {RE : Type}.
Variable compile : string -> option RE.
Variable rmatch : string -> RE -> bool.
Notation reaches := (reaches compile rmatch).
Notation cs := (@cs RE compile).
Notation ls := (@ls RE compile rmatch).
Notation st := (@st RE compile rmatch).
Implicit Types (s : @sys RE) (w : @world RE).

Lemma NoDup_both : forall (A : Type) (a b : list A), NoDup (a ++ b) -> NoDup a /\ NoDup b.
Proof.
  intros A a. induction a as [|x a IH]; intros b H; [split; [constructor|auto]|].
  inversion H; subst. destruct (IH b) as (Na & Nb); auto. split; auto. constructor; auto.
  intros I. apply H2. apply in_or_app. auto.
Qed.

(** Deleting distinct live objects works, and leaves the others. *)
Lemma delete_all_ok : forall os s, NoDup os -> (forall o, In o os -> live s o) ->
  exists s', delete_all os s = ROk s' tt /\ (forall o, live s' o <-> live s o /\ ~ In o os) /\
    pool s' = pool s /\ queue s' = queue s /\ built s' = built s /\ torn s' = torn s + List.length os /\
    List.length (heap s') = List.length (heap s).
Proof.
  induction os as [|o os IH]; intros s N L.
  - exists s. cbn. split; [reflexivity|]. split; [tauto|]. repeat split; lia.
  - inversion N; subst. destruct (L o (or_introl eq_refl)) as (m & Em).
    cbn [delete_all]. unfold bind at 1. unfold delete_msg at 1. rewrite Em.
    set (s1 := set_torn _ _).
    assert (K : forall o', live s1 o' <-> live s o' /\ o' <> o).
    { intros o'. unfold live, s1. cbn [heap set_torn set_heap]. rewrite nth_error_upd_lt.
      destruct (Nat.eq_dec o' o) as [->|Ne].
      - rewrite Em. cbn. split; [intros (? & D); discriminate|intros (_ & D); congruence].
      - split; [intros H; split; auto|tauto]. }
    destruct (IH s1) as (s' & E & A & P & Q & B & T & H); auto.
    { intros o' I. apply K. split; [apply L; right; auto|]. intros ->. contradiction. }
    exists s'. rewrite E. split; [reflexivity|]. split.
    { intros o'. rewrite A, K. cbn [In]. split; intros X; intuition congruence. }
    unfold s1 in *. cbn [pool queue built torn heap set_torn set_heap] in *. rewrite upd_length in H.
    cbn [List.length]. repeat split; auto; lia.
Qed.

Lemma places_idle : forall w, held_t (logt (w_sys w)) = [] -> (forall c, In c (w_clients w) -> c_pc c = Idle) ->
  places w = pool (w_sys w) ++ queue (w_sys w).
Proof.
  intros w T C. unfold places. rewrite T.
  assert (E : flat_map held_c (w_clients w) = []).
  { induction (w_clients w) as [|c l IH]; auto. cbn [flat_map]. unfold held_c at 1. rewrite (C c) by (left; auto). apply IH.
    intros; apply C; right; auto. }
  rewrite E. cbn. rewrite app_nil_r. reflexivity.
Qed.

(** The log thread comes into being only in start(), that says so when it returns. *)
Lemma st_none : forall w w' es, st w w' es -> logt (w_sys w) = TNone ->
  logt (w_sys w') = TNone \/ exists u, In (EvStarted u) es.
Proof.
  intros w w' es H N. destruct H as [w i c c' s' es Hc Hi H | w s' es Hc H | w Hc Hs]; cbn [w_sys].
  - destruct H; cbn [logt set_heap set_pool set_queue set_terminated set_unpooled set_maxq set_slevel set_pending set_lst set_mtx set_logt set_built set_crashed]; auto.
    + destruct (pushed_fields o s) as (_ & _ & _ & _ & _ & _ & _ & _ & _ & _ & _ & _ & _ & _ & _ & _ & E). rewrite E, N. auto.
    + rewrite notify_logt, N. auto.
    + right. eexists; left; reflexivity.
  - inversion H; subst; congruence.
  - congruence.
Qed.

Lemma run_none : forall sched w w' tr, run compile rmatch sched w = Some (w', tr) -> logt (w_sys w) = TNone ->
  (forall u, ~ In (EvStarted u) tr) -> logt (w_sys w') = TNone.
Proof.
  induction sched as [|ch sched IH]; intros w w' tr H N S; cbn [run] in H.
  - injection H as <- <-. auto.
  - destruct (step compile rmatch ch w) as [[w1 es]|] eqn:E; [|discriminate].
    destruct (run compile rmatch sched w1) as [[w2 es']|] eqn:E2; [|discriminate]. injection H as <- <-.
    apply step_st in E. destruct (st_none _ _ _ E N) as [N1|(u & I)].
    + eapply IH; eauto. intros u I. apply (S u). apply in_or_app. auto.
    + exfalso. apply (S u). apply in_or_app. auto.
Qed.

Lemma stopped_none : forall sn g lf progs w t1 u t2, reaches sn g lf progs w (t1 ++ EvStopped u :: t2) ->
  (forall v, ~ In (EvStarted v) t2) -> logt (w_sys w) = TNone.
Proof.
  intros sn g lf progs w t1 u t2 H S0. apply reaches_split2 in H.
  destruct H as (w1 & w2 & p & q & r & t2' & sched & R & S & -> & -> & R2).
  assert (X : logt (w_sys w2) = TNone).
  { pose proof (reaches_stop _ _ _ _ _ _ _ _ R) as St.
    inversion S; subst.
    - eapply cs_stopped in H1; [|eauto]. cbn. tauto.
    - exfalso. inversion H0; subst; try (destruct q as [|? [|? [|? ?]]]; discriminate).
      match goal with H : LogProofs.cs _ _ _ _ _ _ _ |- _ => eapply cs_stopped in H; [|eauto]; destruct H as (_ & _ & _ & _ & _ & _ & T & _) end.
      specialize (T eq_refl). congruence.
    - destruct q; discriminate. }
  eapply run_none; eauto. intros v I. apply (S0 v). apply in_or_app. auto.
Qed.

(** The destructor, once its stop() has returned and nobody else is in a call. *)
Lemma destroyed : forall sn g lf progs w t1 u t2, reaches sn g lf progs w (t1 ++ EvStopped u :: t2) ->
  (forall v, ~ In (EvStarted v) t2) -> (forall c, In c (w_clients w) -> c_pc c = Idle) ->
  logt (w_sys w) = TNone /\ exists s', destroy (w_sys w) = ROk s' tt /\ (forall o, ~ live s' o) /\ pool s' = [] /\ queue s' = [] /\
    built s' + List.length (passes (t1 ++ EvStopped u :: t2)) = torn s' + List.length (accepted (t1 ++ EvStopped u :: t2)).
Proof.
  intros sn g lf progs w t1 u t2 R S C. pose proof (stopped_none _ _ _ _ _ _ _ _ R S) as N. split; [exact N|].
  assert (Ht : held_t (logt (w_sys w)) = []) by (rewrite N; reflexivity).
  pose proof (places_idle w Ht C) as P. destruct (one_place _ _ _ _ _ _ _ _ R) as (Nd & L).
  pose proof (leak_exact _ _ _ _ _ _ _ _ R) as Lk. rewrite P in *. clear P.
  assert (Cz : constructed w = 0).
  { unfold constructed. rewrite N. cbn [ctors_t List.length]. clear - C.
    induction (w_clients w) as [|c l IH]; auto. cbn [flat_map]. unfold ctors at 1. rewrite (C c) by (left; auto). apply IH.
    intros; apply C; right; auto. }
  set (s := w_sys w) in *.
  assert (Nq : NoDup (queue s)) by (apply (NoDup_both _ _ _ Nd)).
  assert (Np : NoDup (rev (pool s))) by (apply NoDup_rev; apply (NoDup_both _ _ _ Nd)).
  destruct (delete_all_ok (queue s) s) as (s1 & E1 & A1 & P1 & Q1 & B1 & T1 & H1); auto.
  { intros o I. apply L. apply in_or_app. auto. }
  destruct (delete_all_ok (rev (pool s)) s1) as (s2 & E2 & A2 & P2 & Q2 & B2 & T2 & H2); auto.
  { intros o I. apply A1. apply in_rev in I. split; [apply L; apply in_or_app; auto|].
    clear - Nd I. induction (pool s) as [|x l IH]; [destruct I|]. cbn in Nd. inversion Nd; subst.
    destruct I as [->|I]; [intros I'; apply H1; apply in_or_app; auto|auto]. }
  exists (set_queue [] (set_pool [] s2)). unfold destroy. unfold bind, get, put. rewrite E1, P1, E2.
  split; [reflexivity|]. split; [|split; [reflexivity|split; [reflexivity|]]].
  - intros o Lo. change (live s2 o) in Lo. apply A2 in Lo. destruct Lo as (Lo & Nr). apply A1 in Lo. destruct Lo as (Lo & Nq').
    apply L in Lo. apply in_app_or in Lo. destruct Lo as [I|I]; auto. apply Nr. apply in_rev in I. rewrite rev_involutive in I || idtac. auto.
  - change (built s2 + List.length (passes (t1 ++ EvStopped u :: t2)) = torn s2 + List.length (accepted (t1 ++ EvStopped u :: t2))).
    rewrite rev_length in T2. rewrite app_length in Lk. lia.
Qed.

Lemma destroyed_leak : forall sn g lf progs w t1 u t2 s', reaches sn g lf progs w (t1 ++ EvStopped u :: t2) ->
  (forall v, ~ In (EvStarted v) t2) -> (forall c, In c (w_clients w) -> c_pc c = Idle) -> destroy (w_sys w) = ROk s' tt ->
  built s' + List.length (passes (t1 ++ EvStopped u :: t2)) = torn s' + List.length (accepted (t1 ++ EvStopped u :: t2)).
Proof.
  intros sn g lf progs w t1 u t2 s' R S C D. destruct (destroyed _ _ _ _ _ _ _ _ R S C) as (_ & s1 & E & _ & _ & _ & L).
  rewrite D in E. injection E as ->. exact L.
Qed.

Lemma destroyed_all : forall sn g lf progs w t1 u t2, reaches sn g lf progs w (t1 ++ EvStopped u :: t2) ->
  (forall v, ~ In (EvStarted v) t2) -> (forall c, In c (w_clients w) -> c_pc c = Idle) ->
  logt (w_sys w) = TNone /\ exists s', destroy (w_sys w) = ROk s' tt /\ forall o, ~ live s' o.
Proof.
  intros sn g lf progs w t1 u t2 R S C. destruct (destroyed _ _ _ _ _ _ _ _ R S C) as (N & s' & E & L & _). eauto.
Qed.

(** ** An exception from a callback *)
Lemma throwing_ends : forall w o rest k cb, crashed (w_sys w) = None -> logt (w_sys w) = TCall o rest (mkC Idle (CThrow :: k)) ->
  exists w', step compile rmatch (GoLog cb) w = Some (w', [EvThrown LogThread]) /\ crashed (w_sys w') = Some Terminate.
Proof.
  intros w o rest k cb C E. unfold step. rewrite C. unfold lstep. rewrite E. cbn. eexists. split; reflexivity.
Qed.

Lemma crashed_stays : forall sched w w' tr b, run compile rmatch sched w = Some (w', tr) -> crashed (w_sys w) = Some b -> w' = w /\ tr = [].
Proof.
  intros [|ch sched] w w' tr b H C; cbn [run] in H.
  - injection H as <- <-. auto.
  - unfold step in H. rewrite C in H. discriminate.
Qed.

Lemma throwing_silent : forall w o rest k w' tr, logt (w_sys w) = TCall o rest (mkC Idle (CThrow :: k)) ->
  follows compile rmatch w w' tr -> (forall l m, ~ In (EvDeliver l m) tr) /\
  (logt (w_sys w') = TCall o rest (mkC Idle (CThrow :: k)) \/ crashed (w_sys w') = Some Terminate).
Proof.
  intros w o rest k w' tr E [sched H].
  assert (X : handed tr = [] /\ (logt (w_sys w') = TCall o rest (mkC Idle (CThrow :: k)) \/ crashed (w_sys w') = Some Terminate)).
  { revert w tr E H. induction sched as [|ch sched IH]; intros w tr E H; cbn [run] in H.
    - injection H as <- <-. auto.
    - destruct (step compile rmatch ch w) as [[w1 es]|] eqn:E1; [|discriminate].
      destruct (run compile rmatch sched w1) as [[w2 es']|] eqn:E2; [|discriminate]. injection H as <- <-.
      apply step_st in E1. destruct (picks_app es es') as (_ & _ & _ & _ & _ & ->).
      inversion E1; subst.
      + destruct (cs_quiet _ _ _ _ _ _ _ H1) as (_ & _ & _ & _ & ->). cbn [app].
        eapply IH; [|exact E2]. cbn. destruct (cs_logt_kind _ _ _ _ _ _ _ H1) as [K|[(K & _)|[(K & _)|(K & _)]]]; congruence.
      + inversion H0; subst; try congruence.
        rewrite E in H1. injection H1 as <- <- <-.
        destruct (cs_quiet _ _ _ _ _ _ _ H2) as (_ & _ & _ & _ & ->). cbn [app].
        inversion H2; subst; try discriminate.
        destruct (crashed_stays _ _ _ _ Terminate E2 eq_refl) as (-> & ->). auto.
      + congruence. }
  destruct X as (X1 & X2). split; auto. apply handed_delivered. auto.
Qed.

(** Nothing else ends the program. *)
Lemma crash_cause : forall sn g lf progs w tr b, reaches sn g lf progs w tr -> crashed (w_sys w) = Some b ->
  b = Terminate /\ exists o rest k,
    (logt (w_sys w) = TCall o rest (mkC Idle k) /\ exists t0, tr = t0 ++ [EvThrown LogThread]) \/
    logt (w_sys w) = TCall o rest (mkC StopJoin k).
Proof.
  intros sn g lf progs w tr b R. revert b.
  apply (reaches_inv compile rmatch (fun w tr => forall b, crashed (w_sys w) = Some b -> b = Terminate /\ exists o rest k,
    (logt (w_sys w) = TCall o rest (mkC Idle k) /\ exists t0, tr = t0 ++ [EvThrown LogThread]) \/
    logt (w_sys w) = TCall o rest (mkC StopJoin k)) sn g lf progs); [discriminate| |exact R].
  clear w tr R. intros w w' tr es _ H b C. inversion H; subst; cbn in C.
  - exfalso. inversion H2; subst; cbn in C; try congruence.
    + unfold LogProofs.pushed in C. rewrite notify_crashed in C. destruct (_ <? _); cbn in C; congruence.
    + rewrite notify_crashed in C. congruence.
  - inversion H1; subst; cbn in C; try congruence.
    inversion H3; subst; cbn in C; try congruence.
    + injection C as <-. split; auto. exists o, rest, k. left. split; [reflexivity|]. eauto.
    + unfold LogProofs.pushed in C. rewrite notify_crashed in C. destruct (_ <? _); cbn in C; congruence.
    + rewrite notify_crashed in C. congruence.
    + injection C as <-. split; auto. exists o, rest, k. right. reflexivity.
  - congruence.
Qed.

End End.
