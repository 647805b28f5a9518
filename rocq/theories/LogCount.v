(** * LogSystem: deliveries, level filter, conservation of objects, counters, wake-ups *)
From Coq Require Import ZArith String Bool List Arith Lia Permutation.
From Verif Require Import Base ListFacts LogModel LogSpec LogProofs LogOrder.
Import ListNotations.
Open Scope list_scope.

Ltac nsimp := rewrite ?notify_heap, ?notify_pool, ?notify_queue, ?notify_terminated, ?notify_unpooled, ?notify_discarded,
  ?notify_maxq, ?notify_received, ?notify_slevel, ?notify_pending, ?notify_active, ?notify_lst, ?notify_mtx,
  ?notify_crashed, ?notify_built, ?notify_torn, ?notify_logt in *.
Ltac psimp o s := let P := fresh in pose proof (pushed_fields o s) as P;
  destruct P as (?P1 & ?P2 & ?P3 & ?P4 & ?P5 & ?P6 & ?P7 & ?P8 & ?P9 & ?P10 & ?P11 & ?P12 & ?P13 & ?P14 & ?P15 & ?P16 & ?P17).

Section Log.
Context {RE : Type}.
Variable compile : string -> option RE.
Variable rmatch : string -> RE -> bool.
Notation sys := (@sys RE).
Notation world := (@world RE).
Notation cs := (@cs RE compile).
Notation ls := (@ls RE compile rmatch).
Notation st := (@st RE compile rmatch).
Notation run := (run compile rmatch).
Notation reaches := (reaches compile rmatch).
Implicit Types (s : sys) (w : world).

(** Cut a run just before the step that shows a given event. *)
Lemma reaches_split : forall sn g lf progs w t1 e t2, reaches sn g lf progs w (t1 ++ e :: t2) ->
  exists w1 w2 p q r, reaches sn g lf progs w1 p /\ st w1 w2 (q ++ e :: r) /\ t1 = p ++ q.
Proof.
  intros sn g lf progs w t1 e t2 [sched H].
  destruct (run_split _ _ _ _ _ _ H _ _ _ eq_refl) as (s1 & ch & s2 & w1 & w2 & p & q & r & _ & R & S & E & _ & _).
  exists w1, w2, p, q, r. split; [eexists; eauto|]. split; auto. eapply step_st; eauto.
Qed.

(** ... and go on after it. *)
Lemma reaches_split2 : forall sn g lf progs w t1 e t2, reaches sn g lf progs w (t1 ++ e :: t2) ->
  exists w1 w2 p q r t2' (sched : list choice), reaches sn g lf progs w1 p /\ st w1 w2 (q ++ e :: r) /\ t1 = p ++ q /\
    t2 = r ++ t2' /\ run sched w2 = Some (w, t2').
Proof.
  intros sn g lf progs w t1 e t2 [sched H].
  destruct (run_split _ _ _ _ _ _ H _ _ _ eq_refl) as (s1 & ch & s2 & w1 & w2 & p & q & r & _ & R & S & E & R2 & F).
  exists w1, w2, p, q, r, (skipn (List.length r) t2), s2. split; [eexists; eauto|]. split; [eapply step_st; eauto|].
  split; auto. split; auto. rewrite <- F at 1. symmetry. apply firstn_skipn.
Qed.

(** ** C28 *)
Lemma deliver_ls : forall s s' es q l m r, ls s s' es -> es = q ++ EvDeliver l m :: r ->
  q = [EvCheck l m (checkCategory_out rmatch (lst s l) (m_cat m))] /\ r = [] /\ exists o rest, logt s = TCat o l rest /\ m = content s o /\
    checkCategory rmatch (lst s l) (m_cat m) = true.
Proof.
  intros s s' es q l m r H E.
  destruct H; try (destruct q as [|? [|? ?]]; discriminate).
  - destruct q as [|? [|? [|? ?]]]; try discriminate. injection E as <- -> <- <-. repeat split; auto. exists o, rest. auto.
  - destruct H0; try (destruct q as [|? [|? [|? ?]]]; discriminate).
Qed.

Lemma deliver_cs : forall t c s c' s' es q l m r, cs t c s c' s' es -> es = q ++ EvDeliver l m :: r -> False.
Proof. intros t c s c' s' es q l m r H E. destruct H; try (destruct q as [|? [|? [|? ?]]]; discriminate). Qed.

Lemma deliver_st : forall w w' q l m r, st w w' (q ++ EvDeliver l m :: r) ->
  q = [EvCheck l m (checkCategory_out rmatch (lst (w_sys w) l) (m_cat m))] /\ r = [] /\ exists o rest, logt (w_sys w) = TCat o l rest /\ m = content (w_sys w) o /\
    checkCategory rmatch (lst (w_sys w) l) (m_cat m) = true.
Proof.
  intros w w' q l m r H. inversion H; subst.
  - exfalso. eapply deliver_cs; eauto.
  - eapply deliver_ls; eauto.
  - destruct q; discriminate.
Qed.

Lemma fifo : forall sn g lf progs w tr, reaches sn g lf progs w tr ->
  accepted tr = begun tr ++ unbegun w ++ waiting w.
Proof.
  intros sn g lf progs w tr H. apply reaches_good in H. destruct H as (_ & _ & _ & A & B & _).
  rewrite A, B, app_assoc. auto.
Qed.

Lemma handed_current : forall sn g lf progs w t1 l m t2, reaches sn g lf progs w (t1 ++ EvDeliver l m :: t2) ->
  begun t1 = ended t1 ++ [m].
Proof.
  intros sn g lf progs w t1 l m t2 H. apply reaches_split in H. destruct H as (w1 & w2 & p & q & r & R & S & ->).
  apply deliver_st in S. destruct S as (-> & -> & o & rest & E & -> & _).
  unfold begun, ended. rewrite !pick_app. cbn. rewrite !app_nil_r. fold (begun p). fold (ended p).
  apply reaches_good in R. destruct R as (_ & _ & _ & _ & B & En & _). unfold unbegun, unended in *. rewrite E in *.
  rewrite app_nil_r in B. congruence.
Qed.

(** Per thread: what passed the level test was queued, in order, but for the call in progress. *)
Definition mine (t : tid) w : list msg :=
  match t with
  | Client i => match nth_error (w_clients w) i with Some c => unqueued c | None => [] end
  | LogThread => match logt (w_sys w) with TCall _ _ c => unqueued c | _ => [] end
  end.

Lemma tid_eqb_refl : forall t, tid_eqb t t = true.
Proof. destruct t; simpl; auto. apply Nat.eqb_refl. Qed.
Lemma tid_eqb_true : forall a b, tid_eqb a b = true -> a = b.
Proof. intros [i|] [j|] H; simpl in H; try discriminate; auto. apply Nat.eqb_eq in H. subst. auto. Qed.

Lemma by_app : forall t a b, passed_by t (a ++ b) = passed_by t a ++ passed_by t b /\
  queued_by t (a ++ b) = queued_by t a ++ queued_by t b /\ logged_by t (a ++ b) = logged_by t a ++ logged_by t b.
Proof. intros. unfold passed_by, queued_by, logged_by. rewrite !pick_app. auto. Qed.

Lemma cs_mine : forall t c s c' s' es, cs t c s c' s' es ->
  unqueued c ++ passed_by t es = queued_by t es ++ unqueued c' /\
  (forall t', t' <> t -> passed_by t' es = [] /\ queued_by t' es = [] /\ logged_by t' es = []) /\
  log_calls (c_todo c) = logged_by t es ++ log_calls (c_todo c').
Proof.
  intros t c s c' s' es H.
  assert (X : forall t', t' <> t -> tid_eqb t' t = false).
  { intros t' N. destruct (tid_eqb t' t) eqn:E; auto. apply tid_eqb_true in E. congruence. }
  destruct H; unfold passed_by, queued_by, logged_by, unqueued; cbn [pick c_pc c_todo app log_calls];
    try (rewrite ?tid_eqb_refl; cbn; split; [auto|]; split; [|auto]; intros t' Nt; rewrite ?(X t' Nt); auto; fail).
Qed.

Definition order_inv progs w tr : Prop :=
  (forall t, passed_by t tr = queued_by t tr ++ mine t w) /\
  List.length (w_clients w) = List.length progs /\
  (forall i p, nth_error progs i = Some p -> exists c, nth_error (w_clients w) i = Some c /\ log_calls p = logged_by (Client i) tr ++ log_calls (c_todo c)).

Lemma ls_mine : forall s s' es, ls s s' es -> forall cl,
  mine LogThread (mkWorld s cl) ++ passed_by LogThread es = queued_by LogThread es ++ mine LogThread (mkWorld s' cl) /\
  (forall i, passed_by (Client i) es = [] /\ queued_by (Client i) es = [] /\ logged_by (Client i) es = []).
Proof.
  intros s s' es H cl. unfold mine.
  destruct H; sfields; try (match goal with H : logt _ = _ |- _ => rewrite H end); try (split; [reflexivity|intros; repeat split; reflexivity]).
  apply cs_mine in H0. destruct H0 as (A & B & _). split; auto. intros i. apply B. discriminate.
Qed.

Lemma cs_nested_mine : forall i c s c' s' es, cs (Client i) c s c' s' es -> forall cl cl',
  mine LogThread (mkWorld s' cl') = mine LogThread (mkWorld s cl).
Proof.
  intros i c s c' s' es H cl cl'. unfold mine. sfields. destruct (cs_logt _ _ _ _ _ _ _ H) as [->|[E1 E2]]; auto.
  destruct (logt s), (logt s'); try discriminate; auto.
Qed.

Lemma st_order : forall progs w w' tr es, order_inv progs w tr -> st w w' es -> order_inv progs w' (tr ++ es).
Proof.
  intros progs w w' tr es (A & L & P) H. destruct H as [w i c c' s' es Hc Hi H | w s' es Hc H | w Hc Hs].
  - pose proof (cs_mine _ _ _ _ _ _ H) as (M1 & M2 & M3). split; [|split].
    + intros t. destruct (by_app t tr es) as (-> & -> & _). rewrite A.
      destruct t as [j|].
      * unfold mine. sfields. destruct (Nat.eq_dec j i) as [->|N].
        -- rewrite Hi, (nth_error_upd_eq _ _ _ _ Hi). rewrite <- !app_assoc. f_equal. auto.
        -- rewrite nth_error_upd_neq by auto. destruct (M2 (Client j)) as (-> & -> & _); [congruence|]. rewrite !app_nil_r. auto.
      * destruct (M2 LogThread) as (-> & -> & _); [discriminate|]. rewrite !app_nil_r. f_equal. symmetry.
        destruct w. eapply cs_nested_mine; eauto.
    + sfields. rewrite upd_length. auto.
    + intros j p Hp. destruct (P j p Hp) as (cj & Hj & E). sfields. destruct (by_app (Client j) tr es) as (_ & _ & ->).
      destruct (Nat.eq_dec j i) as [->|N].
      * rewrite (nth_error_upd_eq _ _ _ _ Hi). exists c'. split; auto. rewrite E, <- app_assoc. f_equal. congruence.
      * rewrite nth_error_upd_neq by auto. exists cj. split; auto. destruct (M2 (Client j)) as (_ & _ & ->); [congruence|].
        rewrite app_nil_r. auto.
  - destruct w as [s cl]. sfields. destruct (ls_mine _ _ _ H cl) as (M1 & M2). split; [|split; auto].
    + intros t. destruct (by_app t tr es) as (-> & -> & _). rewrite A. destruct t as [j|].
      * destruct (M2 j) as (-> & -> & _). rewrite !app_nil_r. auto.
      * rewrite <- !app_assoc. f_equal. auto.
    + intros j p Hp. destruct (P j p Hp) as (cj & Hj & E). exists cj. split; auto.
      destruct (by_app (Client j) tr es) as (_ & _ & ->). destruct (M2 j) as (_ & _ & ->). rewrite app_nil_r. auto.
  - rewrite app_nil_r. split; [|split; auto]. intros t. rewrite A. unfold mine. destruct t; sfields; auto. rewrite Hs. auto.
Qed.

Lemma reaches_order : forall sn g lf progs w tr, reaches sn g lf progs w tr -> order_inv progs w tr.
Proof.
  intros sn g lf progs w tr H. eapply reaches_inv; [| |exact H].
  - split; [|split].
    + intros t. cbn. unfold mine, init. destruct t; sfields.
      * rewrite nth_error_map. destruct (nth_error progs i); auto.
      * destruct sn; auto.
    + unfold init. sfields. apply map_length.
    + intros i p Hp. unfold init. sfields. rewrite nth_error_map, Hp. cbn. eexists. split; eauto.
  - intros. eapply st_order; eauto.
Qed.

Lemma thread_order : forall sn g lf progs w tr t, reaches sn g lf progs w tr ->
  exists cur, passed_by t tr = queued_by t tr ++ cur /\ List.length cur <= 1.
Proof.
  intros sn g lf progs w tr t H. apply reaches_order in H. destruct H as (A & _). exists (mine t w). split; auto.
  assert (X : forall c, List.length (unqueued c) <= 1) by (intros c; unfold unqueued; destruct (c_pc c); simpl; lia).
  unfold mine. destruct t; [destruct (nth_error _ _)|destruct (logt _)]; simpl; auto.
Qed.

Lemma thread_idle : forall sn g lf progs w tr i c, reaches sn g lf progs w tr -> nth_error (w_clients w) i = Some c ->
  c_pc c = Idle -> queued_by (Client i) tr = passed_by (Client i) tr.
Proof.
  intros sn g lf progs w tr i c H Hi Hc. apply reaches_order in H. destruct H as (A & _). rewrite (A (Client i)).
  unfold mine. rewrite Hi. unfold unqueued. rewrite Hc, app_nil_r. auto.
Qed.

Lemma program_order : forall sn g lf progs w tr i p, reaches sn g lf progs w tr -> nth_error progs i = Some p ->
  prefix (logged_by (Client i) tr) (log_calls p).
Proof.
  intros sn g lf progs w tr i p H Hp. apply reaches_order in H. destruct H as (_ & _ & P).
  destruct (P i p Hp) as (c & _ & E). eexists. eauto.
Qed.

(** ** C30 *)
Lemma level_of_app : forall a b z, level_of (a ++ b) z = level_of b (level_of a z).
Proof. intros a. induction a as [|[] a IH]; intros; simpl; auto. Qed.

Lemma cs_level : forall t c s c' s' es, cs t c s c' s' es -> slevel s' = level_of es (slevel s).
Proof. intros t c s c' s' es H. destruct H; sfields; nsimp; auto. psimp o s. rewrite P9. auto. Qed.

Lemma reaches_level : forall sn g lf progs w tr, reaches sn g lf progs w tr -> slevel (w_sys w) = level_of tr TRACE.
Proof.
  intros sn g lf progs w tr H. eapply (reaches_inv compile rmatch (fun w tr => slevel (w_sys w) = level_of tr TRACE)); [| |exact H].
  - reflexivity.
  - clear. intros w w' tr es I H. rewrite level_of_app, <- I. destruct H as [w i c c' s' es Hc Hi H | w s' es Hc H | w Hc Hs]; sfields; auto.
    + eapply cs_level; eauto.
    + destruct H; sfields; auto. eapply cs_level; eauto.
Qed.

Lemma cs_evlog : forall t c s c' s' es q u m b r, cs t c s c' s' es -> es = q ++ EvLog u m b :: r ->
  q = [] /\ r = [] /\ u = t /\ b = (m_level m <=? slevel s)%Z /\ (b = false -> s' = s /\ unqueued c' = []).
Proof.
  intros t c s c' s' es q u m b r H E.
  destruct H; try (destruct q as [|? [|? [|? ?]]]; discriminate).
  - destruct q as [|? [|? ?]]; try discriminate. injection E as <- <- <- <-. repeat split; auto.
    symmetry. apply Z.leb_gt. lia.
  - destruct q as [|? [|? ?]]; try discriminate. injection E as <- <- <- <-. repeat split; try discriminate.
    symmetry. apply Z.leb_le. lia.
Qed.

Lemma level_decides : forall sn g lf progs w t1 u m b t2, reaches sn g lf progs w (t1 ++ EvLog u m b :: t2) ->
  b = (m_level m <=? level_of t1 TRACE)%Z.
Proof.
  intros sn g lf progs w t1 u m b t2 H. apply reaches_split in H. destruct H as (w1 & w2 & p & q & r & R & S & ->).
  apply reaches_level in R.
  assert (X : q = [] /\ b = (m_level m <=? slevel (w_sys w1))%Z).
  { inversion S; subst.
    - eapply cs_evlog in H1; eauto. tauto.
    - inversion H0; subst; try (destruct q as [|? [|? [|? ?]]]; discriminate).
      match goal with H : cs _ _ _ _ _ _ |- _ => eapply cs_evlog in H; eauto end. tauto.
    - destruct q; discriminate. }
  destruct X as (-> & ->). rewrite app_nil_r, R. auto.
Qed.

(** A rejected call changes nothing but the caller's program counter. *)
Lemma reject_client : forall i m k s, (m_level m > slevel s)%Z ->
  cstep compile (Client i) (mkC Idle (CLog m :: k)) s = Some (mkC Idle k, s, [EvLog (Client i) m false]).
Proof. intros i m k s H. unfold cstep. sfields. destruct (Z.gtb_spec (m_level m) (slevel s)); auto. lia. Qed.

(** ** C31 *)
Definition amount w : nat := List.length (places w).

Definition count_inv w tr : Prop :=
  amount w + discarded (w_sys w) + making w = POOL + unpooled (w_sys w) + List.length (passes tr) + deleting w /\
  List.length (pool (w_sys w)) <= POOL /\
  POOL + match logt (w_sys w) with TDelete _ | TFree _ => 1 | _ => 0 end <= amount w.

Definition loose w (c : cthread) s : nat := List.length (pool s) + List.length (queue s) + List.length (held_c c).

Lemma cs_amount : forall t c s c' s' es, cs t c s c' s' es ->
  List.length (pool s') + List.length (queue s') + List.length (held_c c') + discarded s' + unpooled s + List.length (making_c c') =
  List.length (pool s) + List.length (queue s) + List.length (held_c c) + discarded s + unpooled s' + List.length (passes es) + List.length (making_c c) /\
  List.length (pool s') <= List.length (pool s) /\ discarded s' = discarded s /\
  List.length (pool s) + List.length (queue s) + List.length (held_c c) <= List.length (pool s') + List.length (queue s') + List.length (held_c c').
Proof.
  intros t c s c' s' es H. destruct H; unfold held_c, making_c; sfields; nsimp; cbn [List.length passes pick]; try lia.
  - rewrite H. cbn [List.length]. lia.
  - psimp o s. rewrite P2, P3, P5, P6, app_length. cbn [List.length]. lia.
Qed.

Lemma cs_making : forall i c s c' s' es, cs (Client i) c s c' s' es ->
  making_t (logt s') = making_t (logt s) /\
  match logt s' with TFree _ => 1 | _ => 0 end = match logt s with TFree _ => 1 | _ => 0 end.
Proof.
  intros i c s c' s' es H. destruct (cs_logt _ _ _ _ _ _ _ H) as [->|[E1 _]]; auto. pose proof (cs_held _ _ _ _ _ _ _ H) as E.
  destruct (logt s), (logt s'); try discriminate; auto.
Qed.

Lemma passes_app : forall a b, passes (a ++ b) = passes a ++ passes b.
Proof. intros. apply pick_app. Qed.

Lemma st_count : forall w w' tr es, count_inv w tr -> st w w' es -> count_inv w' (tr ++ es).
Proof.
  intros w w' tr es (A & P & B) H. unfold count_inv, amount, places, making, deleting in *. rewrite passes_app. rewrite !app_length in *.
  destruct H as [w i c c' s' es Hc Hi H | w s' es Hc H | w Hc Hs]; sfields.
  - pose proof (cs_amount _ _ _ _ _ _ H) as (M & M1 & M2 & M3). pose proof (flat_map_upd_len _ held_c _ _ _ c' Hi) as F.
    pose proof (flat_map_upd_len _ making_c _ _ _ c' Hi) as F2.
    rewrite (cs_held _ _ _ _ _ _ _ H). destruct (cs_making _ _ _ _ _ _ H) as [-> ->].
    assert (match logt s' with TDelete _ | TFree _ => 1 | _ => 0 end = match logt (w_sys w) with TDelete _ | TFree _ => 1 | _ => 0 end) as ->.
    { destruct (cs_logt _ _ _ _ _ _ _ H) as [->|[E1 _]]; auto. pose proof (cs_held _ _ _ _ _ _ _ H) as E.
      destruct (logt (w_sys w)), (logt s'); try discriminate; auto. }
    lia.
  - destruct w as [s cl]. sfields. destruct H; sfields; try (match goal with H : logt _ = _ |- _ => rewrite H in * end);
      cbn [held_t held_c making_t making_c c_pc List.length passes pick] in *; try lia.
    + rewrite H1 in *. cbn [List.length] in *. lia.
    + pose proof (cs_amount _ _ _ _ _ _ H0) as (M & M1 & M2 & M3). lia.
  - rewrite Hs in *. cbn in *. lia.
Qed.

Lemma reaches_count : forall sn g lf progs w tr, reaches sn g lf progs w tr -> count_inv w tr.
Proof.
  intros sn g lf progs w tr H. eapply (reaches_inv compile rmatch count_inv); [| |exact H].
  - unfold count_inv, amount, places, making, deleting, init, construct. sfields.
    assert (E : flat_map held_c (map (mkC Idle) progs) = []) by (clear; induction progs; simpl; auto).
    assert (E' : flat_map making_c (map (mkC Idle) progs) = []) by (clear; induction progs; simpl; auto).
    rewrite E, E'. assert (E2 : held_t (if sn then TCheck else TNone) = []) by (destruct sn; auto). rewrite E2.
    rewrite !app_nil_r, rev_length, seq_length. destruct sn; cbn [making_t passes pick List.length]; lia.
  - intros. eapply st_count; eauto.
Qed.

Lemma one_place : forall sn g lf progs w tr, reaches sn g lf progs w tr ->
  NoDup (places w) /\ forall o, In o (places w) <-> live (w_sys w) o.
Proof.
  intros sn g lf progs w tr H. apply reaches_good in H. destruct H as (O & _). split.
  - apply (NoDup_count_occ Nat.eq_dec). intros o. apply (own_le _ o O).
  - intros o. rewrite cnt_pos, (O o), live_n. unfold liven. destruct (nth_error _ o) as [[?|]|]; lia.
Qed.

Lemma pool_bound : forall sn g lf progs w tr, reaches sn g lf progs w tr ->
  List.length (pool (w_sys w)) <= 64 /\ (quiescent w -> List.length (pool (w_sys w)) = 64 /\
    discarded (w_sys w) + making w = unpooled (w_sys w) + List.length (passes tr)).
Proof.
  intros sn g lf progs w tr H. apply reaches_count in H. destruct H as (A & P & B). change 64 with POOL. split; auto.
  intros (Q1 & Q2 & Q3). assert (D : deleting w = 0) by (unfold deleting; destruct (logt (w_sys w)); auto; discriminate).
  unfold amount, places in *. rewrite D, Q1, Q2, Q3, !app_length in *. cbn [List.length] in *. lia.
Qed.

(** ** C32 *)
Lemma pending_of_app : forall a b n, pending_of (a ++ b) n = pending_of b (pending_of a n).
Proof. intros a. induction a as [|[] a IH]; intros; simpl; auto. Qed.

(** The present queue length, beside the largest. *)
Fixpoint now_of (tr : list ev) (n : nat) : nat :=
  match tr with
  | [] => n
  | EvAccept _ _ :: tr' => now_of tr' (S n)
  | EvPop _ :: tr' => now_of tr' (n - 1)
  | _ :: tr' => now_of tr' n
  end.
Lemma longest_app : forall a b n x, longest (a ++ b) n x = longest b (now_of a n) (longest a n x).
Proof. intros a. induction a as [|[] a IH]; intros; simpl; auto. Qed.
Lemma now_of_app : forall a b n, now_of (a ++ b) n = now_of b (now_of a n).
Proof. intros a. induction a as [|[] a IH]; intros; simpl; auto. Qed.

Definition diag_inv w tr : Prop :=
  received (w_sys w) = List.length (sent tr) /\ List.length (queue (w_sys w)) = now_of tr 0 /\
  maxq (w_sys w) = longest tr 0 0 /\ List.length (pending (w_sys w)) = pending_of tr 0.

Lemma cs_diag : forall t c s c' s' es, cs t c s c' s' es ->
  received s' = received s /\ sent es = [] /\ List.length (queue s') = now_of es (List.length (queue s)) /\
  maxq s' = longest es (List.length (queue s)) (maxq s) /\
  List.length (pending s') = pending_of es (List.length (pending s)).
Proof.
  intros t c s c' s' es H. destruct H; sfields; nsimp; cbn; auto.
  - rewrite app_length. simpl. repeat split; auto. lia.
  - psimp o s. rewrite P8, P3, P7, P10, app_length. cbn [List.length]. repeat split; auto; lia.
Qed.

Lemma reaches_diag : forall sn g lf progs w tr, reaches sn g lf progs w tr -> diag_inv w tr.
Proof.
  intros sn g lf progs w tr H. eapply (reaches_inv compile rmatch diag_inv); [| |exact H].
  - repeat split; auto.
  - clear. intros w w' tr es (A & B & C & D) H. unfold diag_inv.
    destruct (picks_app tr es) as (_ & _ & _ & -> & _). rewrite app_length, now_of_app, longest_app, pending_of_app, <- B, <- C, <- D, <- A.
    destruct H as [w i c c' s' es Hc Hi H | w s' es Hc H | w Hc Hs]; sfields.
    + apply cs_diag in H. destruct H as (E1 & E2 & E3 & E4 & E5). rewrite E1, E2, E3, E4, E5. cbn [List.length]. auto.
    + destruct H; sfields; cbn [sent pick List.length now_of longest pending_of]; auto; try lia.
      * rewrite H1. cbn. repeat split; auto; lia.
      * apply cs_diag in H0. destruct H0 as (E1 & E2 & E3 & E4 & E5). rewrite E1, E2, E3, E4, E5. cbn [List.length]. auto.
    + cbn. auto.
Qed.

Lemma cs_read_ev : forall t c s c' s' es q u f v r, cs t c s c' s' es -> es = q ++ EvRead u f v :: r ->
  q = [] /\ r = [] /\ u = t /\ (f <> FEnabled -> v = read_field s f) /\ (f = FEnabled -> exists fs, c_pc c = DiagCount v [] fs).
Proof.
  intros t c s c' s' es q u f v r H E.
  destruct H; try (destruct q as [|? [|? [|? ?]]]; discriminate).
  - destruct q as [|? [|? ?]]; try discriminate. injection E as <- <- <- <-. repeat split; auto. contradiction.
  - destruct q as [|? [|? ?]]; try discriminate. injection E as <- <- <- <-. repeat split; auto; [contradiction|cbn; eauto].
Qed.

Lemma read_at : forall sn g lf progs w t1 u f v t2, reaches sn g lf progs w (t1 ++ EvRead u f v :: t2) ->
  exists w1, reaches sn g lf progs w1 t1 /\ (f <> FEnabled -> v = read_field (w_sys w1) f) /\
    (f = FEnabled -> exists c fs, thread_of w1 u = Some c /\ c_pc c = DiagCount v [] fs).
Proof.
  intros sn g lf progs w t1 u f v t2 H. apply reaches_split in H. destruct H as (w1 & w2 & p & q & r & R & S & ->).
  assert (X : q = [] /\ (f <> FEnabled -> v = read_field (w_sys w1) f) /\ (f = FEnabled -> exists c fs, thread_of w1 u = Some c /\ c_pc c = DiagCount v [] fs)).
  { inversion S; subst.
    - eapply cs_read_ev in H1; eauto. destruct H1 as (E1 & E2 & -> & E4 & E5). split; auto. split; auto. intros F. destruct (E5 F) as (fs & E). exists c, fs. auto.
    - inversion H0; subst; try (destruct q as [|? [|? [|? ?]]]; discriminate).
      match goal with H : cs _ _ _ _ _ _ |- _ => eapply cs_read_ev in H; eauto; destruct H as (E1 & E2 & -> & E4 & E5) end.
      split; auto. split; auto. intros F. destruct (E5 F) as (fs & E). exists c, fs. split; auto. cbn. match goal with H : logt _ = _ |- _ => rewrite H end. auto.
    - destruct q; discriminate. }
  destruct X as (-> & X). rewrite app_nil_r. eauto.
Qed.

Lemma diag_values : forall sn g lf progs w t1 u f v t2, reaches sn g lf progs w (t1 ++ EvRead u f v :: t2) ->
  match f with
  | FReceived => v = List.length (sent t1)
  | FMaxQueue => v = longest t1 0 0
  | FPending => v = pending_of t1 0
  | FPool => v <= 64
  | _ => True
  end.
Proof.
  intros sn g lf progs w t1 u f v t2 H. apply read_at in H. destruct H as (w1 & R & V & _).
  pose proof (reaches_diag _ _ _ _ _ _ R) as (A & B & C & D). destruct f; auto; rewrite V by discriminate; cbn; auto.
  apply pool_bound in R. tauto.
Qed.

(** The other fields. *)
Lemma cs_heap : forall t c s c' s' es, cs t c s c' s' es -> List.length (heap s') + unpooled s + List.length (making_c c') =
  List.length (heap s) + unpooled s' + List.length (passes es) + List.length (making_c c).
Proof.
  intros t c s c' s' es H. destruct H; unfold making_c; sfields; nsimp; rewrite ?app_length, ?upd_length; cbn [List.length passes pick]; try lia.
  psimp o s. rewrite P1, P5. lia.
Qed.

Lemma reaches_heap : forall sn g lf progs w tr, reaches sn g lf progs w tr -> objects w + making w = POOL + unpooled (w_sys w) + List.length (passes tr).
Proof.
  intros sn g lf progs w tr H. eapply (reaches_inv compile rmatch (fun w tr => objects w + making w = POOL + unpooled (w_sys w) + List.length (passes tr))); [| |exact H].
  - unfold objects, making, init, construct. sfields. rewrite repeat_length.
    assert (E : flat_map making_c (map (mkC Idle) progs) = []) by (clear; induction progs; simpl; auto). rewrite E.
    destruct sn; cbn [passes pick making_t app List.length]; lia.
  - clear. intros w w' tr es A H. unfold objects, making in *. rewrite passes_app, app_length. rewrite !app_length in *.
    destruct H as [w i c c' s' es Hc Hi H | w s' es Hc H | w Hc Hs]; sfields; cbn [passes pick List.length].
    + pose proof (flat_map_upd_len _ making_c _ _ _ c' Hi) as F. destruct (cs_making _ _ _ _ _ _ H) as [-> _]. apply cs_heap in H. lia.
    + destruct w as [s cl]. sfields. destruct H; sfields; rewrite ?upd_length; try (match goal with H : logt _ = _ |- _ => rewrite H in * end);
        cbn [making_t making_c c_pc passes pick List.length] in *; try lia. apply cs_heap in H0. lia.
    + rewrite Hs in A. cbn [making_t] in *. lia.
Qed.

Lemma count_live : forall (h : list (option msg)) (k : nat),
  List.length (filter (fun o => match nth_error h (o - k) with Some (Some _) => true | _ => false end) (seq k (List.length h))) +
  List.length (filter (fun x => match x with None => true | Some _ => false end) h) = List.length h.
Proof.
  induction h as [|x h IH]; intro k; [reflexivity|]. cbn [List.length seq filter]. rewrite Nat.sub_diag. cbn [nth_error].
  specialize (IH (S k)).
  assert (E : filter (fun o => match nth_error (x :: h) (o - k) with Some (Some _) => true | _ => false end) (seq (S k) (List.length h)) =
              filter (fun o => match nth_error h (o - S k) with Some (Some _) => true | _ => false end) (seq (S k) (List.length h))).
  { apply filter_ext_in. intros o I. apply in_seq in I. replace (o - k) with (S (o - S k)) by lia. reflexivity. }
  rewrite E. destruct x; cbn [List.length]; lia.
Qed.

Lemma deleted_discarded : forall sn g lf progs w tr, reaches sn g lf progs w tr -> deleted w + deleting w = discarded (w_sys w).
Proof.
  intros sn g lf progs w tr H. pose proof (reaches_heap _ _ _ _ _ _ H) as A. pose proof (reaches_count _ _ _ _ _ _ H) as (B & _ & _).
  destruct (one_place _ _ _ _ _ _ H) as [N L]. pose proof (count_live (heap (w_sys w)) 0) as C. unfold deleted, amount, objects in *.
  set (alive := filter (fun o => match nth_error (heap (w_sys w)) (o - 0) with Some (Some _) => true | _ => false end) (seq 0 (List.length (heap (w_sys w))))) in *.
  assert (E : List.length (places w) = List.length alive).
  { apply Permutation_length, NoDup_Permutation; [exact N|apply NoDup_filter, seq_NoDup|].
    intro o. rewrite L. unfold alive, live. rewrite filter_In, in_seq, Nat.sub_0_r. split.
    - intros [m E]. rewrite E. split; [|reflexivity]. split; [lia|]. apply nth_error_Some. congruence.
    - intros [_ E]. destruct (nth_error (heap (w_sys w)) o) as [[m|]|]; try discriminate. eauto. }
  lia.
Qed.

(** Pending registrations. *)
Fixpoint awaiting (tr : list ev) (p : list nat) : list nat :=
  match tr with
  | [] => p
  | EvAdd l :: tr' => awaiting tr' (p ++ [l])
  | EvBegin _ :: tr' => awaiting tr' []
  | _ :: tr' => awaiting tr' p
  end.
Lemma taken_app : forall a b x y, taken (a ++ b) x y = taken b (taken a x y) (awaiting a y).
Proof. intros a. induction a as [|[] a IH]; intros; simpl; auto. Qed.
Lemma awaiting_app : forall a b y, awaiting (a ++ b) y = awaiting b (awaiting a y).
Proof. intros a. induction a as [|[] a IH]; intros; simpl; auto. Qed.

(** What is active, given what happened to the settings. *)
Definition act_inv (lf : nat -> @listener RE) w tr : Prop :=
  pending (w_sys w) = awaiting tr [] /\
  List.length (active (w_sys w)) <= List.length (taken tr [] []) /\
  (changed tr = [] -> forall l, lst (w_sys w) l = lf l) /\
  (detached tr = [] -> (forall l, l_detached (lf l) = false) ->
     active (w_sys w) = taken tr [] [] /\ (forall l, l_detached (lst (w_sys w) l) = false) /\
     match logt (w_sys w) with TClean _ k t => k ++ t = active (w_sys w) | _ => True end).

(** In the clean-up: what is kept, and what is left to be asked, was active. *)
Definition kept_inv s : Prop :=
  match logt s with
  | TClean _ k t => (forall l, cnt l k + cnt l t <= cnt l (active s)) /\ List.length k + List.length t <= List.length (active s)
  | _ => True
  end.

Lemma cs_clean : forall i c s c' s' es, cs (Client i) c s c' s' es -> forall P : list nat -> list nat -> Prop,
  match logt s with TClean _ k t => P k t | _ => True end -> match logt s' with TClean _ k t => P k t | _ => True end.
Proof.
  intros i c s c' s' es H P A. destruct (cs_logt _ _ _ _ _ _ _ H) as [->|[E1 E2]]; auto.
  pose proof (cs_held _ _ _ _ _ _ _ H) as E3. rewrite E1 in E3. destruct (logt s'); try discriminate; auto.
Qed.

Lemma changed_app : forall a b, changed (a ++ b) = changed a ++ changed b.
Proof. intros. apply pick_app. Qed.
Lemma detached_app : forall a b, detached (a ++ b) = detached a ++ detached b.
Proof. intros. apply pick_app. Qed.

Lemma filter_len_le : forall {A} (f : A -> bool) l, List.length (filter f l) <= List.length l.
Proof. intros A f l. induction l; cbn; [lia|]. destruct (f a); cbn; lia. Qed.
Lemma filter_all : forall {A} (f : A -> bool) l, (forall x, In x l -> f x = true) -> filter f l = l.
Proof. intros A f l H. induction l; cbn; auto. rewrite (H a (or_introl eq_refl)). f_equal. apply IHl. intros; apply H; now right. Qed.

Lemma cs_act : forall t c s c' s' es, cs t c s c' s' es ->
  pending s' = awaiting es (pending s) /\ active s' = active s /\ (forall x y, taken es x y = x) /\
  (changed es = [] -> lst s' = lst s) /\
  (detached es = [] -> (forall l, l_detached (lst s l) = false) -> forall l, l_detached (lst s' l) = false).
Proof.
  intros t c s c' s' es H.
  destruct H; sfields; nsimp; try (repeat split; auto; fail);
    try (split; [reflexivity|split; [reflexivity|split; [reflexivity|split; [discriminate|]]]];
         intros _ D k0; unfold upd_lst; destruct (k0 =? l); cbn; auto; fail).
  - split; [reflexivity|split; [reflexivity|split; [reflexivity|split; discriminate]]].
  - psimp o s. rewrite P10, P11, P12. repeat split; auto.
Qed.

Lemma st_kept : forall w w' es, kept_inv (w_sys w) -> st w w' es -> kept_inv (w_sys w').
Proof.
  intros w w' es K H. unfold kept_inv in *.
  destruct H as [w i c c' s' es Hc Hi H | w s' es Hc H | w Hc Hs]; sfields; auto.
  - destruct (cs_act _ _ _ _ _ _ H) as (_ & E2 & _). rewrite E2. exact (cs_clean _ _ _ _ _ _ H _ K).
  - destruct H; try (match goal with H : logt _ = _ |- _ => rewrite H in K end); sfields; auto.
    destruct K as (K1 & K2). cbn [List.length] in K2. split.
    + intros x. specialize (K1 x). rewrite cnt_cons in K1. destruct (l_detached (lst s l)); [|rewrite cnt_app, cnt_cons, cnt_nil]; lia.
    + destruct (l_detached (lst s l)); [lia|]. rewrite app_length. cbn [List.length]. lia.
Qed.

Lemma reaches_kept : forall sn g lf progs w tr, reaches sn g lf progs w tr -> kept_inv (w_sys w).
Proof.
  intros sn g lf progs w tr H. eapply (reaches_inv compile rmatch (fun w _ => kept_inv (w_sys w))); [| |exact H].
  - unfold kept_inv. destruct sn; exact I.
  - clear. intros. eapply st_kept; eauto.
Qed.

Lemma reaches_act : forall sn g lf progs w tr, reaches sn g lf progs w tr -> act_inv lf w tr.
Proof.
  intros sn g lf progs w tr H. eapply (reaches_inv_r compile rmatch sn g lf progs (act_inv lf)); [| |exact H].
  { split; [reflexivity|]. split; [apply le_n|]. split; [reflexivity|]. intros _ D. split; [reflexivity|].
    split; [exact D|]. destruct sn; exact I. }
  clear. intros w w' tr es R (A & B & C & D) H.
  apply reaches_kept in R. unfold kept_inv in R.
  unfold act_inv. rewrite awaiting_app, taken_app, changed_app, detached_app, <- A.
  destruct H as [w i c c' s' es Hc Hi H | w s' es Hc H | w Hc Hs]; sfields.
  + destruct (cs_act _ _ _ _ _ _ H) as (E1 & E2 & E3 & E4 & E5). rewrite E1, E2, E3. split; [reflexivity|]. split; [exact B|]. split.
    * intros N l. apply app_eq_nil in N. destruct N as [N1 N2]. rewrite (E4 N2). auto.
    * intros N F. apply app_eq_nil in N. destruct N as [N1 N2]. destruct (D N1 F) as (D1 & D2 & D3). split; [auto|]. split; [auto|].
      exact (cs_clean _ _ _ _ _ _ H (fun k t => k ++ t = active (w_sys w)) D3).
  + destruct H; try (match goal with H : logt _ = _ |- _ => rewrite H in * end); sfields; cbn [awaiting taken changed detached pick app]; rewrite ?app_nil_r;
      try (split; [reflexivity|split; [exact B|split; [exact C|exact D]]]).
    * split; [reflexivity|]. split; [rewrite !app_length; lia|]. split; [exact C|]. intros N F. destruct (D N F) as (D1 & D2 & _). rewrite D1. auto.
    * split; [reflexivity|]. split; [exact B|]. split; [exact C|]. intros N F. destruct (D N F) as (D1 & D2 & _). auto.
    * destruct (cs_act _ _ _ _ _ _ H0) as (E1 & E2 & E3 & E4 & E5). rewrite E1, E2, E3. split; [reflexivity|]. split; [exact B|]. split.
      -- intros N l. apply app_eq_nil in N. destruct N as [N1 N2]. rewrite (E4 N2). auto.
      -- intros N F. apply app_eq_nil in N. destruct N as [N1 N2]. destruct (D N1 F) as (D1 & D2 & _). auto.
    * split; [reflexivity|]. split; [exact B|]. split; [exact C|]. intros N F. destruct (D N F) as (D1 & D2 & D3). split; [auto|]. split; [auto|].
      rewrite D2, <- app_assoc. exact D3.
    * destruct R as (_ & R). cbn [List.length] in R. split; [reflexivity|]. split; [lia|]. split; [exact C|].
      intros N F. destruct (D N F) as (D1 & D2 & D3). rewrite app_nil_r in D3. rewrite D3, <- D1. auto.
  + cbn [awaiting taken changed detached pick app]. rewrite !app_nil_r. split; [reflexivity|split; [exact B|split; [exact C|]]].
    intros N F. destruct (D N F) as (D1 & D2 & _). auto.
Qed.

Lemma diag_objects : forall sn g lf progs w t1 u f v t2, reaches sn g lf progs w (t1 ++ EvRead u f v :: t2) ->
  exists w1, reaches sn g lf progs w1 t1 /\ follows compile rmatch w1 w (EvRead u f v :: t2) /\
  match f with
  | FCreated => objects w1 + making w1 = 64 + v + List.length (passes t1)
  | FDiscarded => deleted w1 + deleting w1 = v
  | FPool => List.length (pool (w_sys w1)) = v
  | FActive => List.length (active (w_sys w1)) = v
  | _ => True
  end.
Proof.
  intros sn g lf progs w t1 u f v t2 [sched H].
  destruct (run_split _ _ _ _ _ _ H _ _ _ eq_refl) as (s1 & ch & s2 & w1 & w2 & p & q & r & _ & R & S & E & R2 & F).
  assert (Rr : reaches sn g lf progs w1 p) by (eexists; eauto).
  pose proof (step_st _ _ _ _ _ _ S) as S'.
  assert (X : q = [] /\ r = [] /\ (f <> FEnabled -> v = read_field (w_sys w1) f)).
  { inversion S'; subst.
    - eapply cs_read_ev in H2; eauto. tauto.
    - inversion H1; subst; try (destruct q as [|? [|? [|? ?]]]; discriminate).
      match goal with H : cs _ _ _ _ _ _ |- _ => eapply cs_read_ev in H; eauto end. tauto.
    - destruct q; discriminate. }
  destruct X as (-> & -> & V). rewrite app_nil_r in E. subst t1. exists w1. split; [exact Rr|]. split.
  - exists (ch :: s2). cbn [LogModel.run]. rewrite S. cbn [List.length skipn] in R2. rewrite R2. reflexivity.
  - destruct f; auto; rewrite V by discriminate; cbn [read_field]; auto.
    + apply (reaches_heap _ _ _ _ _ _ Rr).
    + apply (deleted_discarded _ _ _ _ _ _ Rr).
Qed.

(** ** C33 *)
Definition wake_inv w : Prop :=
  (logt (w_sys w) = TAsleep -> queue (w_sys w) = [] /\ (terminated (w_sys w) = true -> exists i, at_pc w i StopNotify)) .

Lemma st_wake_inv : forall w w' es, wake_inv w -> st w w' es -> wake_inv w'.
Proof.
  intros w w' es I H. unfold wake_inv in *. destruct H as [w i c c' s' es Hc Hi H | w s' es Hc H | w Hc Hs]; sfields.
  - intros E.
    assert (K : forall j, at_pc w j StopNotify -> j <> i -> at_pc (mkWorld s' (upd i (fun _ => c') (w_clients w))) j StopNotify).
    { intros j (cj & Hj & Ej) N. exists cj. cbn. rewrite nth_error_upd_neq by auto. auto. }
    assert (G : queue s' = queue (w_sys w) -> terminated s' = terminated (w_sys w) -> logt (w_sys w) = TAsleep -> c_pc c <> StopNotify ->
      queue s' = [] /\ (terminated s' = true -> exists i0, at_pc (mkWorld s' (upd i (fun _ => c') (w_clients w))) i0 StopNotify)).
    { intros E1 E2 E3 E4. rewrite E1, E2. destruct (I E3) as (I1 & I2). split; auto. intros T. destruct (I2 T) as (j & Hj).
      exists j. apply K; auto. intros ->. destruct Hj as (cj & Hj & Ej). rewrite Hi in Hj. injection Hj as <-. auto. }
    destruct w as [s cl]. sfields. destruct H; sfields; try (apply G; auto; discriminate); try congruence.
    + destruct (I E) as (I1 & I2). split; auto. intros _. exists i. exists (mkC StopNotify k). cbn. split; auto.
      exact (nth_error_upd_eq _ _ _ _ Hi).
    + psimp o s. rewrite P17 in E. destruct (logt s); discriminate.
    + nsimp. destruct (logt s); discriminate.
  - destruct w as [s cl]. sfields. intros E. destruct H; sfields; try discriminate. split; auto. congruence.
  - discriminate.
Qed.

Lemma no_lost_wakeup : forall sn g lf progs w tr, reaches sn g lf progs w tr ->
  logt (w_sys w) = TAsleep -> waiting w = [] /\ (terminated (w_sys w) = true -> exists i, at_pc w i StopNotify).
Proof.
  intros sn g lf progs w tr H E.
  assert (I : wake_inv w).
  { eapply (reaches_inv compile rmatch (fun w _ => wake_inv w)); [| |exact H].
    - intros X. destruct sn; discriminate.
    - intros. eapply st_wake_inv; eauto. }
  destruct (I E) as (I1 & I2). split; auto. unfold waiting. rewrite I1. auto.
Qed.

(** ** C41 *)
Definition ctors (c : cthread) : list nat := match c_pc c with LogPush _ o => [o] | _ => [] end.
Definition ctors_t (t : tpc) : list nat := match t with TCall _ _ c => ctors c | _ => [] end.
(** Messages constructed and not yet queued. *)
Definition constructed w : nat := List.length (ctors_t (logt (w_sys w))) + List.length (flat_map ctors (w_clients w)).

Definition leak_inv w tr : Prop :=
  built (w_sys w) + making w = POOL + unpooled (w_sys w) + List.length (accepted tr) + constructed w /\
  torn (w_sys w) + deleting w = discarded (w_sys w).

Lemma cs_leak : forall t c s c' s' es, cs t c s c' s' es ->
  built s' + unpooled s + List.length (ctors c) + List.length (making_c c') =
    built s + unpooled s' + List.length (accepted es) + List.length (ctors c') + List.length (making_c c) /\
  torn s' = torn s /\ discarded s' = discarded s.
Proof.
  intros t c s c' s' es H. destruct H; unfold ctors, making_c; sfields; nsimp; cbn; try lia.
  psimp o s. rewrite P15, P5, P16, P6. lia.
Qed.

Lemma reaches_leak : forall sn g lf progs w tr, reaches sn g lf progs w tr -> leak_inv w tr.
Proof.
  intros sn g lf progs w tr H. eapply (reaches_inv compile rmatch leak_inv); [| |exact H].
  - unfold leak_inv, constructed, making, deleting, init, construct. sfields.
    assert (E : flat_map ctors (map (mkC Idle) progs) = []) by (clear; induction progs; simpl; auto). rewrite E.
    assert (E' : flat_map making_c (map (mkC Idle) progs) = []) by (clear; induction progs; simpl; auto). rewrite E'.
    destruct sn; cbn; auto.
  - clear. intros w w' tr es (A & T) H. unfold leak_inv, constructed in *.
    destruct (picks_app tr es) as (-> & _). unfold making, deleting in *. rewrite !app_length in *.
    destruct H as [w i c c' s' es Hc Hi H | w s' es Hc H | w Hc Hs]; sfields.
    + pose proof (cs_leak _ _ _ _ _ _ H) as (M & M1 & M2). pose proof (flat_map_upd_len _ ctors _ _ _ c' Hi) as F.
      pose proof (flat_map_upd_len _ making_c _ _ _ c' Hi) as F2. destruct (cs_making _ _ _ _ _ _ H) as [-> ->].
      assert (ctors_t (logt s') = ctors_t (logt (w_sys w))) as ->.
      { destruct (cs_logt _ _ _ _ _ _ _ H) as [->|[E1 _]]; auto. pose proof (cs_held _ _ _ _ _ _ _ H) as E.
        destruct (logt (w_sys w)), (logt s'); try discriminate; auto. }
      lia.
    + destruct w as [s cl]. sfields. destruct H; sfields; try (match goal with H : logt _ = _ |- _ => rewrite H in * end);
        cbn [ctors_t making_t making_c List.length accepted pick ctors c_pc] in *; try lia.
      pose proof (cs_leak _ _ _ _ _ _ H0) as (M & M1 & M2). lia.
    + rewrite Hs in *. cbn in *. lia.
Qed.

Lemma leak_exact : forall sn g lf progs w tr, reaches sn g lf progs w tr ->
  built (w_sys w) + List.length (passes tr) = torn (w_sys w) + List.length (places w) + List.length (accepted tr) + constructed w.
Proof.
  intros sn g lf progs w tr H. pose proof (reaches_leak _ _ _ _ _ _ H) as (A & T). apply reaches_count in H.
  destruct H as (B & _). unfold amount in B. lia.
Qed.

(** Messages let through by log(file, line, ...), and those not yet constructed. *)
Definition let_in (tr : list ev) : list msg := pick (fun e => match e with EvLog _ m true => Some m | _ => None end) tr.
Definition pre (c : cthread) : list nat := match c_pc c with LogAlloc _ | LogNew _ | LogMake _ | LogCtor _ _ => [0] | _ => [] end.
Definition pre_t (t : tpc) : list nat := match t with TCall _ _ c => pre c | _ => [] end.

Definition pass_inv w tr : Prop :=
  List.length (passes tr) + List.length (let_in tr) =
    List.length (accepted tr) + constructed w + (List.length (pre_t (logt (w_sys w))) + List.length (flat_map pre (w_clients w))) /\
  List.length (pre_t (logt (w_sys w))) + List.length (flat_map pre (w_clients w)) <= List.length (let_in tr).

Lemma cs_pass_count : forall t c s c' s' es, cs t c s c' s' es ->
  List.length (passes es) + List.length (let_in es) + List.length (pre c) + List.length (ctors c) =
    List.length (accepted es) + List.length (pre c') + List.length (ctors c') /\
  List.length (pre c') <= List.length (pre c) + List.length (let_in es).
Proof. intros t c s c' s' es H. destruct H; unfold ctors, pre; cbn; lia. Qed.

Lemma let_in_app : forall a b, let_in (a ++ b) = let_in a ++ let_in b.
Proof. intros. apply pick_app. Qed.

Lemma reaches_pass : forall sn g lf progs w tr, reaches sn g lf progs w tr -> pass_inv w tr.
Proof.
  intros sn g lf progs w tr H. eapply (reaches_inv compile rmatch pass_inv); [| |exact H].
  - unfold pass_inv, constructed, init, construct. sfields.
    assert (E : flat_map ctors (map (mkC Idle) progs) = []) by (clear; induction progs; simpl; auto). rewrite E.
    assert (E2 : flat_map pre (map (mkC Idle) progs) = []) by (clear; induction progs; simpl; auto). rewrite E2.
    destruct sn; cbn; auto.
  - clear. intros w w' tr es (A & T) H. unfold pass_inv, constructed in *.
    assert (Pa : passes (tr ++ es) = passes tr ++ passes es) by apply pick_app.
    destruct (picks_app tr es) as (-> & _). rewrite Pa, let_in_app, !app_length.
    destruct H as [w i c c' s' es Hc Hi H | w s' es Hc H | w Hc Hs]; sfields.
    + pose proof (cs_pass_count _ _ _ _ _ _ H) as (M & M1). pose proof (flat_map_upd_len _ ctors _ _ _ c' Hi) as F.
      pose proof (flat_map_upd_len _ pre _ _ _ c' Hi) as F2.
      assert (ctors_t (logt s') = ctors_t (logt (w_sys w)) /\ pre_t (logt s') = pre_t (logt (w_sys w))) as [-> ->].
      { destruct (cs_logt _ _ _ _ _ _ _ H) as [->|[E1 _]]; auto. pose proof (cs_held _ _ _ _ _ _ _ H) as E.
        destruct (logt (w_sys w)), (logt s'); try discriminate; auto. }
      lia.
    + destruct w as [s cl]. sfields. destruct H; sfields; try (match goal with H : logt _ = _ |- _ => rewrite H in * end);
        cbn [ctors_t pre_t List.length accepted passes let_in pick ctors pre c_pc] in *; try lia.
      pose proof (cs_pass_count _ _ _ _ _ _ H0) as (M & M1). lia.
    + rewrite Hs in *. cbn in *. lia.
Qed.

Lemma passed_no_leak : forall sn g lf progs w tr, reaches sn g lf progs w tr ->
  (forall t m, ~ In (EvLog t m true) tr) -> built (w_sys w) = torn (w_sys w) + List.length (places w).
Proof.
  intros sn g lf progs w tr H N. pose proof (leak_exact _ _ _ _ _ _ H) as E. apply reaches_pass in H. destruct H as (A & B).
  assert (Z : let_in tr = []).
  { clear - N. induction tr as [|e tr IH]; auto. unfold let_in in *. cbn [pick].
    rewrite IH by (intros t m X; apply (N t m); right; auto).
    destruct e; auto. match goal with |- context [EvLog ?t ?m ?b] => destruct b; [exfalso; apply (N t m); left; reflexivity|reflexivity] | |- context [if ?b then Some ?m else None] => destruct b; [exfalso; eapply N; left; reflexivity|reflexivity] end. }
  rewrite Z in *. cbn in *. lia.
Qed.

Lemma leaks : forall sn g lf progs w tr, reaches sn g lf progs w tr ->
  List.length (places w) + List.length (accepted tr) <= built (w_sys w) - torn (w_sys w) + List.length (passes tr).
Proof. intros sn g lf progs w tr H. apply leak_exact in H. lia. Qed.

End Log.
