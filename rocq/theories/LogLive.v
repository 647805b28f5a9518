(** * LogSystem: progress of the log thread, return of stop(), callbacks *)
From Coq Require Import ZArith String Bool List Arith Lia.
From Verif Require Import Base ListFacts LogModel LogSpec LogProofs LogOrder LogCount LogStop.
Import ListNotations.
Open Scope list_scope.

Section Log.
Context {RE : Type}.
Variable compile : string -> option RE.
Variable rmatch : string -> RE -> bool.
Notation sys := (@sys RE).
Notation world := (@world RE).
Notation cs := (@cs RE compile).
Notation ls := (@ls RE compile rmatch).
Notation st := (@st RE compile rmatch).
Notation run := (run compile rmatch).
Notation step := (step compile rmatch).
Notation reaches := (reaches compile rmatch).
Notation drive := (drive compile rmatch).
Notation alone := (alone compile rmatch).
Implicit Types (s : sys) (w : world).

Lemma drive_app : forall cbs a b w w1 t1, drive cbs a w = Some (w1, t1) ->
  drive cbs (a ++ b) w = match drive cbs b w1 with Some (w2, t2) => Some (w2, t1 ++ t2) | None => None end.
Proof.
  intros cbs a. induction a as [|x a IH]; intros b w w1 t1 H; cbn [drive app] in *.
  - injection H as <- <-. destruct (drive cbs b w) as [[? ?]|]; auto.
  - simpl in *. destruct (step _ w) as [[wa es]|]; [|discriminate].
    destruct (drive cbs a wa) as [[wb es']|] eqn:E; [|discriminate]. injection H as <- <-.
    rewrite (IH b _ _ _ E). destruct (drive cbs b wb) as [[? ?]|]; auto. rewrite app_assoc. auto.
Qed.

Lemma drive_run : forall cbs a w w' tr, drive cbs a w = Some (w', tr) -> exists sched, run sched w = Some (w', tr).
Proof.
  intros cbs a. induction a as [|x a IH]; intros w w' tr H; simpl in H.
  - injection H as <- <-. exists []. auto.
  - destruct (step _ w) as [[wa es]|] eqn:E; [|discriminate].
    destruct (drive cbs a wa) as [[wb es']|] eqn:E2; [|discriminate]. injection H as <- <-.
    destruct (IH _ _ _ E2) as (sched & R).
    exists (match x with Some i => Go i | None => GoLog (cbs w) end :: sched). simpl. rewrite E, R. auto.
Qed.

Lemma reaches_drive : forall sn g lf progs w tr cbs a w' tr', reaches sn g lf progs w tr -> drive cbs a w = Some (w', tr') ->
  reaches sn g lf progs w' (tr ++ tr').
Proof.
  intros sn g lf progs w tr cbs a w' tr' [s0 R0] H. apply drive_run in H. destruct H as (sched & R).
  exists (s0 ++ sched). rewrite (run_app _ _ _ _ _ _ _ R0), R. auto.
Qed.

(** How many steps a thread needs to finish its calls. *)
Definition call_cost (k : call) : nat :=
  match k with CLog _ => 6 | CPass _ => 2 | CDiags => 18 | CStop => 4 | CStart => 2 | _ => 1 end.
Definition pc_cost (p : cpc) : nat :=
  match p with
  | Idle => 0 | LogAlloc _ => 5 | LogNew _ => 4 | LogMake _ => 3 | LogCtor _ _ => 2 | LogPush _ _ => 1
  | StopNotify => 3 | StopLock => 2 | StopJoin => 1 | StartLock => 1 | Diag fs => S (2 * List.length fs) | DiagCount _ _ fs => S (S (2 * List.length fs))
  end.
Definition cost (c : cthread) : nat := pc_cost (c_pc c) + list_sum (map call_cost (c_todo c)).

(** ... not counting the listeners it has to ask, as many as there happen to be. *)
Definition asks (c : cthread) : nat := match c_pc c with DiagCount _ r _ => List.length r | _ => 0 end.

(** Induction on two numbers, the first the more important. *)
Definition less2 (x y : nat * nat) : Prop := fst x < fst y \/ (fst x = fst y /\ snd x < snd y).

Lemma less2_ind : forall P : nat * nat -> Prop, (forall x, (forall y, less2 y x -> P y) -> P x) -> forall x, P x.
Proof.
  intros P H. assert (G : forall a b, P (a, b)).
  { intros a. induction a as [a IHa] using lt_wf_ind. intros b. induction b as [b IHb] using lt_wf_ind.
    apply H. intros [a' b'] [L|(E & L)]; cbn in *; [auto|subst; auto]. }
  intros [a b]. apply G.
Qed.

Lemma cs_cost : forall t c s c' s' es, cs t c s c' s' es -> c_pc c <> StopJoin -> less2 (cost c', asks c') (cost c, asks c).
Proof. intros t c s c' s' es H N. unfold less2. destruct H; unfold cost, asks; cbn in *; try lia; congruence. Qed.

Lemma cstep_enabled : forall t c s, cstep compile t c s = None ->
  (c_pc c = Idle /\ c_todo c = []) \/ (c_pc c = StopLock /\ mtx s <> None) \/ (c_pc c = StartLock /\ mtx s <> None) \/
  (c_pc c = StopJoin /\ t <> LogThread /\ logt s <> TExited).
Proof.
  intros t [pc k] s H. unfold cstep in H. cbn [c_pc c_todo] in *. destruct pc; try discriminate; auto.
  - destruct k as [|[] k]; try discriminate; auto.
    + destruct (_ >? _)%Z; discriminate.
    + destruct (set_category _ _ _); discriminate.
    + destruct t; discriminate.
  - destruct (pool s); discriminate.
  - destruct (mtx s); [right; left; split; congruence|]. destruct (no_thread s); discriminate.
  - destruct t; [|discriminate]. right; right; right. destruct (logt s); try discriminate; repeat split; congruence.
  - destruct (mtx s); [right; right; left; split; congruence|]. discriminate.
  - destruct todo as [|[] ?]; discriminate.
  - destruct rest; discriminate.
Qed.

Definition calm (p : cpc) : Prop := ~ In p [StopNotify; StopLock; StopJoin; StartLock].

(** A thread that neither starts nor stops keeps the rest of the system as it is. *)
Lemma cs_modest : forall t c s c' s' es, cs t c s c' s' es -> modest (c_todo c) -> calm (c_pc c) ->
  modest (c_todo c') /\ calm (c_pc c') /\ mtx s' = mtx s /\ terminated s' = terminated s /\ crashed s' = crashed s /\
  popped es = [] /\ exists ext, queue s' = queue s ++ ext.
Proof.
  intros t c s c' s' es H (M1 & M2 & M3) C.
  assert (Q : popped es = []) by (apply (cs_quiet _ _ _ _ _ _ _ H)).
  assert (Ex : exists ext, queue s' = queue s ++ ext).
  { destruct (cs_accept _ _ _ _ _ _ _ H) as [(_ & ->)|(m & o & _ & _ & -> & _)]; [exists []; rewrite app_nil_r|eexists]; eauto. }
  unfold modest, calm in *.
  destruct H; cbn [c_pc c_todo] in *; sfields; nsimp; repeat split; auto; try (intros I; apply M1; right; auto; fail);
    try (intros I; apply M2; right; auto; fail); try (intros I; apply M3; right; auto; fail); try (cbn; intuition discriminate; fail);
    try (exfalso; apply M1; left; auto; fail); try (exfalso; apply M2; left; auto; fail);
    try (exfalso; apply M3; left; auto; fail);
    try (exfalso; apply C; cbn; tauto); psimp o s; auto.
Qed.

Lemma lstep_call : forall cb s o rest c, logt s = TCall o rest c -> (c_pc c <> Idle \/ c_todo c <> []) ->
  lstep compile rmatch cb s = match cstep compile LogThread c s with
                              | Some (c', s', es) => Some (set_logt (TCall o rest c') s', es)
                              | None => None
                              end.
Proof.
  intros cb s o rest c H D. unfold lstep. rewrite H. destruct c as [pc k]. cbn [c_pc c_todo] in *. destruct pc; auto.
  destruct k; auto. destruct D; congruence.
Qed.

(** Driving only the log thread from [w] can lead to [w'], with nothing taken from the queue. *)
Definition leads cbs w w' : Prop :=
  exists n es, alone cbs n w = Some (w', es) /\ popped es = [] /\
    terminated (w_sys w') = terminated (w_sys w) /\ mtx (w_sys w') = mtx (w_sys w) /\ crashed (w_sys w') = None /\
    w_clients w' = w_clients w /\ exists ext, queue (w_sys w') = queue (w_sys w) ++ ext.

Lemma leads_refl : forall cbs w, crashed (w_sys w) = None -> leads cbs w w.
Proof. intros cbs w H. exists 0, []. repeat split; auto. exists []. rewrite app_nil_r. auto. Qed.

Lemma leads_step : forall cbs w s1 es w', crashed (w_sys w) = None -> lstep compile rmatch (cbs w) (w_sys w) = Some (s1, es) -> popped es = [] ->
  terminated s1 = terminated (w_sys w) -> mtx s1 = mtx (w_sys w) -> (exists ext, queue s1 = queue (w_sys w) ++ ext) ->
  leads cbs (mkWorld s1 (w_clients w)) w' -> leads cbs w w'.
Proof.
  intros cbs w s1 es w' C H P T M (x & X) (n & es' & A & P' & T' & M' & C' & Cl & (y & Y)). sfields.
  exists (S n), (es ++ es'). unfold LogSpec.alone in *. cbn [repeat LogSpec.drive]. unfold LogModel.step at 1. rewrite C, H, A.
  repeat split; auto; try congruence.
  - destruct (picks_app es es') as (_ & -> & _). rewrite P, P'. auto.
  - exists (x ++ y). rewrite Y, X, app_assoc. auto.
Qed.

Section Alone.
Variable cbs : world -> list call.
Hypothesis Hcbs : forall w, modest (cbs w).

Definition arrives w : Prop := exists w', leads cbs w w' /\ logt (w_sys w') = TCheck.


Lemma arrives_step : forall w s1 es, crashed (w_sys w) = None -> lstep compile rmatch (cbs w) (w_sys w) = Some (s1, es) -> popped es = [] ->
  terminated s1 = terminated (w_sys w) -> mtx s1 = mtx (w_sys w) -> (exists ext, queue s1 = queue (w_sys w) ++ ext) ->
  arrives (mkWorld s1 (w_clients w)) -> arrives w.
Proof. intros w s1 es C H P T M X (w' & L & E). exists w'. split; auto. eapply leads_step; eauto. Qed.

Lemma same_queue : forall s s', queue s' = queue s -> exists ext, queue s' = queue s ++ ext.
Proof. intros s s' E. exists []. rewrite app_nil_r. auto. Qed.

Lemma arrives_check : forall w, crashed (w_sys w) = None -> logt (w_sys w) = TCheck -> arrives w.
Proof. intros w C E. exists w. split; auto. apply leads_refl; auto. Qed.

Lemma arrives_free : forall w o, crashed (w_sys w) = None -> logt (w_sys w) = TFree o -> arrives w.
Proof.
  intros w o C E. eapply arrives_step; [eassumption|unfold lstep; rewrite E; reflexivity|auto|auto|auto|apply same_queue; reflexivity|].
  apply arrives_check; auto.
Qed.

Lemma arrives_delete : forall w o, crashed (w_sys w) = None -> logt (w_sys w) = TDelete o -> arrives w.
Proof.
  intros w o C E. eapply arrives_step; [eassumption|unfold lstep; rewrite E; reflexivity|auto|auto|auto|apply same_queue; reflexivity|].
  eapply arrives_free; cbn; eauto.
Qed.

Lemma arrives_dispose : forall w o, crashed (w_sys w) = None -> logt (w_sys w) = TDispose o -> arrives w.
Proof.
  intros w o C E. destruct (List.length (pool (w_sys w)) <? POOL) eqn:D.
  - eapply arrives_step; [eassumption|unfold lstep; rewrite E, D; reflexivity|auto|auto|auto|apply same_queue; reflexivity|]. apply arrives_check; auto.
  - eapply arrives_step; [eassumption|unfold lstep; rewrite E, D; reflexivity|auto|auto|auto|apply same_queue; reflexivity|]. eapply arrives_delete; cbn; eauto.
Qed.

Lemma arrives_clean : forall o todo kept w, crashed (w_sys w) = None -> logt (w_sys w) = TClean o kept todo -> arrives w.
Proof.
  intros o todo. induction todo as [|l todo IH]; intros kept w C E;
    (eapply arrives_step; [eassumption|unfold lstep; rewrite E; reflexivity|auto|auto|auto|apply same_queue; reflexivity|]).
  - eapply arrives_dispose; cbn; eauto.
  - eapply IH; cbn; eauto.
Qed.

(** Finish a callback, given that what follows arrives. *)
Lemma arrives_call : forall o rest, (forall w, crashed (w_sys w) = None -> logt (w_sys w) = TSend o rest -> arrives w) ->
  forall n c w, (cost c, asks c) = n -> crashed (w_sys w) = None -> logt (w_sys w) = TCall o rest c ->
  modest (c_todo c) -> calm (c_pc c) -> arrives w.
Proof.
  intros o rest K n. induction n as [n IH] using less2_ind. intros c w Hn C E M Cm.
    assert (D : (c_pc c = Idle /\ c_todo c = []) \/ (c_pc c <> Idle \/ c_todo c <> [])).
    { destruct c as [pc k]. cbn. destruct pc; auto; try (right; left; discriminate). destruct k; auto. right; right; discriminate. }
    destruct D as [D|D].
    + destruct c as [pc k]. cbn in D. destruct D as (-> & ->).
      eapply arrives_step; [eassumption|unfold lstep; rewrite E; reflexivity|auto|auto|auto|apply same_queue; reflexivity|]. apply K; auto.
    + pose proof (lstep_call (cbs w) _ _ _ _ E D) as L.
      destruct (cstep compile LogThread c (w_sys w)) as [[[c' s'] es]|] eqn:Ec.
      * pose proof (cstep_cs _ _ _ _ _ _ _ Ec) as Hs.
        destruct (cs_modest _ _ _ _ _ _ Hs M Cm) as (M' & Cm' & Mx & T & Cr & P & X).
        eapply arrives_step; [eassumption|exact L|exact P|exact T|exact Mx|exact X|].
        eapply IH with (c := c'); [|reflexivity| | | |]; cbn; auto; [|congruence].
        rewrite <- Hn. eapply cs_cost; eauto. intros Ej. apply Cm. rewrite Ej. cbn. tauto.
      * exfalso. apply cstep_enabled in Ec. unfold calm in Cm. destruct Ec as [(A & B)|[(A & _)|[(A & _)|(A & B & _)]]]; try rewrite A in *; cbn in Cm; try tauto.
Qed.

Lemma modest_idle : forall w, modest (c_todo (mkC Idle (cbs w))) /\ calm (c_pc (mkC Idle (cbs w))).
Proof. intros w. split; [apply Hcbs|]. unfold calm. cbn. intuition discriminate. Qed.

Lemma arrives_send : forall o rest w, crashed (w_sys w) = None -> logt (w_sys w) = TSend o rest -> arrives w.
Proof.
  intros o rest. induction rest as [|l rest IH]; intros w C E.
  - eapply arrives_step; [eassumption|unfold lstep; rewrite E; reflexivity|auto|auto|auto|apply same_queue; reflexivity|]. eapply arrives_clean; cbn; eauto.
  - destruct (l_enabled (lst (w_sys w) l)) eqn:D1.
    2: { eapply arrives_step; [eassumption|unfold lstep; rewrite E, D1; reflexivity|auto|auto|auto|apply same_queue; reflexivity|]. apply IH; auto. }
    eapply arrives_step; [eassumption|unfold lstep; rewrite E, D1; reflexivity|auto|auto|auto|apply same_queue; reflexivity|].
    set (w1 := mkWorld _ (w_clients w)). assert (C1 : crashed (w_sys w1) = None) by exact C.
    assert (E1 : logt (w_sys w1) = TLevel o l rest) by reflexivity. clearbody w1. clear w C E D1. rename w1 into w.
    destruct (l_level (lst (w_sys w) l) >=? m_level (content (w_sys w) o))%Z eqn:D2.
    2: { eapply arrives_step; [eassumption|unfold lstep; rewrite E1, D2; reflexivity|auto|auto|auto|apply same_queue; reflexivity|]. apply IH; auto. }
    eapply arrives_step; [eassumption|unfold lstep; rewrite E1, D2; reflexivity|auto|auto|auto|apply same_queue; reflexivity|].
    set (w1 := mkWorld _ (w_clients w)). assert (C2 : crashed (w_sys w1) = None) by exact C1.
    assert (E2 : logt (w_sys w1) = TCat o l rest) by reflexivity. clearbody w1. clear w C1 E1 D2. rename w1 into w.
    destruct (checkCategory rmatch (lst (w_sys w) l) (m_cat (content (w_sys w) o))) eqn:D3.
    2: { eapply arrives_step; [eassumption|unfold lstep; rewrite E2, D3; reflexivity|auto|auto|auto|apply same_queue; reflexivity|]. apply IH; auto. }
    eapply arrives_step; [eassumption|unfold lstep; rewrite E2, D3; reflexivity|auto|auto|auto|apply same_queue; reflexivity|].
    eapply arrives_call with (c := mkC Idle (cbs w)); [exact IH|reflexivity|exact C2|reflexivity| |]; apply modest_idle.
Qed.

Lemma arrives_count : forall w o, crashed (w_sys w) = None -> logt (w_sys w) = TCount o -> arrives w.
Proof.
  intros w o C E. eapply arrives_step; [eassumption|unfold lstep; rewrite E; reflexivity|auto|auto|auto|apply same_queue; reflexivity|].
  eapply arrives_send; cbn; eauto.
Qed.

Lemma arrives_got : forall w o, crashed (w_sys w) = None -> logt (w_sys w) = TGot o -> arrives w.
Proof.
  intros w o C E. eapply arrives_step; [eassumption|unfold lstep; rewrite E; reflexivity|auto|auto|auto|apply same_queue; reflexivity|].
  eapply arrives_count; cbn; eauto.
Qed.

Lemma arrives_any : forall w, crashed (w_sys w) = None -> modest_now w ->
  logt (w_sys w) <> TNone -> logt (w_sys w) <> TAsleep -> logt (w_sys w) <> TExited -> arrives w.
Proof.
  intros w C M N1 N2 N3. unfold modest_now in M. destruct (logt (w_sys w)) eqn:E; try congruence.
  - apply arrives_check; auto.
  - eapply arrives_got; eauto.
  - eapply arrives_count; eauto.
  - eapply arrives_send; eauto.
  - (* level *)
    destruct (l_level (lst (w_sys w) l) >=? m_level (content (w_sys w) o))%Z eqn:D2.
    2: { eapply arrives_step; [eassumption|unfold lstep; rewrite E, D2; reflexivity|auto|auto|auto|apply same_queue; reflexivity|]. eapply arrives_send; cbn; eauto. }
    eapply arrives_step; [eassumption|unfold lstep; rewrite E, D2; reflexivity|auto|auto|auto|apply same_queue; reflexivity|].
    set (w1 := mkWorld _ (w_clients w)). assert (C2 : crashed (w_sys w1) = None) by exact C.
    assert (E2 : logt (w_sys w1) = TCat o l rest) by reflexivity. clearbody w1. clear w C E D2 M N1 N2 N3. rename w1 into w.
    destruct (checkCategory rmatch (lst (w_sys w) l) (m_cat (content (w_sys w) o))) eqn:D3.
    2: { eapply arrives_step; [eassumption|unfold lstep; rewrite E2, D3; reflexivity|auto|auto|auto|apply same_queue; reflexivity|]. eapply arrives_send; cbn; eauto. }
    eapply arrives_step; [eassumption|unfold lstep; rewrite E2, D3; reflexivity|auto|auto|auto|apply same_queue; reflexivity|].
    eapply arrives_call with (c := mkC Idle (cbs w)); [apply arrives_send|reflexivity|exact C2|reflexivity| |]; apply modest_idle.
  - destruct (checkCategory rmatch (lst (w_sys w) l) (m_cat (content (w_sys w) o))) eqn:D3.
    2: { eapply arrives_step; [eassumption|unfold lstep; rewrite E, D3; reflexivity|auto|auto|auto|apply same_queue; reflexivity|]. eapply arrives_send; cbn; eauto. }
    eapply arrives_step; [eassumption|unfold lstep; rewrite E, D3; reflexivity|auto|auto|auto|apply same_queue; reflexivity|].
    eapply arrives_call with (c := mkC Idle (cbs w)); [apply arrives_send|reflexivity|exact C|reflexivity| |]; apply modest_idle.
  - eapply arrives_call; [apply arrives_send|reflexivity|exact C|exact E|apply M|apply M].
  - eapply arrives_clean; eauto.
  - eapply arrives_dispose; eauto.
  - eapply arrives_delete; eauto.
  - eapply arrives_free; eauto.
Qed.

(** ** C34 *)
Lemma dispatches_first : forall sn g lf progs w tr m rest, reaches sn g lf progs w tr ->
  crashed (w_sys w) = None -> terminated (w_sys w) = false -> logt (w_sys w) <> TNone ->
  modest_now w -> waiting w = m :: rest ->
  exists n w' es, alone cbs n w = Some (w', es) /\ ended es = unended w ++ [m] /\ held_t (logt (w_sys w')) = [] /\
    prefix rest (waiting w').
Proof.
  intros sn g lf progs w tr m rest R C T N M W.
  pose proof (no_lost_wakeup _ _ _ _ _ _ _ _ R) as Wk. pose proof (reaches_stop _ _ _ _ _ _ _ _ R) as (_ & _ & _ & _ & Ex).
  destruct (arrives_any w C M N) as (w1 & (n1 & es1 & A1 & P1 & T1 & M1 & C1 & Cl1 & (x1 & X1)) & E1).
  { intros E. apply Wk in E. destruct E. congruence. }
  { intros E. apply Ex in E. congruence. }
  unfold waiting in W. destruct (queue (w_sys w)) as [|o q] eqn:Q; [discriminate|]. cbn [map] in W. injection W as Wm Wr.
  rewrite T in T1. cbn [app] in X1.
  set (s2 := set_logt (TGot o) (set_queue (q ++ x1) (w_sys w1))). set (w2 := mkWorld s2 (w_clients w1)).
  assert (S2 : step (GoLog (cbs w1)) w1 = Some (w2, [EvPop (content (w_sys w1) o)])).
  { unfold LogModel.step. rewrite C1. unfold lstep. rewrite E1, T1, X1. reflexivity. }
  destruct (arrives_got w2 o C1 eq_refl) as (w3 & (n3 & es3 & A3 & P3 & T3 & M3 & C3 & Cl3 & (x3 & X3)) & E3).
  assert (A : alone cbs (n1 + S n3) w = Some (w3, es1 ++ EvPop (content (w_sys w1) o) :: es3)).
  { unfold LogSpec.alone in *. rewrite repeat_app, (drive_app _ _ _ _ _ _ A1). cbn [repeat LogSpec.drive]. rewrite S2, A3. auto. }
  exists (n1 + S n3), w3, (es1 ++ EvPop (content (w_sys w1) o) :: es3). split; auto.
  pose proof (reaches_drive _ _ _ _ _ _ _ _ _ _ R A) as R3.
  pose proof (reaches_good _ _ _ _ _ _ _ _ R) as (_ & _ & _ & GA & _ & GE & _).
  pose proof (reaches_good _ _ _ _ _ _ _ _ R3) as (_ & _ & _ & GA3 & _ & GE3 & _).
  destruct (picks_app tr (es1 ++ EvPop (content (w_sys w1) o) :: es3)) as (Z1 & Z2 & _ & _ & Z3 & _).
  destruct (picks_app es1 (EvPop (content (w_sys w1) o) :: es3)) as (_ & Y2 & _).
  cbn [popped pick] in Y2. change (pick _ es3) with (popped es3) in Y2. rewrite P1, P3 in Y2. cbn [app] in Y2.
  assert (Eu : unended w3 = []) by (unfold unended; rewrite E3; auto). rewrite Eu, app_nil_r in GE3.
  rewrite Z2, Z3, Y2, GE, <- app_assoc in GE3. apply app_inv_head in GE3.
  rewrite Z1, Z2, Y2, GA, <- !app_assoc in GA3. apply app_inv_head in GA3.
  unfold waiting in GA3 at 1. rewrite Q in GA3. cbn [map app] in GA3. injection GA3 as G1 G2.
  split; [rewrite <- GE3, <- G1, Wm; auto|]. split; [rewrite E3; auto|].
  exists (accepted (es1 ++ EvPop (content (w_sys w1) o) :: es3)). rewrite <- G2, Wr. auto.
Qed.

(** ** stop() returns *)
Lemma go_step : forall w i c c' s' es, crashed (w_sys w) = None -> nth_error (w_clients w) i = Some c ->
  cstep compile (Client i) c (w_sys w) = Some (c', s', es) ->
  step (Go i) w = Some (mkWorld s' (upd i (fun _ => c') (w_clients w)), es).
Proof. intros w i c c' s' es C Hi H. unfold LogModel.step. rewrite C, Hi, H. auto. Qed.

(** The log thread leaves its loop. *)
Lemma leaves : forall sn g lf progs w tr, reaches sn g lf progs w tr ->
  crashed (w_sys w) = None -> modest_now w -> terminated (w_sys w) = true -> logt (w_sys w) <> TNone ->
  exists who w' es, drive cbs who w = Some (w', es) /\ logt (w_sys w') = TExited /\ crashed (w_sys w') = None /\
    mtx (w_sys w') = mtx (w_sys w) /\
    forall i c, nth_error (w_clients w) i = Some c -> c_pc c <> StopNotify -> nth_error (w_clients w') i = Some c.
Proof.
  intros sn g lf progs w tr R C M T N.
  assert (D : forall w tr, reaches sn g lf progs w tr -> crashed (w_sys w) = None -> modest_now w -> terminated (w_sys w) = true ->
    logt (w_sys w) <> TNone -> logt (w_sys w) <> TAsleep ->
    exists who w' es, drive cbs who w = Some (w', es) /\ logt (w_sys w') = TExited /\ crashed (w_sys w') = None /\
      mtx (w_sys w') = mtx (w_sys w) /\ w_clients w' = w_clients w).
  { clear - Hcbs. intros w tr R C M T N1 N2.
    assert (E : {logt (w_sys w) = TExited} + {logt (w_sys w) <> TExited}) by (destruct (logt (w_sys w)); auto; right; discriminate).
    destruct E as [E|E].
    { exists [], w, []. auto. }
    destruct (arrives_any w C M N1 N2 E) as (w1 & (n1 & es1 & A1 & P1 & T1 & M1 & C1 & Cl1 & X1) & E1).
    exists (repeat None n1 ++ [None]), (mkWorld (set_logt TExited (w_sys w1)) (w_clients w1)), (es1 ++ []).
    split; [|repeat split; auto].
    unfold LogSpec.alone in A1. rewrite (drive_app _ _ _ _ _ _ A1). cbn [LogSpec.drive]. unfold LogModel.step. rewrite C1.
    unfold lstep. rewrite E1, T1, T. auto. }
  assert (E : {logt (w_sys w) = TAsleep} + {logt (w_sys w) <> TAsleep}) by (destruct (logt (w_sys w)); auto; right; discriminate).
  destruct E as [E|E].
  - destruct (no_lost_wakeup _ _ _ _ _ _ _ _ R E) as (_ & W). destruct (W T) as (i & c & Hi & Hp).
    destruct c as [pc k]. cbn in Hp. subst pc.
    set (w1 := mkWorld (notify (w_sys w)) (upd i (fun _ => mkC StopLock k) (w_clients w))).
    assert (S1 : step (Go i) w = Some (w1, [])) by (eapply go_step; eauto; reflexivity).
    assert (L1 : logt (w_sys w1) = TCheck) by (cbn; rewrite notify_logt, E; auto).
    destruct (D w1 (tr ++ [])) as (who & w' & es & Dr & Et & Cr & Mx & Cl).
    + destruct R as [s0 R0]. exists (s0 ++ [Go i]). rewrite (run_app _ _ _ _ _ _ _ R0). cbn [LogModel.run]. rewrite S1. auto.
    + cbn. rewrite notify_crashed. auto.
    + unfold modest_now. rewrite L1. auto.
    + cbn. rewrite notify_terminated. auto.
    + congruence.
    + congruence.
    + exists (Some i :: who), w', ([] ++ es). split; [cbn [LogSpec.drive]; rewrite S1, Dr; auto|]. repeat split; auto.
      * rewrite Mx. cbn. rewrite notify_mtx. auto.
      * intros j cj Hj Nj. rewrite Cl. cbn. destruct (Nat.eq_dec j i) as [->|Nij].
        -- rewrite Hi in Hj. injection Hj as <-. cbn in Nj. congruence.
        -- rewrite nth_error_upd_neq; auto.
  - destruct (D w tr R C M T N E) as (who & w' & es & Dr & Et & Cr & Mx & Cl).
    exists who, w', es. repeat split; auto. intros i c Hi _. rewrite Cl. auto.
Qed.

(** The thread that holds m_mtxThread joins. *)
Lemma joins : forall sn g lf progs w tr i, reaches sn g lf progs w tr ->
  crashed (w_sys w) = None -> modest_now w -> mtx (w_sys w) = Some (Client i) ->
  exists who w' es es', drive cbs who w = Some (w', es ++ EvStopped (Client i) :: es') /\ crashed (w_sys w') = None /\ mtx (w_sys w') = None /\
    logt (w_sys w') = TNone /\ forall j c, j <> i -> nth_error (w_clients w) j = Some c -> c_pc c <> StopNotify -> nth_error (w_clients w') j = Some c.
Proof.
  intros sn g lf progs w tr i R C M Mx.
  pose proof (reaches_stop _ _ _ _ _ _ _ _ R) as (A & B & O & N & X).
  destruct (proj2 (O (Client i)) Mx) as (c & Hi & Hp).
  destruct (leaves _ _ _ _ _ _ R C M) as (who & w1 & es & Dr & Et & Cr & Mx1 & Cl).
  { eapply A; eauto. right; right; auto. }
  { apply N. congruence. }
  assert (Hi1 : nth_error (w_clients w1) i = Some c) by (apply Cl; auto; congruence).
  destruct c as [pc k]. cbn in Hp. subst pc.
  set (w2 := mkWorld (set_mtx None (set_logt TNone (w_sys w1))) (upd i (fun _ => mkC Idle k) (w_clients w1))).
  exists (who ++ [Some i]), w2, es, [].
  split.
  - rewrite (drive_app _ _ _ _ _ _ Dr). cbn [LogSpec.drive].
    rewrite (go_step w1 i (mkC StopJoin k) (mkC Idle k) (set_mtx None (set_logt TNone (w_sys w1))) [EvStopped (Client i)]); auto.
    unfold cstep. cbn [c_pc c_todo]. rewrite Et. auto.
  - repeat split; auto. intros j cj Nj Hj Np. cbn. rewrite nth_error_upd_neq by auto. apply Cl; auto.
Qed.

Lemma stop_can_return : forall sn g lf progs w tr i c, reaches sn g lf progs w tr ->
  crashed (w_sys w) = None -> modest_now w -> nth_error (w_clients w) i = Some c -> stopping c ->
  exists who w' es, drive cbs who w = Some (w', es) /\ In (EvStopped (Client i)) es.
Proof.
  assert (Lk : forall sn g lf progs w tr i c, reaches sn g lf progs w tr ->
    crashed (w_sys w) = None -> modest_now w -> nth_error (w_clients w) i = Some c -> c_pc c = StopLock \/ c_pc c = StopJoin ->
    exists who w' es, drive cbs who w = Some (w', es) /\ In (EvStopped (Client i)) es).
  { intros sn g lf progs w tr i c R C M Hi Hp. pose proof (reaches_stop _ _ _ _ _ _ _ _ R) as (A & B & O & N & X).
    assert (J : forall w tr, reaches sn g lf progs w tr -> crashed (w_sys w) = None -> modest_now w -> mtx (w_sys w) = Some (Client i) ->
      exists who w' es, drive cbs who w = Some (w', es) /\ In (EvStopped (Client i)) es).
    { clear - Hcbs. intros w tr R C M Mx. destruct (joins _ _ _ _ _ _ _ R C M Mx) as (who & w' & es & es' & Dr & _).
      exists who, w', (es ++ EvStopped (Client i) :: es'). split; auto. apply in_app_iff. right; left; auto. }
    destruct Hp as [Hp|Hp].
    2: { eapply J; eauto. apply O. exists c. auto. }
    destruct c as [pc k]. cbn in Hp. subst pc.
    (* with the mutex free *)
    assert (F : forall w tr, reaches sn g lf progs w tr -> crashed (w_sys w) = None -> modest_now w -> mtx (w_sys w) = None ->
      nth_error (w_clients w) i = Some (mkC StopLock k) -> exists who w' es, drive cbs who w = Some (w', es) /\ In (EvStopped (Client i)) es).
    { clear - J. intros w tr R C M Mx Hi. destruct (no_thread (w_sys w)) eqn:Nt.
      - exists [Some i], (mkWorld (w_sys w) (upd i (fun _ => mkC Idle k) (w_clients w))), ([EvStopped (Client i)] ++ []).
        split; [|left; auto]. cbn [LogSpec.drive].
        rewrite (go_step w i _ (mkC Idle k) (w_sys w) [EvStopped (Client i)] C Hi); auto.
        unfold cstep. cbn [c_pc c_todo]. rewrite Mx, Nt. auto.
      - set (w1 := mkWorld (set_mtx (Some (Client i)) (w_sys w)) (upd i (fun _ => mkC StopJoin k) (w_clients w))).
        assert (S1 : step (Go i) w = Some (w1, [])).
        { eapply go_step; eauto. unfold cstep. cbn [c_pc c_todo]. rewrite Mx, Nt. auto. }
        destruct (J w1 (tr ++ [])) as (who & w' & es & Dr & I); auto.
        + destruct R as [s0 R0]. exists (s0 ++ [Go i]). rewrite (run_app _ _ _ _ _ _ _ R0). cbn [LogModel.run]. rewrite S1. auto.
        + exists (Some i :: who), w', ([] ++ es). split; auto. cbn [LogSpec.drive]. rewrite S1, Dr. auto. }
    destruct (mtx (w_sys w)) as [t|] eqn:Mx; [|eapply F; eauto].
    destruct t as [j|].
    - assert (Nj : i <> j).
      { intros ->. destruct (proj2 (O (Client j)) eq_refl) as (c & Hj & Hp). rewrite Hi in Hj. injection Hj as <-. discriminate. }
      destruct (joins _ _ _ _ _ _ _ R C M Mx) as (who & w1 & es & es' & Dr & C1 & Mx1 & L1 & Cl).
      pose proof (reaches_drive _ _ _ _ _ _ _ _ _ _ R Dr) as R1.
      destruct (F w1 _ R1 C1) as (who2 & w2 & es2 & Dr2 & I2); auto.
      + unfold modest_now. rewrite L1. auto.
      + apply Cl; auto. discriminate.
      + exists (who ++ who2), w2, ((es ++ EvStopped (Client j) :: es') ++ es2). rewrite (drive_app _ _ _ _ _ _ Dr), Dr2. split; auto.
        apply in_app_iff. auto.
    - exfalso. destruct (proj2 (O LogThread) eq_refl) as (c & Hn & Hp). unfold modest_now in M.
      destruct (logt (w_sys w)); try discriminate. injection Hn as ->. rewrite Hp in M. cbn in M. tauto. }
  intros sn g lf progs w tr i c R C M Hi [Hp|Hp]; [|eapply Lk; eauto].
  destruct c as [pc k]. cbn in Hp. subst pc.
  set (w1 := mkWorld (notify (w_sys w)) (upd i (fun _ => mkC StopLock k) (w_clients w))).
  assert (S1 : step (Go i) w = Some (w1, [])) by (eapply go_step; eauto; reflexivity).
  destruct (Lk sn g lf progs w1 (tr ++ []) i (mkC StopLock k)) as (who & w' & es & Dr & I); auto.
  - destruct R as [s0 R0]. exists (s0 ++ [Go i]). rewrite (run_app _ _ _ _ _ _ _ R0). cbn [LogModel.run]. rewrite S1. auto.
  - cbn. rewrite notify_crashed. auto.
  - unfold modest_now in *. cbn. rewrite notify_logt. destruct (logt (w_sys w)); auto.
  - exact (nth_error_upd_eq _ _ _ _ Hi).
  - exists (Some i :: who), w', ([] ++ es). split; auto. cbn [LogSpec.drive]. rewrite S1, Dr. auto.
Qed.

End Alone.

(** ** C38: with a clean flag the new system serves, if nobody stops it *)
Definition no_stop_thread (c : cthread) : Prop := ~ In CStop (c_todo c) /\ ~ stopping c.

Definition serving w : Prop :=
  terminated (w_sys w) = false /\ logt (w_sys w) <> TNone /\ logt (w_sys w) <> TExited /\
  (forall c, In c (w_clients w) -> no_stop_thread c) /\ (forall c, nested (logt (w_sys w)) = Some c -> no_stop_thread c /\ ~ In CThrow (c_todo c)).

Lemma cs_todo : forall t c s c' s' es, cs t c s c' s' es -> c_todo c' = c_todo c \/ exists k, c_todo c = k :: c_todo c'.
Proof. intros t c s c' s' es H. destruct H; cbn; eauto. Qed.

Lemma cs_no_stop : forall t c s c' s' es, cs t c s c' s' es -> no_stop_thread c -> (t = LogThread -> ~ In CThrow (c_todo c)) ->
  no_stop_thread c' /\ terminated s' = terminated s /\ crashed s' = crashed s.
Proof.
  intros t c s c' s' es H (N1 & N2) N3. unfold no_stop_thread, stopping in *.
  destruct H; cbn [c_pc c_todo] in *; sfields; nsimp;
    try (split; [split; [intros I; apply N1; auto; right; auto | intros [D|[D|D]]; discriminate]|auto]; fail).
  - exfalso. apply N1. left; auto.
  - exfalso. apply N3; auto. left; auto.
  - psimp o s. rewrite P4, P14. split; auto. split; auto. intros [D|[D|D]]; discriminate.
  - exfalso. apply N2. auto.
  - exfalso. apply N2. auto.
  - exfalso. apply N2. auto.
Qed.

Lemma step_serving : forall ch w w' es, serving w -> crashed (w_sys w) = None -> no_stop_choice ch -> step ch w = Some (w', es) ->
  serving w' /\ crashed (w_sys w') = None.
Proof.
  intros ch w w' es (T & N1 & N2 & A & B) C Hch H. unfold LogModel.step in H. rewrite C in H. destruct ch as [i|cb|].
  - destruct (nth_error (w_clients w) i) as [c|] eqn:Hi; [|discriminate].
    destruct (cstep compile (Client i) c (w_sys w)) as [[[c' s'] es']|] eqn:E; [|discriminate]. injection H as <- <-.
    apply cstep_cs in E. pose proof (cs_logt_kind _ _ _ _ _ _ _ E) as K.
    destruct (cs_no_stop _ _ _ _ _ _ E) as (D1 & D2 & D3); [apply A; eapply nth_error_In; eauto|discriminate|].
    split; [|cbn; congruence]. split; [|split; [|split; [|split]]]; sfields.
    + congruence.
    + destruct K as [K|[(_ & K)|[(K & _)|(K & _)]]]; congruence.
    + destruct K as [K|[(_ & K)|[(K & _)|(K & _)]]]; congruence.
    + intros c0 I. apply In_nth_error in I. destruct I as (j & Hj). destruct (Nat.eq_dec j i) as [->|Nj].
      * rewrite (nth_error_upd_eq _ _ _ _ Hi) in Hj. injection Hj as <-. auto.
      * rewrite nth_error_upd_neq in Hj by auto. apply A. eapply nth_error_In; eauto.
    + intros c0 I. destruct K as [K|[(K1 & K)|[(K & _)|(K & _)]]]; try congruence.
      * rewrite K in I. auto.
      * rewrite K in I. discriminate.
  - destruct (lstep compile rmatch cb (w_sys w)) as [[s' es']|] eqn:E; [|discriminate]. injection H as <- <-.
    assert (Y : crashed s' = None /\ terminated s' = false /\ logt s' <> TNone /\ logt s' <> TExited /\ forall c, nested (logt s') = Some c -> no_stop_thread c /\ ~ In CThrow (c_todo c)).
    { unfold lstep in E. rewrite T in E. destruct (logt (w_sys w)) eqn:Lg; try discriminate;
        try (injection E as <- <-; cbn; repeat split; auto; discriminate).
      - destruct (queue (w_sys w)); injection E as <- <-; cbn; repeat split; auto; discriminate.
      - destruct rest as [|l rest]; [injection E as <- <-; cbn; repeat split; auto; discriminate|].
        destruct (l_enabled _); injection E as <- <-; cbn; repeat split; auto; discriminate.
      - destruct (_ >=? _)%Z; injection E as <- <-; cbn; repeat split; auto; discriminate.
      - destruct (checkCategory _ _ _); injection E as <- <-; cbn; repeat split; auto; try discriminate.
        + injection H as <-. apply Hch.
        + injection H as <-. intros [D|[D|D]]; discriminate.
        + injection H as <-. apply Hch.
      - destruct c as [pc k]. cbn [c_pc c_todo] in E.
        assert (Nn : forall c' s1 es1, cstep compile LogThread (mkC pc k) (w_sys w) = Some (c', s1, es1) ->
          crashed (set_logt (TCall o rest c') s1) = None /\ terminated (set_logt (TCall o rest c') s1) = false /\
          logt (set_logt (TCall o rest c') s1) <> TNone /\ logt (set_logt (TCall o rest c') s1) <> TExited /\
          forall c, nested (logt (set_logt (TCall o rest c') s1)) = Some c -> no_stop_thread c /\ ~ In CThrow (c_todo c)).
        { intros c' s1 es1 E1. apply cstep_cs in E1. destruct (B _ eq_refl) as (B1 & B2).
          destruct (cs_no_stop _ _ _ _ _ _ E1) as (D1 & D2 & D3); auto.
          assert (D4 : ~ In CThrow (c_todo c')).
          { destruct (cs_todo _ _ _ _ _ _ E1) as [Ex|(x & Ex)]; [rewrite Ex; exact B2|]. intros I. apply B2. cbn in Ex |- *. rewrite Ex. right; auto. }
          cbn. rewrite D2, D3. split; auto. split; auto. split; [discriminate|]. split; [discriminate|].
          intros c0 H. injection H as <-. auto. }
        destruct pc; try (destruct (cstep compile LogThread _ (w_sys w)) as [[[c' s1] es1]|] eqn:E1; [|discriminate]; injection E as <- <-; eauto; fail).
        destruct k; [injection E as <- <-; cbn; repeat split; auto; discriminate|].
        destruct (cstep compile LogThread _ (w_sys w)) as [[[c' s1] es1]|] eqn:E1; [|discriminate]; injection E as <- <-; eauto.
      - destruct todo; injection E as <- <-; cbn; repeat split; auto; discriminate.
      - destruct (_ <? _); injection E as <- <-; cbn; repeat split; auto; discriminate. }
    destruct Y as (Y1 & Y2 & Y3 & Y4 & Y5). split; auto. split; [auto|]. split; [auto|]. split; [auto|]. split; [exact A|exact Y5].
  - destruct (logt (w_sys w)) eqn:Lg; try discriminate. injection H as <- <-. cbn. split; auto.
    repeat split; auto; try discriminate; try (apply A; auto).
Qed.

Lemma fresh_serves : forall lf progs sched w tr, run sched (init true false lf progs) = Some (w, tr) ->
  (forall p, In p progs -> ~ In CStop p) -> Forall no_stop_choice sched ->
  terminated (w_sys w) = false /\ logt (w_sys w) <> TNone /\ crashed (w_sys w) = None.
Proof.
  intros lf progs sched w tr H Hp Hs.
  assert (I : serving w /\ crashed (w_sys w) = None).
  { assert (I0 : serving (init true false lf progs : world) /\ crashed (w_sys (init true false lf progs : world)) = None).
    { split; [|reflexivity]. split; [reflexivity|]. split; [discriminate|]. split; [discriminate|]. split; [|discriminate].
      intros c I. unfold init in I. sfields. apply in_map_iff in I. destruct I as (p & <- & Ip). split; cbn; auto.
      intros [D|[D|D]]; discriminate. }
    revert I0 H Hs. generalize (init true false lf progs : world). clear. revert w tr. induction sched as [|ch sched IH]; intros w tr w0 (I1 & I2) H Hs; simpl in H.
    - injection H as <- <-. auto.
    - inversion Hs; subst. destruct (step ch w0) as [[w1 es]|] eqn:E; [|discriminate].
      destruct (run sched w1) as [[w2 es']|] eqn:E2; [|discriminate]. injection H as <- <-.
      eapply IH; [|exact E2|auto]. eapply step_serving; eauto. }
  destruct I as ((I1 & I2 & _) & I3). auto.
Qed.

(** ** C42 *)
Lemma callback_enabled : forall sn g lf progs w tr o rest c cb, reaches sn g lf progs w tr -> crashed (w_sys w) = None ->
  logt (w_sys w) = TCall o rest c -> step (GoLog cb) w = None ->
  (c_pc c = StopLock \/ c_pc c = StartLock) /\ exists i, mtx (w_sys w) = Some (Client i).
Proof.
  intros sn g lf progs w tr o rest c cb R C E H. pose proof (reaches_stop _ _ _ _ _ _ _ _ R) as (_ & _ & O & _).
  unfold LogModel.step in H. rewrite C in H.
  assert (D : (c_pc c = Idle /\ c_todo c = []) \/ (c_pc c <> Idle \/ c_todo c <> [])).
  { destruct c as [pc k]. cbn. destruct pc; auto; try (right; left; discriminate). destruct k; auto. right; right; discriminate. }
  destruct D as [D|D].
  { destruct c as [pc k]. cbn in D. destruct D as (-> & ->). unfold lstep in H. rewrite E in H. discriminate. }
  rewrite (lstep_call cb _ _ _ _ E D) in H.
  destruct (cstep compile LogThread c (w_sys w)) as [[[c' s'] es]|] eqn:Ec; [discriminate|].
  apply cstep_enabled in Ec.
  assert (Mx : mtx (w_sys w) <> None -> c_pc c <> StopJoin -> exists i, mtx (w_sys w) = Some (Client i)).
  { intros Nm Nj. destruct (mtx (w_sys w)) as [[i|]|] eqn:Em; eauto; [|congruence].
    exfalso. destruct (proj2 (O LogThread) eq_refl) as (c0 & H0 & H1). rewrite E in H0. injection H0 as <-. auto. }
  destruct Ec as [(A & B)|[(A & B)|[(A & B)|(A & B & _)]]].
  - destruct D; congruence.
  - split; auto. apply Mx; congruence.
  - split; auto. apply Mx; congruence.
  - congruence.
Qed.

(** A callback that calls stop() never comes back. *)

Lemma st_in_stop : forall w w' es o rest k, in_stop w o rest k -> st w w' es -> in_stop w' o rest k /\ handed es = [].
Proof.
  intros w w' es o rest k (p & E & P) H. unfold in_stop. destruct H as [w i c c' s' es Hc Hi H | w s' es Hc H | w Hc Hs]; sfields.
  - split; [|apply (cs_quiet _ _ _ _ _ _ _ H)]. exists p. split; auto.
    destruct (cs_logt_kind _ _ _ _ _ _ _ H) as [K|[(K & _)|[(K & _)|(K & _)]]]; congruence.
  - destruct w as [s cl]. sfields. inversion H; subst; try congruence.
    + rewrite E in H0. injection H0 as ? ? ? ?. subst. destruct P as [P|[P|P]]; discriminate.
    + rewrite E in H0. injection H0 as <- <- <-. split; [|apply (cs_quiet _ _ _ _ _ _ _ H1)].
      cbn. inversion H1; subst; try (destruct P as [P|[P|P]]; discriminate); eauto; try congruence.
  - congruence.
Qed.

Lemma stop_in_callback : forall w o rest k, in_stop w o rest k -> forall w' tr, follows compile rmatch w w' tr ->
  in_stop w' o rest k /\ forall l m, ~ In (EvDeliver l m) tr.
Proof.
  intros w o rest k I w' tr [sched H].
  assert (X : in_stop w' o rest k /\ handed tr = []).
  { revert w tr I H. induction sched as [|ch sched IH]; intros w tr I H; simpl in H.
    - injection H as <- <-. auto.
    - destruct (step ch w) as [[w1 es]|] eqn:E; [|discriminate].
      destruct (run sched w1) as [[w2 es']|] eqn:E2; [|discriminate]. injection H as <- <-.
      apply step_st in E. destruct (st_in_stop _ _ _ _ _ _ I E) as (I1 & Hh). destruct (IH _ _ I1 E2) as (I2 & Hh2).
      split; auto. destruct (picks_app es es') as (_ & _ & _ & _ & _ & ->). rewrite Hh, Hh2. auto. }
  destruct X as (X1 & X2). split; auto. apply handed_delivered. auto.
Qed.

End Log.
