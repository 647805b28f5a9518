(** * Proofs about the whole logging service. *)

From Coq Require Import ZArith String Bool List Arith Lia.
From Verif Require Import Base ListFacts LogModel LogSpec LogProofs LogOrder LogCount LogFilter LogSettings LoggerModel LoggerSpec LoggerProofs WholeModel WholeSpec TextModel LogStreamModel.
Import ListNotations.
Open Scope string_scope.
Open Scope list_scope.

Lemma logs_app : forall a b, logs (a ++ b) = logs a ++ logs b.
Proof. intros. apply pick_app. Qed.
Lemma stmts_app : forall a b, stmts (a ++ b) = stmts a ++ stmts b.
Proof. intros. apply pick_app. Qed.
Lemma logs_WL : forall es, logs (map WL es) = es /\ stmts (map WL es) = [].
Proof. induction es as [|e es (A & B)]; cbn; auto. unfold logs, stmts in *. rewrite A, B. auto. Qed.
Lemma logs_WS : forall i es, logs (map (WS i) es) = [] /\ stmts (map (WS i) es) = map (pair i) es.
Proof. induction es as [|e es (A & B)]; cbn; auto. unfold logs, stmts in *. rewrite A, B. auto. Qed.

Lemma calls_app : forall a b, calls_of (a ++ b) = calls_of a ++ calls_of b.
Proof. intros. apply flat_map_app. Qed.
Lemma log_calls_of : forall es, log_calls (calls_of es) = commits es.
Proof.
  induction es as [|e es IH]; auto. change (e :: es) with ([e] ++ es). rewrite calls_app, commits_app.
  unfold log_calls in *. rewrite pick_app, IH. f_equal. destruct e; reflexivity.
Qed.

Section WholeProofs.
Context {RE : Type}.
Variable compile : string -> option RE.
Variable rmatch : string -> RE -> bool.
Variable min : Z.

Notation reaches := (reaches compile rmatch).
Notation wreaches := (wreaches compile rmatch min).

(** ** More calls for a thread *)
Definition wgive (i : nat) (ks : list call) (w : @world RE) : world := mkWorld (w_sys w) (upd i (give ks) (w_clients w)).

Lemma cstep_give : forall ks t c (s : @sys RE) c' s' es, cstep compile t c s = Some (c', s', es) ->
  cstep compile t (give ks c) s = Some (give ks c', s', es).
Proof.
  intros ks t [pc todo] s c' s' es H. unfold give. cbn [c_pc c_todo] in *.
  unfold cstep in *. cbn [c_pc c_todo] in *.
  destruct pc; [destruct todo as [|k todo]; [discriminate|destruct k]|..]; cbn [app] in *;
  repeat match type of H with
         | match ?x with _ => _ end = Some _ => destruct x; try discriminate
         | (if ?x then _ else _) = Some _ => destruct x; try discriminate
         end; injection H as <- <- <-; reflexivity.
Qed.

Lemma upd_upd_comm : forall {A} i j (f : A -> A) (g : A -> A) l, i <> j -> upd i f (upd j g l) = upd j g (upd i f l).
Proof.
  intros A i j f g l. revert i j. induction l as [|x l IH]; intros [|i] [|j] N; cbn; auto; try congruence.
  f_equal. apply IH. congruence.
Qed.
Lemma upd_upd_same : forall {A} i (f : A -> A) (g : A -> A) l, upd i f (upd i g l) = upd i (fun x => f (g x)) l.
Proof. intros A i f g l. revert i. induction l as [|x l IH]; intros [|i]; cbn; auto. f_equal. auto. Qed.

Lemma step_give : forall i ks ch (w : @world RE) w' es, step compile rmatch ch w = Some (w', es) ->
  step compile rmatch ch (wgive i ks w) = Some (wgive i ks w', es).
Proof.
  intros i ks ch [s cl] w' es H. unfold wgive, step in *. cbn [w_sys w_clients] in *.
  destruct (crashed s); [discriminate|]. destruct ch as [j|cb|].
  - destruct (nth_error cl j) as [c|] eqn:E; [|discriminate].
    destruct (cstep compile (Client j) c s) as [[[c' s'] es']|] eqn:S; [|discriminate]. injection H as <- <-. cbn [w_sys w_clients].
    destruct (Nat.eq_dec i j) as [->|N].
    + rewrite (nth_error_upd_eq _ _ _ _ E), (cstep_give _ _ _ _ _ _ _ S). rewrite !upd_upd_same. auto.
    + rewrite nth_error_upd_neq by auto. rewrite E, S. rewrite upd_upd_comm by auto. auto.
  - destruct (lstep compile rmatch cb s) as [[s' es']|]; [|discriminate]. injection H as <- <-. auto.
  - destruct (logt s); try discriminate. injection H as <- <-. auto.
Qed.

Lemma run_give : forall i ks sched (w : @world RE) w' es, run compile rmatch sched w = Some (w', es) ->
  run compile rmatch sched (wgive i ks w) = Some (wgive i ks w', es).
Proof.
  intros i ks sched. induction sched as [|ch sched IH]; intros w w' es H; cbn [run] in *.
  - injection H as <- <-. auto.
  - destruct (step compile rmatch ch w) as [[w1 es1]|] eqn:E; [|discriminate].
    destruct (run compile rmatch sched w1) as [[w2 es2]|] eqn:F; [|discriminate]. injection H as <- <-.
    rewrite (step_give _ _ _ _ _ _ E), (IH _ _ _ F). auto.
Qed.

Lemma init_give : forall i ks sn g (ls : nat -> @listener RE) progs,
  wgive i ks (init sn g ls progs) = init sn g ls (upd i (fun p => p ++ ks) progs).
Proof.
  intros. unfold wgive, init. cbn [w_sys w_clients]. f_equal.
  revert i. induction progs as [|p progs IH]; intros [|i]; cbn; auto. f_equal. auto.
Qed.

Lemma reaches_give : forall sn g ls progs w tr i ks, reaches sn g ls progs w tr ->
  reaches sn g ls (upd i (fun p => p ++ ks) progs) (wgive i ks w) tr.
Proof. intros sn g ls progs w tr i ks (sched & H). exists sched. rewrite <- init_give. apply run_give. auto. Qed.

Lemma reaches_step : forall sn g ls progs w tr ch w' es, reaches sn g ls progs w tr ->
  step compile rmatch ch w = Some (w', es) -> reaches sn g ls progs w' (tr ++ es).
Proof.
  intros sn g ls progs w tr ch w' es (sched & H) S. exists (sched ++ [ch]). rewrite (run_app _ _ _ _ _ _ _ H).
  cbn [run]. rewrite S, app_nil_r. auto.
Qed.

(** ** The invariant: the LogSystem sees threads that make the calls of the statements *)
Definition whole_inv sn g ls (progs : list (list stmt)) others (w : @whole RE) (tr : list wev) : Prop :=
  exists lprogs, reaches sn g ls lprogs (wh_log w) (logs tr) /\
    List.length lprogs = List.length progs + List.length others /\
    List.length (wh_code w) = List.length progs /\
    (forall i, i < List.length progs -> nth_error lprogs i = Some (calls_of (of_thread i (stmts tr)))) /\
    (forall j, nth_error lprogs (List.length progs + j) = nth_error others j) /\
    (forall i p, nth_error progs i = Some p -> exists curs code t, nth_error (wh_code w) i = Some (code, t) /\
       solo min curs (map IStmt p) tls0 = Some (code, t, of_thread i (stmts tr)) /\
       ((forall z, ~ In (EvLevel z) (logs tr)) -> Forall (eq TRACE) curs)).

Lemma level_of_none : forall tr z, (forall y, ~ In (EvLevel y) tr) -> LogSpec.level_of tr z = z.
Proof.
  induction tr as [|e tr IH]; intros z N; auto. assert (forall y, ~ In (EvLevel y) tr) by (intros y I; apply (N y); right; auto).
  destruct e; cbn; auto. destruct (N z0). left. auto.
Qed.

Lemma lift_inv : forall sn g ls progs others w tr ch w' es, whole_inv sn g ls progs others w tr ->
  wlift compile rmatch ch w = Some (w', es) -> whole_inv sn g ls progs others w' (tr ++ es).
Proof.
  intros sn g ls progs others w tr ch w' es (lp & R & L & Lc & A & B & C) H. unfold wlift in H.
  destruct (step compile rmatch ch (wh_log w)) as [[l es0]|] eqn:S; [|discriminate]. injection H as <- <-.
  exists lp. rewrite logs_app, stmts_app. destruct (logs_WL es0) as (-> & ->). rewrite app_nil_r. cbn [wh_log wh_code].
  split; [eapply reaches_step; eauto|]. repeat split; auto.
  intros i p Hp. destruct (C i p Hp) as (curs & code & t & X & Y & Z). exists curs, code, t. repeat split; auto.
  intros N. apply Z. intros z I. apply (N z). apply in_or_app. auto.
Qed.

Lemma winstr_inv : forall sn g ls progs others w tr i code t w' es, whole_inv sn g ls progs others w tr ->
  nth_error (wh_code w) i = Some (code, t) -> nth_error (w_clients (wh_log w)) i = Some (mkC Idle []) ->
  winstr min i code t w = Some (w', es) -> whole_inv sn g ls progs others w' (tr ++ es).
Proof.
  intros sn g ls progs others w tr i code t w' es (lp & R & L & Lc & A & B & C) Hi Hc H. unfold winstr in H.
  destruct (crashed (w_sys (wh_log w))); [discriminate|].
  destruct (tstep min (slevel (w_sys (wh_log w))) code t) as [[[code' t'] es0]|] eqn:S; [|discriminate]. injection H as <- <-.
  assert (Hn : i < List.length progs). { rewrite <- Lc. apply nth_error_Some. congruence. }
  exists (upd i (fun p => p ++ calls_of es0) lp). rewrite logs_app, stmts_app.
  destruct (logs_WS i es0) as (-> & ->). rewrite app_nil_r. cbn [wh_log wh_code].
  split; [apply reaches_give; auto|]. rewrite !upd_length. repeat split; auto.
  - intros j Hj. rewrite of_thread_app. destruct (Nat.eq_dec j i) as [->|N].
    + rewrite of_thread_same, calls_app. rewrite (nth_error_upd_eq _ _ _ _ (A i Hj)). auto.
    + rewrite of_thread_other by auto. rewrite nth_error_upd_neq by auto. rewrite app_nil_r. auto.
  - intros j. rewrite nth_error_upd_neq by lia. auto.
  - intros j p Hp. rewrite of_thread_app. destruct (C j p Hp) as (curs & code1 & t1 & X & Y & Z).
    destruct (Nat.eq_dec j i) as [->|N].
    + rewrite Hi in X. injection X as <- <-. rewrite of_thread_same.
      exists (curs ++ [slevel (w_sys (wh_log w))]), code', t'. rewrite (nth_error_upd_eq _ _ _ _ Hi). repeat split; auto.
      * eapply solo_app; eauto.
      * intros NL. apply Forall_app. split; auto. constructor; auto. rewrite (reaches_level _ _ _ _ _ _ _ _ R), level_of_none; auto.
    + rewrite of_thread_other by auto. rewrite nth_error_upd_neq by auto. rewrite app_nil_r. exists curs, code1, t1. auto.
Qed.

Lemma init_inv : forall sn g ls progs others, whole_inv sn g ls progs others (winit sn g ls progs others) [].
Proof.
  intros. exists (map (fun _ => []) progs ++ others). unfold winit. cbn [wh_log wh_code].
  split; [exists []; reflexivity|]. rewrite app_length, !map_length. repeat split; auto.
  - intros i Hi. rewrite nth_error_app1 by (rewrite map_length; auto). rewrite nth_error_map.
    destruct (nth_error progs i) eqn:E; auto. apply nth_error_None in E. lia.
  - intros j. rewrite nth_error_app2; rewrite map_length; [|lia]. f_equal. lia.
  - intros i p Hp. exists [], (map IStmt p), tls0. rewrite nth_error_map, Hp. cbn. repeat split; auto.
Qed.

Lemma wrun_inv : forall (I : @whole RE -> list wev -> Prop),
  (forall ch w w' tr es, I w tr -> wstep compile rmatch min ch w = Some (w', es) -> I w' (tr ++ es)) ->
  forall sched w tr0 w' tr, I w tr0 -> wrun compile rmatch min sched w = Some (w', tr) -> I w' (tr0 ++ tr).
Proof.
  intros I Hs sched. induction sched as [|ch sched IH]; intros w tr0 w' tr H0 H; cbn [wrun] in H.
  - injection H as <- <-. rewrite app_nil_r. auto.
  - destruct (wstep compile rmatch min ch w) as [[w1 es]|] eqn:E; [|discriminate].
    destruct (wrun compile rmatch min sched w1) as [[w2 es']|] eqn:E2; [|discriminate]. injection H as <- <-.
    rewrite app_assoc. eapply IH; eauto.
Qed.

Lemma wreaches_inv : forall sn g ls progs others w tr, wreaches sn g ls progs others w tr -> whole_inv sn g ls progs others w tr.
Proof.
  intros sn g ls progs others w tr (sched & H).
  change tr with ([] ++ tr). eapply wrun_inv; [|apply init_inv|exact H].
  clear. intros ch w w' tr es I S. destruct ch as [i|cb|]; cbn [wstep] in S.
  - destruct (nth_error (wh_code w) i) as [[code t]|] eqn:E; [|eapply lift_inv; eauto].
    destruct (nth_error (w_clients (wh_log w)) i) as [[pc todo]|] eqn:F; [|eapply lift_inv; eauto].
    destruct pc; try (eapply lift_inv; eauto; fail). destruct todo; [|eapply lift_inv; eauto; fail].
    eapply winstr_inv; eauto.
  - eapply lift_inv; eauto.
  - eapply lift_inv; eauto.
Qed.

(** ** What the statements of a thread make the LogSystem do *)
Lemma whole_logged : forall sn g ls progs others w tr i p, wreaches sn g ls progs others w tr -> nth_error progs i = Some p ->
  prefix (logged_by (Client i) (logs tr)) (commits (of_thread i (stmts tr))) /\
  (wfinished w i -> logged_by (Client i) (logs tr) = commits (of_thread i (stmts tr))).
Proof.
  intros sn g ls progs others w tr i p H Hp. apply wreaches_inv in H. destruct H as (lp & R & _ & _ & A & _ & _).
  assert (Hi : i < List.length progs) by (apply nth_error_Some; congruence).
  destruct (reaches_order _ _ _ _ _ _ _ _ R) as (_ & _ & P). destruct (P i _ (A i Hi)) as (c & Hc & E).
  rewrite log_calls_of in E. split; [eexists; exact E|]. intros (_ & F). rewrite Hc in F. injection F as ->.
  rewrite E. cbn. rewrite app_nil_r. auto.
Qed.

Lemma whole_expected : forall sn g ls progs others w tr i p, wreaches sn g ls progs others w tr ->
  nth_error progs i = Some (map embed p) ->
  prefix (logged_by (Client i) (logs tr)) (expect "" p (tests (of_thread i (stmts tr)))) /\
  (wfinished w i -> logged_by (Client i) (logs tr) = expect "" p (tests (of_thread i (stmts tr)))).
Proof.
  intros sn g ls progs others w tr i p H Hp. destruct (whole_logged _ _ _ _ _ _ _ _ _ H Hp) as ((r & A) & B).
  apply wreaches_inv in H. destruct H as (lp & _ & _ & _ & _ & _ & C). destruct (C i _ Hp) as (curs & code & t & X & Y & _).
  destruct (solo_messages _ _ _ _ _ _ Y) as (cur & E & _ & Z). rewrite E. split.
  - exists (r ++ cur). rewrite A, app_assoc. auto.
  - intros F. rewrite (B F). destruct F as ((t' & F) & _). rewrite X in F. injection F as -> _. rewrite Z, app_nil_r; auto.
Qed.

Lemma in_sub : forall {A} (a b : list A) x, sub a b -> In x a -> In x b.
Proof. intros A a b x H. induction H; cbn; tauto. Qed.

Lemma no_level_events : forall sn g ls progs others w tr i p, wreaches sn g ls progs others w tr -> nth_error progs i = Some p ->
  wfinished w i -> (forall z, ~ In (EvLevel z) (logs tr)) -> forall z, ~ In (EvSetLevel z) (of_thread i (stmts tr)).
Proof.
  intros sn g ls progs others w tr i p H Hp F N z I. apply wreaches_inv in H. destruct H as (lp & R & _ & _ & A & _ & _).
  assert (Hi : i < List.length progs) by (apply nth_error_Some; congruence). destruct F as (_ & F).
  destruct (calls_effective _ _ _ _ _ _ _ _ _ _ _ R (A i Hi) F) as (done & now & ess & E & _ & W & Fo & Sb).
  rewrite (W eq_refl) in E. cbn [c_todo] in E. rewrite !app_nil_r in E.
  assert (J : In (CLevel z) done).
  { rewrite <- E. unfold calls_of. apply in_flat_map. exists (EvSetLevel z). split; auto. left. auto. }
  apply (N z). eapply in_sub; [exact Sb|]. clear - J Fo. induction Fo as [|k es done ess K Fo IH]; [destruct J|].
  cbn [concat]. apply in_or_app. destruct J as [->|J]; auto. left. inversion K; subst. left. auto.
Qed.

Lemma whole_messages : forall sn g ls progs others w tr i p, wreaches sn g ls progs others w tr ->
  nth_error progs i = Some (map embed p) -> wfinished w i -> (forall z, ~ In (EvLevel z) (logs tr)) ->
  logged_by (Client i) (logs tr) = messages min TRACE "" p.
Proof.
  intros sn g ls progs others w tr i p H Hp F N. pose proof (no_level_events _ _ _ _ _ _ _ _ _ H Hp F N) as M.
  destruct (whole_logged _ _ _ _ _ _ _ _ _ H Hp) as (_ & ->); auto.
  apply wreaches_inv in H. destruct H as (lp & _ & _ & _ & _ & _ & C). destruct (C i _ Hp) as (curs & code & t & X & Y & Z).
  destruct F as ((t' & F) & _). rewrite X in F. injection F as -> _. eapply (proj1 (solo_alone _ _ _ _ _ Y (Z N) M)).
Qed.

Lemma whole_levels : forall sn g ls progs others w tr i p m, wreaches sn g ls progs others w tr ->
  nth_error progs i = Some (map embed p) -> wfinished w i -> (forall z, ~ In (EvLevel z) (logs tr)) ->
  In m (logged_by (Client i) (logs tr)) -> (m_level m <= TRACE)%Z.
Proof.
  intros sn g ls progs others w tr i p m H Hp F N I. pose proof (no_level_events _ _ _ _ _ _ _ _ _ H Hp F N) as M.
  destruct (whole_logged _ _ _ _ _ _ _ _ _ H Hp) as (_ & E). rewrite (E F) in I.
  apply wreaches_inv in H. destruct H as (lp & _ & _ & _ & _ & _ & C). destruct (C i _ Hp) as (curs & code & t & X & Y & Z).
  destruct F as ((t' & F) & _). rewrite X in F. injection F as -> _. destruct (solo_alone _ _ _ _ _ Y) as (_ & A & B); auto.
  apply B. rewrite A. auto.
Qed.

(** Every message of the level test's: all pass at level TRACE. *)
Lemma passed_logged : forall tr t, (forall a t' m b c, tr = a ++ EvLog t' m b :: c -> tid_eqb t t' = true -> b = true) -> passed_by t tr = logged_by t tr.
Proof.
  intros tr t. unfold passed_by, logged_by. induction tr as [|e tr IH]; intros N; auto. cbn [pick].
  assert (N' : forall a t' m b c, tr = a ++ EvLog t' m b :: c -> tid_eqb t t' = true -> b = true).
  { intros a t' m b c E. apply (N (e :: a) t' m b c). rewrite E. auto. }
  rewrite IH by auto. destruct e as [t' m b| | | | | | | | | | | | | | | | |]; auto. destruct b; auto. destruct (tid_eqb t t') eqn:E; auto.
  specialize (N [] t' m false tr eq_refl E). discriminate.
Qed.

Lemma in_logged : forall a t m b c, In m (logged_by t (a ++ EvLog t m b :: c)).
Proof.
  intros. unfold logged_by. rewrite pick_app. apply in_or_app. right. cbn [pick]. rewrite tid_eqb_refl. left. auto.
Qed.

(** ** Merging *)
Definition tags (tr : list ev) : list nat := pick (fun e => match e with EvAccept (Client i) _ => Some i | _ => None end) tr.

Lemma accepted_merge : forall n tr, only_below n tr ->
  List.length (tags tr) = List.length (accepted tr) /\ Forall (fun i => i < n) (tags tr) /\
  forall i, pick (fun x => if Nat.eqb i (fst x) then Some (snd x) else None) (combine (tags tr) (accepted tr)) = queued_by (Client i) tr.
Proof.
  intros n tr. unfold tags, accepted, queued_by. induction tr as [|e tr IH]; intros O; cbn [pick]; auto.
  destruct IH as (A & B & C). { intros t m I. apply (O t m). right. auto. }
  destruct e as [| |t m| | | | | | | | | | | | | | |]; auto.
  destruct (O t m (or_introl eq_refl)) as (i & -> & Hi). cbn [List.length combine pick fst snd tid_eqb].
  split; [auto|]. split; [constructor; auto|]. intros j. destruct (j =? i)%nat; rewrite C; auto.
Qed.

Lemma whole_merge : forall sn g ls plains others w tr,
  wreaches sn g ls (map (map embed) plains) others w tr ->
  (forall i, i < List.length plains -> wfinished w i) -> served w ->
  (forall z, ~ In (EvLevel z) (logs tr)) -> only_below (List.length plains) (logs tr) ->
  merge_of (map (messages min TRACE "") plains) (begun (logs tr)).
Proof.
  intros sn g ls plains others w tr H F (S1 & S2) N O.
  pose proof (wreaches_inv _ _ _ _ _ _ _ H) as (lp & R & _ & _ & A & _ & _).
  assert (B : begun (logs tr) = accepted (logs tr)).
  { rewrite (fifo _ _ _ _ _ _ _ _ R), S1. assert (U : unbegun (wh_log w) = []).
    { unfold unended, unbegun in *. destruct (logt _); auto. }
    rewrite U, !app_nil_r. auto. }
  rewrite B. destruct (accepted_merge _ _ O) as (L & Fo & P). exists (tags (logs tr)). split; auto. split.
  { rewrite map_length. auto. }
  intros i l Hl. rewrite P. rewrite nth_error_map in Hl. destruct (nth_error plains i) as [p|] eqn:Hp; [|discriminate]. injection Hl as <-.
  assert (Hi : i < List.length plains) by (apply nth_error_Some; congruence).
  assert (Hp' : nth_error (map (map embed) plains) i = Some (map embed p)) by (rewrite nth_error_map, Hp; auto).
  pose proof (whole_messages _ _ _ _ _ _ _ _ _ H Hp' (F i Hi) N) as M.
  destruct (F i Hi) as ((t & Ft) & Fc). rewrite (thread_idle _ _ _ _ _ _ _ _ _ _ R Fc eq_refl). rewrite <- M.
  apply passed_logged. intros a t' m b c E Et. apply tid_eqb_true in Et. subst t'.
  rewrite E in R. rewrite (level_decides _ _ _ _ _ _ _ _ _ _ _ _ R). apply Z.leb_le.
  rewrite level_of_none; [|intros z J; apply (N z); rewrite E; apply in_or_app; auto].
  eapply whole_levels; eauto. rewrite E. apply in_logged.
Qed.

Lemma begun_app : forall a b, begun (a ++ b) = begun a ++ begun b.
Proof. intros. apply pick_app. Qed.

Lemma whole_delivered : forall sn g ls plains others w tr l t1 t2,
  wreaches sn g ls (map (map embed) plains) others w tr ->
  (forall i, i < List.length plains -> wfinished w i) -> served w ->
  (forall z, ~ In (EvLevel z) (logs tr)) -> only_below (List.length plains) (logs tr) ->
  logs tr = t1 ++ EvAdd l :: t2 -> begun t1 = [] -> ~ In (EvAdd l) (t1 ++ t2) -> ~ In l (changed (t1 ++ t2)) -> l_detached (ls l) = false ->
  exists ms, merge_of (map (messages min TRACE "") plains) ms /\ delivered_to l (logs tr) = filter (wants rmatch (ls l)) ms.
Proof.
  intros sn g ls plains others w tr l t1 t2 H F S N O E B A C D. exists (begun (logs tr)). split; [eapply whole_merge; eauto|].
  apply wreaches_inv in H. destruct H as (lp & R & _). rewrite E in *. destruct S as (_ & S).
  rewrite in_app_iff in A.
  destruct (filter_once _ _ _ _ _ _ _ _ _ _ R) as (_ & X); auto. rewrite (X S). f_equal.
  rewrite begun_app, B. reflexivity.
Qed.

(** ** The lines *)
Lemma srun_messages : forall (f : tm * msg -> string) s xs k, pout k = Str s -> destroyed k = [] ->
  exists k', srun (map (fun x => OnMessage (f x)) xs) k = ROk k' tt /\ written k' = written k ++ map (fun x => (s, f x)) xs.
Proof.
  intros f s xs. induction xs as [|x xs IH]; intros k P D; cbn [map srun].
  - exists k. rewrite app_nil_r. auto.
  - unfold sstep. rewrite P, D. cbn [existsb].
    destruct (IH (mkSink (Str s) (uptr k) (shptr k) [] (ext k) (written k ++ [(s, f x)]))) as (k' & R & W); auto.
    exists k'. split; auto. rewrite W. cbn [written]. rewrite <- app_assoc. auto.
Qed.

Lemma whole_lines : forall sn g ls plains others w tr l t1 t2 s ext0 times,
  wreaches sn g ls (map (map embed) plains) others w tr ->
  (forall i, i < List.length plains -> wfinished w i) -> served w ->
  (forall z, ~ In (EvLevel z) (logs tr)) -> only_below (List.length plains) (logs tr) ->
  logs tr = t1 ++ EvAdd l :: t2 -> begun t1 = [] -> ~ In (EvAdd l) (t1 ++ t2) -> ~ In l (changed (t1 ++ t2)) -> l_detached (ls l) = false ->
  List.length times = List.length (delivered_to l (logs tr)) ->
  exists k ms, srun (WriteOn (Some s) :: map (fun x => OnMessage (log_line (fst x) (snd x))) (combine times (delivered_to l (logs tr)))) (sink0 ext0) = ROk k tt /\
    merge_of (map (messages min TRACE "") plains) ms /\
    written k = map (fun x => (s, log_line (fst x) (snd x))) (combine times (filter (wants rmatch (ls l)) ms)) /\
    List.length (written k) = List.length (filter (wants rmatch (ls l)) ms).
Proof.
  intros sn g ls plains others w tr l t1 t2 s ext0 times H F S N O E B A C D T.
  destruct (whole_delivered _ _ _ _ _ _ _ _ _ _ H F S N O E B A C D) as (ms & M & Q).
  destruct (srun_messages (fun x => log_line (fst x) (snd x)) s (combine times (delivered_to l (logs tr)))
    (mkSink (Str s) None None [] ext0 [])) as (k & R & W); auto.
  exists k, ms. split; [exact R|]. split; auto. cbn [written app] in W. rewrite Q in *. split; auto.
  rewrite W, map_length, combine_length. lia.
Qed.

End WholeProofs.
