(** * LogSystem: properties C28 to C44.

    [reaches compile rmatch sn g ls progs w tr]: a LogSystem(sn) was constructed where the
    memory of m_isTerminated contained [g], with listeners that have the settings [ls]; the
    client threads execute [progs] and some schedule, with some behaviour of the callbacks,
    leads to [w] and shows the events [tr].  [compile] and [rmatch] stand for std::regex. *)

From Coq Require Import ZArith String Bool List Arith Lia.
From Verif Require Import Base LogModel LogSpec LogAccess LogProofs LogOrder LogCount LogStop LogLive LogFair LogFilter LogSettings LogDiag LogRace.
Import ListNotations.
Open Scope string_scope.
Open Scope list_scope.

(** ** Material for the concrete cases: an expression matches itself, "[" is invalid. *)
Definition demo_compile (re : string) : option string := if String.eqb re "[" then None else Some re.
Definition demo_match (cat re : string) : bool := String.eqb cat re.
Definition demo_listeners : nat -> @listener string :=
  fun l => match l with
           | 1 => mkL "net" "net" INFO true false
           | 2 => mkL "" "" ERROR true false
           | _ => new_listener ""
           end.
Definition hello : msg := mkMsg "a.cpp" 7 INFO "net" "hello".
Definition bye : msg := mkMsg "b.cpp" 9 DEBUG "gui" "bye".
Notation demo := (reaches demo_compile demo_match).
(** Client [i] makes [n] steps; the log thread makes [n] steps with silent callbacks. *)
Definition cl (i n : nat) : list choice := repeat (Go i) n.
Definition lg (n : nat) : list choice := repeat (GoLog []) n.

Ltac demo_run sched := eexists; eexists; split; [exists sched; vm_compute; reflexivity|].

(** ** C28 *)

(** What was queued is what was handed to dispatch, in the same order, followed by the
    message in the log thread's hands and the queue. *)
Theorem C28_fifo : forall (RE : Type) compile rmatch sn g (ls : nat -> @listener RE) progs w tr,
  reaches compile rmatch sn g ls progs w tr ->
  accepted tr = begun tr ++ unbegun w ++ waiting w.
Proof. exact @fifo. Qed.
Print Assumptions C28_fifo.

(** Each call of a listener is about the message in dispatch: the one after those whose
    dispatch has ended. *)
Theorem C28_handed_current : forall (RE : Type) compile rmatch sn g (ls : nat -> @listener RE) progs w t1 l m t2,
  reaches compile rmatch sn g ls progs w (t1 ++ EvDeliver l m :: t2) ->
  begun t1 = ended t1 ++ [m].
Proof. exact @handed_current. Qed.
Print Assumptions C28_handed_current.

(** A thread's messages are queued in the order of its calls, with the arguments of the
    calls; at most one is under way. *)
Theorem C28_thread_order : forall (RE : Type) compile rmatch sn g (ls : nat -> @listener RE) progs w tr t,
  reaches compile rmatch sn g ls progs w tr ->
  exists cur, passed_by t tr = queued_by t tr ++ cur /\ List.length cur <= 1.
Proof. exact @thread_order. Qed.
Print Assumptions C28_thread_order.

Theorem C28_program_order : forall (RE : Type) compile rmatch sn g (ls : nat -> @listener RE) progs w tr i p,
  reaches compile rmatch sn g ls progs w tr -> nth_error progs i = Some p ->
  prefix (logged_by (Client i) tr) (log_calls p).
Proof. exact @program_order. Qed.
Print Assumptions C28_program_order.

Example C28_witness : exists w tr, demo true false demo_listeners [[CAdd 0; CLog hello]; [CLog bye]] w tr /\
  accepted tr = [bye; hello] /\ begun tr = [bye] /\ unbegun w = [hello] /\ delivered_to 0 tr = [bye] /\
  passed_by (Client 0) tr = [hello].
Proof. demo_run (cl 0 2 ++ cl 1 4 ++ cl 0 3 ++ lg 12). repeat split; reflexivity. Qed.

(** ** C29 *)

(** A listener added once with settings that are not changed. *)
Theorem C29_receives_what_it_wants : forall (RE : Type) compile rmatch sn g (ls : nat -> @listener RE) progs w t1 t2 l,
  reaches compile rmatch sn g ls progs w (t1 ++ EvAdd l :: t2) ->
  ~ In (EvAdd l) t1 -> ~ In (EvAdd l) t2 -> ~ In l (changed (t1 ++ t2)) -> l_detached (ls l) = false ->
  prefix (delivered_to l (t1 ++ EvAdd l :: t2)) (filter (wants rmatch (ls l)) (begun t2)) /\
  (unended w = [] -> delivered_to l (t1 ++ EvAdd l :: t2) = filter (wants rmatch (ls l)) (begun t2)).
Proof. exact @filter_once. Qed.
Print Assumptions C29_receives_what_it_wants.

(** A listener as constructed, without any settings, receives everything. *)
Theorem C29_new_listener : forall (RE : Type) compile rmatch sn g (ls : nat -> @listener RE) progs w t1 t2 l no_regex,
  reaches compile rmatch sn g ls progs w (t1 ++ EvAdd l :: t2) ->
  ~ In (EvAdd l) t1 -> ~ In (EvAdd l) t2 -> ~ In l (changed (t1 ++ t2)) -> ls l = new_listener no_regex ->
  Forall (fun m => (m_level m <= 5)%Z) (begun t2) ->
  prefix (delivered_to l (t1 ++ EvAdd l :: t2)) (begun t2) /\
  (unended w = [] -> delivered_to l (t1 ++ EvAdd l :: t2) = begun t2).
Proof.
  intros RE compile rmatch sn g ls progs w t1 t2 l no_regex R N1 N2 N3 E F.
  assert (X : filter (wants rmatch (ls l)) (begun t2) = begun t2).
  { rewrite E. clear - F. induction F as [|m ms H F IH]; [reflexivity|]. cbn [filter]. unfold wants at 1. cbn [new_listener l_enabled l_level l_category].
    rewrite (proj2 (Z.leb_le (m_level m) TRACE) H). rewrite Bool.orb_true_r. cbn [andb orb]. now rewrite IH. }
  pose proof (filter_once compile rmatch sn g ls progs w t1 t2 l R N1 N2 N3) as P. rewrite X in P. apply P. rewrite E. reflexivity.
Qed.
Print Assumptions C29_new_listener.

(** Added any number of times: once per message and registration. *)
Theorem C29_once_per_registration : forall (RE : Type) compile rmatch sn g (ls : nat -> @listener RE) progs w tr l,
  reaches compile rmatch sn g ls progs w tr -> ~ In l (changed tr) -> l_detached (ls l) = false ->
  (exists n, expected rmatch (ls l) l tr 0 0 = delivered_to l tr ++ flat_map (fun m => repeat m n) (unended w)) /\
  (unended w = [] -> delivered_to l tr = expected rmatch (ls l) l tr 0 0).
Proof. exact @filter_exact. Qed.
Print Assumptions C29_once_per_registration.

(** Whatever happens to the settings, nobody is called without having been added. *)
Theorem C29_only_added : forall (RE : Type) compile rmatch sn g (ls : nat -> @listener RE) progs w t1 l m t2,
  reaches compile rmatch sn g ls progs w (t1 ++ EvDeliver l m :: t2) -> 0 < adds l t1.
Proof. exact @delivered_accepted. Qed.
Print Assumptions C29_only_added.

(** Settings that change, but not during a dispatch: each message is judged by the settings in
    force when its dispatch begins, and a detached listener is dropped when that ends. *)
Theorem C29_settings_in_force : forall (RE : Type) compile rmatch sn g (ls : nat -> @listener RE) progs w tr l,
  reaches compile rmatch sn g ls progs w tr -> steady l tr false ->
  (exists n, owed compile rmatch (ls l) l tr 0 0 = delivered_to l tr ++ flat_map (fun m => repeat m n) (unended w)) /\
  (unended w = [] -> delivered_to l tr = owed compile rmatch (ls l) l tr 0 0).
Proof. exact @over_exact. Qed.
Print Assumptions C29_settings_in_force.

(** At any moment the settings of a listener are those of the calls made so far. *)
Theorem C29_settings_now : forall (RE : Type) compile rmatch sn g (ls : nat -> @listener RE) progs w tr l,
  reaches compile rmatch sn g ls progs w tr -> lst (w_sys w) l = settings compile l tr (ls l).
Proof. exact @settings_now. Qed.
Print Assumptions C29_settings_now.

(** [hello] is delivered; disabled, the listener misses [bye]; enabled again and detached, it
    receives the next [hello], and then no more. *)
Example C29_settings_witness : exists w tr, demo true false demo_listeners
    [[CAdd 0; CLog hello; CEnable 0 false; CLog bye; CEnable 0 true; CDetach 0; CLog hello; CLog bye]] w tr /\
  steady 0 tr false /\ unended w = [] /\ begun tr = [hello; bye; hello; bye] /\ delivered_to 0 tr = [hello; hello] /\
  owed demo_compile demo_match (demo_listeners 0) 0 tr 0 0 = [hello; hello].
Proof. demo_run (cl 0 5 ++ lg 11 ++ cl 0 5 ++ lg 8 ++ cl 0 6 ++ lg 10 ++ cl 0 4 ++ lg 6). split; [cbn; intuition discriminate|]. repeat split; reflexivity. Qed.

Example C29_witness : exists w tr, demo true false demo_listeners [[CAdd 1; CAdd 0; CAdd 0; CLog hello; CLog bye]] w tr /\
  unended w = [] /\ begun tr = [hello; bye] /\ delivered_to 1 tr = [hello] /\ delivered_to 0 tr = [hello; hello; bye; bye].
Proof. demo_run (cl 0 11 ++ lg 40). repeat split; reflexivity. Qed.

Example C29_new_listener_witness : exists w tr, demo true false demo_listeners [[CAdd 0; CLog hello; CLog bye]] w tr /\
  demo_listeners 0 = new_listener "" /\ changed tr = [] /\ adds 0 tr = 1 /\ unended w = [] /\ begun tr = [hello; bye] /\ delivered_to 0 tr = [hello; bye].
Proof. demo_run (cl 0 9 ++ lg 19). repeat split; reflexivity. Qed.

(** ** C30 *)
Theorem C30_above_level_no_effect : forall (RE : Type) (compile : string -> option RE) i m k s,
  (m_level m > slevel s)%Z ->
  cstep compile (Client i) (mkC Idle (CLog m :: k)) s = Some (mkC Idle k, s, [EvLog (Client i) m false]).
Proof. exact @reject_client. Qed.
Print Assumptions C30_above_level_no_effect.

(** The test is against the level in force at that moment. *)
Theorem C30_level_decides : forall (RE : Type) compile rmatch sn g (ls : nat -> @listener RE) progs w t1 u m b t2,
  reaches compile rmatch sn g ls progs w (t1 ++ EvLog u m b :: t2) ->
  b = (m_level m <=? level_of t1 TRACE)%Z.
Proof. exact @level_decides. Qed.
Print Assumptions C30_level_decides.

(** Once the call returned, what passed the test is queued, exactly once. *)
Theorem C30_passes_exactly_once : forall (RE : Type) compile rmatch sn g (ls : nat -> @listener RE) progs w tr i c,
  reaches compile rmatch sn g ls progs w tr -> nth_error (w_clients w) i = Some c -> c_pc c = Idle ->
  queued_by (Client i) tr = passed_by (Client i) tr.
Proof. exact @thread_idle. Qed.
Print Assumptions C30_passes_exactly_once.

(** log(Message* ) ignores the level: the call always queues the message. *)
Example C30_object_witness : exists w tr, demo true false demo_listeners [[CLevel CRITICAL; CPass bye; CLog bye]] w tr /\
  at_pc w 0 Idle /\ logged_by (Client 0) tr = [bye; bye] /\ queued_by (Client 0) tr = [bye].
Proof.
  demo_run (cl 0 4). split; [eexists; split; reflexivity|]. split; reflexivity.
Qed.

Example C30_witness : exists w tr, demo true false demo_listeners [[CLevel WARN; CLog hello; CLevel INFO; CLog hello; CLog bye]] w tr /\
  at_pc w 0 Idle /\ logged_by (Client 0) tr = [hello; hello; bye] /\ queued_by (Client 0) tr = [hello].
Proof.
  demo_run (cl 0 8). split; [eexists; split; reflexivity|]. split; reflexivity.
Qed.

(** ** C31 *)
Theorem C31_one_place : forall (RE : Type) compile rmatch sn g (ls : nat -> @listener RE) progs w tr,
  reaches compile rmatch sn g ls progs w tr ->
  NoDup (places w) /\ forall o, In o (places w) <-> live (w_sys w) o.
Proof. exact @one_place. Qed.
Print Assumptions C31_one_place.

(** [passes tr]: the message objects that came from outside, through log(Message* ). *)
Theorem C31_pool_bounded : forall (RE : Type) compile rmatch sn g (ls : nat -> @listener RE) progs w tr,
  reaches compile rmatch sn g ls progs w tr ->
  List.length (pool (w_sys w)) <= 64 /\
  (quiescent w -> List.length (pool (w_sys w)) = 64 /\
    discarded (w_sys w) + making w = unpooled (w_sys w) + List.length (passes tr)).
Proof. exact @pool_bound. Qed.
Print Assumptions C31_pool_bounded.

(** 70 messages in the queue, then all dispatched. *)
Example C31_witness : exists w tr, demo true false demo_listeners [repeat (CLog hello) 70] w tr /\
  quiescent w /\ unpooled (w_sys w) = 6.
Proof.
  eexists. eexists. split; [exists (cl 0 (64 * 4 + 6 * 6) ++ lg (64 * 6 + 6 * 8)); vm_compute; reflexivity|].
  split; [repeat split|]; reflexivity.
Qed.

(** Messages passed as objects join the pool or are deleted. *)
Example C31_objects_witness : exists w tr, demo true false demo_listeners [[CPass hello; CLog bye; CPass hello]] w tr /\
  quiescent w /\ unpooled (w_sys w) = 0 /\ discarded (w_sys w) = 2 /\ passes tr = [hello; hello].
Proof. demo_run (cl 0 8 ++ lg 22). repeat split; reflexivity. Qed.

(** ** C32 *)
Theorem C32_counters : forall (RE : Type) compile rmatch sn g (ls : nat -> @listener RE) progs w t1 u f v t2,
  reaches compile rmatch sn g ls progs w (t1 ++ EvRead u f v :: t2) ->
  match f with
  | FReceived => v = List.length (sent t1)
  | FMaxQueue => v = longest t1 0 0
  | FPending => v = pending_of t1 0
  | FPool => v <= 64
  | _ => True
  end.
Proof. exact @diag_values. Qed.
Print Assumptions C32_counters.

(** m_msgsCreated, m_msgsDiscarded, m_poolSize and m_activeListeners are the numbers of message
    objects created beyond the 64 of the pool and those passed to log(Message* ), deleted, and in
    the pool, and of active listeners, in the state [w1] in which they are read; but the objects in the making, and the one being deleted,
    are counted already. *)
Theorem C32_objects : forall (RE : Type) compile rmatch sn g (ls : nat -> @listener RE) progs w t1 u f v t2,
  reaches compile rmatch sn g ls progs w (t1 ++ EvRead u f v :: t2) ->
  exists w1, reaches compile rmatch sn g ls progs w1 t1 /\ follows compile rmatch w1 w (EvRead u f v :: t2) /\
  match f with
  | FCreated => objects w1 + making w1 = 64 + v + List.length (passes t1)
  | FDiscarded => deleted w1 + deleting w1 = v
  | FPool => List.length (pool (w_sys w1)) = v
  | FActive => List.length (active (w_sys w1)) = v
  | _ => True
  end.
Proof. exact @diag_objects. Qed.
Print Assumptions C32_objects.

(** Client 1 reads while client 0, with the pool empty, is about to make an object, ... *)
Example C32_making_witness : exists w1 tr w2 t2, demo true false demo_listeners [repeat (CLog hello) 65; [CDiags]] w1 tr /\
  objects w1 = 64 /\ making w1 = 1 /\ demo true false demo_listeners [repeat (CLog hello) 65; [CDiags]] w2 (tr ++ EvRead (Client 1) FCreated 1 :: t2).
Proof.
  eexists. eexists. eexists. exists []. split; [exists (cl 0 (64 * 4 + 3) ++ cl 1 1); vm_compute; reflexivity|]. split; [reflexivity|]. split; [reflexivity|].
  exists (cl 0 (64 * 4 + 3) ++ cl 1 2). vm_compute. reflexivity.
Qed.

(** ... and while the log thread, with the pool full, is about to delete one. *)
Example C32_deleting_witness : exists w1 tr w2 t2, demo true false demo_listeners [[CPass hello]; [CDiags]] w1 tr /\
  deleted w1 = 0 /\ deleting w1 = 1 /\ demo true false demo_listeners [[CPass hello]; [CDiags]] w2 (tr ++ EvRead (Client 1) FDiscarded 1 :: t2).
Proof.
  eexists. eexists. eexists. exists []. split; [exists (cl 0 2 ++ lg 7 ++ cl 1 2); vm_compute; reflexivity|]. split; [reflexivity|]. split; [reflexivity|].
  exists (cl 0 2 ++ lg 7 ++ cl 1 3). vm_compute. reflexivity.
Qed.

(** m_activeListeners and m_enabledListeners: never more than the registrations taken in; exactly
    those, and those of enabled listeners at a moment since the thread read the field before, as
    long as no listener was detached and no setting was changed. *)
Theorem C32_listeners : forall (RE : Type) compile rmatch sn g (ls : nat -> @listener RE) progs w t1 u f v t2,
  reaches compile rmatch sn g ls progs w (t1 ++ EvRead u f v :: t2) ->
  match f with
  | FActive => v <= List.length (taken t1 [] []) /\
      (detached t1 = [] -> (forall l, l_detached (ls l) = false) -> v = List.length (taken t1 [] []))
  | FEnabled => v <= List.length (taken t1 [] []) /\
      (changed t1 = [] -> detached t1 = [] -> (forall l, l_detached (ls l) = false) ->
         exists t0 d, t1 = t0 ++ d /\ (forall f v', ~ In (EvRead u f v') d) /\
           v = List.length (filter (fun l => l_enabled (ls l)) (taken t0 [] [])))
  | _ => True
  end.
Proof. exact @diag_listeners. Qed.
Print Assumptions C32_listeners.

(** m_enabledListeners, whatever happens meanwhile: the listeners that were active at some moment
    [t0] of this run, in state [w0], are asked one after the other, each at a moment of its own
    between [t0] and [t1]. *)
Theorem C32_enabled : forall (RE : Type) compile rmatch sn g (ls : nat -> @listener RE) progs w t1 u v t2,
  reaches compile rmatch sn g ls progs w (t1 ++ EvRead u FEnabled v :: t2) ->
  exists t0 d w0 times, t1 = t0 ++ d /\ (forall f v', ~ In (EvRead u f v') d) /\
    reaches compile rmatch sn g ls progs w0 t0 /\ follows compile rmatch w0 w (d ++ EvRead u FEnabled v :: t2) /\
    List.length times = List.length (active (w_sys w0)) /\ moments t0 times t1 /\ v = asked compile ls (active (w_sys w0)) times.
Proof. exact @enabled_asked. Qed.
Print Assumptions C32_enabled.

(** So it can be a number of enabled listeners that never was: of two listeners one is enabled all
    the time, and none is counted. *)
Theorem C32_enabled_moment_refuted : exists progs w t1 t2, demo true false demo_listeners progs w (t1 ++ EvRead (Client 1) FEnabled 0 :: t2) /\
  taken t1 [] [] = [0; 1] /\ detached t1 = [] /\
  (forall a b, t1 = a ++ b -> List.length (filter (fun l => l_enabled (settings demo_compile l a (demo_listeners l))) [0; 1]) >= 1).
Proof.
  exists [[CAdd 0; CAdd 1; CLog hello; CEnable 0 false; CEnable 0 true; CEnable 1 false]; [CDiags]]. do 2 eexists. exists [].
  split; [exists (cl 0 6 ++ lg 3 ++ cl 0 1 ++ cl 1 6 ++ cl 0 2 ++ cl 1 2); vm_compute; match goal with |- Some (?w, ?l) = Some (?w', _) =>
    let t := eval vm_compute in (removelast l) in replace l with (t ++ [EvRead (Client 1) FEnabled 0]) by reflexivity end; reflexivity|].
  split; [reflexivity|]. split; [reflexivity|]. intros a b H.
  repeat (destruct a as [|? a]; [cbn; lia|injection H as <- H]). destruct a; [cbn; lia|discriminate].
Qed.
Print Assumptions C32_enabled_moment_refuted.

(** The two moments at which the listeners were asked: before and after the changes. *)
Example C32_enabled_witness : asked demo_compile demo_listeners [0; 1]
  [[EvSet 0 (CEnable 0 false)]; [EvSet 0 (CEnable 0 false); EvSet 0 (CEnable 0 true); EvSet 1 (CEnable 1 false)]] = 0.
Proof. reflexivity. Qed.

Example C32_witness : exists w tr, demo true false demo_listeners [[CLog hello; CLog bye; CAdd 0; CDiags]] w tr /\
  In (EvRead (Client 0) FMaxQueue 2) tr /\ In (EvRead (Client 0) FReceived 1) tr /\ In (EvRead (Client 0) FPending 1) tr.
Proof. demo_run (cl 0 8 ++ lg 3 ++ cl 0 11). cbn. tauto. Qed.

Example C32_listeners_witness : exists w tr, demo true false demo_listeners [[CAdd 0; CAdd 1; CLog hello; CDiags]] w tr /\
  In (EvRead (Client 0) FActive 2) tr /\ In (EvRead (Client 0) FEnabled 2) tr /\ In (EvRead (Client 0) FCreated 0) tr /\ In (EvRead (Client 0) FPool 63) tr /\
  detached tr = [] /\ taken tr [] [] = [0; 1] /\ l_detached (demo_listeners 0) = false.
Proof. demo_run (cl 0 6 ++ lg 3 ++ cl 0 13). split; [cbn; tauto|]. split; [cbn; tauto|]. split; [cbn; tauto|]. split; [cbn; tauto|]. repeat split; reflexivity. Qed.

(** ** C33 *)
Theorem C33_no_lost_wakeup : forall (RE : Type) compile rmatch sn g (ls : nat -> @listener RE) progs w tr,
  reaches compile rmatch sn g ls progs w tr -> logt (w_sys w) = TAsleep ->
  waiting w = [] /\ (terminated (w_sys w) = true -> exists i, at_pc w i StopNotify).
Proof. exact @no_lost_wakeup. Qed.
Print Assumptions C33_no_lost_wakeup.

Example C33_witness : exists w tr, demo true false demo_listeners [[CLog hello; CStop]] w tr /\
  logt (w_sys w) = TAsleep /\ terminated (w_sys w) = true /\ at_pc w 0 StopNotify.
Proof.
  demo_run (cl 0 4 ++ lg 7 ++ cl 0 1). split; [reflexivity|]. split; [reflexivity|]. eexists; split; reflexivity.
Qed.

(** ** C34.  [cbs]: what the callbacks do, anything but stop() and start(). *)
Theorem C34_eventually_dispatched : forall (RE : Type) compile rmatch (cbs : @world RE -> list call),
  (forall w, modest (cbs w)) ->
  forall sn g ls progs w tr m rest,
  reaches compile rmatch sn g ls progs w tr ->
  crashed (w_sys w) = None -> terminated (w_sys w) = false -> logt (w_sys w) <> TNone -> modest_now w ->
  waiting w = m :: rest ->
  exists n w' es, alone compile rmatch cbs n w = Some (w', es) /\ ended es = unended w ++ [m] /\
    held_t (logt (w_sys w')) = [] /\ prefix rest (waiting w').
Proof. exact @dispatches_first. Qed.
Print Assumptions C34_eventually_dispatched.

(** In the middle of a callback that logs. *)
Example C34_witness : exists w tr, demo true false demo_listeners [[CAdd 0; CLog hello; CLog bye]] w tr /\
  crashed (w_sys w) = None /\ terminated (w_sys w) = false /\ logt (w_sys w) <> TNone /\ modest_now w /\
  waiting w = [bye] /\ unended w = [hello].
Proof.
  demo_run (cl 0 9 ++ lg 5 ++ [GoLog [CLog bye]] ++ lg 1). repeat split; try reflexivity; try discriminate; cbn; intuition discriminate.
Qed.

(** With other threads at work, under any scheduler that is fair to the log thread: everything
    queued so far will have been dispatched at some time. *)
Theorem C34_fair : forall (RE : Type) compile rmatch ws evs sn g (ls : nat -> @listener RE) progs tr,
  execution compile rmatch ws evs -> reaches compile rmatch sn g ls progs (ws 0) tr ->
  (forall n, modest_now (ws n)) -> crashed (w_sys (ws 0)) = None ->
  (forall n, terminated (w_sys (ws n)) = false) -> logt (w_sys (ws 0)) <> TNone ->
  fair compile rmatch LogThread ws evs ->
  forall n, exists k, n <= k /\ prefix (accepted (tr ++ shown evs n)) (ended (tr ++ shown evs k)).
Proof. exact @dispatched_all. Qed.
Print Assumptions C34_fair.

(** Two threads log, and so does a callback. *)
Example C34_fair_witness : exists ws evs, execution demo_compile demo_match ws evs /\
  demo true false demo_listeners [[CAdd 0; CLog hello; CLog bye]; [CLog bye]] (ws 0) [] /\
  (forall n, modest_now (ws n)) /\ crashed (w_sys (ws 0)) = None /\ (forall n, terminated (w_sys (ws n)) = false) /\
  logt (w_sys (ws 0)) <> TNone /\ (forall t, fair demo_compile demo_match t ws evs) /\
  accepted (shown evs 20) = [hello; bye; bye] /\ ended (shown evs 20) = [] /\ ended (shown evs 70) = [hello; bye; bye; hello].
Proof.
  set (w0 := init true false demo_listeners [[CAdd 0; CLog hello; CLog bye]; [CLog bye]]).
  set (sched := cl 0 5 ++ lg 3 ++ cl 1 4 ++ lg 2 ++ [GoLog [CLog hello]] ++ cl 0 4 ++ lg 43).
  exists (play demo_compile demo_match sched w0), (plays demo_compile demo_match sched w0).
  split; [apply play_execution|]. split; [exists []; reflexivity|]. split.
  { intros n. pose proof (play_along demo_compile demo_match (fun w => match logt (w_sys w) with
      | TCall _ _ c => match c_todo c, c_pc c with
                       | [], (Idle | LogAlloc _ | LogNew _ | LogMake _ | LogCtor _ _ | LogPush _ _) => true
                       | [CLog _], Idle => true
                       | _, _ => false
                       end
      | _ => true end) sched w0 ltac:(vm_compute; reflexivity) n) as H. cbv beta in H.
    unfold modest_now. destruct (logt _); auto. destruct c as [pc k]. cbn [c_pc c_todo] in *.
    destruct k as [|[] [|]]; destruct pc; try discriminate; unfold modest; cbn; intuition discriminate. }
  split; [reflexivity|]. split.
  { intros n. apply Bool.negb_true_iff. apply (play_along demo_compile demo_match (fun w => negb (terminated (w_sys w)))). vm_compute. reflexivity. }
  split; [discriminate|]. split.
  { intros t. eapply play_fair; [vm_compute; reflexivity|]. intros ch Hc. destruct t as [i|], ch as [j|cb|]; cbn in Hc; try contradiction; [|reflexivity].
    destruct j as [|[|[|]]]; reflexivity. }
  vm_compute. auto.
Qed.

(** ** C35 *)
Theorem C35_no_callback_after_stop : forall (RE : Type) compile rmatch sn g (ls : nat -> @listener RE) progs w t1 u t2,
  reaches compile rmatch sn g ls progs w (t1 ++ EvStopped u :: t2) ->
  forall l m, ~ In (EvDeliver l m) t2.
Proof. exact @no_callback_after_stop. Qed.
Print Assumptions C35_no_callback_after_stop.

Theorem C35_stop_can_return : forall (RE : Type) compile rmatch (cbs : @world RE -> list call),
  (forall w, modest (cbs w)) ->
  forall sn g ls progs w tr i c,
  reaches compile rmatch sn g ls progs w tr -> crashed (w_sys w) = None -> modest_now w ->
  nth_error (w_clients w) i = Some c -> stopping c ->
  exists who w' es, drive compile rmatch cbs who w = Some (w', es) /\ In (EvStopped (Client i)) es.
Proof. exact @stop_can_return. Qed.
Print Assumptions C35_stop_can_return.

(** Whatever else the threads do, under any fair scheduler, all their calls return. *)
Theorem C35_all_calls_return : forall (RE : Type) compile rmatch ws evs sn g (ls : nat -> @listener RE) progs tr,
  execution compile rmatch ws evs -> reaches compile rmatch sn g ls progs (ws 0) tr ->
  (forall n, modest_now (ws n)) -> crashed (w_sys (ws 0)) = None ->
  (forall t, fair compile rmatch t ws evs) ->
  exists k, all_done (ws k).
Proof.
  intros RE compile rmatch ws evs sn g ls progs tr X R M C F.
  destruct (all_return compile rmatch ws evs sn g ls progs tr X R M C F _ 0 eq_refl) as (k & _ & D). exists k. exact D.
Qed.
Print Assumptions C35_all_calls_return.

(** Two threads stop the service, one of them starts it again, and the log thread is busy. *)
Example C35_all_witness : exists ws evs, execution demo_compile demo_match ws evs /\
  demo true false demo_listeners [[CAdd 0; CLog hello; CStop; CStart]; [CStop; CDiags]] (ws 0) [] /\
  (forall n, modest_now (ws n)) /\ crashed (w_sys (ws 0)) = None /\ (forall t, fair demo_compile demo_match t ws evs) /\
  at_pc (ws 17) 0 StopJoin /\ at_pc (ws 17) 1 StopLock /\ unended (ws 17) = [hello].
Proof.
  set (w0 := init true false demo_listeners [[CAdd 0; CLog hello; CStop; CStart]; [CStop; CDiags]]).
  set (sched := cl 0 5 ++ lg 6 ++ cl 0 3 ++ cl 1 2 ++ lg 6 ++ cl 0 1 ++ cl 1 13 ++ cl 0 2 ++ lg 1).
  exists (play demo_compile demo_match sched w0), (plays demo_compile demo_match sched w0).
  split; [apply play_execution|]. split; [exists []; reflexivity|]. split.
  { intros n. pose proof (play_along demo_compile demo_match (fun w => match logt (w_sys w) with
      | TCall _ _ (mkC Idle []) => true | TCall _ _ _ => false | _ => true end) sched w0 ltac:(vm_compute; reflexivity) n) as H. cbv beta in H.
    unfold modest_now. destruct (logt _); auto. destruct c as [pc k]. cbn [c_pc c_todo] in *.
    destruct k; destruct pc; try discriminate; unfold modest; cbn; intuition discriminate. }
  split; [reflexivity|]. split.
  { intros t. eapply play_fair; [vm_compute; reflexivity|]. intros ch Hc. destruct t as [i|], ch as [j|cb|]; cbn in Hc; try contradiction; [|reflexivity].
    destruct j as [|[|[|]]]; reflexivity. }
  split; [eexists; split; vm_compute; reflexivity|]. split; [eexists; split; vm_compute; reflexivity|]. vm_compute. reflexivity.
Qed.

(** Two threads in stop() during a callback. *)
Example C35_witness : exists w tr, demo true false demo_listeners [[CAdd 0; CLog hello; CStop]; [CStop]] w tr /\
  crashed (w_sys w) = None /\ modest_now w /\ at_pc w 0 StopJoin /\ at_pc w 1 StopLock /\ unended w = [hello].
Proof.
  demo_run (cl 0 5 ++ lg 6 ++ cl 0 3 ++ cl 1 2). split; [reflexivity|]. split; [repeat split; cbn; intuition discriminate|].
  split; [eexists; split; reflexivity|]. split; [eexists; split; reflexivity|]. reflexivity.
Qed.

Example C35_witness_2 : exists w t1 t2, demo true false demo_listeners [[CAdd 0; CLog hello; CStop; CLog bye]] w (t1 ++ EvStopped (Client 0) :: t2) /\
  delivered_to 0 t1 = [hello] /\ accepted t2 = [bye].
Proof.
  eexists.
  exists [EvAdd 0; EvLog (Client 0) hello true; EvAccept (Client 0) hello; EvPop hello; EvBegin hello; EvSend hello; EvCheck 0 hello ""; EvDeliver 0 hello; EvEnd hello; EvClean].
  exists [EvLog (Client 0) bye true; EvAccept (Client 0) bye]. split; [|split; reflexivity].
  exists (cl 0 5 ++ lg 6 ++ cl 0 3 ++ lg 6 ++ cl 0 5). vm_compute. reflexivity.
Qed.

(** ** C36.  stop() returns without serving the queue. *)

(** What holds: the message in dispatch is served to the end. *)
Theorem C36_dispatch_completes_partial : forall (RE : Type) compile rmatch sn g (ls : nat -> @listener RE) progs w t1 u t2,
  reaches compile rmatch sn g ls progs w (t1 ++ EvStopped u :: t2) -> popped t1 = ended t1.
Proof. intros. eapply stopped_halted; eauto. Qed.
Print Assumptions C36_dispatch_completes_partial.

(** What fails, always: once the flag is set and the log thread has finished the message in
    its hands, the queue stays and nobody gets anything. *)
Theorem C36_queue_dropped_refuted : forall (RE : Type) compile rmatch sn g (ls : nat -> @listener RE) progs w tr w' tr',
  reaches compile rmatch sn g ls progs w tr ->
  terminated (w_sys w) = true -> held_t (logt (w_sys w)) = [] -> follows compile rmatch w w' tr' ->
  popped tr' = [] /\ (forall l m, ~ In (EvDeliver l m) tr') /\ prefix (waiting w) (waiting w').
Proof. exact @pending_dropped. Qed.
Print Assumptions C36_queue_dropped_refuted.

(** log() and stop() in the same thread: the message is lost. *)
Theorem C36_stop_delivers_refuted : exists w tr, demo true false demo_listeners [[CAdd 0; CLog hello; CStop]] w tr /\
  In (EvStopped (Client 0)) tr /\ accepted tr = [hello] /\ wants demo_match (demo_listeners 0) hello = true /\
  delivered_to 0 tr = [] /\ waiting w = [hello].
Proof. demo_run (cl 0 8 ++ lg 1 ++ cl 0 1). cbn. tauto. Qed.
Print Assumptions C36_stop_delivers_refuted.

(** ** C37.  After stop() nothing is ever dispatched again, started or not. *)
Theorem C37_never_again_refuted : forall (RE : Type) compile rmatch sn g (ls : nat -> @listener RE) progs w t1 u t2,
  reaches compile rmatch sn g ls progs w (t1 ++ EvStopped u :: t2) ->
  popped t2 = [] /\ begun t2 = [] /\ handed t2 = [] /\ terminated (w_sys w) = true.
Proof. intros RE compile rmatch sn g ls progs w t1 u t2 H. destruct (stopped_halted _ _ _ _ _ _ _ _ _ _ H) as (_ & A & B & C & _ & D). auto. Qed.
Print Assumptions C37_never_again_refuted.

Theorem C37_restart_refuted : exists w t1 t2, demo true false demo_listeners [[CAdd 0; CStop; CStart; CLog hello]] w (t1 ++ EvStopped (Client 0) :: EvStarted (Client 0) :: t2) /\
  accepted t2 = [hello] /\ logt (w_sys w) = TExited /\ forall sched, run demo_compile demo_match sched w = Some (w, []) \/ run demo_compile demo_match sched w = None.
Proof.
  eexists. exists [EvAdd 0], [EvLog (Client 0) hello true; EvAccept (Client 0) hello]. split.
  - exists (cl 0 4 ++ lg 1 ++ cl 0 7 ++ lg 1). vm_compute. reflexivity.
  - split; [reflexivity|]. split; [reflexivity|]. intros [|ch sched]; [left; reflexivity|right].
    destruct ch as [[|i]|cb|]; cbn; auto. destruct i; reflexivity.
Qed.
Print Assumptions C37_restart_refuted.

(** ** C38 *)
Theorem C38_garbage_refuted : forall (RE : Type) compile rmatch sn (ls : nat -> @listener RE) progs w tr,
  reaches compile rmatch sn true ls progs w tr -> popped tr = [] /\ forall l m, ~ In (EvDeliver l m) tr.
Proof. exact @garbage_dead. Qed.
Print Assumptions C38_garbage_refuted.

(** With zeroed memory, and while nobody calls stop(), the log thread is there and the
    message that comes first is served (C34). *)
Theorem C38_fresh_partial : forall (RE : Type) compile rmatch (ls : nat -> @listener RE) progs sched w tr,
  run compile rmatch sched (init true false ls progs) = Some (w, tr) ->
  (forall p, In p progs -> ~ In CStop p) -> Forall no_stop_choice sched ->
  terminated (w_sys w) = false /\ logt (w_sys w) <> TNone /\ crashed (w_sys w) = None.
Proof. exact @fresh_serves. Qed.
Print Assumptions C38_fresh_partial.

Example C38_witness : exists w tr, demo true true demo_listeners [[CAdd 0; CLog hello]] w tr /\ waiting w = [hello] /\ logt (w_sys w) = TExited.
Proof. demo_run (cl 0 5 ++ lg 1). repeat split; reflexivity. Qed.

Example C38_witness_2 : exists w tr, demo true false demo_listeners [[CAdd 0; CLog hello]] w tr /\ delivered_to 0 tr = [hello].
Proof. demo_run (cl 0 5 ++ lg 6). repeat split; reflexivity. Qed.

(** ** C39 *)

(** After detach() a listener gets at most one call per registration. *)
Theorem C39_detached_partial : forall (RE : Type) compile rmatch sn g (ls : nat -> @listener RE) progs w t1 l t2,
  reaches compile rmatch sn g ls progs w (t1 ++ EvDetach l :: t2) ->
  List.length (delivered_to l t2) <= adds l (t1 ++ t2).
Proof. exact @detach_bound. Qed.
Print Assumptions C39_detached_partial.

(** ... and none once the dispatch of one message that began after detach() is over, unless it
    is added again meanwhile ... *)
Theorem C39_one_dispatch_partial : forall (RE : Type) compile rmatch sn g (ls : nat -> @listener RE) progs w t1 l t2 m t3 t4,
  reaches compile rmatch sn g ls progs w (t1 ++ EvDetach l :: t2 ++ EvBegin m :: t3 ++ EvClean :: t4) ->
  ~ In (EvAdd l) (t3 ++ t4) -> delivered_to l t4 = [].
Proof. exact @detached_quiet. Qed.
Print Assumptions C39_one_dispatch_partial.

Example C39_witness : exists w t1 t2 t3 t4, demo true false demo_listeners [[CAdd 0; CLog hello; CDetach 0; CLog bye; CLog hello]] w
    (t1 ++ EvDetach 0 :: t2 ++ EvBegin bye :: t3 ++ EvClean :: t4) /\ delivered_to 0 t1 = [hello] /\ ended t4 = [hello].
Proof.
  eexists. exists [EvAdd 0; EvLog (Client 0) hello true; EvAccept (Client 0) hello; EvPop hello; EvBegin hello; EvSend hello; EvCheck 0 hello ""; EvDeliver 0 hello; EvEnd hello; EvClean; EvSet 0 (CDetach 0)].
  exists [EvLog (Client 0) bye true; EvAccept (Client 0) bye; EvLog (Client 0) hello true; EvAccept (Client 0) hello; EvPop bye].
  exists [EvSend bye; EvCheck 0 bye ""; EvDeliver 0 bye; EvEnd bye]. exists [EvPop hello; EvBegin hello; EvSend hello; EvEnd hello; EvClean].
  split; [|split; reflexivity]. exists (cl 0 5 ++ lg 11 ++ cl 0 9 ++ lg 17). vm_compute. reflexivity.
Qed.

(** Detached during the clean-up, 0 after it was asked, 3 before: 0 gets the next message. *)
Example C39_cleanup_witness : exists w t1 t2, demo true false demo_listeners [[CAdd 0; CAdd 3; CLog hello; CDetach 0; CDetach 3; CLog bye]] w
    (t1 ++ EvDetach 3 :: EvClean :: t2) /\ In (EvDetach 0) t1 /\ In (EvEnd hello) t1 /\ ended t2 = [bye] /\ delivered_to 0 t2 = [bye] /\ delivered_to 3 t2 = [].
Proof.
  eexists.
  exists [EvAdd 0; EvAdd 3; EvLog (Client 0) hello true; EvAccept (Client 0) hello; EvPop hello; EvBegin hello; EvSend hello;
     EvCheck 0 hello ""; EvDeliver 0 hello; EvCheck 3 hello ""; EvDeliver 3 hello; EvEnd hello; EvSet 0 (CDetach 0); EvDetach 0; EvSet 3 (CDetach 3)].
  exists [EvLog (Client 0) bye true; EvAccept (Client 0) bye; EvPop bye; EvBegin bye; EvSend bye; EvCheck 0 bye ""; EvDeliver 0 bye; EvEnd bye].
  split; [exists (cl 0 6 ++ lg 13 ++ cl 0 2 ++ lg 3 ++ cl 0 4 ++ lg 8); vm_compute; reflexivity|].
  repeat split; try reflexivity; cbn; tauto.
Qed.

(** ... but it can get one, about a message logged after detach() returned. *)
Theorem C39_detached_refuted : exists w t1 t2, demo true false demo_listeners [[CAdd 0; CLog hello; CDetach 0; CLog bye; CLog hello]] w (t1 ++ EvDetach 0 :: t2) /\
  accepted t1 = [hello] /\ ended t1 = [hello] /\ accepted t2 = [bye; hello] /\ ended t2 = [bye; hello] /\ delivered_to 0 t2 = [bye].
Proof.
  eexists.
  exists [EvAdd 0; EvLog (Client 0) hello true; EvAccept (Client 0) hello; EvPop hello; EvBegin hello; EvSend hello; EvCheck 0 hello ""; EvDeliver 0 hello; EvEnd hello; EvClean; EvSet 0 (CDetach 0)].
  exists [EvLog (Client 0) bye true; EvAccept (Client 0) bye; EvLog (Client 0) hello true; EvAccept (Client 0) hello;
     EvPop bye; EvBegin bye; EvSend bye; EvCheck 0 bye ""; EvDeliver 0 bye; EvEnd bye; EvClean; EvPop hello; EvBegin hello; EvSend hello; EvEnd hello; EvClean].
  split; [|repeat split; reflexivity].
  exists (cl 0 5 ++ lg 11 ++ cl 0 9 ++ lg 17). vm_compute. reflexivity.
Qed.
Print Assumptions C39_detached_refuted.

(** ** C40 *)

(** category(re) on an invalid expression: an exception, and nothing has changed. *)
Theorem C40_invalid_changes_nothing : forall (RE : Type) (compile : string -> option RE) t l re k s,
  compile re = None ->
  cstep compile t (mkC Idle (CCategory l re :: k)) s = Some (mkC Idle k, s, [EvThrown t]).
Proof. intros RE compile t l re k s H. cbn. unfold set_category. rewrite H. reflexivity. Qed.
Print Assumptions C40_invalid_changes_nothing.

(** A valid one is in force afterwards, for that listener and that setting only. *)
Theorem C40_valid_replaces : forall (RE : Type) (compile : string -> option RE) (rmatch : string -> RE -> bool) t l re r k s,
  compile re = Some r ->
  exists s', cstep compile t (mkC Idle (CCategory l re :: k)) s = Some (mkC Idle k, s', [EvSet l (CCategory l re)]) /\
    (forall cat, checkCategory rmatch (lst s' l) cat = (String.eqb cat "" || String.eqb re "" || rmatch cat r)) /\
    (l_level (lst s' l) = l_level (lst s l) /\ l_enabled (lst s' l) = l_enabled (lst s l) /\ l_detached (lst s' l) = l_detached (lst s l)) /\
    (forall l', l' <> l -> lst s' l' = lst s l').
Proof.
  intros RE compile rmatch t l re r k s H. eexists. split; [cbn; unfold set_category; rewrite H; reflexivity|].
  cbn. unfold upd_lst. rewrite Nat.eqb_refl. split; [|split; [auto|]].
  - intros cat. unfold checkCategory. cbn. destruct (String.eqb cat ""); auto.
  - intros l' N. destruct (Nat.eqb_spec l' l); congruence.
Qed.
Print Assumptions C40_valid_replaces.

(** The empty filter accepts every category, and only a filter can refuse one. *)
Theorem C40_empty_accepts_all : forall (RE : Type) (rmatch : string -> RE -> bool) (L : @listener RE) cat,
  l_category L = ""%string -> checkCategory rmatch L cat = true.
Proof. intros RE rmatch L cat H. unfold checkCategory. rewrite H. destruct (String.eqb cat ""); reflexivity. Qed.
Print Assumptions C40_empty_accepts_all.

(** At any moment of any execution: filters that were not valid have not been set, and the last one
    that was set decides. *)
Theorem C40_in_force : forall (RE : Type) compile rmatch sn g (ls : nat -> @listener RE) progs w tr l,
  reaches compile rmatch sn g ls progs w tr ->
  (forall l0 l' re, In (EvSet l0 (CCategory l' re)) tr -> compile re <> None) /\
  forall cat, checkCategory rmatch (lst (w_sys w) l) cat =
    match last_filter l tr None with
    | None => checkCategory rmatch (ls l) cat
    | Some re => match compile re with
                 | Some r => String.eqb cat "" || String.eqb re "" || rmatch cat r
                 | None => false
                 end
    end.
Proof. exact @category_in_force. Qed.
Print Assumptions C40_in_force.

Example C40_witness : exists w tr, demo true false demo_listeners [[CCategory 1 "gui"; CCategory 1 "["; CAdd 1; CLog hello; CLog (mkMsg "c" 1 INFO "gui" "x")]] w tr /\
  In (EvThrown (Client 0)) tr /\ delivered_to 1 tr = [mkMsg "c" 1 INFO "gui" "x"] /\ unended w = [] /\ last_filter 1 tr None = Some "gui"%string.
Proof. demo_run (cl 0 11 ++ lg 22). cbn. tauto. Qed.

(** ** C41.  Each message accepted, except those passed as objects, is constructed on top of a
    live one, whose strings are never destroyed: the leak grows with every message. *)
Theorem C41_leak_refuted : forall (RE : Type) compile rmatch sn g (ls : nat -> @listener RE) progs w tr,
  reaches compile rmatch sn g ls progs w tr ->
  List.length (places w) + List.length (accepted tr) <= built (w_sys w) - torn (w_sys w) + List.length (passes tr).
Proof. exact @leaks. Qed.
Print Assumptions C41_leak_refuted.

(** Messages passed as objects do not leak: as long as only such were accepted, every set of
    strings built was destroyed or belongs to a message object that lives. *)
Theorem C41_passed_partial : forall (RE : Type) compile rmatch sn g (ls : nat -> @listener RE) progs w tr,
  reaches compile rmatch sn g ls progs w tr -> (forall t m, ~ In (EvLog t m true) tr) ->
  built (w_sys w) = torn (w_sys w) + List.length (places w).
Proof. exact @passed_no_leak. Qed.
Print Assumptions C41_passed_partial.

Example C41_passed_witness : exists w tr, demo true false demo_listeners [[CAdd 0; CPass hello; CPass bye]] w tr /\
  (forall t m, ~ In (EvLog t m true) tr) /\ delivered_to 0 tr = [hello; bye] /\ torn (w_sys w) = 2 /\ built (w_sys w) = 66.
Proof. demo_run (cl 0 5 ++ lg 26). split; [|repeat split; reflexivity]. intros t m X. cbn in X. repeat destruct X as [X|X]; try discriminate; auto. Qed.

Example C41_witness : exists w tr, demo true false demo_listeners [[CLog hello; CLog hello]] w tr /\
  List.length (places w) = 64 /\ built (w_sys w) - torn (w_sys w) = 66 /\ quiescent w.
Proof. demo_run (cl 0 8 ++ lg 12). repeat split; reflexivity. Qed.

(** ** C42 *)

(** A callback can always go on, unless it is in stop() or start() while another thread is
    in stop(): log(), addListener() and the rest never block it. *)
Theorem C42_callback_goes_on : forall (RE : Type) compile rmatch sn g (ls : nat -> @listener RE) progs w tr o rest c cb,
  reaches compile rmatch sn g ls progs w tr -> crashed (w_sys w) = None ->
  logt (w_sys w) = TCall o rest c -> step compile rmatch (GoLog cb) w = None ->
  (c_pc c = StopLock \/ c_pc c = StartLock) /\ exists i, mtx (w_sys w) = Some (Client i).
Proof. exact @callback_enabled. Qed.
Print Assumptions C42_callback_goes_on.

(** A callback that calls stop() never comes back, and no listener is called any more. *)
Theorem C42_stop_in_callback_refuted : forall (RE : Type) compile rmatch (w : @world RE) o rest k,
  in_stop w o rest k -> forall w' tr, follows compile rmatch w w' tr ->
  in_stop w' o rest k /\ forall l m, ~ In (EvDeliver l m) tr.
Proof. exact @stop_in_callback. Qed.
Print Assumptions C42_stop_in_callback_refuted.

(** It ends the program, ... *)
Theorem C42_stop_terminates_refuted : exists w tr, demo true false demo_listeners [[CAdd 0; CLog hello]] w tr /\
  crashed (w_sys w) = Some Terminate.
Proof. demo_run (cl 0 5 ++ lg 5 ++ [GoLog [CStop]] ++ lg 4). reflexivity. Qed.
Print Assumptions C42_stop_terminates_refuted.

(** ... or waits for a thread that waits for it. *)
Theorem C42_stop_deadlock_refuted : exists w tr, demo true false demo_listeners [[CAdd 0; CLog hello; CStop]] w tr /\
  at_pc w 0 StopJoin /\ unended w = [hello] /\ crashed (w_sys w) = None /\ forall ch, step demo_compile demo_match ch w = None.
Proof.
  demo_run (cl 0 5 ++ lg 5 ++ [GoLog [CStop]] ++ cl 0 3 ++ lg 2). split; [eexists; split; reflexivity|].
  split; [reflexivity|]. split; [reflexivity|]. intros [[|i]|cb|]; cbn; auto. destruct i; reflexivity.
Qed.
Print Assumptions C42_stop_deadlock_refuted.

(** A callback that logs, adds a listener and asks for the diagnostics. *)
Example C42_witness : exists w tr, demo true false demo_listeners [[CAdd 0; CLog hello]] w tr /\
  begun tr = [hello; bye] /\ delivered_to 0 tr = [hello; bye] /\ delivered_to 3 tr = [bye] /\ unended w = [].
Proof. demo_run (cl 0 5 ++ lg 5 ++ [GoLog [CLog bye; CAdd 3; CDiags]] ++ lg 37). repeat split; reflexivity. Qed.

(** ** C43 *)

(** The table of accesses contains all the writes the model makes. *)
Theorem C43_table_complete : forall (RE : Type) compile rmatch ch (w : @world RE) w' es x,
  step compile rmatch ch w = Some (w', es) ->
  same_at x (w_sys w) (w_sys w') \/ writes x (accesses_of w (mover ch)).
Proof. exact @step_writes. Qed.
Print Assumptions C43_table_complete.

(** The only data races are those of getDiags on the active listeners and on the number of
    messages received. *)
Theorem C43_only_two_races_partial : forall (RE : Type) compile rmatch sn g (ls : nat -> @listener RE) progs w tr t1 t2 x,
  reaches compile rmatch sn g ls progs w tr -> race w t1 t2 x ->
  (x = LActive \/ x = LReceived) /\
  exists i, in_diags w i /\ ((t1 = Client i /\ t2 = LogThread) \/ (t1 = LogThread /\ t2 = Client i)).
Proof. exact @races_only. Qed.
Print Assumptions C43_only_two_races_partial.

(** A program whose threads do not call getDiags has none, whatever the callbacks do. *)
Theorem C43_without_diags : forall (RE : Type) compile rmatch sn g (ls : nat -> @listener RE) progs w tr t1 t2 x,
  (forall p, In p progs -> ~ In CDiags p) -> reaches compile rmatch sn g ls progs w tr -> ~ race w t1 t2 x.
Proof. exact @no_diags_no_race. Qed.
Print Assumptions C43_without_diags.

(** The log thread is about to call a listener whose callback calls getDiags, a client adds a listener. *)
Example C43_without_diags_witness : exists w tr, demo true false demo_listeners [[CAdd 0; CLog hello; CAdd 1]] w tr /\
  (forall p, In p [[CAdd 0; CLog hello; CAdd 1]] -> ~ In CDiags p) /\ In (EvRead LogThread FActive 1) tr /\ pending (w_sys w) = [1].
Proof.
  demo_run (cl 0 5 ++ lg 5 ++ [GoLog [CDiags]] ++ lg 5 ++ cl 0 1). split; [|split; [cbn; tauto|reflexivity]].
  intros p [<-|[]]. cbn. intuition discriminate.
Qed.

(** And they occur. *)
Theorem C43_diags_race_refuted : exists w tr, demo true false demo_listeners [[CAdd 0; CLog hello; CDiags]] w tr /\
  race w (Client 0) LogThread LActive.
Proof.
  demo_run (cl 0 8 ++ lg 1). eapply race_active; [eexists; split; reflexivity|left; reflexivity|left; reflexivity].
Qed.
Print Assumptions C43_diags_race_refuted.

(** In the middle of counting the enabled listeners: one was asked, another is to be asked. *)
Theorem C43_count_race_refuted : exists w tr, demo true false demo_listeners [[CAdd 0; CAdd 1; CLog hello; CLog bye]; [CDiags]] w tr /\
  (exists fs, at_pc w 1 (DiagCount 1 [1] fs)) /\ race w (Client 1) LogThread LActive.
Proof.
  demo_run (cl 0 6 ++ lg 5 ++ cl 1 6 ++ cl 0 4 ++ lg 12). split; [do 2 eexists; split; reflexivity|].
  eapply race_counting; [eexists; split; reflexivity|left; reflexivity].
Qed.
Print Assumptions C43_count_race_refuted.

(** Between two steps of the loop the log thread can remove the listener that is to be asked next. *)
Theorem C43_stale_refuted : exists w tr, demo true false demo_listeners [[CAdd 0; CLog hello; CDetach 0; CLog bye]; [CDiags]] w tr /\
  (exists fs, at_pc w 1 (DiagCount 0 [0] fs)) /\ In (EvRead (Client 1) FActive 1) tr /\ active (w_sys w) = [].
Proof.
  demo_run (cl 0 5 ++ lg 10 ++ cl 1 5 ++ cl 0 5 ++ lg 11). split; [do 2 eexists; split; reflexivity|]. split; [cbn; tauto|reflexivity].
Qed.
Print Assumptions C43_stale_refuted.

Theorem C43_received_race_refuted : exists w tr, demo true false demo_listeners [[CAdd 0; CLog hello; CDiags]] w tr /\
  race w (Client 0) LogThread LReceived.
Proof.
  demo_run (cl 0 11 ++ lg 2). eapply race_received; [eexists; split; reflexivity|reflexivity].
Qed.
Print Assumptions C43_received_race_refuted.

(** ** C44 *)
Theorem C44_four_characters : forall z, String.length (levelToString z) = 4.
Proof.
  intros z. unfold levelToString.
  repeat match goal with |- context [if ?b then _ else _] => destruct b end; reflexivity.
Qed.
Print Assumptions C44_four_characters.

(** Different levels have different names, and only other values show "????". *)
Theorem C44_distinct : forall a b, (0 <= a <= 5)%Z -> levelToString a = levelToString b -> a = b.
Proof.
  intros a b Ha H. unfold levelToString, CRITICAL, ERROR, WARN, INFO, DEBUG, TRACE in H.
  repeat match goal with H : context [(?x =? ?y)%Z] |- _ => destruct (Z.eqb_spec x y) end; try discriminate; lia.
Qed.
Print Assumptions C44_distinct.

(** The names, in the order of the levels (logsystem.h L48-55), and one mark for every
    other value. *)
Theorem C44_names : forall n,
  levelToString (Z.of_nat n) = nth n ["CRIT"; "ERR "; "WARN"; "INFO"; "DBG "; "TRC "]%string "????"%string /\
  levelToString (- Z.of_nat (S n)) = "????"%string.
Proof.
  intros n. split.
  - do 6 (destruct n as [|n]; [reflexivity|]).
    unfold levelToString, CRITICAL, ERROR, WARN, INFO, DEBUG, TRACE.
    rewrite nth_overflow by (cbn [length]; lia).
    repeat match goal with |- context [(?x =? ?y)%Z] => destruct (Z.eqb_spec x y); [lia|] end. reflexivity.
  - unfold levelToString, CRITICAL, ERROR, WARN, INFO, DEBUG, TRACE.
    repeat match goal with |- context [(?x =? ?y)%Z] => destruct (Z.eqb_spec x y); [lia|] end. reflexivity.
Qed.
Print Assumptions C44_names.

Example C44_witness : map levelToString [0; 1; 2; 3; 4; 5; 6]%Z = ["CRIT"; "ERR "; "WARN"; "INFO"; "DBG "; "TRC "; "????"]%string.
Proof. reflexivity. Qed.

(** ** C100 *)

(** What thread [i] has done is an initial part of its program, and the record contains, in that
    order, the effect of each call that has returned.  A call can be in progress ([now]). *)
Theorem C100_calls_take_effect : forall (RE : Type) compile rmatch sn g (ls : nat -> @listener RE) progs w tr i p c,
  reaches compile rmatch sn g ls progs w tr ->
  nth_error progs i = Some p -> nth_error (w_clients w) i = Some c ->
  exists done now ess, p = done ++ now ++ c_todo c /\ List.length now <= 1 /\ (c_pc c = Idle -> now = []) /\
    Forall2 (effect compile (Client i)) done ess /\ sub (concat ess) tr.
Proof. exact @calls_effective. Qed.
Print Assumptions C100_calls_take_effect.

Example C100_witness : exists w tr c, demo true false demo_listeners
    [[CAdd 0; CLevel ERROR; CLog hello; CDiags; CCategory 0 "["; CStop]; [CEnable 0 false; CPass bye; CStart]] w tr /\
  nth_error (w_clients w) 0 = Some c /\ c = mkC (Diag [FPending]) [CCategory 0 "["; CStop]%string /\ List.length tr = 14.
Proof. eexists. eexists. eexists. split; [exists (cl 0 2 ++ cl 1 2 ++ cl 0 2 ++ cl 1 1 ++ cl 0 8 ++ cl 1 2); vm_compute; reflexivity|]. repeat split. Qed.
