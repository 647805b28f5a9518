(** * LogSystem with the statements of its critical sections one by one: property C125.

    [freaches compile rmatch sn g ls progs fw tr]: as [reaches] of LogProps.v, but every mutex
    is locked and unlocked in steps of their own, and each statement between is a step.
    [f_world fw] is the state in terms of LogModel.v, [f_held fw k] the holder of mutex [k]. *)

From Coq Require Import ZArith String Bool List Arith Lia.
From Verif Require Import Base LogModel LogSpec LogAccess LogProps LogLockModel LogLockSpec LogLock LogLockRun LogFair LogLockFair.
Import ListNotations.
Open Scope string_scope.
Open Scope list_scope.

Notation fdemo := (freaches demo_compile demo_match).

(** A mutex is held by the thread that is in one of its sections, and by no other. *)
Theorem C125_mutex : forall (RE : Type) compile rmatch sn g (ls : nat -> @listener RE) progs fw tr k,
  freaches compile rmatch sn g ls progs fw tr ->
  (forall t, f_held fw k = Some t <-> inside fw t k) /\
  (forall t1 t2, inside fw t1 k -> inside fw t2 k -> t1 = t2).
Proof. intros RE compile rmatch sn g ls progs fw tr k H. split; intros; [eapply mutex|eapply exclusive]; eauto. Qed.
Print Assumptions C125_mutex.

(** The client is about to count its message, the log thread waits for the mutex. *)
Example C125_mutex_witness : exists fw tr, fdemo true false demo_listeners [[CLog hello]] fw tr /\
  inside fw (Client 0) MMessage /\ fstep demo_compile demo_match (GoLog []) fw = None /\ accepted tr = [hello].
Proof.
  eexists. eexists. split; [exists (cl 0 8); vm_compute; reflexivity|]. split; [eexists; reflexivity|]. split; reflexivity.
Qed.

(** The sequences of events are the same as if each section were one step: what C28 to C39
    and others say of the events holds for the statements one by one. *)
Theorem C125_same_traces : forall (RE : Type) compile rmatch sn g (ls : nat -> @listener RE) progs tr,
  (exists fw, freaches compile rmatch sn g ls progs fw tr) <-> (exists w, reaches compile rmatch sn g ls progs w tr).
Proof. exact @traces. Qed.
Print Assumptions C125_same_traces.

(** And so are the states in which nobody is in a section. *)
Theorem C125_same_states : forall (RE : Type) compile rmatch sn g (ls : nat -> @listener RE) progs w tr,
  reaches compile rmatch sn g ls progs w tr <->
  exists fw, freaches compile rmatch sn g ls progs fw tr /\ f_world fw = w /\ quiet fw /\ defined fw.
Proof. exact @states. Qed.
Print Assumptions C125_same_states.

(** Two clients and the log thread, interleaved within the sections. *)
Example C125_traces_witness : exists fw tr, fdemo true false demo_listeners [[CAdd 0; CLog hello]; [CLog bye]] fw tr /\
  accepted tr = [hello; bye] /\ begun tr = [hello; bye] /\ quiet fw /\ received (w_sys (f_world fw)) = 2.
Proof.
  eexists. eexists. split; [exists (cl 1 2 ++ cl 0 2 ++ cl 1 1 ++ cl 0 2 ++ cl 1 3 ++ cl 0 11 ++ lg 6 ++ cl 1 1 ++ lg 2 ++ cl 1 4 ++ lg 39); vm_compute; reflexivity|].
  split; [reflexivity|]. split; [reflexivity|]. split; [|reflexivity].
  intros t k (q & H). destruct t as [[|[|i]]|]; discriminate H.
Qed.

(** Behaviour is undefined only when getDiags() looks at the active listeners while the log
    thread appends to them. *)
Theorem C125_defined_partial : forall (RE : Type) compile rmatch sn g (ls : nat -> @listener RE) progs fw tr,
  freaches compile rmatch sn g ls progs fw tr -> ~ defined fw -> (exists i, looking fw i) /\ appending fw.
Proof. exact @undefined_only. Qed.
Print Assumptions C125_defined_partial.

(** A program whose threads do not call getDiags() has no undefined behaviour, whatever the callbacks do. *)
Theorem C125_without_diags : forall (RE : Type) compile rmatch sn g (ls : nat -> @listener RE) progs fw tr,
  (forall p, In p progs -> ~ In CDiags p) -> freaches compile rmatch sn g ls progs fw tr -> defined fw.
Proof. exact @no_diags_defined. Qed.
Print Assumptions C125_without_diags.

(** The log thread holds the mutex and is about to append the second listener. *)
Example C125_without_diags_witness : exists fw tr, fdemo true false demo_listeners [[CAdd 0; CAdd 1; CLog hello]] fw tr /\
  (forall p, In p [[CAdd 0; CAdd 1; CLog hello]] -> ~ In CDiags p) /\ inside fw LogThread MListeners /\
  active (w_sys (f_world fw)) = [0] /\ pending (w_sys (f_world fw)) = [0; 1].
Proof.
  eexists. eexists. split; [exists (cl 0 18 ++ lg 8); vm_compute; reflexivity|].
  split; [intros p [<-|[]]; cbn; intuition discriminate|]. split; [eexists; reflexivity|]. split; reflexivity.
Qed.

(** And it is. *)
Theorem C125_defined_refuted : exists fw tr, fdemo true false demo_listeners [[CAdd 0; CLog hello; CDiags]] fw tr /\ ~ defined fw.
Proof.
  eexists. eexists. split; [exists (cl 0 18 ++ lg 7 ++ cl 0 1); vm_compute; reflexivity|]. intros D. apply D. reflexivity.
Qed.
Print Assumptions C125_defined_refuted.

(** No wake-up is lost between the statements. *)
Theorem C125_no_lost_wakeup : forall (RE : Type) compile rmatch sn g (ls : nat -> @listener RE) progs fw tr,
  freaches compile rmatch sn g ls progs fw tr -> defined fw -> logt (w_sys (f_world fw)) = TAsleep ->
  (queue (w_sys (f_world fw)) <> [] -> will_notify fw) /\
  (terminated (w_sys (f_world fw)) = true -> will_notify fw \/ exists i, at_pc (f_world fw) i StopNotify).
Proof. exact @no_lost_wakeup_fine. Qed.
Print Assumptions C125_no_lost_wakeup.

Example C125_no_lost_wakeup_witness : exists fw tr, fdemo true false demo_listeners [[CLog hello]] fw tr /\
  logt (w_sys (f_world fw)) = TAsleep /\ queue (w_sys (f_world fw)) <> [] /\ will_notify fw.
Proof.
  eexists. eexists. split; [exists (lg 2 ++ cl 0 8); vm_compute; reflexivity|]. split; [reflexivity|]. split; [discriminate|].
  exists (Client 0). eexists. split; [reflexivity|auto].
Qed.

(** Whoever holds a mutex releases it by moves of its own: no thread ever waits for a mutex
    while it holds another. *)
Theorem C125_released : forall (RE : Type) compile rmatch sn g (ls : nat -> @listener RE) progs fw tr t k,
  freaches compile rmatch sn g ls progs fw tr -> inside fw t k -> crashed (w_sys (f_world fw)) = None ->
  exists n fw' es, frun compile rmatch (repeat (own_move t) n) fw = Some (fw', es) /\
    f_held fw' k = None /\ f_sect fw' t = None.
Proof. exact @released. Qed.
Print Assumptions C125_released.

(** The log thread in the middle of taking over two listeners. *)
Example C125_released_witness : exists fw tr, fdemo true false demo_listeners [[CAdd 0; CAdd 1; CLog hello]] fw tr /\
  inside fw LogThread MListeners /\ crashed (w_sys (f_world fw)) = None /\ active (w_sys (f_world fw)) = [0] /\ pending (w_sys (f_world fw)) = [0; 1].
Proof.
  eexists. eexists. split; [exists (cl 0 18 ++ lg 8); vm_compute; reflexivity|]. split; [eexists; reflexivity|]. repeat split; reflexivity.
Qed.

(** Under any scheduler that is fair to all threads, with the mutexes fair as well, everything
    queued so far will have been dispatched at some time: C34 for the statements one by one. *)
Theorem C125_dispatched : forall (RE : Type) compile rmatch fs evs sn g (ls : nat -> @listener RE) progs tr,
  fexecution compile rmatch fs evs -> freaches compile rmatch sn g ls progs (fs 0) tr ->
  (forall n, modest_now (f_world (fs n))) -> crashed (w_sys (f_world (fs 0))) = None -> (forall n, defined (fs n)) ->
  (forall t, ffair compile rmatch t fs evs) ->
  (forall n, terminated (w_sys (f_world (fs n))) = false) -> logt (w_sys (f_world (fs 0))) <> TNone ->
  forall n, exists k, n <= k /\ prefix (accepted (tr ++ shown evs n)) (ended (tr ++ shown evs k)).
Proof. exact @fine_dispatched. Qed.
Print Assumptions C125_dispatched.

(** And all calls of all clients return, having released their mutexes: C35. *)
Theorem C125_all_calls_return : forall (RE : Type) compile rmatch fs evs sn g (ls : nat -> @listener RE) progs tr,
  fexecution compile rmatch fs evs -> freaches compile rmatch sn g ls progs (fs 0) tr ->
  (forall n, modest_now (f_world (fs n))) -> crashed (w_sys (f_world (fs 0))) = None -> (forall n, defined (fs n)) ->
  (forall t, ffair compile rmatch t fs evs) ->
  exists k, all_done (f_world (fs k)) /\ forall i m, ~ inside (fs k) (Client i) m.
Proof.
  intros RE compile rmatch fs evs sn g ls progs tr X R M C D F.
  destruct (fine_returned compile rmatch fs evs sn g ls progs tr X R M C D F) as (k & A & B). exists k. split; auto.
  intros i m (q & E). rewrite B in E. discriminate.
Qed.
Print Assumptions C125_all_calls_return.

Definition fdemo_quiet_call (fw : @fworld string) : bool :=
  match logt (w_sys (f_world fw)) with TCall _ _ (mkC Idle []) => true | TCall _ _ _ => false | _ => true end.
Lemma fdemo_modest : forall fw, fdemo_quiet_call fw = true -> modest_now (f_world fw).
Proof.
  intros fw H. unfold fdemo_quiet_call, modest_now in *. destruct (logt (w_sys (f_world fw))); auto. destruct c as [pc k]. cbn [c_pc c_todo] in *.
  destruct k; destruct pc; try discriminate; unfold modest; cbn; intuition discriminate.
Qed.

(** Two clients, interleaved within the sections. *)
Example C125_dispatched_witness : exists fs evs, fexecution demo_compile demo_match fs evs /\
  fdemo true false demo_listeners [[CAdd 0; CLog hello]; [CLog bye]] (fs 0) [] /\
  (forall n, modest_now (f_world (fs n))) /\ crashed (w_sys (f_world (fs 0))) = None /\ (forall n, defined (fs n)) /\
  (forall t, ffair demo_compile demo_match t fs evs) /\
  (forall n, terminated (w_sys (f_world (fs n))) = false) /\ logt (w_sys (f_world (fs 0))) <> TNone /\
  inside (fs 29) LogThread MListeners /\ accepted (shown evs 40) = [hello; bye] /\ ended (shown evs 40) = [] /\ ended (shown evs 75) = [hello; bye].
Proof.
  set (w0 := finit (init true false demo_listeners [[CAdd 0; CLog hello]; [CLog bye]])).
  set (sched := cl 1 2 ++ cl 0 2 ++ cl 1 1 ++ cl 0 2 ++ cl 1 3 ++ cl 0 11 ++ lg 6 ++ cl 1 1 ++ lg 2 ++ cl 1 4 ++ lg 39).
  exists (fplay demo_compile demo_match sched w0), (fplays demo_compile demo_match sched w0).
  split; [apply fplay_execution|]. split; [exists []; reflexivity|]. split.
  { intros n. apply fdemo_modest. apply fplay_along. vm_compute. reflexivity. }
  split; [reflexivity|]. split.
  { intros n E. pose proof (fplay_along demo_compile demo_match (fun fw => match crashed (w_sys (f_world fw)) with None => true | _ => false end) sched w0 ltac:(vm_compute; reflexivity) n) as H.
    cbv beta in H. rewrite E in H. discriminate. }
  split.
  { intros t. eapply fplay_fair; [vm_compute; reflexivity|]. intros ch Hc. destruct t as [i|], ch as [j|cb|]; cbn in Hc; try contradiction; [|reflexivity].
    destruct j as [|[|[|]]]; reflexivity. }
  split.
  { intros n. apply Bool.negb_true_iff. apply (fplay_along demo_compile demo_match (fun w => negb (terminated (w_sys (f_world w))))). vm_compute. reflexivity. }
  split; [discriminate|]. split; [eexists; vm_compute; reflexivity|]. vm_compute. auto.
Qed.

(** The two clients also stop the service while the log thread is busy. *)
Example C125_all_witness : exists fs evs, fexecution demo_compile demo_match fs evs /\
  fdemo true false demo_listeners [[CAdd 0; CLog hello; CStop]; [CLog bye; CStop]] (fs 0) [] /\
  (forall n, modest_now (f_world (fs n))) /\ crashed (w_sys (f_world (fs 0))) = None /\ (forall n, defined (fs n)) /\
  (forall t, ffair demo_compile demo_match t fs evs) /\
  at_pc (f_world (fs 48)) 0 StopJoin /\ at_pc (f_world (fs 48)) 1 StopLock /\ unended (f_world (fs 48)) = [hello].
Proof.
  set (w0 := finit (init true false demo_listeners [[CAdd 0; CLog hello; CStop]; [CLog bye; CStop]])).
  set (sched := cl 1 2 ++ cl 0 2 ++ cl 1 1 ++ cl 0 2 ++ cl 1 3 ++ cl 0 11 ++ lg 6 ++ cl 1 1 ++ lg 2 ++ cl 1 4 ++ lg 5 ++ cl 0 5 ++ cl 1 4 ++ lg 13 ++ cl 0 1 ++ cl 1 1).
  exists (fplay demo_compile demo_match sched w0), (fplays demo_compile demo_match sched w0).
  split; [apply fplay_execution|]. split; [exists []; reflexivity|]. split.
  { intros n. apply fdemo_modest. apply fplay_along. vm_compute. reflexivity. }
  split; [reflexivity|]. split.
  { intros n E. pose proof (fplay_along demo_compile demo_match (fun fw => match crashed (w_sys (f_world fw)) with None => true | _ => false end) sched w0 ltac:(vm_compute; reflexivity) n) as H.
    cbv beta in H. rewrite E in H. discriminate. }
  split.
  { intros t. eapply fplay_fair; [vm_compute; reflexivity|]. intros ch Hc. destruct t as [i|], ch as [j|cb|]; cbn in Hc; try contradiction; [|reflexivity].
    destruct j as [|[|[|]]]; reflexivity. }
  split; [eexists; split; vm_compute; reflexivity|]. split; [eexists; split; vm_compute; reflexivity|]. vm_compute. reflexivity.
Qed.
