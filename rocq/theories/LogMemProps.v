(** * LogSystem when memory runs out: property C107.

    [mreaches compile rmatch sn g ls progs w tr]: as [reaches] of LogProps.v, with any number of
    failing allocations at any moments (LogMemModel.v).  [plain tr] are the ordinary events. *)

From Coq Require Import ZArith String Bool List Arith Lia.
From Verif Require Import Base LogModel LogSpec LogEndModel LogMemModel LogMemSpec LogMem LogProps.
Import ListNotations.
Open Scope string_scope.
Open Scope list_scope.

(** A call in which memory runs out, unless it ends the program (below): std::bad_alloc reaches
    the caller, that can go on; nothing was queued, added or started, no lock is left held and
    nobody else notices. *)
Theorem C107_throw_partial : forall (RE : Type) compile rmatch (w : @world RE) i w' es,
  mstep compile rmatch (Fails i) w = Some (w', es) -> crashed (w_sys w') = None ->
  (exists k o, es = [Threw i k o]) /\ at_pc w' i Idle /\
  (forall j, j <> i -> nth_error (w_clients w') j = nth_error (w_clients w) j) /\
  queue (w_sys w') = queue (w_sys w) /\ pending (w_sys w') = pending (w_sys w) /\ active (w_sys w') = active (w_sys w) /\
  lst (w_sys w') = lst (w_sys w) /\ logt (w_sys w') = logt (w_sys w) /\ mtx (w_sys w') = mtx (w_sys w) /\
  pool (w_sys w') = pool (w_sys w) /\ terminated (w_sys w') = terminated (w_sys w).
Proof. exact @mem_throw. Qed.
Print Assumptions C107_throw_partial.

(** The messages that a client passed to log(), in program order; each of those that passed the level
    test was queued or its call threw, but for the call in progress. *)
Theorem C107_each_message_partial : forall (RE : Type) compile rmatch sn g (ls : nat -> @listener RE) progs w tr i p,
  mreaches compile rmatch sn g ls progs w tr -> nth_error progs i = Some p ->
  prefix (logged_by (Client i) (plain tr)) (log_calls p) /\
  (exists cur, passed_by (Client i) (plain tr) = map fst (fates i tr) ++ cur /\ List.length cur <= 1 /\ (at_pc w i Idle -> cur = [])).
Proof. exact @mem_fates. Qed.
Print Assumptions C107_each_message_partial.

(** What was queued is dispatched in that order, ... *)
Theorem C107_fifo_partial : forall (RE : Type) compile rmatch sn g (ls : nat -> @listener RE) progs w tr,
  mreaches compile rmatch sn g ls progs w tr ->
  accepted (plain tr) = begun (plain tr) ++ unbegun w ++ waiting w.
Proof. exact @mem_fifo. Qed.
Print Assumptions C107_fifo_partial.

(** ... and delivered to each listener as often as it was added (by calls that did not throw) and
    according to its settings, as in C29. *)
Theorem C107_delivered_partial : forall (RE : Type) compile rmatch sn g (ls : nat -> @listener RE) progs w tr l,
  mreaches compile rmatch sn g ls progs w tr -> steady l (plain tr) false ->
  (exists n, owed compile rmatch (ls l) l (plain tr) 0 0 = delivered_to l (plain tr) ++ flat_map (fun m => repeat m n) (unended w)) /\
  (unended w = [] -> delivered_to l (plain tr) = owed compile rmatch (ls l) l (plain tr) 0 0).
Proof. exact @mem_filter. Qed.
Print Assumptions C107_delivered_partial.

(** The settings of a listener are those of the calls that did not throw. *)
Theorem C107_settings_partial : forall (RE : Type) compile rmatch sn g (ls : nat -> @listener RE) progs w tr l,
  mreaches compile rmatch sn g ls progs w tr -> lst (w_sys w) l = settings compile l (plain tr) (ls l).
Proof. exact @mem_settings. Qed.
Print Assumptions C107_settings_partial.

(** But the objects of the calls that threw in the constructor of Message are in no place, for ever ... *)
Theorem C107_object_lost_refuted : forall (RE : Type) compile rmatch sn g (ls : nat -> @listener RE) progs w tr,
  mreaches compile rmatch sn g ls progs w tr ->
  NoDup (places w ++ lost tr) /\ (forall o, In o (places w ++ lost tr) <-> live (w_sys w) o).
Proof. exact @mem_places. Qed.
Print Assumptions C107_object_lost_refuted.

(** ... and survive the destructor: they are leaked, and nothing else is. *)
Theorem C107_destructor_refuted : forall (RE : Type) compile rmatch sn g (ls : nat -> @listener RE) progs w tr,
  mreaches compile rmatch sn g ls progs w tr ->
  logt (w_sys w) = TNone -> (forall c, In c (w_clients w) -> c_pc c = Idle) ->
  exists s', destroy (w_sys w) = ROk s' tt /\ forall o, live s' o <-> In o (lost tr).
Proof. exact @mem_destroyed. Qed.
Print Assumptions C107_destructor_refuted.

(** m_msgsCreated ([unpooled]) counts messages that were never created. *)
Theorem C107_created_refuted : forall (RE : Type) compile rmatch sn g (ls : nat -> @listener RE) progs w tr,
  mreaches compile rmatch sn g ls progs w tr ->
  64 + unpooled (w_sys w) + List.length (passes (plain tr)) = objects w + making w + unmade tr.
Proof. exact @mem_counters. Qed.
Print Assumptions C107_created_refuted.

(** When there is no memory for the place in the queue, the program ends; ... *)
Theorem C107_push_refuted : forall (RE : Type) compile rmatch (w : @world RE) i m o,
  crashed (w_sys w) = None -> at_pc w i (LogPush m o) ->
  exists w', mstep compile rmatch (Fails i) w = Some (w', []) /\ crashed (w_sys w') = Some Terminate /\ halted compile rmatch w'.
Proof. exact @mem_push. Qed.
Print Assumptions C107_push_refuted.

(** ... so it does when the log thread takes in new listeners, puts a message back in the pool or
    matches a category without memory. *)
Theorem C107_log_thread_refuted : forall (RE : Type) compile rmatch (w : @world RE), crashed (w_sys w) = None ->
  (exists o, logt (w_sys w) = TGot o /\ pending (w_sys w) <> []) \/
  (exists o, logt (w_sys w) = TDispose o /\ List.length (pool (w_sys w)) < 64) \/
  (exists o l r, logt (w_sys w) = TCat o l r /\ m_cat (content (w_sys w) o) <> "" /\ l_category (lst (w_sys w) l) <> "") ->
  exists w', mstep compile rmatch FailsLog w = Some (w', []) /\ crashed (w_sys w') = Some Terminate /\ halted compile rmatch w'.
Proof. exact @mem_log_thread. Qed.
Print Assumptions C107_log_thread_refuted.

(** category(re) that fails while it stores the text of the expression: the listener filters with the
    new expression, and category() reports the old one. *)
Theorem C107_category_refuted : forall (RE : Type) compile rmatch re (l l' : @listener RE) r,
  compile re = Some r -> category_half compile re l = Some l' ->
  l_category l' = l_category l /\
  (forall cat, cat <> "" -> l_category l <> "" -> checkCategory rmatch l' cat = rmatch cat r).
Proof. exact @mem_category. Qed.
Print Assumptions C107_category_refuted.

(** The constructor gives the system of LogModel.v when memory suffices; ... *)
Theorem C107_constructor_partial : forall (RE : Type) f sn g (ls : nat -> @listener RE), (forall k, k <= 128 -> f k = true) ->
  construct_mem f sn g ls = inr (construct sn g ls).
Proof. exact @mem_construct. Qed.
Print Assumptions C107_constructor_partial.

(** ... when it throws after the first message was created, message objects remain. *)
Theorem C107_constructor_refuted : forall (RE : Type) f sn g (ls : nat -> @listener RE) h,
  construct_mem f sn g ls = inl h -> f 0 = true -> exists n, 0 < n /\ h = repeat (Some empty_msg) n.
Proof. exact @mem_construct_fail. Qed.
Print Assumptions C107_constructor_refuted.

(** ** Concrete cases *)
Notation mdemo := (mreaches demo_compile demo_match).
Definition ok (l : list choice) : list mchoice := map Normal l.

(** addListener(2) and log(hello) throw; bye, by another thread, and the next hello arrive. *)
Example C107_witness : exists w tr,
  mdemo true false demo_listeners [[CAdd 0; CAdd 2; CLog hello; CLog hello; CStop]; [CLog bye]] w tr /\
  fates 0 tr = [(hello, Thrown); (hello, Queued)] /\ passed_by (Client 0) (plain tr) = [hello; hello] /\
  accepted (plain tr) = [bye; hello] /\ delivered_to 0 (plain tr) = [bye; hello] /\ delivered_to 2 (plain tr) = [] /\
  steady 0 (plain tr) false /\ unended w = [] /\ lost tr = [63] /\ ~ In 63 (places w) /\ List.length (pool (w_sys w)) = 63 /\
  logt (w_sys w) = TNone /\ (forall c, In c (w_clients w) -> c_pc c = Idle).
Proof.
  eexists. eexists.
  split; [exists (ok (cl 0 1) ++ [Fails 0] ++ ok (cl 0 2 ++ cl 1 4) ++ [Fails 0] ++ ok (cl 0 4 ++ lg 22 ++ cl 0 1 ++ lg 1 ++ cl 0 3)); vm_compute; reflexivity|].
  repeat (split; [first [reflexivity | vm_compute; tauto | vm_compute; intuition discriminate]|]).
  intros c [<-|[<-|[]]]; reflexivity.
Qed.

(** 64 messages wait, and there is no memory for one more. *)
Example C107_created_witness : exists w tr, mdemo false false demo_listeners [repeat (CLog hello) 65] w tr /\
  unmade tr = 1 /\ unpooled (w_sys w) = 1 /\ objects w = 64 /\ fates 0 tr = repeat (hello, Queued) 64 ++ [(hello, Thrown)].
Proof.
  eexists. eexists. split; [exists (ok (cl 0 (64 * 4 + 3)) ++ [Fails 0]); vm_compute; reflexivity|].
  repeat split; reflexivity.
Qed.

(** Each way to end the program. *)
Example C107_ends_witness :
  (exists w tr, mdemo true false demo_listeners [[CLog hello]] w tr /\ crashed (w_sys w) = None /\ at_pc w 0 (LogPush hello 63)) /\
  (exists w tr, mdemo true false demo_listeners [[CAdd 1; CLog hello]] w tr /\ crashed (w_sys w) = None /\
     logt (w_sys w) = TGot 63 /\ pending (w_sys w) <> []) /\
  (exists w tr, mdemo true false demo_listeners [[CAdd 1; CLog hello]] w tr /\ crashed (w_sys w) = None /\
     logt (w_sys w) = TCat 63 1 [] /\ m_cat (content (w_sys w) 63) <> "" /\ l_category (lst (w_sys w) 1) <> "") /\
  (exists w tr, mdemo true false demo_listeners [[CAdd 1; CLog hello]] w tr /\ crashed (w_sys w) = None /\
     logt (w_sys w) = TDispose 63 /\ List.length (pool (w_sys w)) < 64).
Proof.
  split; [|split; [|split]]; eexists; eexists.
  - split; [exists (ok (cl 0 3)); vm_compute; reflexivity|]. split; [reflexivity|]. eexists. split; reflexivity.
  - split; [exists (ok (cl 0 5 ++ lg 1)); vm_compute; reflexivity|]. split; [reflexivity|]. split; [reflexivity|discriminate].
  - split; [exists (ok (cl 0 5 ++ lg 5)); vm_compute; reflexivity|]. split; [reflexivity|]. split; [reflexivity|]. split; discriminate.
  - split; [exists (ok (cl 0 5 ++ lg 10)); vm_compute; reflexivity|]. split; [reflexivity|]. split; [reflexivity|]. vm_compute. lia.
Qed.

Example C107_category_witness : exists l', category_half demo_compile "gui" (demo_listeners 1) = Some l' /\
  l_category l' = "net" /\ checkCategory demo_match l' "net" = false /\ checkCategory demo_match l' "gui" = true.
Proof. eexists. repeat split; reflexivity. Qed.

(** The thread cannot be created: the 64 messages of the pool are lost. *)
Example C107_constructor_witness :
  construct_mem (fun k => (k <? 128)%nat) true false demo_listeners = inl (repeat (Some empty_msg) 64).
Proof. vm_compute. reflexivity. Qed.
