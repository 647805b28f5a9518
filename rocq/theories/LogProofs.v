(** * LogSystem: ownership of the message objects and the order of messages *)
From Coq Require Import ZArith String Bool List Arith Lia.
From Verif Require Import Base ListFacts LogModel LogSpec.
Import ListNotations.
Open Scope list_scope.

Lemma pick_app : forall (A B : Type) (f : A -> option B) l1 l2, pick f (l1 ++ l2) = pick f l1 ++ pick f l2.
Proof. intros A B f l1 l2. induction l1 as [|x l1 IH]; simpl; auto. destruct (f x); simpl; rewrite IH; auto. Qed.

Ltac sfields :=
  cbn [heap pool queue terminated unpooled discarded maxq received slevel pending active lst mtx logt crashed built torn
       set_heap set_pool set_queue set_terminated set_unpooled set_discarded set_maxq set_received set_slevel
       set_pending set_active set_lst set_mtx set_logt set_crashed set_built set_torn w_sys w_clients c_pc c_todo] in *.

Definition cnt (o : nat) (l : list nat) : nat := count_occ Nat.eq_dec l o.
Lemma cnt_app : forall o a b, cnt o (a ++ b) = cnt o a + cnt o b.
Proof. intros. apply count_occ_app. Qed.
Lemma cnt_cons : forall o x l, cnt o (x :: l) = (if Nat.eq_dec x o then 1 else 0) + cnt o l.
Proof. intros. unfold cnt. simpl. destruct (Nat.eq_dec x o); auto. Qed.
Lemma cnt_nil : forall o, cnt o [] = 0.
Proof. reflexivity. Qed.
Lemma cnt_pos : forall o l, In o l <-> 0 < cnt o l.
Proof. intros. unfold cnt. rewrite (count_occ_In Nat.eq_dec). lia. Qed.

Lemma flat_map_upd_cnt : forall (A : Type) (f : A -> list nat) o l i x y, nth_error l i = Some x ->
  cnt o (flat_map f (upd i (fun _ => y) l)) + cnt o (f x) = cnt o (flat_map f l) + cnt o (f y).
Proof.
  intros A f o l. induction l as [|z l IH]; intros [|i] x y H; simpl in *; try discriminate.
  - injection H as ->. rewrite !cnt_app. lia.
  - rewrite !cnt_app. specialize (IH i x y H). lia.
Qed.

Lemma flat_map_upd_len : forall (A : Type) {B : Type} (f : A -> list B) l i x y, nth_error l i = Some x ->
  List.length (flat_map f (upd i (fun _ => y) l)) + List.length (f x) = List.length (flat_map f l) + List.length (f y).
Proof.
  intros A B f l. induction l as [|z l IH]; intros [|i] x y H; simpl in *; try discriminate.
  - injection H as ->. rewrite !app_length. lia.
  - rewrite !app_length. specialize (IH i x y H). lia.
Qed.

Section Log.
Context {RE : Type}.
Variable compile : string -> option RE.
Variable rmatch : string -> RE -> bool.
Notation sys := (@sys RE).
Notation world := (@world RE).
Notation cstep := (cstep compile).
Notation lstep := (lstep compile rmatch).
Notation step := (step compile rmatch).
Notation run := (run compile rmatch).
Implicit Types (s : sys) (w : world).

(** ** Induction over runs *)
Lemma run_inv : forall (I : world -> list ev -> Prop),
  (forall ch w w' tr es, I w tr -> step ch w = Some (w', es) -> I w' (tr ++ es)) ->
  forall sched w tr0 w' tr, I w tr0 -> run sched w = Some (w', tr) -> I w' (tr0 ++ tr).
Proof.
  intros I Hs sched. induction sched as [|ch sched IH]; intros w tr0 w' tr H0 H; simpl in H.
  - injection H as <- <-. rewrite app_nil_r. auto.
  - destruct (step ch w) as [[w1 es]|] eqn:E; [|discriminate].
    destruct (run sched w1) as [[w2 es']|] eqn:E2; [|discriminate]. injection H as <- <-.
    rewrite app_assoc. eapply IH; eauto.
Qed.

Lemma run_app : forall (s1 s2 : list choice) w w1 t1, run s1 w = Some (w1, t1) ->
  run (s1 ++ s2) w = match run s2 w1 with Some (w2, t2) => Some (w2, t1 ++ t2) | None => None end.
Proof.
  induction s1 as [|ch s1 IH]; intros s2 w w1 t1 H; simpl in *.
  - injection H as <- <-. destruct (run s2 w) as [[? ?]|]; auto.
  - destruct (step ch w) as [[wa es]|]; [|discriminate].
    destruct (run s1 wa) as [[wb es']|] eqn:E; [|discriminate]. injection H as <- <-.
    rewrite (IH s2 _ _ _ E). destruct (run s2 wb) as [[? ?]|]; auto. rewrite app_assoc. auto.
Qed.

(** Cutting a run at a prefix of its events is not always possible (a step may show two
    events), but any event belongs to one step. *)
Lemma run_split : forall sched w w' tr, run sched w = Some (w', tr) ->
  forall t1 e t2, tr = t1 ++ e :: t2 ->
  exists (s1 : list choice) ch (s2 : list choice) w1 w2 p q r, sched = s1 ++ ch :: s2 /\ run s1 w = Some (w1, p) /\
    step ch w1 = Some (w2, q ++ e :: r) /\ t1 = p ++ q /\ run s2 w2 = Some (w', skipn (List.length r) t2) /\ firstn (List.length r) t2 = r.
Proof.
  induction sched as [|ch sched IH]; intros w w' tr H t1 e t2 E; simpl in H.
  - injection H as <- <-. destruct t1; discriminate.
  - destruct (step ch w) as [[wa es]|] eqn:E1; [|discriminate].
    destruct (run sched wa) as [[wb es']|] eqn:E2; [|discriminate]. injection H as <- H.
    rewrite E in H. clear E tr.
    destruct (le_lt_dec (List.length es) (List.length t1)) as [Hl|Hl].
    + assert (exists t1', t1 = es ++ t1' /\ es' = t1' ++ e :: t2) as (t1' & -> & ->).
      { revert t1 H Hl. clear. induction es as [|x es IH]; intros t1 H Hl; simpl in *.
        - exists t1. auto.
        - destruct t1 as [|y t1]; simpl in *; [lia|]. injection H as -> H.
          destruct (IH t1 H) as (t' & -> & ->); [lia|]. exists t'. auto. }
      destruct (IH _ _ _ E2 t1' e t2 eq_refl) as (s1 & ch' & s2 & w1 & w2 & p & q & r & -> & R1 & S & -> & R2 & F).
      exists (ch :: s1), ch', s2, w1, w2, (es ++ p), q, r. repeat split; auto.
      * simpl. rewrite E1, R1. auto.
      * rewrite app_assoc. auto.
    + assert (exists r, es = t1 ++ e :: r /\ t2 = r ++ es') as (r & -> & ->).
      { revert t1 H Hl. clear. induction es as [|x es IH]; intros t1 H Hl; simpl in *; [lia|].
        destruct t1 as [|y t1]; simpl in *.
        - injection H as -> <-. exists es. auto.
        - injection H as -> H. destruct (IH t1 H) as (r & -> & ->); [lia|]. exists r. auto. }
      exists [], ch, sched, w, wa, [], t1, r. simpl. repeat split; auto.
      * rewrite E2. rewrite skipn_app, skipn_all, Nat.sub_diag. auto.
      * rewrite firstn_app, firstn_all, Nat.sub_diag, app_nil_r. auto.
Qed.

(** ** Effect of a step on the log thread's position *)
Lemma notify_fields : forall s,
  heap (notify s) = heap s /\ pool (notify s) = pool s /\ queue (notify s) = queue s /\
  terminated (notify s) = terminated s /\ unpooled (notify s) = unpooled s /\ discarded (notify s) = discarded s /\
  maxq (notify s) = maxq s /\ received (notify s) = received s /\ slevel (notify s) = slevel s /\
  pending (notify s) = pending s /\ active (notify s) = active s /\ lst (notify s) = lst s /\ mtx (notify s) = mtx s /\
  crashed (notify s) = crashed s /\ built (notify s) = built s /\ torn (notify s) = torn s /\
  logt (notify s) = match logt s with TAsleep => TCheck | t => t end.
Proof. intros s. unfold notify. destruct (logt s) eqn:E; repeat split; auto. Qed.
Lemma notify_heap : forall s, heap (notify s) = heap s. Proof. intros; apply notify_fields. Qed.
Lemma notify_pool : forall s, pool (notify s) = pool s. Proof. intros; apply notify_fields. Qed.
Lemma notify_queue : forall s, queue (notify s) = queue s. Proof. intros; apply notify_fields. Qed.
Lemma notify_terminated : forall s, terminated (notify s) = terminated s. Proof. intros; apply notify_fields. Qed.
Lemma notify_unpooled : forall s, unpooled (notify s) = unpooled s. Proof. intros; apply notify_fields. Qed.
Lemma notify_discarded : forall s, discarded (notify s) = discarded s. Proof. intros; apply notify_fields. Qed.
Lemma notify_maxq : forall s, maxq (notify s) = maxq s. Proof. intros; apply notify_fields. Qed.
Lemma notify_received : forall s, received (notify s) = received s. Proof. intros; apply notify_fields. Qed.
Lemma notify_slevel : forall s, slevel (notify s) = slevel s. Proof. intros; apply notify_fields. Qed.
Lemma notify_pending : forall s, pending (notify s) = pending s. Proof. intros; apply notify_fields. Qed.
Lemma notify_active : forall s, active (notify s) = active s. Proof. intros; apply notify_fields. Qed.
Lemma notify_lst : forall s, lst (notify s) = lst s. Proof. intros; apply notify_fields. Qed.
Lemma notify_mtx : forall s, mtx (notify s) = mtx s. Proof. intros; apply notify_fields. Qed.
Lemma notify_crashed : forall s, crashed (notify s) = crashed s. Proof. intros; apply notify_fields. Qed.
Lemma notify_built : forall s, built (notify s) = built s. Proof. intros; apply notify_fields. Qed.
Lemma notify_torn : forall s, torn (notify s) = torn s. Proof. intros; apply notify_fields. Qed.
Lemma notify_logt : forall s, logt (notify s) = match logt s with TAsleep => TCheck | t => t end. Proof. intros; apply notify_fields. Qed.

Ltac nsimp := rewrite ?notify_heap, ?notify_pool, ?notify_queue, ?notify_terminated, ?notify_unpooled, ?notify_discarded,
  ?notify_maxq, ?notify_received, ?notify_slevel, ?notify_pending, ?notify_active, ?notify_lst, ?notify_mtx,
  ?notify_crashed, ?notify_built, ?notify_torn, ?notify_logt in *.

(** The field updates of queueing. *)
Definition pushed o s : sys :=
  notify (if maxq s <? List.length (queue s ++ [o]) then set_maxq (List.length (queue s ++ [o])) (set_queue (queue s ++ [o]) s)
          else set_queue (queue s ++ [o]) s).

(** All the ways [cstep] can go, as a relation. *)
Inductive cs (w : tid) : cthread -> sys -> cthread -> sys -> list ev -> Prop :=
| cs_drop : forall m k s, (m_level m > slevel s)%Z -> cs w (mkC Idle (CLog m :: k)) s (mkC Idle k) s [EvLog w m false]
| cs_log : forall m k s, (m_level m <= slevel s)%Z -> cs w (mkC Idle (CLog m :: k)) s (mkC (LogAlloc m) k) s [EvLog w m true]
| cs_pass : forall m k s, cs w (mkC Idle (CPass m :: k)) s (mkC (LogPush m (List.length (heap s))) k)
    (set_built (S (built s)) (set_heap (heap s ++ [Some m]) s)) [EvPass w m]
| cs_add : forall l k s, cs w (mkC Idle (CAdd l :: k)) s (mkC Idle k) (set_pending (pending s ++ [l]) s) [EvAdd l]
| cs_start : forall k s, cs w (mkC Idle (CStart :: k)) s (mkC StartLock k) s []
| cs_stop : forall k s, cs w (mkC Idle (CStop :: k)) s (mkC StopNotify k) (set_terminated true s) []
| cs_level : forall z k s, cs w (mkC Idle (CLevel z :: k)) s (mkC Idle k) (set_slevel z s) [EvLevel z]
| cs_set : forall l z k s, cs w (mkC Idle (CSetLevel l z :: k)) s (mkC Idle k) (set_lst (upd_lst l (set_llevel z (lst s l)) (lst s)) s) [EvSet l (CSetLevel l z)]
| cs_enable : forall l b k s, cs w (mkC Idle (CEnable l b :: k)) s (mkC Idle k) (set_lst (upd_lst l (set_enabled b (lst s l)) (lst s)) s) [EvSet l (CEnable l b)]
| cs_detach : forall l k s, cs w (mkC Idle (CDetach l :: k)) s (mkC Idle k) (set_lst (upd_lst l (set_detached (lst s l)) (lst s)) s) [EvSet l (CDetach l); EvDetach l]
| cs_cat : forall l re r k s, compile re = Some r -> cs w (mkC Idle (CCategory l re :: k)) s (mkC Idle k)
    (set_lst (upd_lst l (mkL re r (l_level (lst s l)) (l_enabled (lst s l)) (l_detached (lst s l))) (lst s)) s) [EvSet l (CCategory l re)]
| cs_throw : forall l re k s, compile re = None -> cs w (mkC Idle (CCategory l re :: k)) s (mkC Idle k) s [EvThrown w]
| cs_diags : forall k s, cs w (mkC Idle (CDiags :: k)) s (mkC (Diag diag_order) k) s []
| cs_abort : forall k s, w = LogThread -> cs w (mkC Idle (CThrow :: k)) s (mkC Idle k) (set_crashed (Some Terminate) s) [EvThrown w]
| cs_quit : forall k s i, w = Client i -> cs w (mkC Idle (CThrow :: k)) s (mkC Idle k) s [EvThrown w]
| cs_pool : forall m k s o p, pool s = o :: p -> cs w (mkC (LogAlloc m) k) s (mkC (LogCtor m o) k) (set_pool p s) []
| cs_nopool : forall m k s, pool s = [] -> cs w (mkC (LogAlloc m) k) s (mkC (LogNew m) k) s []
| cs_new : forall m k s, cs w (mkC (LogNew m) k) s (mkC (LogMake m) k) (set_unpooled (S (unpooled s)) s) []
| cs_make : forall m k s, cs w (mkC (LogMake m) k) s (mkC (LogCtor m (List.length (heap s))) k)
    (set_built (S (built s)) (set_heap (heap s ++ [Some empty_msg]) s)) []
| cs_ctor : forall m o k s, cs w (mkC (LogCtor m o) k) s (mkC (LogPush m o) k)
    (set_built (S (built s)) (set_heap (upd o (fun _ => Some m) (heap s)) s)) []
| cs_push : forall m o k s, cs w (mkC (LogPush m o) k) s (mkC Idle k) (pushed o s) [EvAccept w m]
| cs_notify : forall k s, cs w (mkC StopNotify k) s (mkC StopLock k) (notify s) []
| cs_nothread : forall k s, mtx s = None -> logt s = TNone -> cs w (mkC StopLock k) s (mkC Idle k) s [EvStopped w]
| cs_lock : forall k s, mtx s = None -> logt s <> TNone -> cs w (mkC StopLock k) s (mkC StopJoin k) (set_mtx (Some w) s) []
| cs_selfjoin : forall k s, w = LogThread -> cs w (mkC StopJoin k) s (mkC StopJoin k) (set_crashed (Some Terminate) s) []
| cs_join : forall k s i, w = Client i -> logt s = TExited -> cs w (mkC StopJoin k) s (mkC Idle k) (set_mtx None (set_logt TNone s)) [EvStopped w]
| cs_restart : forall k s, mtx s = None -> logt s = TNone -> cs w (mkC StartLock k) s (mkC Idle k) (set_logt TCheck s) [EvStarted w]
| cs_started : forall k s, mtx s = None -> logt s <> TNone -> cs w (mkC StartLock k) s (mkC Idle k) s [EvStarted w]
| cs_done : forall k s, cs w (mkC (Diag []) k) s (mkC Idle k) s []
| cs_read : forall f fs k s, f <> FEnabled -> cs w (mkC (Diag (f :: fs)) k) s (mkC (Diag fs) k) s [EvRead w f (read_field s f)]
| cs_count : forall fs k s, cs w (mkC (Diag (FEnabled :: fs)) k) s (mkC (DiagCount 0 (active s) fs) k) s []
| cs_ask : forall n l rest fs k s, cs w (mkC (DiagCount n (l :: rest) fs) k) s
    (mkC (DiagCount (if l_enabled (lst s l) then S n else n) rest fs) k) s []
| cs_counted : forall n fs k s, cs w (mkC (DiagCount n [] fs) k) s (mkC (Diag fs) k) s [EvRead w FEnabled n].

Lemma cstep_cs : forall (w : tid) c s c' s' es, cstep w c s = Some (c', s', es) -> cs w c s c' s' es.
Proof.
  intros w [pc k] s c' s' es H. unfold LogModel.cstep in H. sfields.
  destruct pc.
  - destruct k as [|[] k]; try discriminate;
      try (injection H as <- <- <-; constructor; fail).
    + destruct (Z.gtb_spec (m_level m) (slevel s)); injection H as <- <- <-; constructor; lia.
    + unfold set_category in H. destruct (compile re) eqn:E; injection H as <- <- <-; econstructor; eauto.
    + destruct w; injection H as <- <- <-; econstructor; eauto.
  - destruct (pool s) as [|o p] eqn:E; injection H as <- <- <-; constructor; auto.
  - injection H as <- <- <-. constructor.
  - injection H as <- <- <-. constructor.
  - injection H as <- <- <-. constructor.
  - injection H as <- <- <-. apply cs_push.
  - injection H as <- <- <-. constructor.
  - destruct (mtx s) eqn:E; [discriminate|]. unfold no_thread in H. destruct (logt s) eqn:E2; injection H as <- <- <-;
      constructor; congruence.
  - destruct w.
    + destruct (logt s) eqn:E2; try discriminate. injection H as <- <- <-. econstructor; eauto.
    + injection H as <- <- <-. constructor; auto.
  - destruct (mtx s) eqn:E; [discriminate|]. unfold no_thread in H. destruct (logt s) eqn:E2; injection H as <- <- <-;
      constructor; congruence.
  - destruct todo as [|[] fs]; injection H as <- <- <-; constructor; discriminate.
  - destruct rest; injection H as <- <- <-; constructor.
Qed.

(** All the ways [lstep] can go. *)
Inductive ls : sys -> sys -> list ev -> Prop :=
| ls_exit : forall s, logt s = TCheck -> terminated s = true -> ls s (set_logt TExited s) []
| ls_sleep : forall s, logt s = TCheck -> terminated s = false -> queue s = [] -> ls s (set_logt TAsleep s) []
| ls_pop : forall s o q, logt s = TCheck -> terminated s = false -> queue s = o :: q ->
    ls s (set_logt (TGot o) (set_queue q s)) [EvPop (content s o)]
| ls_begin : forall s o, logt s = TGot o ->
    ls s (set_logt (TCount o) (set_pending [] (set_active (active s ++ pending s) s))) [EvBegin (content s o)]
| ls_count : forall s o, logt s = TCount o ->
    ls s (set_logt (TSend o (active s)) (set_received (S (received s)) s)) [EvSend (content s o)]
| ls_end : forall s o, logt s = TSend o [] -> ls s (set_logt (TClean o [] (active s)) s) [EvEnd (content s o)]
| ls_enabled : forall s o l rest, logt s = TSend o (l :: rest) -> l_enabled (lst s l) = true -> ls s (set_logt (TLevel o l rest) s) []
| ls_disabled : forall s o l rest, logt s = TSend o (l :: rest) -> l_enabled (lst s l) = false -> ls s (set_logt (TSend o rest) s) []
| ls_level : forall s o l rest, logt s = TLevel o l rest -> (m_level (content s o) <= l_level (lst s l))%Z -> ls s (set_logt (TCat o l rest) s) []
| ls_nolevel : forall s o l rest, logt s = TLevel o l rest -> (m_level (content s o) > l_level (lst s l))%Z -> ls s (set_logt (TSend o rest) s) []
| ls_call : forall s o l rest cb, logt s = TCat o l rest -> checkCategory rmatch (lst s l) (m_cat (content s o)) = true ->
    ls s (set_logt (TCall o rest (mkC Idle cb)) s)
      [EvCheck l (content s o) (checkCategory_out rmatch (lst s l) (m_cat (content s o))); EvDeliver l (content s o)]
| ls_nocat : forall s o l rest, logt s = TCat o l rest -> checkCategory rmatch (lst s l) (m_cat (content s o)) = false ->
    ls s (set_logt (TSend o rest) s) [EvCheck l (content s o) (checkCategory_out rmatch (lst s l) (m_cat (content s o)))]
| ls_return : forall s o rest, logt s = TCall o rest (mkC Idle []) -> ls s (set_logt (TSend o rest) s) []
| ls_nested : forall s o rest c c' s' es, logt s = TCall o rest c -> cs LogThread c s c' s' es ->
    ls s (set_logt (TCall o rest c') s') es
| ls_ask : forall s o kept l todo, logt s = TClean o kept (l :: todo) ->
    ls s (set_logt (TClean o (if l_detached (lst s l) then kept else kept ++ [l]) todo) s) []
| ls_clean : forall s o kept, logt s = TClean o kept [] -> ls s (set_logt (TDispose o) (set_active kept s)) [EvClean]
| ls_pool : forall s o, logt s = TDispose o -> List.length (pool s) < POOL -> ls s (set_logt TCheck (set_pool (o :: pool s) s)) []
| ls_full : forall s o, logt s = TDispose o -> POOL <= List.length (pool s) -> ls s (set_logt (TDelete o) s) []
| ls_delete : forall s o, logt s = TDelete o -> ls s (set_logt (TFree o) (set_discarded (S (discarded s)) s)) []
| ls_free : forall s o, logt s = TFree o ->
    ls s (set_logt TCheck (set_torn (S (torn s)) (set_heap (upd o (fun _ => None) (heap s)) s))) [].

Lemma lstep_ls : forall cb s s' es, lstep cb s = Some (s', es) -> ls s s' es.
Proof.
  intros cb s s' es H. unfold LogModel.lstep in H.
  destruct (logt s) eqn:E; try discriminate.
  - destruct (terminated s) eqn:Et; [injection H as <- <-; constructor; auto|].
    destruct (queue s) eqn:Eq; injection H as <- <-; econstructor; eauto.
  - injection H as <- <-. constructor; auto.
  - injection H as <- <-. constructor; auto.
  - destruct rest; [injection H as <- <-; constructor; auto|].
    destruct (l_enabled (lst s n)) eqn:E2; injection H as <- <-; [eapply ls_enabled|eapply ls_disabled]; eauto.
  - destruct (Z.geb_spec (l_level (lst s l)) (m_level (content s o))); injection H as <- <-; [eapply ls_level|eapply ls_nolevel]; eauto; lia.
  - destruct (checkCategory rmatch (lst s l) (m_cat (content s o))) eqn:E2; injection H as <- <-; [eapply ls_call|eapply ls_nocat]; eauto.
  - destruct c as [pc k]. sfields.
    assert (N : forall c' s1 es1, cstep LogThread (mkC pc k) s = Some (c', s1, es1) -> ls s (set_logt (TCall o rest c') s1) es1).
    { intros c' s1 es1 H1. eapply ls_nested; eauto. apply cstep_cs; auto. }
    destruct pc; try (destruct (cstep LogThread _ s) as [[[c' s1] es1]|] eqn:E1; [|discriminate]; injection H as <- <-; auto; fail).
    destruct k.
    + injection H as <- <-. apply ls_return; auto.
    + destruct (cstep LogThread _ s) as [[[c' s1] es1]|] eqn:E1; [|discriminate]. injection H as <- <-. auto.
  - destruct todo; injection H as <- <-; econstructor; eauto.
  - destruct (Nat.ltb_spec (List.length (pool s)) POOL); injection H as <- <-; constructor; auto.
  - injection H as <- <-. constructor; auto.
  - injection H as <- <-. constructor; auto.
Qed.

Inductive st : world -> world -> list ev -> Prop :=
| st_client : forall w i c c' s' es, crashed (w_sys w) = None -> nth_error (w_clients w) i = Some c -> cs (Client i) c (w_sys w) c' s' es ->
    st w (mkWorld s' (upd i (fun _ => c') (w_clients w))) es
| st_log : forall w s' es, crashed (w_sys w) = None -> ls (w_sys w) s' es -> st w (mkWorld s' (w_clients w)) es
| st_wake : forall w, crashed (w_sys w) = None -> logt (w_sys w) = TAsleep -> st w (mkWorld (set_logt TCheck (w_sys w)) (w_clients w)) [].

Lemma step_st : forall ch w w' es, step ch w = Some (w', es) -> st w w' es.
Proof.
  intros ch w w' es H. unfold LogModel.step in H. destruct (crashed (w_sys w)) eqn:Ec; [discriminate|].
  destruct ch as [i|cb|].
  - destruct (nth_error (w_clients w) i) as [c|] eqn:E; [|discriminate].
    destruct (cstep (Client i) c (w_sys w)) as [[[c' s'] es']|] eqn:E1; [|discriminate]. injection H as <- <-.
    eapply st_client; eauto. apply cstep_cs; auto.
  - destruct (lstep cb (w_sys w)) as [[s' es']|] eqn:E1; [|discriminate]. injection H as <- <-.
    apply st_log; auto. eapply lstep_ls; eauto.
  - destruct (logt (w_sys w)) eqn:E; try discriminate. injection H as <- <-. apply st_wake; auto.
Qed.

Lemma reaches_inv : forall (I : world -> list ev -> Prop) sn g lf progs,
  I (init sn g lf progs) [] -> (forall w w' tr es, I w tr -> st w w' es -> I w' (tr ++ es)) ->
  forall w tr, reaches compile rmatch sn g lf progs w tr -> I w tr.
Proof.
  intros I sn g lf progs H0 Hs w tr [sched H]. change tr with ([] ++ tr).
  eapply run_inv; eauto. intros ch w1 w2 tr1 es H1 H2. eapply Hs; eauto. eapply step_st; eauto.
Qed.

(** The same, with what is known of reachable worlds. *)
Lemma reaches_inv_r : forall sn g lf progs (I : world -> list ev -> Prop),
  I (init sn g lf progs) [] ->
  (forall w w' tr es, reaches compile rmatch sn g lf progs w tr -> I w tr -> st w w' es -> I w' (tr ++ es)) ->
  forall w tr, reaches compile rmatch sn g lf progs w tr -> I w tr.
Proof.
  intros sn g lf progs I H0 Hs w tr [sched H].
  assert (Y : reaches compile rmatch sn g lf progs w tr /\ I w tr); [|apply Y].
  change tr with ([] ++ tr). eapply (run_inv (fun w tr => reaches compile rmatch sn g lf progs w tr /\ I w tr)); [| |exact H].
  - clear - Hs. intros ch w w' tr es (R & A) S. split; [|eapply Hs; eauto; eapply step_st; eauto].
    destruct R as (sched & R). exists (sched ++ [ch]). rewrite (run_app _ _ _ _ _ R). cbn. rewrite S. now rewrite app_nil_r.
  - split; auto. exists []. reflexivity.
Qed.

(** A step of the log thread inside a callback leaves its position alone. *)
Lemma cs_logt_nested : forall c s c' s' es o rest c0, logt s = TCall o rest c0 -> cs LogThread c s c' s' es -> logt s' = logt s.
Proof.
  intros c s c' s' es o rest c0 Ht H. destruct H; sfields; auto; try congruence.
  - unfold pushed. nsimp. destruct (maxq s <? _); sfields; rewrite Ht; auto.
  - nsimp. rewrite Ht. auto.
Qed.

Definition liven s (o : nat) : nat := match nth_error (heap s) o with Some (Some _) => 1 | _ => 0 end.

Lemma live_n : forall s o, live s o <-> liven s o = 1.
Proof.
  intros s o. unfold live, liven. destruct (nth_error (heap s) o) as [[m|]|]; split; intros H; try discriminate; eauto;
  destruct H as [? H]; discriminate.
Qed.

Lemma pushed_fields : forall o s, heap (pushed o s) = heap s /\ pool (pushed o s) = pool s /\ queue (pushed o s) = queue s ++ [o] /\
  terminated (pushed o s) = terminated s /\ unpooled (pushed o s) = unpooled s /\ discarded (pushed o s) = discarded s /\
  maxq (pushed o s) = Nat.max (maxq s) (S (List.length (queue s))) /\ received (pushed o s) = received s /\
  slevel (pushed o s) = slevel s /\ pending (pushed o s) = pending s /\ active (pushed o s) = active s /\
  lst (pushed o s) = lst s /\ mtx (pushed o s) = mtx s /\ crashed (pushed o s) = crashed s /\ built (pushed o s) = built s /\
  torn (pushed o s) = torn s /\ logt (pushed o s) = match logt s with TAsleep => TCheck | t => t end.
Proof.
  intros o s. unfold pushed. nsimp. rewrite app_length. simpl (List.length [o]).
  destruct (Nat.ltb_spec (maxq s) (List.length (queue s) + 1)); sfields; repeat split; auto; lia.
Qed.

Ltac psimp o s := let P := fresh in pose proof (pushed_fields o s) as P;
  destruct P as (?P1 & ?P2 & ?P3 & ?P4 & ?P5 & ?P6 & ?P7 & ?P8 & ?P9 & ?P10 & ?P11 & ?P12 & ?P13 & ?P14 & ?P15 & ?P16 & ?P17).

(** ** Ownership *)
Definition own w : Prop := forall o, cnt o (places w) = liven (w_sys w) o.

Lemma nth_error_upd_lt : forall (A : Type) n (f : A -> A) l k, nth_error (upd n f l) k =
  if Nat.eq_dec k n then option_map f (nth_error l k) else nth_error l k.
Proof.
  intros A n f l. revert n. induction l as [|x l IH]; intros [|n] [|k]; cbn [upd nth_error];
    try (match goal with |- context [Nat.eq_dec ?a ?b] => destruct (Nat.eq_dec a b) end; cbn; auto; congruence).
  rewrite IH. destruct (Nat.eq_dec k n), (Nat.eq_dec (S k) (S n)); auto; lia.
Qed.

(** Held objects [R] are those of the other threads. *)
Lemma cs_own : forall t c s c' s' es R, cs t c s c' s' es ->
  (forall o, cnt o (pool s) + cnt o (queue s) + cnt o (held_c c) + cnt o R = liven s o) ->
  (forall o, cnt o (pool s') + cnt o (queue s') + cnt o (held_c c') + cnt o R = liven s' o).
Proof.
  intros t c s c' s' es R H I o. specialize (I o) as Io.
  destruct H; unfold held_c, liven in *; sfields; nsimp; rewrite ?cnt_nil in *; auto; try lia.
  - rewrite cnt_cons, cnt_nil.
    pose proof (I (List.length (heap s))) as Ih. rewrite (proj2 (nth_error_None _ _)) in Ih by lia.
    destruct (Nat.eq_dec (List.length (heap s)) o) as [E|N].
    + subst o. rewrite nth_error_app2 by lia. rewrite Nat.sub_diag. simpl. lia.
    + destruct (le_lt_dec (List.length (heap s)) o).
      * rewrite (proj2 (nth_error_None _ _)) in Io by lia.
        rewrite (proj2 (nth_error_None _ _)); [lia|]. rewrite app_length; simpl; lia.
      * rewrite nth_error_app1 by lia. lia.
  - rewrite H in Io. rewrite !cnt_cons in Io. rewrite cnt_cons, cnt_nil. lia.
  - rewrite cnt_cons, cnt_nil.
    pose proof (I (List.length (heap s))) as Ih. rewrite (proj2 (nth_error_None _ _)) in Ih by lia.
    destruct (Nat.eq_dec (List.length (heap s)) o) as [E|N].
    + subst o. rewrite nth_error_app2 by lia. rewrite Nat.sub_diag. simpl. lia.
    + destruct (le_lt_dec (List.length (heap s)) o).
      * rewrite (proj2 (nth_error_None _ _)) in Io by lia.
        rewrite (proj2 (nth_error_None _ _)); [lia|]. rewrite app_length; simpl; lia.
      * rewrite nth_error_app1 by lia. lia.
  - rewrite cnt_cons, cnt_nil in Io. rewrite cnt_cons, cnt_nil. rewrite nth_error_upd_lt.
    destruct (Nat.eq_dec o0 o), (Nat.eq_dec o o0); try congruence; auto.
    destruct (nth_error (heap s) o) as [[m'|]|]; simpl; lia.
  - psimp o0 s. rewrite P1, P2, P3, cnt_app. lia.
Qed.

Lemma cs_held : forall i c s c' s' es, cs (Client i) c s c' s' es -> held_t (logt s') = held_t (logt s).
Proof.
  intros i c s c' s' es H. destruct H; sfields; nsimp; auto; try congruence.
  - psimp o s. rewrite P17. destruct (logt s); auto.
  - destruct (logt s); auto.
  - rewrite H0. auto.
  - rewrite H0. auto.
Qed.

Lemma st_own : forall w w' es, own w -> st w w' es -> own w'.
Proof.
  intros w w' es I H. unfold own, places in *. destruct H; sfields.
  - intros o. pose proof (flat_map_upd_cnt _ held_c o _ _ _ c' H0) as F.
    pose proof (cs_own _ _ _ _ _ _ (held_t (logt (w_sys w)) ++ flat_map held_c (upd i (fun _ => mkC Idle []) (w_clients w))) H1) as G.
    rewrite !cnt_app. rewrite (cs_held _ _ _ _ _ _ H1).
    specialize (fun A => G A o). rewrite !cnt_app in G.
    pose proof (flat_map_upd_cnt _ held_c o _ _ _ (mkC Idle []) H0) as F0. simpl (held_c (mkC Idle [])) in F0. rewrite cnt_nil in F0.
    rewrite <- G.
    + lia.
    + intros o'. specialize (I o'). pose proof (flat_map_upd_cnt _ held_c o' _ _ _ (mkC Idle []) H0) as F1.
      simpl (held_c (mkC Idle [])) in F1. rewrite cnt_nil in F1. rewrite !cnt_app in *. lia.
  - intros o. specialize (I o) as Io. rewrite !cnt_app in *.
    destruct H0; try (match goal with E : logt _ = _ |- _ => rewrite E in * end); sfields; cbn [held_t] in *;
      rewrite ?cnt_cons, ?cnt_nil in *; unfold liven in *; sfields; auto; try lia.
    + rewrite H2, cnt_cons in Io. lia.
    + pose proof (cs_own _ _ _ _ _ _ (o0 :: flat_map held_c (w_clients w)) H1) as G.
      specialize (fun A => G A o). rewrite !cnt_cons in G. unfold liven in G.
      rewrite <- G; [lia|]. intros o'. specialize (I o'). rewrite !cnt_app, !cnt_cons in I. rewrite cnt_cons. rewrite <- I. lia.
    + rewrite nth_error_upd_lt. destruct (Nat.eq_dec o0 o), (Nat.eq_dec o o0); try congruence; auto.
      destruct (nth_error (heap s) o) as [[m'|]|]; simpl; lia.
  - intros o. specialize (I o). rewrite H0 in I. auto.
Qed.

End Log.
