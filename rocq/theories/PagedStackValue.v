(** * Proofs about moved, swapped, copied and destroyed stacks. *)
From Coq Require Import List Arith ZArith Lia Bool.
From Verif Require Import Base ListFacts PagedStackModel PagedStackSpec PagedStackExec
  PagedStackProofs PagedStackIter PagedStackFrame PagedStackBlocks PagedStackMisc PagedStackSyncSpec
  PagedStackSync PagedStackValueModel PagedStackValueSpec.
Import ListNotations.

Section ValueProofs.
Context {T : Type}.

Lemma vfind_del : forall {A} x y (l : list (nat * A)), vfind x (vdel y l) = if y =? x then None else vfind x l.
Proof.
  intros A x y l. induction l as [|[z a] l IH]; cbn [vdel vfind]; [destruct (y =? x); auto|].
  destruct (Nat.eqb_spec z y) as [->|N].
  - rewrite IH. destruct (y =? x); auto.
  - cbn [vfind]. rewrite IH. destruct (Nat.eqb_spec z x) as [->|N']; auto.
    destruct (Nat.eqb_spec y x); [congruence|auto].
Qed.
Lemma vfind_put : forall {A} x y (a : A) l, vfind x (vput y a l) = if y =? x then Some a else vfind x l.
Proof. intros A x y a l. unfold vput. cbn [vfind]. rewrite vfind_del. destruct (y =? x); auto. Qed.

Lemma exec_next : forall debug o (s s' : stack T) r, exec debug o s = ROk s' r -> next_id s <= next_id s'.
Proof.
  intros debug o s s' r H. destruct (makes_pages o) eqn:Em.
  2:{ pose proof (exec_keeps debug o Em s) as K. rewrite H in K.
      destruct K as (K1 & K2 & K3 & K4 & K5 & K6 & K7). lia. }
  destruct (is_push o) eqn:Ep.
  - pose proof (exec_push_ex debug o s Ep) as X. rewrite H in X.
    destruct X as (_ & _ & _ & _ & _ & _ & X). exact X.
  - destruct o; try discriminate. cbn [exec] in H. unfold bind in H.
    unfold shrink_to_fit, with_lock in H. destruct (locked s); [discriminate|].
    unfold bind, get in H. cbn [sync_count set_locked] in H.
    destruct (sync_count s >? 0)%Z.
    + cbn in H. injection H as <- <-. cbn. auto.
    + unfold internal_shrink_to_fit, cur_page, page_at, bind, get, lift_opt in H. cbn in H.
      destruct (nth_error _ _); [|discriminate]. cbn in H. injection H as <- <-. cbn. auto.
Qed.

(** A usable object. *)
Definition sane (n : nat) (b : obj T) (l : list T) : Prop :=
  exists s, view n b = Some s /\ rep s l /\ clean s /\ ids_ok s /\ sync_count s = 0%Z.

Definition vinv (m : mem T) (i : ideal T) : Prop :=
  forall x, match i x with
            | None => vfind x (m_objs m) = None
            | Some None => exists b, vfind x (m_objs m) = Some b
            | Some (Some l) => exists b, vfind x (m_objs m) = Some b /\ sane (m_next m) b l
            end.

Lemma sane_next : forall n n' b l, n <= n' -> sane n b l -> sane n' b l.
Proof.
  intros n n' b l L (s & V & R & C & I & Z). unfold sane, view in *.
  destruct (index_of (b_cur b) (map fst (b_nodes b))) as [i|]; [|discriminate]. injection V as <-.
  eexists. split; [reflexivity|].
  destruct R as (p & t & a & R1 & R2 & R3 & R4 & R5 & R6).
  split; [exists p, t, a; cbn in *; auto 10|]. split; [exact C|]. split; [|exact Z].
  destruct I as (I1 & I2 & I3). split; [exact I1|]. split; [exact I2|].
  cbn in *. eapply Forall_impl; [|exact I3]. cbn. intros. lia.
Qed.

Lemma vinv_next : forall n n' objs i, n <= n' -> vinv (mkMem n objs) i -> vinv (mkMem n' objs) i.
Proof.
  intros n n' objs i L H x. specialize (H x). cbn [m_objs m_next] in *.
  destruct (i x) as [[l|]|]; auto. destruct H as (b & H1 & H2). exists b. split; auto. eapply sane_next; eauto.
Qed.

Lemma map_fst_combine : forall {A B} (a : list A) (b : list B), length a = length b -> map fst (combine a b) = a.
Proof.
  intros A B a. induction a as [|x a IH]; intros [|y b] H; cbn in *; try discriminate; auto.
  f_equal. auto.
Qed.
Lemma map_snd_combine : forall {A B} (a : list A) (b : list B), length a = length b -> map snd (combine a b) = b.
Proof.
  intros A B a. induction a as [|x a IH]; intros [|y b] H; cbn in *; try discriminate; auto.
  f_equal. auto.
Qed.

Lemma view_build : forall (s : stack T) l, rep s l -> ids_ok s -> view (next_id s) (build s) = Some s.
Proof.
  intros s l R (I1 & I2 & I3). unfold view, build. cbn [b_nodes b_cur b_ps b_pa b_count b_req].
  rewrite map_fst_combine, map_snd_combine by auto.
  pose proof (cur_lt _ _ R) as Hc.
  destruct (nth_error (ids s) (cur s)) as [n|] eqn:E; [|apply nth_error_None in E; lia].
  rewrite (nth_error_nth _ _ _ E), (nth_index_of n (ids s) (cur s) I2 E).
  assert (Hlk : locked s = false) by (destruct R as (? & ? & ? & ? & ? & ? & ? & ? & ?); auto).
  destruct s. cbn in *. subst. reflexivity.
Qed.

Lemma vinv_put : forall m i x b v n', vinv m i -> m_next m <= n' ->
  match v with Some l => sane n' b l | None => True end ->
  vinv (mkMem n' (vput x b (m_objs m))) (bind_to x (Some v) i).
Proof.
  intros m i x b v n' H L S0 y. unfold bind_to. cbn [m_objs m_next]. rewrite vfind_put.
  rewrite (Nat.eqb_sym y x). destruct (Nat.eqb_spec x y) as [->|N].
  - destruct v; eauto.
  - specialize (H y). destruct (i y) as [[l|]|]; auto.
    destruct H as (c & H1 & H2). exists c. split; auto. eapply sane_next; eauto.
Qed.

Lemma vstep : forall debug c m i i' rs, vinv m i -> vspec_step c i = Some (i', rs) ->
  exists m', vexec debug c m = ROk m' rs /\ vinv m' i'.
Proof.
  intros debug c m i i' rs H S0.
  assert (Found : forall x v, i x = Some v -> exists b, vfind x (m_objs m) = Some b /\
            match v with Some l => sane (m_next m) b l | None => True end).
  { intros x v E. pose proof (H x) as G. rewrite E in G. destruct v; [exact G|]. destruct G as [b G]. eauto. }
  assert (NotFound : forall x, i x = None -> vfind x (m_objs m) = None).
  { intros x E. pose proof (H x) as G. rewrite E in G. exact G. }
  destruct c; cbn [vspec_step vexec] in *.
  - (* VNew *)
    destruct (i x) eqn:E; [discriminate|]. rewrite (NotFound _ E).
    destruct ((1 <=? ps) && (1 <=? pa)) eqn:B; [|discriminate]. injection S0 as <- <-.
    apply andb_true_iff in B. destruct B as [B1 B2]. apply Nat.leb_le in B1, B2.
    destruct pa as [|pa]; [lia|]. eexists. split; [reflexivity|].
    apply vinv_put; auto; [lia|].
    destruct (construct_rep (T := T) ps (S pa) ltac:(lia)) as [R C].
    set (s := set_ids (seq (m_next m) (S pa)) (m_next m + S pa) (construct ps (S pa))).
    assert (Rs : rep s []).
    { destruct R as (p & t & a & R1 & R2 & R3 & R4 & R5 & R6). exists p, t, a. auto 10. }
    assert (Is : ids_ok s).
    { split; [cbn [s set_ids ids pages construct]; rewrite seq_length, repeat_length; auto|].
      split; [apply seq_NoDup|]. cbn [s set_ids ids next_id]. apply Forall_forall. intros y Hy. apply in_seq in Hy. lia. }
    exists s. split; [exact (view_build s _ Rs Is)|]. split; [exact Rs|]. split; [exact C|]. split; [exact Is|reflexivity].
  - (* VCall *)
    destruct (i x) as [[l|]|] eqn:E; try discriminate.
    destruct (core_op o) eqn:Co; [|discriminate].
    destruct (spec_step o l) as [[l' r]|] eqn:Sp; [|discriminate]. injection S0 as <- <-.
    destruct (Found _ _ E) as (b & F1 & s & V & R & C & I & Z0). rewrite F1, V.
    destruct (exec_ok debug o s l l' r R) as (s1 & E1 & E2 & E3 & E4 & _); auto.
    { intros ->. discriminate. }
    destruct (exec_ids debug o s s1 r E1 I) as (I1 & I2 & I3).
    rewrite E1. eexists. split; [reflexivity|].
    assert (C1 : clean s1) by (apply E4; auto; left; auto).
    destruct E3 as (F3 & F4 & F5).
    apply vinv_put; auto.
    + assert (Hn : next_id s = m_next m).
      { unfold view in V. destruct (index_of (b_cur b) (map fst (b_nodes b))); [|discriminate]. injection V as <-. reflexivity. }
      rewrite <- Hn. pose proof (exec_next debug o s s1 r E1) as L. exact L.
    + exists s1. split; [exact (view_build s1 _ E2 I1)|]. split; [auto|]. split; [auto|]. split; [auto|]. congruence.
  - (* VCopyNew *)
    destruct (i x) as [v|] eqn:Ex; [|discriminate]. destruct (i y) eqn:Ey; [discriminate|]. injection S0 as <- <-.
    destruct (Found _ _ Ex) as (b & F1 & _). rewrite F1, (NotFound _ Ey). eexists. split; [reflexivity|].
    apply vinv_put; auto. lia.
  - (* VMoveNew *)
    destruct (i x) as [v|] eqn:Ex; [|discriminate]. destruct (i y) eqn:Ey; [discriminate|]. injection S0 as <- <-.
    destruct (Found _ _ Ex) as (b & F1 & F2). rewrite F1, (NotFound _ Ey). eexists. split; [reflexivity|].
    apply (vinv_put (mkMem (m_next m) (vput x (moved_from b) (m_objs m)))); auto.
    apply (vinv_put m i x (moved_from b) None); auto.
  - (* VCopyAssign *)
    destruct (i x) as [v|] eqn:Ex; [|discriminate]. destruct (i y) eqn:Ey; [|discriminate]. injection S0 as <- <-.
    destruct (Found _ _ Ex) as (b & F1 & _). destruct (Found _ _ Ey) as (c & G1 & _). rewrite F1, G1.
    destruct (x =? y); [exists m; auto|]. eexists. split; [reflexivity|]. apply vinv_put; auto. lia.
  - (* VMoveAssign *)
    destruct (i x) as [v|] eqn:Ex; [|discriminate]. destruct (i y) eqn:Ey; [|discriminate].
    destruct (Found _ _ Ex) as (b & F1 & F2). destruct (Found _ _ Ey) as (c & G1 & _). rewrite F1, G1.
    destruct (x =? y); [discriminate|]. injection S0 as <- <-. eexists. split; [reflexivity|].
    apply (vinv_put (mkMem (m_next m) (vput x (moved_from b) (m_objs m)))); auto.
    apply (vinv_put m i x (moved_from b) None); auto.
  - (* VDestroy *)
    destruct (i x) as [v|] eqn:Ex; [|discriminate]. injection S0 as <- <-.
    destruct (Found _ _ Ex) as (b & F1 & _). rewrite F1. eexists. split; [reflexivity|].
    intros y. unfold bind_to. cbn [m_objs m_next]. rewrite vfind_del, (Nat.eqb_sym y x).
    destruct (x =? y); auto. apply H.
Qed.

Lemma vrun_ok : forall debug cs m i i' rs, vinv m i -> vspec_run cs i = Some (i', rs) ->
  exists m', vrun debug cs m = ROk m' rs /\ vinv m' i'.
Proof.
  intros debug cs. induction cs as [|c cs IH]; intros m i i' rs H S0; cbn [vspec_run vrun] in *.
  - injection S0 as <- <-. eauto.
  - destruct (vspec_step c i) as [[i1 r1]|] eqn:E; [|discriminate].
    destruct (vspec_run cs i1) as [[i2 r2]|] eqn:E2; [|discriminate]. injection S0 as <- <-.
    destruct (vstep debug _ _ _ _ _ H E) as (m1 & X1 & X2). rewrite X1.
    destruct (IH _ _ _ _ X2 E2) as (m2 & Y1 & Y2). rewrite Y1. eauto.
Qed.

(** ** Property-level lemmas *)

Lemma values_ok : forall debug (cs : list (vop T)) i rs, vspec_run cs no_stacks = Some (i, rs) ->
  exists m, vrun debug cs vm0 = ROk m rs.
Proof.
  intros debug cs i rs H. destruct (vrun_ok debug cs vm0 no_stacks i rs) as (m & M & _); eauto.
  intros x. reflexivity.
Qed.

Lemma vspec_app : forall (cs ds : list (vop T)) i i1 r1 i2 r2, vspec_run cs i = Some (i1, r1) ->
  vspec_run ds i1 = Some (i2, r2) -> vspec_run (cs ++ ds) i = Some (i2, r1 ++ r2).
Proof.
  intros cs. induction cs as [|c cs IH]; intros ds i i1 r1 i2 r2 H G; cbn [vspec_run app] in *.
  - injection H as <- <-. exact G.
  - destruct (vspec_step c i) as [[i0 r0]|]; [|discriminate].
    destruct (vspec_run cs i0) as [[i' r']|] eqn:E; [|discriminate]. injection H as <- <-.
    rewrite (IH _ _ _ _ _ _ E G), app_assoc. reflexivity.
Qed.

Lemma swap_ok : forall debug (cs : list (vop T)) i rs x y t u v, vspec_run cs no_stacks = Some (i, rs) ->
  i x = Some u -> i y = Some v -> i t = None -> x <> y ->
  exists m i', vrun debug (cs ++ vswap x y t) vm0 = ROk m rs /\ vspec_run (cs ++ vswap x y t) no_stacks = Some (i', rs) /\
    i' x = Some v /\ i' y = Some u /\ forall z, z <> x -> z <> y -> i' z = i z.
Proof.
  intros debug cs i rs x y t u v H Hx Hy Ht N.
  assert (Nx : x <> t) by congruence. assert (Ny : y <> t) by congruence.
  assert (X : exists i', vspec_run (vswap x y t) i = Some (i', []) /\ i' x = Some v /\ i' y = Some u /\
     forall z, z <> x -> z <> y -> i' z = i z).
  { unfold vswap. cbn [vspec_run vspec_step]. rewrite Hx, Ht.
    unfold bind_to. rewrite ?Nat.eqb_refl.
    repeat (match goal with |- context [?a =? ?b] => destruct (Nat.eqb_spec a b); [exfalso; congruence|] end;
            rewrite ?Hx, ?Hy, ?Ht, ?Nat.eqb_refl).
    eexists. split; [reflexivity|]. cbv beta. rewrite ?Nat.eqb_refl.
    split; [|split].
    - repeat (match goal with |- context [?a =? ?b] => destruct (Nat.eqb_spec a b); try (exfalso; congruence) end); auto.
    - repeat (match goal with |- context [?a =? ?b] => destruct (Nat.eqb_spec a b); try (exfalso; congruence) end); auto.
    - intros z Z1 Z2.
      repeat (match goal with |- context [?a =? ?b] => destruct (Nat.eqb_spec a b); try (exfalso; congruence) end); auto.
      congruence. }
  destruct X as (i' & X1 & X2 & X3 & X4).
  pose proof (vspec_app _ _ _ _ _ _ _ H X1) as Y. rewrite app_nil_r in Y.
  destruct (values_ok debug _ _ _ Y) as [m M]. exists m, i'. auto 10.
Qed.

(** ** Each node belongs to one object *)

Definition R_new (s s' : stack T) : Prop :=
  next_id s <= next_id s' /\ forall n, List.In n (ids s') -> List.In n (ids s) \/ next_id s <= n.
Lemma R_new_refl : forall s, R_new s s.
Proof. split; auto. Qed.
Lemma R_new_trans : forall s1 s2 s3, R_new s1 s2 -> R_new s2 s3 -> R_new s1 s3.
Proof.
  intros s1 s2 s3 [A1 A2] [B1 B2]. split; [lia|]. intros n H.
  destruct (B2 n H) as [G|G]; [auto|right; lia].
Qed.

Lemma internal_push_one_new : forall x s, post R_new whatever s (internal_push_one x s).
Proof.
  pose proof R_new_refl as Rr. pose proof R_new_trans as Rt.
  intros x s. unfold internal_push_one. apply post_bind; auto.
  - unfold advance. apply post_bind; auto.
    + unfold cur_page, page_at, bind, get, lift_opt. destruct (nth_error _ _); simpl; auto. exact I.
    + intros s1 p _ _. apply post_get. destruct (length p =? page_size s1); [|simpl; auto].
      apply post_bind; auto.
      * simpl. split; auto.
      * intros s2 _ _ _. apply post_get. destruct (_ =? _); [|simpl; auto].
        unfold growBase. apply post_get. simpl. split; simpl; [lia|].
        intros n H. apply in_app_or in H. destruct H as [H|H]; auto. apply in_seq in H. lia.
  - intros s1 _ _ _. unfold cur_page, page_at, bind, get, lift_opt, write_cur, put.
    destruct (nth_error _ _); simpl; [|exact I]. split; auto.
Qed.

Lemma internal_push_new : forall xs s, post R_new whatever s (internal_push xs s).
Proof.
  pose proof R_new_refl as Rr. pose proof R_new_trans as Rt.
  induction xs as [|x xs IH]; intros s; [apply post_ret; auto|].
  cbn [internal_push]. apply post_bind; auto. apply internal_push_one_new.
Qed.

Lemma with_lock_new : forall {A} (m : M (stack T) A) s s' a,
  (forall s, post R_new whatever s (m s)) -> with_lock m s = ROk s' a -> R_new s s'.
Proof.
  intros A m s s' a H E. apply with_lock_inv in E. destruct E as (s1 & E & ->).
  specialize (H (set_locked true s)). rewrite E in H. exact H.
Qed.

Lemma exec_new : forall debug o (s s' : stack T) r, exec debug o s = ROk s' r -> R_new s s'.
Proof.
  intros debug o s s' r H. destruct (makes_pages o) eqn:Em.
  2:{ pose proof (exec_keeps debug o Em s) as K. rewrite H in K.
      destruct K as (K1 & K2 & K3 & K4). split; [lia|]. rewrite K2. auto. }
  destruct o; try discriminate; cbn [exec] in H; unfold bind in H.
  - destruct (push x xs s) eqn:E; try discriminate. injection H as <- _.
    eapply (with_lock_new (internal_push (x :: xs))); eauto. apply internal_push_new.
  - destruct (push_emplace x s) eqn:E; try discriminate. injection H as <- _.
    eapply (with_lock_new (internal_push_one x)); eauto. apply internal_push_one_new.
  - unfold shrink_to_fit, with_lock in H. destruct (locked s); [discriminate|].
    unfold bind, get in H. cbn [sync_count set_locked] in H.
    destruct (sync_count s >? 0)%Z.
    + cbn in H. injection H as <- <-. split; cbn; auto.
    + unfold internal_shrink_to_fit, cur_page, page_at, bind, get, lift_opt in H.
      cbn [pages cur set_locked] in H. destruct (nth_error (pages s) (cur s)); [|discriminate].
      unfold put, ret in H. cbn [cur pages set_locked set_ids set_pages ids next_id] in H.
      injection H as <- <-. split; cbn [ids next_id set_locked set_ids set_pages]; auto.
      intros n Hn. left. rewrite <- (firstn_skipn (S (cur s)) (ids s)). apply in_or_app. auto.
Qed.

Definition own1 (n : nat) (b : obj T) : Prop :=
  NoDup (map fst (b_nodes b)) /\ Forall (fun k => k < n) (map fst (b_nodes b)).
Definition apart (b c : obj T) : Prop :=
  forall k, List.In k (map fst (b_nodes b)) -> ~ List.In k (map fst (b_nodes c)).
Definition owns (m : mem T) : Prop :=
  forall x b, vfind x (m_objs m) = Some b -> own1 (m_next m) b /\
    forall y c, x <> y -> vfind y (m_objs m) = Some c -> apart b c.

Lemma apart_sym : forall b c, apart b c -> apart c b.
Proof. intros b c H k H1 H2. exact (H k H2 H1). Qed.

Lemma own1_next : forall n n' b, n <= n' -> own1 n b -> own1 n' b.
Proof. intros n n' b L [A B]. split; auto. eapply Forall_impl; [|exact B]. cbn. intros. lia. Qed.

(** Replacing or adding an object. *)
Lemma owns_put : forall m x b n', owns m -> m_next m <= n' -> own1 n' b ->
  (forall y c, y <> x -> vfind y (m_objs m) = Some c -> apart b c) ->
  owns (mkMem n' (vput x b (m_objs m))).
Proof.
  intros m x b n' H L O A y c F. cbn [m_objs m_next] in *. rewrite vfind_put in F.
  destruct (Nat.eqb_spec x y) as [<-|N].
  - injection F as <-. split; auto. intros z d Nz Fz. rewrite vfind_put in Fz.
    destruct (Nat.eqb_spec x z); [congruence|]. eauto.
  - destruct (H y c F) as [H1 H2]. split; [eapply own1_next; eauto|].
    intros z d Nz Fz. rewrite vfind_put in Fz. destruct (Nat.eqb_spec x z) as [<-|N'].
    + injection Fz as <-. apply apart_sym. eauto.
    + eauto.
Qed.

Lemma owns_step : forall debug c m m' rs, owns m -> vexec debug c m = ROk m' rs -> owns m'.
Proof.
  intros debug c m m' rs H E.
  assert (Fresh : forall k b, m_next m <= k -> own1 (m_next m) b -> List.In k (map fst (b_nodes b)) -> False).
  { intros k b L [_ B] G. rewrite Forall_forall in B. specialize (B k G). lia. }
  assert (Cp : forall b, own1 (m_next m + length (b_nodes b)) (copied (m_next m) b) /\
            forall k, List.In k (map fst (b_nodes (copied (m_next m) b))) -> m_next m <= k).
  { intros b. unfold own1, copied. cbn [b_nodes].
    rewrite map_fst_combine by (rewrite seq_length, map_length; auto).
    split; [split; [apply seq_NoDup|]|].
    - apply Forall_forall. intros k G. apply in_seq in G. lia.
    - intros k G. apply in_seq in G. lia. }
  assert (Mv : forall x y b, vfind x (m_objs m) = Some b -> x <> y ->
            owns (mkMem (m_next m) (vput y b (vput x (moved_from b) (m_objs m))))).
  { intros x y b F N. destruct (H x b F) as [H1 H2].
    apply (owns_put (mkMem (m_next m) (vput x (moved_from b) (m_objs m)))); auto.
    - apply owns_put; auto; [split; constructor|]. intros z d Nz Fz k G. destruct G.
    - intros z d Nz Fz. cbn [m_objs] in Fz. rewrite vfind_put in Fz.
      destruct (Nat.eqb_spec x z) as [<-|N']; [injection Fz as <-; intros k _ G; destruct G|].
      eauto. }
  destruct c; cbn [vexec] in E.
  - destruct (vfind x (m_objs m)) eqn:F; [discriminate|]. destruct pa as [|pa]; [discriminate|].
    generalize dependent (S pa). intros q E. injection E as <- <-. apply owns_put; auto; [lia| |].
    + unfold own1, build. cbn [b_nodes set_ids ids pages construct].
      rewrite map_fst_combine by (rewrite seq_length, repeat_length; auto).
      split; [apply seq_NoDup|]. apply Forall_forall. intros k G. apply in_seq in G. lia.
    + intros y c Ny Fy k G K. unfold build in G. cbn [b_nodes set_ids ids pages construct] in G.
      rewrite map_fst_combine in G by (rewrite seq_length, repeat_length; auto). apply in_seq in G.
      eapply Fresh; [|apply (H y c Fy)|exact K]. lia.
  - destruct (vfind x (m_objs m)) as [b|] eqn:F; [|discriminate].
    destruct (view (m_next m) b) as [s|] eqn:V; [|discriminate].
    destruct (exec debug o s) as [s1 r| |] eqn:X; try discriminate. injection E as <- <-.
    destruct (H x b F) as [[O1 O2] H2].
    assert (Vs : ids s = map fst (b_nodes b) /\ next_id s = m_next m /\ ids_ok s).
    { unfold view in V. destruct (index_of _ _); [|discriminate]. injection V as <-. cbn.
      split; auto. split; auto. split; [cbn; rewrite !map_length; auto|]. split; auto. }
    destruct Vs as (V1 & V2 & V3).
    destruct (exec_ids debug o s s1 r X V3) as ((I1 & I2 & I3) & _).
    destruct (exec_new debug o s s1 r X) as [N1 N2].
    assert (Nd : map fst (b_nodes (build s1)) = ids s1).
    { unfold build. cbn [b_nodes]. apply map_fst_combine. auto. }
    apply owns_put; auto; [lia| |].
    + unfold own1. rewrite Nd. auto.
    + intros y c Ny Fy k G K. rewrite Nd in G. destruct (N2 k G) as [G'|G'].
      * rewrite V1 in G'. exact (H2 y c ltac:(congruence) Fy k G' K).
      * eapply Fresh; [|apply (H y c Fy)|exact K]. lia.
  - destruct (vfind x (m_objs m)) as [b|] eqn:F; [|discriminate].
    destruct (vfind y (m_objs m)) eqn:Fy; [discriminate|]. injection E as <- <-.
    destruct (Cp b) as [C1 C2]. apply owns_put; auto; [lia|].
    intros z d Nz Fz k G K. eapply Fresh; [apply C2; exact G|apply (H z d Fz)|exact K].
  - destruct (vfind x (m_objs m)) as [b|] eqn:F; [|discriminate].
    destruct (vfind y (m_objs m)) eqn:Fy; [discriminate|]. injection E as <- <-.
    apply Mv; auto. congruence.
  - destruct (vfind x (m_objs m)) as [b|] eqn:F; [|discriminate].
    destruct (vfind y (m_objs m)) eqn:Fy; [|discriminate].
    destruct (x =? y); [injection E as <- <-; auto|]. injection E as <- <-.
    destruct (Cp b) as [C1 C2]. apply owns_put; auto; [lia|].
    intros z d Nz Fz k G K. eapply Fresh; [apply C2; exact G|apply (H z d Fz)|exact K].
  - destruct (vfind x (m_objs m)) as [b|] eqn:F; [|discriminate].
    destruct (vfind y (m_objs m)) eqn:Fy; [|discriminate].
    destruct (Nat.eqb_spec x y); [discriminate|]. injection E as <- <-. apply Mv; auto.
  - destruct (vfind x (m_objs m)) as [b|] eqn:F; [|discriminate]. injection E as <- <-.
    intros y c Fy. cbn [m_objs m_next] in *. rewrite vfind_del in Fy. destruct (x =? y); [discriminate|].
    destruct (H y c Fy) as [H1 H2]. split; auto. intros z d Nz Fz. rewrite vfind_del in Fz.
    destruct (x =? z); [discriminate|]. eauto.
Qed.

Lemma ownership : forall debug (cs : list (vop T)) m rs, vrun debug cs vm0 = ROk m rs ->
  forall x b, vfind x (m_objs m) = Some b -> NoDup (map fst (b_nodes b)) /\
    forall y c, x <> y -> vfind y (m_objs m) = Some c ->
      forall k, List.In k (map fst (b_nodes b)) -> ~ List.In k (map fst (b_nodes c)).
Proof.
  intros debug cs m rs R.
  assert (G : forall m0 m rs, owns m0 -> vrun debug cs m0 = ROk m rs -> owns m).
  { clear. induction cs as [|c cs IH]; intros m0 m rs H R; cbn [vrun] in R; [injection R as <- <-; auto|].
    destruct (vexec debug c m0) as [m1 r1| |] eqn:E; try discriminate.
    destruct (vrun debug cs m1) as [m2 r2| |] eqn:E2; try discriminate. injection R as <- <-.
    eapply IH; [|exact E2]. eapply owns_step; eauto. }
  intros x b F. destruct (G vm0 m rs ltac:(intros z d Fz; discriminate) R x b F) as [[A _] B]. auto.
Qed.

End ValueProofs.
