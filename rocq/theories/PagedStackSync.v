(** * PagedStack: proofs about synchronised iterators. *)
From Coq Require Import List Arith ZArith Lia Bool.
From Verif Require Import Base ListFacts PagedStackModel PagedStackSpec PagedStackExec
  PagedStackProofs PagedStackIter PagedStackFrame PagedStackBlocks PagedStackMisc PagedStackSyncSpec.
Import ListNotations.
Open Scope m_scope.

Section SyncProofs.
Context {T : Type}.
Notation stack := (stack T).
Implicit Types (s : stack).

(** ** Node identities *)

Lemma index_of_nth : forall x l i, index_of x l = Some i -> nth_error l i = Some x.
Proof.
  intros x l. induction l as [|y l IH]; intros i H; simpl in H; [discriminate|].
  destruct (Nat.eqb_spec y x) as [->|N].
  - injection H as <-. reflexivity.
  - destruct (index_of x l) as [j|]; [|discriminate]. injection H as <-. simpl. auto.
Qed.

Lemma nth_index_of : forall x l i, NoDup l -> nth_error l i = Some x -> index_of x l = Some i.
Proof.
  intros x l. induction l as [|y l IH]; intros i H Hi; [destruct i; discriminate|].
  inversion H; subst. simpl. destruct (Nat.eqb_spec y x) as [->|N].
  - destruct i; auto. simpl in Hi. apply nth_error_In in Hi. contradiction.
  - destruct i; simpl in Hi; [congruence|]. rewrite (IH i); auto.
Qed.

Lemma index_of_app : forall x l l' i, index_of x l = Some i -> index_of x (l ++ l') = Some i.
Proof.
  intros x l. induction l as [|y l IH]; intros l' i H; simpl in *; [discriminate|].
  destruct (y =? x); auto. destruct (index_of x l); [|discriminate].
  rewrite (IH l' n eq_refl). auto.
Qed.

Lemma index_of_none : forall x l, ~ In x l -> index_of x l = None.
Proof.
  intros x l. induction l as [|y l IH]; intros H; simpl; auto.
  destruct (Nat.eqb_spec y x) as [->|N]; [destruct H; simpl; auto|].
  rewrite IH; auto. intros G. apply H. simpl. auto.
Qed.

Definition ids_ok (s : stack) : Prop :=
  length (ids s) = length (pages s) /\ NoDup (ids s) /\ Forall (fun i => i < next_id s) (ids s).

Definition R_ids (s s' : stack) : Prop := ids_ok s -> ids_ok s'.

Lemma NoDup_app_seq : forall l n k, NoDup l -> Forall (fun i => i < n) l -> NoDup (l ++ seq n k).
Proof.
  intros l n k H F. induction H as [|x l Hx H IH]; simpl; [apply seq_NoDup|].
  inversion F; subst. constructor; [|auto].
  rewrite in_app_iff, in_seq. intros [G|G]; [contradiction|lia].
Qed.

Lemma ids_ok_pages : forall s p, length p = length (pages s) -> ids_ok s -> ids_ok (set_pages p s).
Proof. intros s p H (H1 & H2 & H3). repeat split; auto. simpl. lia. Qed.

Lemma internal_push_one_ids : forall x s, post R_ids whatever s (internal_push_one x s).
Proof.
  assert (Rr : forall s, R_ids s s) by (intros s; red; auto).
  assert (Rt : forall s1 s2 s3, R_ids s1 s2 -> R_ids s2 s3 -> R_ids s1 s3) by (unfold R_ids; auto).
  intros x s. unfold internal_push_one. apply post_bind; auto.
  - unfold advance. apply post_bind; auto.
    + unfold cur_page, page_at, bind, get, lift_opt. destruct (nth_error _ _); simpl; auto. exact I.
    + intros s1 p _ _. apply post_get. destruct (length p =? page_size s1); [|simpl; auto].
      apply post_bind; auto.
      * simpl. red. intros (H1 & H2 & H3). repeat split; auto.
      * intros s2 _ _ _. apply post_get. destruct (_ =? _); [|simpl; auto].
        unfold growBase. apply post_get. simpl. intros (H1 & H2 & H3). repeat split; simpl.
        -- rewrite !app_length, repeat_length, seq_length. lia.
        -- apply NoDup_app_seq; auto.
        -- apply Forall_app. split.
           ++ eapply Forall_impl; [|exact H3]. simpl. intros. lia.
           ++ apply Forall_forall. intros y Hy. apply in_seq in Hy. lia.
  - intros s1 _ _ _. unfold cur_page, page_at, write_cur, bind, get, lift_opt.
    destruct (nth_error _ _); simpl; [|exact I]. red. apply ids_ok_pages. apply upd_length.
Qed.

Lemma internal_push_ids : forall xs s, post R_ids whatever s (internal_push xs s).
Proof.
  assert (Rt : forall s1 s2 s3, R_ids s1 s2 -> R_ids s2 s3 -> R_ids s1 s3) by (unfold R_ids; auto).
  induction xs as [|x xs IH]; intros s; [simpl; red; auto|].
  cbn [internal_push]. apply post_bind; auto. apply internal_push_one_ids.
Qed.

Lemma with_lock_ids : forall {A} (m : M stack A) s s' a,
  (forall s, post R_ids whatever s (m s)) -> with_lock m s = ROk s' a -> ids_ok s -> ids_ok s'.
Proof.
  intros A m s s' a H E (H1 & H2 & H3). apply with_lock_inv in E. destruct E as (s1 & E & ->).
  specialize (H (set_locked true s)). rewrite E in H. simpl in H.
  destruct (H ltac:(repeat split; auto)) as (G1 & G2 & G3). repeat split; auto.
Qed.

Lemma firstn_NoDup : forall {A} n (l : list A), NoDup l -> NoDup (firstn n l).
Proof.
  intros A n l H. rewrite <- (firstn_skipn n l) in H.
  remember (firstn n l) as u. remember (skipn n l) as v. clear Hequ Heqv.
  induction u as [|x u IH]; [constructor|]. simpl in H. inversion H; subst. constructor.
  - intros G. apply H2. apply in_or_app. auto.
  - auto.
Qed.
Lemma firstn_Forall : forall {A} (P : A -> Prop) n (l : list A), Forall P l -> Forall P (firstn n l).
Proof.
  intros A P n l H. rewrite <- (firstn_skipn n l) in H. apply Forall_app in H. apply H.
Qed.

Lemma shrink_ids : forall s c, ids_ok s ->
  ids_ok (set_ids (firstn c (ids s)) (next_id s) (set_pages (firstn c (pages s)) s)).
Proof.
  intros s c (H1 & H2 & H3). repeat split; simpl.
  - rewrite !firstn_length. lia.
  - apply firstn_NoDup; auto.
  - apply firstn_Forall; auto.
Qed.

(** A core call keeps the identities; the live nodes stay, unless the call is a
    shrink_to_fit with no live iterator. *)
Lemma exec_ids : forall debug o s s' r, exec debug o s = ROk s' r -> ids_ok s ->
  ids_ok s' /\
  (o <> Shrink \/ (sync_count s > 0)%Z -> exists more, ids s' = ids s ++ more) /\
  (o <> Shrink -> shrink_req s' = shrink_req s).
Proof.
  intros debug o s s' r H Hi. destruct (makes_pages o) eqn:Em.
  2:{ pose proof (exec_keeps debug o Em s) as K. rewrite H in K.
      destruct K as (K1 & K2 & K3 & K4 & K5 & K6 & K7). destruct Hi as (H1 & H2 & H3).
      split; [|split; [exists []; rewrite app_nil_r; auto|auto]]. split; [congruence|]. rewrite K2, K3. auto. }
  destruct (is_push o) eqn:Ep.
  - pose proof (exec_push_ex debug o s Ep) as X. rewrite H in X.
    destruct X as (_ & X2 & _ & _ & _ & X6 & _). split; [|split; auto].
    destruct o; try discriminate; cbn [exec] in H; unfold bind in H.
    + destruct (push x xs s) eqn:E; try discriminate. injection H as <- _.
      eapply (with_lock_ids (internal_push (x :: xs))); eauto. apply internal_push_ids.
    + destruct (push_emplace x s) eqn:E; try discriminate. injection H as <- _.
      eapply (with_lock_ids (internal_push_one x)); eauto. apply internal_push_one_ids.
  - destruct o; try discriminate. cbn [exec] in H. unfold bind in H.
    unfold shrink_to_fit, with_lock in H. destruct (locked s); [discriminate|].
    unfold bind, get in H. cbn [sync_count set_locked] in H.
    destruct (Z.gtb_spec (sync_count s) 0) as [G|G].
    + cbn in H. injection H as <- <-. split; [exact Hi|]. split; [exists []; cbn; rewrite app_nil_r; auto|].
      intros N. congruence.
    + unfold internal_shrink_to_fit, cur_page, page_at, bind, get, lift_opt in H. cbn in H.
      destruct (nth_error _ _); [|discriminate]. cbn in H. injection H as <- <-.
      split; [apply (shrink_ids s (S (cur s)) Hi)|]. split; [intros [N|N]; [congruence|lia]|congruence].
Qed.

(** ** The invariant *)

Definition iter_ok (s : stack) (it : siter) : Prop :=
  exists i, index_of (s_node it) (ids s) = Some i /\
    (-1 <= s_off it < Z.of_nat (page_size s))%Z /\ (s_off it = (-1)%Z -> i = 0) /\
    (torn it = true -> i = 0 /\ (0 <= s_off it)%Z).

Lemma iter_ok_mkS : forall s n o i, index_of n (ids s) = Some i -> (-1 <= o < Z.of_nat (page_size s))%Z ->
  (o = (-1)%Z -> i = 0) -> iter_ok s (mkS n o).
Proof.
  intros s n o i H1 H2 H3. exists i. cbn [mkS s_node s_off]. split; auto. split; auto. split; auto.
  unfold torn. cbn [mkS s_node s_data]. rewrite Nat.eqb_refl. discriminate.
Qed.

Definition winv (ps pa : nat) (w : world T) (x : sspec T) : Prop :=
  let s := w_stack w in
  rep s (ss_list x) /\ clean s /\ page_size s = ps /\ alloc_size s = pa /\ ids_ok s /\
  sync_count s = Z.of_nat (length (w_live w)) /\ length (w_live w) = ss_live x /\
  shrink_req s = ss_pending x /\ (ss_pending x = true -> 1 <= ss_live x) /\
  length (pages s) = ss_blocks x /\ Forall (iter_ok s) (w_live w).

Lemma iter_ok_mono : forall s s' it more, ids s' = ids s ++ more -> page_size s' = page_size s ->
  iter_ok s it -> iter_ok s' it.
Proof.
  intros s s' it more H1 H2 (i & G1 & G2 & G3 & G4). exists i. rewrite H1, H2. split; auto.
  apply index_of_app. auto.
Qed.

Lemma winv_fresh : forall ps pa, 1 <= pa -> winv ps pa (wfresh ps pa) (sfresh pa).
Proof.
  intros ps pa H. destruct (construct_rep (T := T) ps pa H) as [C1 C2].
  unfold winv. simpl. split; auto. split; auto. split; auto. split; auto.
  split; [repeat split; simpl|].
  - rewrite seq_length, repeat_length. auto.
  - apply seq_NoDup.
  - apply Forall_forall. intros y Hy. apply in_seq in Hy. lia.
  - repeat split; auto; try discriminate. apply repeat_length.
Qed.

(** Full pages below the current one, any page at most [ps]. *)
Lemma page_len : forall s l i p, rep s l -> clean s -> 1 <= page_size s -> nth_error (pages s) i = Some p ->
  length p <= page_size s /\ (i < cur s -> length p = page_size s) /\ (cur s < i -> p = []) /\
  (i <= cur s -> forall k x, nth_error p k = Some x -> In x l) /\ (i = cur s -> l <> [] -> p <> []) /\
  (l = [] -> p = []).
Proof.
  intros s l i p R C Hp Hi. pose proof (page_caps s l R C Hp) as F.
  destruct R as (b & t & a & R1 & R2 & R3 & R4 & R5 & R6).
  split; [rewrite Forall_forall in F; apply F; eapply nth_error_In; eauto|].
  rewrite R1 in Hi. rewrite R2.
  rewrite (clean_split s b t a R1 R2) in C.
  assert (Hab : cur s < i -> p = []).
  { intros L. rewrite nth_error_app2 in Hi by lia. destruct (i - length b) as [|k] eqn:E; [lia|].
    simpl in Hi. apply nth_error_In in Hi. rewrite Forall_forall in C. apply C. auto. }
  split; [|split; [|split; [|split]]].
  - intros L. rewrite nth_error_app1 in Hi by lia. apply nth_error_In in Hi.
    pose proof (sh_full _ _ _ R3) as G. rewrite Forall_forall in G. auto.
  - intros L. apply Hab. lia.
  - intros L k x Hk. rewrite R6, <- in_rev. apply in_or_app.
    destruct (Nat.eq_dec i (length b)) as [->|N].
    + rewrite nth_error_mid in Hi. injection Hi as ->. right. eapply nth_error_In; eauto.
    + left. rewrite nth_error_app1 in Hi by lia. apply nth_error_In in Hi. apply in_concat. eexists. split; eauto.
      eapply nth_error_In; eauto.
  - intros -> Hl ->. rewrite nth_error_mid in Hi. injection Hi as ->.
    rewrite (sh_top _ _ _ R3 eq_refl) in R6. simpl in R6. contradiction.
  - intros E. rewrite E in R6. assert (concat b ++ t = []) as G.
    { apply length_zero_iff_nil. rewrite <- (rev_length (concat b ++ t)), <- R6. reflexivity. }
    apply app_eq_nil in G. destruct G as [_ ->]. rewrite (sh_top _ _ _ R3 eq_refl) in *. simpl in *.
    destruct i; simpl in Hi; [congruence|]. apply nth_error_In in Hi. rewrite Forall_forall in C. auto.
Qed.

Lemma cur_page_nth : forall s l, rep s l -> exists p, nth_error (pages s) (cur s) = Some p.
Proof.
  intros s l (b & t & a & R1 & R2 & _). exists t. rewrite R1, R2. apply nth_error_mid.
Qed.

Lemma ids_nth : forall s i p, ids_ok s -> nth_error (pages s) i = Some p ->
  exists n, nth_error (ids s) i = Some n /\ index_of n (ids s) = Some i.
Proof.
  intros s i p (H1 & H2 & H3) Hi.
  destruct (nth_error (ids s) i) as [n|] eqn:E.
  - exists n. split; auto. apply nth_index_of; auto.
  - apply nth_error_None in E. assert (i < length (pages s)) by (apply nth_error_Some; congruence). lia.
Qed.

Lemma page_of_node : forall s n i, ids_ok s -> index_of n (ids s) = Some i ->
  exists p, nth_error (pages s) i = Some p.
Proof.
  intros s n i (H1 & _) Hi. apply index_of_nth in Hi.
  destruct (nth_error (pages s) i) eqn:E; eauto. apply nth_error_None in E.
  assert (i < length (ids s)) by (apply nth_error_Some; congruence). lia.
Qed.

(** Is the iterator kept where it is? *)
Definition in_sync (s : stack) (i : nat) (p : list T) (off : Z) : bool :=
  if cur s =? i then (0 <=? off)%Z && (off <? Z.of_nat (length p))%Z else i <? cur s.

Ltac cb := cbn [page_size alloc_size pages PagedStackModel.ids next_id cur sync_count shrink_req locked
  set_locked mkS s_node s_data s_off fst snd f_page f_off ret] in *.

(** The pages and the contents. *)
Lemma cur_pos : forall s l, rep s l -> 1 <= page_size s -> (0 < cur s <-> page_size s < length l).
Proof.
  intros s l (b & t & a & R1 & R2 & R3 & R4 & R5 & R6) Hp.
  rewrite R6, rev_length, (shape_len (page_size s)), R2 by auto. split; intros H.
  - assert (t <> []). { intros ->. rewrite (sh_top _ _ _ R3 eq_refl) in H. simpl in H. lia. }
    assert (1 <= length t) by (destruct t; [congruence|simpl; lia]). nia.
  - pose proof (sh_cap _ _ _ R3 I ltac:(lia)). destruct b; cbn in *; lia.
Qed.

Lemma empty_cur : forall s, rep s [] -> cur s = 0.
Proof.
  intros s (b & t & a & R1 & R2 & R3 & R4 & R5 & R6).
  assert (concat b ++ t = []) as G.
  { apply length_zero_iff_nil. rewrite <- (rev_length (concat b ++ t)), <- R6. reflexivity. }
  apply app_eq_nil in G. destruct G as [_ ->]. rewrite (sh_top _ _ _ R3 eq_refl) in R2. auto.
Qed.

Lemma slot_in_use : forall s l j q o, rep s l -> clean s -> 1 <= page_size s -> nth_error (pages s) j = Some q ->
  o < page_size s ->
  (j * page_size s + o < length l -> exists v, nth_error q o = Some v /\ In v l) /\
  (length l <= j * page_size s + o -> nth_error q o = None).
Proof.
  intros s l j q o R C Hp Hj Ho. destruct (page_len s l j q R C Hp Hj) as (P1 & P2 & P3 & P4 & P5 & P6).
  destruct R as (b & t & a & R1 & R2 & R3 & R4 & R5 & R6).
  assert (El : length l = cur s * page_size s + length t) by (rewrite R6, rev_length, (shape_len (page_size s)), R2 by auto; lia).
  assert (Ht : length t <= page_size s).
  { apply (page_len s l (cur s) t); auto; [exists b, t, a; auto 10|]. rewrite R1, R2. apply nth_error_mid. }
  assert (Et : j = cur s -> q = t) by (intros ->; rewrite R1, R2, nth_error_mid in Hj; congruence).
  split; intros H.
  - assert (Hjc : j <= cur s) by nia.
    assert (Hlen : o < length q).
    { destruct (Nat.eq_dec j (cur s)) as [E|E]; [rewrite (Et E); subst j; lia|rewrite P2; lia]. }
    destruct (nth_error q o) as [v|] eqn:G; [|apply nth_error_None in G; lia].
    exists v. split; auto. eapply P4; eauto.
  - apply nth_error_None. destruct (Nat.lt_trichotomy j (cur s)) as [E|[E|E]].
    + nia.
    + rewrite (Et E). subst j. lia.
    + rewrite (P3 E). cbn. lia.
Qed.

(** A torn iterator. *)
Section Torn.
Variables (s : stack) (l : list T) (it : siter).
Hypothesis HR : rep s l.
Hypothesis HC : clean s.
Hypothesis Hps : 1 <= page_size s.
Hypothesis HI : ids_ok s.
Hypothesis Hn : index_of (s_node it) (ids s) = Some 0.
Hypothesis Ho : (0 <= s_off it < Z.of_nat (page_size s))%Z.
Hypothesis Ht : torn it = true.
Hypothesis Hlk : locked s = false.

Lemma sync_torn : synchronize it (set_locked true s) =
  if page_size s <? length l then ROk (set_locked true s) (it, true) else RBad UB.
Proof using All.
  destruct (page_of_node s _ 0 HI Hn) as [p Hp].
  unfold synchronize, node_pos, page_at, bind, get, lift_opt. cb. rewrite Hn. cb. rewrite Hp. unfold ret.
  rewrite Ht, andb_true_r. pose proof (cur_pos s l HR Hps) as Hc.
  destruct (Nat.ltb_spec (page_size s) (length l)) as [L|L].
  - destruct (Nat.eqb_spec (cur s) 0) as [E|E]; [lia|].
    destruct (Nat.ltb_spec 0 (cur s)); [reflexivity|lia].
  - destruct (Nat.eqb_spec (cur s) 0) as [E|E]; [reflexivity|lia].
Qed.

Lemma torn_get : (page_size s <? length l) && holds_below (page_size s) (length l) s it = true ->
  exists v, s_get it s = ROk s (it, v) /\ In v l.
Proof using All.
  intros E. apply andb_true_iff in E. destruct E as [E1 E2]. unfold holds_below in E2.
  destruct (index_of (s_data it) (ids s)) as [j|] eqn:Hj; [|discriminate]. apply Nat.ltb_lt in E2.
  destruct (page_of_node s _ j HI Hj) as [q Hq].
  destruct (slot_in_use s l j q (Z.to_nat (s_off it)) HR HC Hps Hq ltac:(lia)) as [G _].
  destruct (G E2) as (v & V1 & V2). exists v. split; auto.
  unfold s_get, with_lock. rewrite Hlk. unfold bind. rewrite sync_torn, E1.
  unfold data_pos, bind, get, lift_opt. cb. rewrite Hj. cb.
  unfold deref_at, page_at, bind, get, lift_opt. cb. rewrite Hq. cb.
  destruct (Z.ltb_spec (s_off it) 0); [lia|]. rewrite V1. cb.
  assert (EL : set_locked false (set_locked true s) = s) by (destruct s; simpl in *; subst; reflexivity).
  rewrite <- EL at 2. reflexivity.
Qed.

Lemma torn_get_UB : (page_size s <? length l) && holds_below (page_size s) (length l) s it = false ->
  s_get it s = RBad UB.
Proof using All.
  intros E. unfold s_get, with_lock. rewrite Hlk. unfold bind. rewrite sync_torn.
  destruct (page_size s <? length l); [|reflexivity]. cbn [andb] in E. unfold holds_below in E.
  unfold data_pos, bind, get, lift_opt. cb.
  destruct (index_of (s_data it) (ids s)) as [j|] eqn:Hj; [|reflexivity]. apply Nat.ltb_ge in E. cb.
  destruct (page_of_node s _ j HI Hj) as [q Hq].
  destruct (slot_in_use s l j q (Z.to_nat (s_off it)) HR HC Hps Hq ltac:(lia)) as [_ G].
  unfold deref_at, page_at, bind, get, lift_opt. cb. rewrite Hq. cb. rewrite (G E).
  destruct (s_off it <? 0)%Z; reflexivity.
Qed.

Lemma torn_step_UB : s_inc it s = RBad UB /\ s_dec it s = RBad UB.
Proof using All.
  unfold s_inc, s_dec, with_lock. rewrite Hlk. unfold bind. rewrite sync_torn.
  destruct (page_size s <? length l); [|auto]. cb. rewrite Ht. auto.
Qed.

End Torn.

(** An exception leaves the iterator in the bottom page, with its data where it was. *)
Lemma thrown_ok : forall s it, rep s [] -> ids_ok s -> iter_ok s it -> iter_ok s (s_thrown it s).
Proof.
  intros s it HR HI (i & I1 & I2 & I3 & I4). pose proof (empty_cur s HR) as Ec.
  destruct (cur_page_nth s [] HR) as [q Hq]. destruct (ids_nth s _ q HI Hq) as (n & N1 & N2).
  unfold s_thrown. rewrite N1. exists 0. cb. rewrite Ec in N2. split; auto. split; auto. split; auto.
  intros Ht. split; auto. destruct (Z.eqb_spec (s_off it) (-1)) as [E|E]; [|lia].
  specialize (I3 E). subst i.
  destruct (torn it) eqn:T0; [destruct (I4 eq_refl); lia|].
  unfold torn in Ht, T0. cb. apply negb_false_iff, Nat.eqb_eq in T0. apply negb_true_iff, Nat.eqb_neq in Ht.
  exfalso. apply Ht. rewrite <- T0. rewrite Ec in N1. apply index_of_nth in I1. congruence.
Qed.

Section OneIter.
Variables (s : stack) (l : list T) (it : siter) (i : nat) (p : list T).
Hypothesis HR : rep s l.
Hypothesis HC : clean s.
Hypothesis Hps : 1 <= page_size s.
Hypothesis HI : ids_ok s.
Hypothesis Hn : index_of (s_node it) (ids s) = Some i.
Hypothesis Ho : (-1 <= s_off it < Z.of_nat (page_size s))%Z.
Hypothesis He : s_off it = (-1)%Z -> i = 0.
Hypothesis Hpg : nth_error (pages s) i = Some p.
Hypothesis Ht : torn it = false.

Notation L := (set_locked true s).

Lemma sync_stay : in_sync s i p (s_off it) = true -> synchronize it L = ROk L (it, true).
Proof using All.
  intros E. unfold synchronize, node_pos, page_at, bind, get, lift_opt. cb. rewrite Hn. cb. rewrite Hpg.
  unfold ret. rewrite Ht, andb_false_r. unfold in_sync in E. rewrite E. reflexivity.
Qed.

Lemma sync_move : in_sync s i p (s_off it) = false ->
  (l = [] /\ synchronize it L = RThrow L) \/
  (l <> [] /\ exists q n, nth_error (pages s) (cur s) = Some q /\ q <> [] /\
     nth_error (ids s) (cur s) = Some n /\ index_of n (ids s) = Some (cur s) /\
     synchronize it L = ROk L (mkS n (Z.of_nat (length q) - 1), false)).
Proof using All.
  intros E. unfold synchronize, node_pos, page_at, bind, get, lift_opt. cb. rewrite Hn. cb. rewrite Hpg.
  unfold ret. rewrite Ht, andb_false_r. unfold in_sync in E. rewrite E.
  destruct (cur_page_nth s l HR) as [q Hq].
  unfold cur_page, page_at, bind, get, lift_opt. cb. rewrite Hq. cb.
  destruct (page_len s l (cur s) q HR HC Hps Hq) as (P1 & P2 & P3 & P4 & P5 & P6).
  destruct l as [|x0 l0] eqn:El.
  - left. split; auto. rewrite (P6 eq_refl). reflexivity.
  - right. split; [discriminate|]. assert (q <> []) by (apply P5; auto; discriminate).
    destruct (ids_nth s (cur s) q HI Hq) as (n & N1 & N2). exists q, n. repeat split; auto.
    destruct q; [congruence|]. unfold node_at, bind, get, lift_opt. cb. rewrite N1. reflexivity.
Qed.

Lemma sync_empty : l = [] -> in_sync s i p (s_off it) = false.
Proof using All.
  intros E. destruct (page_len s l i p HR HC Hps Hpg) as (P1 & P2 & P3 & P4 & P5 & P6).
  specialize (P6 E). unfold in_sync. subst p.
  assert (cur s = 0) as -> by (apply empty_cur; rewrite <- E; auto).
  destruct (Nat.eqb_spec 0 i); cbn; auto.
  destruct (Z.leb_spec 0 (s_off it)); cbn; auto. apply Z.ltb_ge. lia.
Qed.

(** Kept and not at the end: it addresses an element. *)
Lemma sync_elem : in_sync s i p (s_off it) = true -> (0 <= s_off it)%Z ->
  exists v, nth_error p (Z.to_nat (s_off it)) = Some v /\ In v l /\ i <= cur s.
Proof using All.
  intros E H0. destruct (page_len s l i p HR HC Hps Hpg) as (P1 & P2 & P3 & P4 & P5 & P6).
  unfold in_sync in E. destruct (Nat.eqb_spec (cur s) i) as [Ec|Ec].
  - apply andb_true_iff in E. destruct E as [_ E]. apply Z.ltb_lt in E.
    destruct (nth_error p (Z.to_nat (s_off it))) as [v|] eqn:G.
    + exists v. split; auto. split; [eapply P4; eauto; lia|lia].
    + apply nth_error_None in G. lia.
  - apply Nat.ltb_lt in E. rewrite P2 in P1 by auto.
    destruct (nth_error p (Z.to_nat (s_off it))) as [v|] eqn:G.
    + exists v. split; auto. split; [eapply P4; eauto; lia|lia].
    + apply nth_error_None in G. rewrite P2 in G by auto. lia.
Qed.

(** The end position counts as kept only below the current page. *)
Lemma sync_end_pos : in_sync s i p (s_off it) = true -> (s_off it < 0)%Z ->
  i = 0 /\ s_off it = (-1)%Z /\ page_size s < length l.
Proof using All.
  intros E H0. assert (s_off it = (-1)%Z) as E1 by lia. specialize (He E1). split; auto. split; auto.
  unfold in_sync in E. destruct (Nat.eqb_spec (cur s) i) as [Ec|Ec].
  - rewrite E1 in E. discriminate.
  - apply Nat.ltb_lt in E. destruct HR as (b & t & a & R1 & R2 & R3 & R4 & R5 & R6).
    rewrite R6, rev_length, (shape_len (page_size s)) by auto. rewrite R2 in E.
    assert (t <> []). { intros ->. rewrite (sh_top _ _ _ R3 eq_refl) in E. simpl in E. lia. }
    assert (1 <= length t) by (destruct t; [congruence|simpl; lia]). nia.
Qed.

Lemma is_end_iff : is_sync_end s it = true <-> (s_off it < 0)%Z.
Proof using All.
  unfold is_sync_end. destruct HI as (H1 & H2 & H3).
  pose proof (index_of_nth _ _ _ Hn) as Hx.
  destruct (ids s) as [|n0 ns] eqn:E; [destruct i; discriminate|].
  rewrite Ht, andb_true_r. rewrite andb_true_iff, Nat.eqb_eq, Z.eqb_eq. split; [intros [_ ->]; lia|].
  intros H0. assert (s_off it = (-1)%Z) as E1 by lia. rewrite (He E1) in Hx. simpl in Hx.
  split; [congruence|auto].
Qed.

Lemma same_page : s_data it = s_node it.
Proof using Ht. unfold torn in Ht. apply negb_false_iff, Nat.eqb_eq in Ht. auto. Qed.

Lemma self_ok : iter_ok s it.
Proof using Hn Ho He Ht. exists i. split; auto. split; auto. split; auto. rewrite Ht. discriminate. Qed.

(** get() *)
Lemma s_get_ok : (is_sync_end s it = true -> length l <= page_size s) -> locked s = false ->
  (l = [] /\ s_get it s = RThrow s) \/
  (l <> [] /\ exists it' v, s_get it s = ROk s (it', v) /\ In v l /\ iter_ok s it').
Proof using All.
  intros Hend Hl.
  assert (EL : set_locked false L = s) by (destruct s; simpl in *; subst; reflexivity).
  unfold s_get, with_lock. rewrite Hl.
  destruct (in_sync s i p (s_off it)) eqn:E.
  - right. split; [intros El; rewrite (sync_empty El) in E; discriminate|].
    assert (H0 : (0 <= s_off it)%Z).
    { destruct (Z.ltb_spec (s_off it) 0) as [G|G]; auto.
      destruct (sync_end_pos E G) as (_ & _ & X).
      specialize (Hend (proj2 is_end_iff G)). lia. }
    destruct (sync_elem E H0) as (v & V1 & V2 & V3).
    unfold bind. rewrite (sync_stay E). unfold data_pos, bind, get, lift_opt. cb. rewrite same_page, Hn. cb.
    unfold deref_at, page_at, bind, get, lift_opt. cb. rewrite Hpg. cb.
    destruct (Z.ltb_spec (s_off it) 0); [lia|]. rewrite V1. cb.
    exists it, v. rewrite <- EL at 2. split; auto. split; auto. apply self_ok.
  - destruct (sync_move E) as [(El & G)|(El & q & n & Q1 & Q2 & Q3 & Q4 & Q5)].
    + left. split; auto. unfold bind. rewrite G. f_equal. exact EL.
    + right. split; auto. unfold bind. rewrite Q5. unfold data_pos, bind, get, lift_opt. cb. rewrite Q4. cb.
      unfold deref_at, page_at, bind, get, lift_opt. cb. rewrite Q1. cb.
      assert (1 <= length q) by (destruct q; [congruence|simpl; lia]).
      destruct (Z.ltb_spec (Z.of_nat (length q) - 1) 0); [lia|].
      destruct (page_len s l (cur s) q HR HC Hps Q1) as (P1 & P2 & P3 & P4 & P5 & P6).
      destruct (nth_error q (Z.to_nat (Z.of_nat (length q) - 1))) as [v|] eqn:V.
      2:{ apply nth_error_None in V. lia. }
      cb. exists (mkS n (Z.of_nat (length q) - 1)), v. rewrite <- EL at 2. split; auto.
      split; [eapply P4; eauto|]. apply (iter_ok_mkS _ _ _ (cur s)); auto; lia.
Qed.

Lemma moved_ok : forall q n, nth_error (pages s) (cur s) = Some q -> q <> [] ->
  index_of n (ids s) = Some (cur s) -> iter_ok s (mkS n (Z.of_nat (length q) - 1)).
Proof using All.
  intros q n Q1 Q2 Q3. destruct (page_len s l (cur s) q HR HC Hps Q1) as (P1 & _).
  assert (1 <= length q) by (destruct q; [congruence|simpl; lia]).
  apply (iter_ok_mkS _ _ _ (cur s)); auto; lia.
Qed.

(** ++ *)
Lemma s_inc_ok : (is_sync_end s it = true -> length l <= page_size s) -> locked s = false ->
  (l = [] /\ s_inc it s = RThrow s) \/
  (l <> [] /\ exists it', s_inc it s = ROk s it' /\ iter_ok s it').
Proof using All.
  intros Hend Hl.
  assert (EL : set_locked false L = s) by (destruct s; simpl in *; subst; reflexivity).
  unfold s_inc, with_lock. rewrite Hl.
  destruct (in_sync s i p (s_off it)) eqn:E.
  - right. split; [intros El; rewrite (sync_empty El) in E; discriminate|].
    assert (H0 : (0 <= s_off it)%Z).
    { destruct (Z.ltb_spec (s_off it) 0) as [G|G]; auto.
      destruct (sync_end_pos E G) as (_ & _ & X).
      specialize (Hend (proj2 is_end_iff G)). lia. }
    destruct (sync_elem E H0) as (v & V1 & V2 & V3).
    unfold bind. rewrite (sync_stay E). cbn [fst snd]. rewrite Ht. unfold node_pos, bind, get, lift_opt. cb. rewrite Hn. cb.
    unfold f_inc, page_at, bind, get, lift_opt. cb. rewrite Hpg. cb.
    assert (Fin : forall j o q, nth_error (pages s) j = Some q ->
       (-1 <= o < Z.of_nat (page_size s))%Z -> (o = (-1)%Z -> j = 0) ->
       exists it', match node_at (f_page (mkF j o)) L with
                   | ROk s' a => ROk (set_locked false s') (mkS a (f_off (mkF j o)))
                   | RThrow s' => RThrow (set_locked false s')
                   | RBad b => RBad b end = ROk s it' /\ iter_ok s it').
    { intros j o q Hj Ho1 Ho2. destruct (ids_nth s j q HI Hj) as (n & N1 & N2).
      unfold node_at, bind, get, lift_opt. cb. rewrite N1. cb. exists (mkS n o). rewrite <- EL at 2.
      split; auto. apply (iter_ok_mkS _ _ _ j); auto. }
    destruct i as [|i'].
    + destruct (Z.ltb_spec (s_off it) 0); [lia|]. cb.
      destruct (Fin 0 (s_off it - 1)%Z p Hpg) as (it' & F1 & F2); try lia.
      cb. exists it'. split; auto. rewrite <- F1. destruct (node_at 0 L); reflexivity.
    + destruct (Z.eqb_spec (s_off it) 0).
      * destruct (nth_error (pages s) i') as [q|] eqn:Hq.
        2:{ apply nth_error_None in Hq. assert (S i' < length (pages s)) by (apply nth_error_Some; congruence). lia. }
        cb. rewrite Hq. unfold ret. cb. destruct (page_len s l i' q HR HC Hps Hq) as (P1 & P2 & _).
        specialize (P2 ltac:(lia)).
        destruct (Fin i' (Z.of_nat (length q) - 1)%Z q Hq) as (it' & F1 & F2); try lia.
        cb. exists it'. split; auto. rewrite <- F1. destruct (node_at i' L); reflexivity.
      * destruct (Z.ltb_spec (s_off it) 0); [lia|]. cb.
        destruct (Fin (S i') (s_off it - 1)%Z p Hpg) as (it' & F1 & F2); try lia.
        cb. exists it'. split; auto. rewrite <- F1. destruct (node_at (S i') L); reflexivity.
  - destruct (sync_move E) as [(El & G)|(El & q & n & Q1 & Q2 & Q3 & Q4 & Q5)].
    + left. split; auto. unfold bind. rewrite G. f_equal. exact EL.
    + right. split; auto. unfold bind. rewrite Q5. cb. exists (mkS n (Z.of_nat (length q) - 1)).
      rewrite <- EL at 2. split; auto. apply moved_ok; auto.
Qed.

Lemma is_begin_iff : i = cur s -> is_sync_begin s it = (s_off it =? Z.of_nat (length p) - 1)%Z.
Proof using All.
  intros E. subst i. unfold is_sync_begin. rewrite Hpg. rewrite (index_of_nth _ _ _ Hn), Nat.eqb_refl, Ht. reflexivity.
Qed.

(** -- *)
Lemma s_dec_ok : (is_sync_begin s it = true -> l <> [] -> S (cur s) < length (pages s)) -> locked s = false ->
  (l = [] /\ s_dec it s = RThrow s) \/
  (l <> [] /\ exists it', s_dec it s = ROk s it' /\ iter_ok s it').
Proof using All.
  intros Htop Hl.
  assert (EL : set_locked false L = s) by (destruct s; simpl in *; subst; reflexivity).
  unfold s_dec, with_lock. rewrite Hl.
  destruct (in_sync s i p (s_off it)) eqn:E.
  - assert (Hne : l <> []) by (intros El; rewrite (sync_empty El) in E; discriminate).
    right. split; auto.
    unfold bind. rewrite (sync_stay E). cbn [fst snd]. rewrite Ht. unfold node_pos, bind, get, lift_opt. cb. rewrite Hn. cb.
    unfold f_dec, page_at, bind, get, lift_opt. cb. rewrite Hpg. cb.
    destruct (page_len s l i p HR HC Hps Hpg) as (P1 & P2 & P3 & P4 & P5 & P6).
    assert (Hic : i <= cur s /\ (s_off it < Z.of_nat (length p))%Z).
    { unfold in_sync in E. destruct (Nat.eqb_spec (cur s) i).
      - apply andb_true_iff in E. destruct E as [_ E]. apply Z.ltb_lt in E. split; lia.
      - apply Nat.ltb_lt in E. rewrite P2 by auto. split; lia. }
    destruct Hic as [Hic Hoc].
    destruct (Z.ltb_spec (Z.of_nat (length p)) (s_off it + 1)); [lia|].
    assert (Fin : forall j o q, nth_error (pages s) j = Some q ->
       (0 <= o < Z.of_nat (page_size s))%Z ->
       exists it', match node_at (f_page (mkF j o)) L with
                   | ROk s' a => ROk (set_locked false s') (mkS a (f_off (mkF j o)))
                   | RThrow s' => RThrow (set_locked false s')
                   | RBad b => RBad b end = ROk s it' /\ iter_ok s it').
    { intros j o q Hj Ho1. destruct (ids_nth s j q HI Hj) as (n & N1 & N2).
      unfold node_at, bind, get, lift_opt. cb. rewrite N1. cb. exists (mkS n o). rewrite <- EL at 2.
      split; auto. apply (iter_ok_mkS _ _ _ j); auto; lia. }
    destruct (Z.eqb_spec (s_off it + 1) (Z.of_nat (length p))) as [Eo|Eo].
    + assert (Hnext : S i < length (pages s)).
      { destruct (Nat.eq_dec i (cur s)) as [Ei|Ei].
        - pose proof (is_begin_iff Ei) as B. rewrite Ei. apply Htop; auto. rewrite B. apply Z.eqb_eq. lia.
        - pose proof (cur_lt s l HR). lia. }
      destruct (nth_error (pages s) (S i)) as [q|] eqn:Hq.
      2:{ apply nth_error_None in Hq. lia. }
      cb. rewrite Hq. unfold ret. cb. destruct (Fin (S i) 0%Z q Hq) as (it' & F1 & F2); try lia.
      cb. exists it'. split; auto. rewrite <- F1. destruct (node_at (S i) L); reflexivity.
    + cb. destruct (Fin i (s_off it + 1)%Z p Hpg) as (it' & F1 & F2); try lia.
      cb. exists it'. split; auto. rewrite <- F1. destruct (node_at i L); reflexivity.
  - destruct (sync_move E) as [(El & G)|(El & q & n & Q1 & Q2 & Q3 & Q4 & Q5)].
    + left. split; auto. unfold bind. rewrite G. f_equal. exact EL.
    + right. split; auto. unfold bind. rewrite Q5. cb. exists (mkS n (Z.of_nat (length q) - 1)).
      rewrite <- EL at 2. split; auto. apply moved_ok; auto.
Qed.

End OneIter.

(** ** Steps of the world *)

Lemma Forall_upd : forall {A} (P : A -> Prop) k y (m : list A), Forall P m -> P y -> Forall P (upd k (fun _ => y) m).
Proof.
  intros A P k y m H Hy. revert k. induction H; intros [|k]; simpl; constructor; auto.
Qed.
Lemma remove_nth_length : forall {A} k (m : list A), k < length m -> length (remove_nth k m) = length m - 1.
Proof. intros A k m H. unfold remove_nth. rewrite app_length, firstn_length, skipn_length. lia. Qed.
Lemma Forall_remove : forall {A} (P : A -> Prop) k (m : list A), Forall P m -> Forall P (remove_nth k m).
Proof.
  intros A P k m H. unfold remove_nth. apply Forall_app. split.
  - apply firstn_Forall. auto.
  - rewrite <- (firstn_skipn (S k) m) in H. apply Forall_app in H. apply H.
Qed.

Definition answers (debug : bool) (e : event T) (w w' : world T) (x x' : sspec T) (a : answer T) : Prop :=
  match e with
  | Op o => exists r, a = ARet r /\ spec_step o (ss_list x) = Some (ss_list x', r)
  | SyncGet _ => w_stack w' = w_stack w /\
      ((ss_list x = [] /\ a = AThrown) \/ (ss_list x <> [] /\ exists v, a = AVal v /\ In v (ss_list x)))
  | SyncInc _ | SyncDec _ => w_stack w' = w_stack w /\
      ((ss_list x = [] /\ a = AThrown) \/ (ss_list x <> [] /\ a = ADone))
  | _ => a = ADone
  end.

Lemma wuse : forall ps pa w x k it, winv ps pa w x -> 1 <= ps -> nth_error (w_live w) k = Some it ->
  iter_ok (w_stack w) it.
Proof.
  intros ps pa w x k it H Hp Hk. destruct H as (_ & _ & _ & _ & _ & _ & _ & _ & _ & _ & F).
  rewrite Forall_forall in F. apply F. eapply nth_error_In; eauto.
Qed.

Lemma live_lookup : forall ps pa w x k, winv ps pa w x -> k < ss_live x ->
  exists it, nth_error (w_live w) k = Some it.
Proof.
  intros ps pa w x k H Hk. destruct H as (_ & _ & _ & _ & _ & _ & E & _).
  destruct (nth_error (w_live w) k) eqn:G; eauto. apply nth_error_None in G. lia.
Qed.

Lemma winv_iter : forall ps pa w x k it', winv ps pa w x -> iter_ok (w_stack w) it' ->
  winv ps pa (mkW (w_stack w) (upd k (fun _ => it') (w_live w))) x.
Proof.
  intros ps pa w x k it' (H1 & H2 & H3 & H4 & H5 & H6 & H7 & H8 & H9 & H10 & H11) Hi.
  unfold winv. cbn [w_stack w_live]. rewrite upd_length. repeat (split; auto). apply Forall_upd; auto.
Qed.

Lemma sync_new_inv : forall ps pa w x it, winv ps pa w x -> iter_ok (w_stack w) it ->
  winv ps pa (mkW (set_locked false (set_sync (sync_count (w_stack w) + 1) (set_locked true (w_stack w)))) (w_live w ++ [it]))
    (mkSS (ss_list x) (S (ss_live x)) (ss_pending x) (ss_blocks x)).
Proof.
  intros ps pa w x it (H1 & H2 & H3 & H4 & H5 & H6 & H7 & H8 & H9 & H10 & H11) Hi.
  unfold winv. cbn [w_stack w_live ss_list ss_live ss_pending ss_blocks].
  destruct H1 as (b & t & a & R1 & R2 & R3 & R4 & R5 & R6).
  split; [exists b, t, a; cbn; auto 10|]. split; [exact H2|]. split; auto. split; auto. split; [exact H5|].
  split; [cbn; rewrite app_length; cbn; lia|]. split; [rewrite app_length; cbn; lia|].
  split; auto. split; [intros; lia|]. split; auto. apply Forall_app. split; [exact H11|]. constructor; auto.
Qed.

Lemma wstep : forall debug ps pa e w x x', winv ps pa w x -> 1 <= ps ->
  sspec_step ps pa e x = Some x' -> hazard ps e w x = false ->
  exists w' a, wexec debug e w = ROk w' a /\ winv ps pa w' x' /\ answers debug e w w' x x' a.
Proof.
  intros debug ps pa e w x x' HW Hp Hs Hh.
  pose proof HW as (H1 & H2 & H3 & H4 & H5 & H6 & H7 & H8 & H9 & H10 & H11).
  assert (Hlk : locked (w_stack w) = false) by (destruct H1 as (? & ? & ? & ? & ? & ? & ? & ? & ?); auto).
  assert (Use : forall k, k < ss_live x -> exists it i p, nth_error (w_live w) k = Some it /\
     index_of (s_node it) (ids (w_stack w)) = Some i /\
     (-1 <= s_off it < Z.of_nat (page_size (w_stack w)))%Z /\ (s_off it = (-1)%Z -> i = 0) /\
     nth_error (pages (w_stack w)) i = Some p /\ (torn it = true -> i = 0 /\ (0 <= s_off it)%Z)).
  { intros k Hk. destruct (live_lookup _ _ _ _ _ HW Hk) as [it Hit].
    destruct (wuse _ _ _ _ _ _ HW Hp Hit) as (i & I1 & I2 & I3 & I4).
    destruct (page_of_node _ _ _ H5 I1) as [p Hpg]. exists it, i, p. auto 10. }
  destruct e; cbn [wexec].
  - (* Op *)
    destruct x as [l n pend blocks]. cbn [ss_list ss_live ss_pending ss_blocks] in *.
    assert (Hsp : exists l' r, spec_step o l = Some (l', r) /\ core_op o = true /\ ss_list x' = l' /\ ss_live x' = n /\
       (o <> Shrink -> ss_pending x' = pend /\ ss_blocks x' = blocks_step ps pa o (length l) blocks) /\
       (o = Shrink -> x' = if n =? 0 then mkSS l n pend (pages_for ps (length l)) else mkSS l n true blocks)).
    { unfold sspec_step in Hs.
      destruct o; cbn [core_op] in Hs;
        try (destruct (spec_step _ l) as [[l1 r1]|] eqn:E; [|discriminate];
             injection Hs as <-; exists l1, r1; repeat split; auto; intros; congruence);
        try discriminate.
      injection Hs as <-. exists l, RUnit. destruct (n =? 0); repeat split; auto; congruence. }
    destruct Hsp as (l' & r & S1 & S2 & S3 & S4 & S5 & S6).
    destruct (exec_ok debug o (w_stack w) l l' r H1) as (s1 & E1 & E2 & E3 & E4 & _); auto.
    { intros ->. discriminate. }
    destruct (exec_ids debug o (w_stack w) s1 r E1 H5) as (I1 & I2 & I3).
    rewrite E1. cbn [on_stack]. exists (mkW s1 (w_live w)), (ARet r). split; auto.
    assert (C1 : clean s1) by (apply E4; auto; left; auto).
    destruct E3 as (F1 & F2 & F3).
    split; [|cbn [answers ss_list]; exists r; split; auto; congruence].
    unfold winv. cbn [w_stack w_live]. rewrite S3, S4. split; auto. split; auto. split; [congruence|].
    split; [congruence|]. split; auto. split; [congruence|]. split; auto.
    assert (Hsh : o = Shrink \/ o <> Shrink) by (destruct o; auto; right; discriminate).
    destruct Hsh as [->|Ns].
    + rewrite (S6 eq_refl) in *. cbn [exec] in E1. unfold bind in E1.
      destruct (shrink_to_fit (w_stack w)) as [s2 []| |] eqn:Esh; try discriminate. injection E1 as -> Er.
      pose proof Esh as Esh2. unfold shrink_to_fit, with_lock in Esh. rewrite Hlk in Esh.
      unfold bind, get in Esh. cbn [sync_count set_locked] in Esh.
      destruct (Nat.eqb_spec n 0) as [En|En].
      * assert (w_live w = []) as El by (apply length_zero_iff_nil; lia).
        destruct (Z.gtb_spec (sync_count (w_stack w)) 0); [lia|].
        cbn [ss_pending ss_blocks ss_live ss_list] in *.
        destruct (shrink_ok (w_stack w) l H1) as (s3 & T1 & T2 & T3 & T4 & T5 & T6 & T7).
        rewrite T1 in Esh2. injection Esh2 as ->.
        unfold internal_shrink_to_fit, cur_page, page_at, bind, get, lift_opt in Esh. cbn in Esh.
        destruct (nth_error _ _); [|discriminate]. cbn in Esh. injection Esh as <-.
        split; [cbn; congruence|]. split; [intros; specialize (H9 H0); lia|].
        split; [|rewrite El; constructor].
        rewrite T6 by lia. rewrite <- (cur_pages_for _ _ T2); [|cbn; lia]. rewrite <- H3. reflexivity.
      * destruct (Z.gtb_spec (sync_count (w_stack w)) 0); [|lia].
        cbn in Esh. injection Esh as <-. cbn [ss_pending ss_blocks ss_live ss_list] in *. cbn.
        split; auto. split; [intros; lia|]. split; auto.
    + destruct (S5 Ns) as [S7 S8]. rewrite S7, S8, (I3 Ns). split; auto. split; [auto|]. split.
      * assert (Em : makes_pages o = true \/ makes_pages o = false) by (destruct (makes_pages o); auto).
        destruct Em as [Em|Em].
        -- assert (Ep : is_push o = true).
           { unfold makes_pages in Em. destruct (is_push o); auto. destruct o; discriminate || congruence. }
           rewrite <- H3, <- H4, <- H10.
           (* exec_blocks needs no live iterator only for Shrink *)
           assert (X : length (pages s1) = blocks_step (page_size (w_stack w)) (alloc_size (w_stack w)) o (length l) (length (pages (w_stack w)))).
           { eapply exec_blocks_push; eauto. lia. }
           exact X.
        -- pose proof (exec_keeps debug o Em (w_stack w)) as K. rewrite E1 in K. destruct K as (K & _).
           rewrite K, H10. destruct o; try discriminate; reflexivity.
      * destruct (I2 (or_introl Ns)) as [more Hm].
        eapply Forall_impl; [|exact H11]. intros it. apply (iter_ok_mono (w_stack w) s1 it more Hm F1).
  - (* SyncBegin *)
    destruct x as [l n pend blocks]. cbn [sspec_step] in Hs. injection Hs as <-.
    destruct (cur_page_nth _ _ H1) as [q Hq]. destruct (ids_nth _ _ _ H5 Hq) as (nd & N1 & N2).
    assert (E : sync_begin (w_stack w) =
      ROk (set_locked false (set_sync (sync_count (w_stack w) + 1) (set_locked true (w_stack w))))
          (mkS nd (Z.of_nat (length q) - 1))).
    { unfold sync_begin. apply noexcept_ok. unfold with_lock. rewrite Hlk. unfold bind, get, cur_page, page_at, lift_opt.
      unfold bind, get. cb. rewrite Hq. unfold ret, node_at, bind, get, lift_opt. cb. rewrite N1. reflexivity. }
    rewrite E. cbn [on_stack]. eexists _, _. split; [reflexivity|]. split; [|reflexivity].
    apply (sync_new_inv ps pa w (mkSS l n pend blocks)); auto.
    destruct (page_len _ _ _ _ H1 H2 ltac:(lia) Hq) as (P1 & P2 & P3 & P4 & P5 & P6).
    apply (iter_ok_mkS _ _ _ (cur (w_stack w))); auto; [lia|]. intros Eo.
    destruct q; [|cbn [length] in Eo; lia]. destruct H1 as (b & t & a & R1 & R2 & R3 & R4 & R5 & R6).
    rewrite R1, R2, nth_error_mid in Hq. injection Hq as ->. rewrite (sh_top _ _ _ R3 eq_refl) in R2. exact R2.
  - (* SyncEnd *)
    destruct x as [l n pend blocks]. cbn [sspec_step] in Hs. injection Hs as <-.
    assert (exists q, nth_error (pages (w_stack w)) 0 = Some q) as [q Hq].
    { pose proof (cur_lt _ _ H1). destruct (pages (w_stack w)); [cbn in *; lia|cbn; eauto]. }
    destruct (ids_nth _ _ _ H5 Hq) as (nd & N1 & N2).
    assert (E : sync_end (w_stack w) =
      ROk (set_locked false (set_sync (sync_count (w_stack w) + 1) (set_locked true (w_stack w)))) (mkS nd (-1))).
    { unfold sync_end. apply noexcept_ok. unfold with_lock. rewrite Hlk. unfold bind, get, page_at, lift_opt.
      unfold bind, get. cb. rewrite Hq. unfold ret, node_at, bind, get, lift_opt. cb. rewrite N1. reflexivity. }
    rewrite E. cbn [on_stack]. eexists _, _. split; [reflexivity|]. split; [|reflexivity].
    apply (sync_new_inv ps pa w (mkSS l n pend blocks)); auto. apply (iter_ok_mkS _ _ _ 0); auto; lia.
  - (* SyncGet *)
    destruct x as [l n pend blocks]. cbn [sspec_step ss_live ss_list ss_pending ss_blocks] in *.
    destruct (Nat.ltb_spec k n) as [Hk|Hk]; [|discriminate]. injection Hs as <-.
    destruct (Use k Hk) as (it & i & p & U1 & U2 & U3 & U4 & U5 & U6).
    unfold with_iter. rewrite U1. cbn [hazard ss_list] in Hh. rewrite U1 in Hh.
    destruct (torn it) eqn:Et.
    { destruct (U6 eq_refl) as [-> U7]. apply negb_false_iff in Hh. rewrite <- H3 in Hh.
      destruct (torn_get (w_stack w) l it H1 H2 ltac:(lia) H5 U2 ltac:(lia) Et Hlk Hh) as (v & G1 & G2).
      rewrite G1. cbn [on_iter fst snd]. eexists _, _. split; [reflexivity|].
      split; [apply winv_iter; auto; exact (wuse _ _ _ _ _ _ HW Hp U1)|].
      cbn [answers ss_list w_stack]. split; auto. right.
      split; [intros ->; destruct G2|eauto]. }
    destruct (s_get_ok (w_stack w) l it i p H1 H2 ltac:(lia) H5 U2 U3 U4 U5 Et) as [(G1 & G2)|(G1 & it' & v & G2 & G3 & G4)]; auto.
    { intros Ee. rewrite Ee in Hh. cbn in Hh. apply Nat.ltb_ge in Hh. lia. }
    + rewrite G2. cbn [on_iter]. eexists _, _. split; [reflexivity|].
      split; [apply winv_iter; auto; apply thrown_ok; [rewrite <- G1; auto|auto|exact (wuse _ _ _ _ _ _ HW Hp U1)]|].
      cbn [answers ss_list]. split; auto.
    + rewrite G2. cbn [on_iter]. eexists _, _. split; [reflexivity|].
      split; [apply winv_iter; auto|]. cbn [answers ss_list w_stack]. split; auto. right. split; eauto.
  - (* SyncInc *)
    destruct x as [l n pend blocks]. cbn [sspec_step ss_live ss_list ss_pending ss_blocks] in *.
    destruct (Nat.ltb_spec k n) as [Hk|Hk]; [|discriminate]. injection Hs as <-.
    destruct (Use k Hk) as (it & i & p & U1 & U2 & U3 & U4 & U5 & U6).
    unfold with_iter. rewrite U1. cbn [hazard ss_list] in Hh. rewrite U1 in Hh.
    destruct (torn it) eqn:Et; [discriminate|].
    destruct (s_inc_ok (w_stack w) l it i p H1 H2 ltac:(lia) H5 U2 U3 U4 U5 Et) as [(G1 & G2)|(G1 & it' & G2 & G3)]; auto.
    { intros Ee. rewrite Ee in Hh. cbn in Hh. apply Nat.ltb_ge in Hh. lia. }
    + rewrite G2. cbn [on_iter]. eexists _, _. split; [reflexivity|].
      split; [apply winv_iter; auto; apply thrown_ok; [rewrite <- G1; auto|auto|exact (wuse _ _ _ _ _ _ HW Hp U1)]|].
      cbn [answers ss_list]. split; auto.
    + rewrite G2. cbn [on_iter]. eexists _, _. split; [reflexivity|].
      split; [apply winv_iter; auto|]. cbn [answers ss_list w_stack]. split; auto.
  - (* SyncDec *)
    destruct x as [l n pend blocks]. cbn [sspec_step ss_live ss_list ss_pending ss_blocks] in *.
    destruct (Nat.ltb_spec k n) as [Hk|Hk]; [|discriminate]. injection Hs as <-.
    destruct (Use k Hk) as (it & i & p & U1 & U2 & U3 & U4 & U5 & U6).
    unfold with_iter. rewrite U1. cbn [hazard ss_list ss_blocks] in Hh. rewrite U1 in Hh.
    destruct (torn it) eqn:Et; [discriminate|].
    destruct (s_dec_ok (w_stack w) l it i p H1 H2 ltac:(lia) H5 U2 U3 U4 U5 Et) as [(G1 & G2)|(G1 & it' & G2 & G3)]; auto.
    { intros Ee Hl. rewrite Ee in Hh. destruct l as [|x0 l0]; [congruence|]. cbn [length Nat.eqb negb andb] in Hh.
      apply Nat.eqb_neq in Hh. pose proof (cur_pages_for _ _ H1 ltac:(lia)) as Ec. rewrite H3 in Ec.
      cbn [length] in Ec. pose proof (cur_lt _ _ H1). lia. }
    + rewrite G2. cbn [on_iter]. eexists _, _. split; [reflexivity|].
      split; [apply winv_iter; auto; apply thrown_ok; [rewrite <- G1; auto|auto|exact (wuse _ _ _ _ _ _ HW Hp U1)]|].
      cbn [answers ss_list]. split; auto.
    + rewrite G2. cbn [on_iter]. eexists _, _. split; [reflexivity|].
      split; [apply winv_iter; auto|]. cbn [answers ss_list w_stack]. split; auto.
  - (* SyncDestroy *)
    destruct x as [l n pend blocks]. cbn [sspec_step ss_live ss_list ss_pending ss_blocks] in *.
    destruct (Nat.ltb_spec k n) as [Hk|Hk]; [|discriminate]. injection Hs as <-.
    destruct (Use k Hk) as (it & i & p & U1 & _).
    unfold with_iter. rewrite U1.
    destruct (cur_page_nth _ _ H1) as [q Hq].
    pose proof (cur_pages_for _ _ H1 ltac:(lia)) as Ec. rewrite H3 in Ec.
    assert (E0 : (sync_count (w_stack w) - 1 =? 0)%Z = (n =? 1)).
    { rewrite H6, H7. destruct (Nat.eqb_spec n 1) as [->|N]; [reflexivity|apply Z.eqb_neq; lia]. }
    assert (Er : length (remove_nth k (w_live w)) = n - 1) by (rewrite remove_nth_length; lia).
    unfold s_destroy, noexcept, with_lock. rewrite Hlk. unfold bind, get, put. cb.
    cbn [set_sync set_locked sync_count shrink_req]. rewrite E0, H8.
    destruct ((n =? 1) && pend) eqn:Eb.
    + apply andb_true_iff in Eb. destruct Eb as [Eb Epd]. apply Nat.eqb_eq in Eb.
      unfold internal_shrink_to_fit, cur_page, page_at, bind, get, put, lift_opt. cb.
      cbn [set_shrink set_sync set_locked pages cur ids next_id]. rewrite Hq. cbn [ret].
      unfold ret. cbn [on_stack]. eexists _, _. split; [reflexivity|]. split; [|reflexivity].
      assert (El : remove_nth k (w_live w) = []) by (apply length_zero_iff_nil; lia).
      rewrite El. unfold winv. cbn [w_stack w_live ss_list ss_live ss_pending ss_blocks].
      destruct H1 as (b & t & a & R1 & R2 & R3 & R4 & R5 & R6).
      assert (F : firstn (S (cur (w_stack w))) (pages (w_stack w)) = b ++ [t]).
      { rewrite R1, R2. replace (b ++ t :: a) with ((b ++ [t]) ++ a) by (rewrite <- app_assoc; auto).
        replace (S (length b)) with (length (b ++ [t])) by (rewrite app_length; simpl; lia).
        apply firstn_length_app. }
      split; [exists b, t, []; cbn [set_ids set_pages set_shrink set_sync set_locked pages cur page_size alloc_size locked];
              rewrite F; auto 10|].
      split; [apply (clean_split _ b t []); [exact F|exact R2|constructor]|].
      split; auto. split; auto. split; [apply (shrink_ids (w_stack w) (S (cur (w_stack w))) H5)|].
      split; [cbn [set_ids set_pages set_shrink set_sync set_locked sync_count length]; rewrite H6, H7, Eb; reflexivity|].
      split; auto. split; auto. split; [discriminate|]. split; [|constructor].
      cbn [set_ids set_pages set_shrink set_sync set_locked pages cur]. rewrite firstn_length, Ec.
      assert (S (length b) <= length (pages (w_stack w))) by (rewrite R1, app_length; cbn; lia).
      rewrite R2. lia.
    + unfold ret. cbn [on_stack]. eexists _, _. split; [reflexivity|]. split; [|reflexivity].
      unfold winv. cbn [w_stack w_live ss_list ss_live ss_pending ss_blocks].
      destruct H1 as (b & t & a & R1 & R2 & R3 & R4 & R5 & R6).
      split; [exists b, t, a; cbn; auto 10|]. split; [exact H2|]. split; auto. split; auto. split; [exact H5|].
      split; [cbn [set_sync set_locked sync_count]; rewrite Er; lia|]. split; auto. split; auto.
      split.
      { intros Ep. rewrite Ep, andb_true_r in Eb. apply Nat.eqb_neq in Eb. specialize (H9 Ep). lia. }
      split; [exact H10|]. apply Forall_remove. exact H11.
  - (* SyncCopy *)
    destruct x. discriminate.
Qed.

(** The excluded events always have undefined behaviour. *)
Lemma hazard_UB : forall debug ps pa e w x x', winv ps pa w x -> 1 <= ps ->
  sspec_step ps pa e x = Some x' -> hazard ps e w x = true -> wexec debug e w = RBad UB.
Proof.
  intros debug ps pa e w x x' HW Hp Hs Hh.
  pose proof HW as (H1 & H2 & H3 & H4 & H5 & H6 & H7 & H8 & H9 & H10 & H11).
  assert (Hlk : locked (w_stack w) = false) by (destruct H1 as (? & ? & ? & ? & ? & ? & ? & ? & ?); auto).
  destruct e; try discriminate; cbn [wexec hazard] in *; unfold with_iter;
    destruct (nth_error (w_live w) k) as [it|] eqn:Hit; try discriminate;
    destruct (wuse _ _ _ _ _ _ HW Hp Hit) as (i & I1 & I2 & I3 & I4);
    destruct (page_of_node _ _ _ H5 I1) as [p Hpg];
    (destruct (torn it) eqn:Et; [destruct (I4 eq_refl) as [-> I5]|]).
  - apply negb_true_iff in Hh. rewrite <- H3 in Hh.
    rewrite (torn_get_UB (w_stack w) (ss_list x) it H1 H2 ltac:(lia) H5 I1 ltac:(lia) Et Hlk Hh). reflexivity.
  - apply andb_true_iff in Hh. destruct Hh as [Ha Hb]. apply Nat.ltb_lt in Hb.
    apply (is_end_iff (w_stack w) (ss_list x) it i p H1 H2 ltac:(lia) H5 I1 I2 I3 Hpg Et) in Ha.
    assert (s_off it = (-1)%Z) as Eo by lia. specialize (I3 Eo). subst i.
    pose proof (cur_pages_for _ _ H1 ltac:(lia)) as Ec. rewrite H3 in Ec.
    assert (Hc : 0 < cur (w_stack w)).
    { destruct H1 as (b & t & a & R1 & R2 & R3 & R4 & R5 & R6).
      rewrite R6, rev_length, (shape_len ps) in Hb by (rewrite <- H3; auto).
      pose proof (sh_cap _ _ _ R3 I ltac:(lia)). rewrite H3 in *. rewrite R2. destruct b; cbn in *; lia. }
    assert (Ei : in_sync (w_stack w) 0 p (s_off it) = true).
    { unfold in_sync. destruct (Nat.eqb_spec (cur (w_stack w)) 0); [lia|]. apply Nat.ltb_lt. auto. }
    unfold s_get, with_lock. rewrite Hlk. unfold bind.
    rewrite (sync_stay (w_stack w) (ss_list x) it 0 p H1 H2 ltac:(lia) H5 I1 I2 ltac:(auto) Hpg Et Ei).
    unfold data_pos, bind, get, lift_opt. cb. rewrite (same_page it Et), I1. unfold ret, deref_at, page_at, bind, get, lift_opt.
    cb. rewrite Hpg. unfold ret. rewrite Eo. reflexivity.
  - destruct (torn_step_UB (w_stack w) (ss_list x) it H1 H2 ltac:(lia) H5 I1 ltac:(lia) Et Hlk) as [G1 G2].
    rewrite G1. reflexivity.
  - apply andb_true_iff in Hh. destruct Hh as [Ha Hb]. apply Nat.ltb_lt in Hb.
    apply (is_end_iff (w_stack w) (ss_list x) it i p H1 H2 ltac:(lia) H5 I1 I2 I3 Hpg Et) in Ha.
    assert (s_off it = (-1)%Z) as Eo by lia. specialize (I3 Eo). subst i.
    assert (Hc : 0 < cur (w_stack w)).
    { destruct H1 as (b & t & a & R1 & R2 & R3 & R4 & R5 & R6).
      rewrite R6, rev_length, (shape_len ps) in Hb by (rewrite <- H3; auto).
      pose proof (sh_cap _ _ _ R3 I ltac:(lia)). rewrite H3 in *. rewrite R2. destruct b; cbn in *; lia. }
    assert (Ei : in_sync (w_stack w) 0 p (s_off it) = true).
    { unfold in_sync. destruct (Nat.eqb_spec (cur (w_stack w)) 0); [lia|]. apply Nat.ltb_lt. auto. }
    unfold s_inc, with_lock. rewrite Hlk. unfold bind.
    rewrite (sync_stay (w_stack w) (ss_list x) it 0 p H1 H2 ltac:(lia) H5 I1 I2 ltac:(auto) Hpg Et Ei).
    cb. rewrite Et. unfold node_pos, bind, get, lift_opt. cb. rewrite I1. unfold ret, f_inc, page_at, bind, get, lift_opt.
    cb. rewrite Hpg. unfold ret. rewrite Eo. reflexivity.
  - destruct (torn_step_UB (w_stack w) (ss_list x) it H1 H2 ltac:(lia) H5 I1 ltac:(lia) Et Hlk) as [G1 G2].
    rewrite G2. reflexivity.
  - apply andb_true_iff in Hh. destruct Hh as [Ha Hb]. apply andb_true_iff in Ha. destruct Ha as [Ha Hl].
    apply Nat.eqb_eq in Hb. apply negb_true_iff, Nat.eqb_neq in Hl.
    pose proof (cur_pages_for _ _ H1 ltac:(lia)) as Ec. rewrite H3 in Ec.
    assert (Hlast : length (pages (w_stack w)) = S (cur (w_stack w))) by congruence.
    destruct (cur_page_nth _ _ H1) as [q Hq]. destruct (ids_nth _ _ _ H5 Hq) as (nd & N1 & N2).
    unfold is_sync_begin in Ha. rewrite N1, Hq in Ha. rewrite Et, andb_true_r in Ha.
    apply andb_true_iff in Ha. destruct Ha as [Ha1 Ha2].
    apply Nat.eqb_eq in Ha1. apply Z.eqb_eq in Ha2. subst nd. rewrite I1 in N2. injection N2 as ->.
    rewrite Hpg in Hq. injection Hq as ->.
    destruct (page_len _ _ _ _ H1 H2 ltac:(lia) Hpg) as (P1 & P2 & P3 & P4 & P5 & P6).
    assert (q <> []) by (apply P5; auto; intros E; apply Hl; rewrite E; reflexivity).
    assert (1 <= length q) by (destruct q; [congruence|simpl; lia]).
    assert (Ei : in_sync (w_stack w) (cur (w_stack w)) q (s_off it) = true).
    { unfold in_sync. rewrite Nat.eqb_refl. apply andb_true_iff. split; [apply Z.leb_le|apply Z.ltb_lt]; lia. }
    unfold s_dec, with_lock. rewrite Hlk. unfold bind.
    rewrite (sync_stay (w_stack w) (ss_list x) it _ q H1 H2 ltac:(lia) H5 I1 I2 I3 Hpg Et Ei).
    cb. rewrite Et. unfold node_pos, bind, get, lift_opt. cb. rewrite I1. unfold ret, f_dec, page_at, bind, get, lift_opt.
    cb. rewrite Hpg. unfold ret.
    destruct (Z.ltb_spec (Z.of_nat (length q)) (s_off it + 1)); [lia|].
    destruct (Z.eqb_spec (s_off it + 1) (Z.of_nat (length q))); [|lia].
    cb. destruct (nth_error (pages (w_stack w)) (S (cur (w_stack w)))) eqn:En; [|reflexivity].
    assert (S (cur (w_stack w)) < length (pages (w_stack w))) by (apply nth_error_Some; congruence). lia.
Qed.

Lemma wrun_inv : forall debug ps pa es w x x' w' rs, winv ps pa w x -> 1 <= ps ->
  sspec_run ps pa es x = Some x' -> wrun debug es w = ROk w' rs -> winv ps pa w' x'.
Proof.
  intros debug ps pa es. induction es as [|e es IH]; intros w x x' w' rs HW Hp Hs Hr; cbn [sspec_run wrun] in *.
  - injection Hs as <-. injection Hr as <- <-. auto.
  - destruct (sspec_step ps pa e x) as [x1|] eqn:E; [|discriminate].
    destruct (hazard ps e w x) eqn:Eh.
    + rewrite (hazard_UB debug _ _ _ _ _ _ HW Hp E Eh) in Hr. discriminate.
    + destruct (wstep debug _ _ _ _ _ _ HW Hp E Eh) as (w1 & a1 & W1 & W2 & _). rewrite W1 in Hr.
      destruct (wrun debug es w1) as [w2 rs2| |] eqn:E2; try discriminate. injection Hr as <- <-. eauto.
Qed.

Lemma wreaches_inv : forall debug ps pa es w x, wreaches debug ps pa es w x -> winv ps pa w x.
Proof.
  intros debug ps pa es w x (Hp & Hpa & Hs & rs & Hr).
  eapply wrun_inv; eauto. apply winv_fresh; auto.
Qed.

(** ** Property-level lemmas *)

Lemma sync_safe : forall debug ps pa es (w : world T) (x : sspec T) e x', wreaches debug ps pa es w x ->
  sspec_step ps pa e x = Some x' -> hazard ps e w x = false ->
  exists w' a, wexec debug e w = ROk w' a /\ wreaches debug ps pa (es ++ [e]) w' x' /\
    (forall k, e = SyncGet k -> ss_list x <> [] -> exists v, a = AVal v /\ In v (ss_list x)) /\
    (forall o, e = Op o -> exists r, a = ARet r /\ spec_step o (ss_list x) = Some (ss_list x', r)).
Proof.
  intros debug ps pa es w x e x' H Hs Hh. pose proof (wreaches_inv _ _ _ _ _ _ H) as I.
  destruct H as (Hp & Hpa & Hsp & rs & Hr).
  destruct (wstep debug _ _ _ _ _ _ I Hp Hs Hh) as (w' & a & W1 & W2 & W3).
  exists w', a. split; auto. split.
  - split; auto. split; auto. split.
    + clear -Hsp Hs. revert Hsp. generalize (sfresh (T := T) pa). induction es as [|e0 es IH]; intros y Hsp; cbn in *.
      * injection Hsp as ->. rewrite Hs. auto.
      * destruct (sspec_step ps pa e0 y); [|discriminate]. auto.
    + exists (rs ++ [a]). clear -Hr W1. revert rs Hr. generalize (wfresh (T := T) ps pa).
      induction es as [|e0 es IH]; intros y rs Hr; cbn [wrun app] in *.
      * injection Hr as -> <-. rewrite W1. reflexivity.
      * destruct (wexec debug e0 y) as [y1 a1| |]; try discriminate.
        destruct (wrun debug es y1) as [y2 rs2| |] eqn:E; try discriminate. injection Hr as -> <-.
        rewrite (IH _ _ E). reflexivity.
  - split.
    + intros k -> Hl. destruct W3 as (_ & [[G _]|[_ G]]); [congruence|auto].
    + intros o ->. exact W3.
Qed.

Lemma sync_unsafe : forall debug ps pa es (w : world T) (x : sspec T) e x', wreaches debug ps pa es w x ->
  sspec_step ps pa e x = Some x' -> hazard ps e w x = true -> wexec debug e w = RBad UB.
Proof.
  intros debug ps pa es w x e x' H Hs Hh. pose proof (wreaches_inv _ _ _ _ _ _ H) as I.
  destruct H as (Hp & _). eapply hazard_UB; eauto.
Qed.

(** The two tests of [hazard] are the comparisons of the API. *)
Lemma sync_end_eq : forall debug ps pa es (w : world T) (x : sspec T) it, wreaches debug ps pa es w x ->
  exists s' e, sync_end (w_stack w) = ROk s' e /\ (is_sync_end (w_stack w) it = true <-> it = e).
Proof.
  intros debug ps pa es w x it H. pose proof (wreaches_inv _ _ _ _ _ _ H) as HW.
  pose proof HW as (H1 & H2 & H3 & H4 & H5 & _).
  assert (Hlk : locked (w_stack w) = false) by (destruct H1 as (? & ? & ? & ? & ? & ? & ? & ? & ?); auto).
  assert (exists q, nth_error (pages (w_stack w)) 0 = Some q) as [q Hq].
  { pose proof (cur_lt _ _ H1). destruct (pages (w_stack w)); [cbn in *; lia|cbn; eauto]. }
  destruct (ids_nth _ _ _ H5 Hq) as (nd & N1 & N2).
  exists (set_locked false (set_sync (sync_count (w_stack w) + 1) (set_locked true (w_stack w)))), (mkS nd (-1)).
  split.
  - unfold sync_end. apply noexcept_ok. unfold with_lock. rewrite Hlk. unfold bind, get, page_at, lift_opt.
    unfold bind, get. cb. rewrite Hq. unfold ret, node_at, bind, get, lift_opt. cb. rewrite N1. reflexivity.
  - unfold is_sync_end. destruct (ids (w_stack w)); [discriminate|]. cbn in N1. injection N1 as ->.
    rewrite !andb_true_iff, Nat.eqb_eq, Z.eqb_eq. unfold torn. rewrite negb_involutive, Nat.eqb_eq.
    destruct it as [a d b]. cbn. split; [intros [[-> <-] ->]; auto|].
    intros G. injection G as -> -> ->. auto.
Qed.

Lemma sync_begin_eq : forall debug ps pa es (w : world T) (x : sspec T) it, wreaches debug ps pa es w x ->
  exists s' e, sync_begin (w_stack w) = ROk s' e /\ (is_sync_begin (w_stack w) it = true <-> it = e).
Proof.
  intros debug ps pa es w x it H. pose proof (wreaches_inv _ _ _ _ _ _ H) as HW.
  pose proof HW as (H1 & H2 & H3 & H4 & H5 & _).
  assert (Hlk : locked (w_stack w) = false) by (destruct H1 as (? & ? & ? & ? & ? & ? & ? & ? & ?); auto).
  destruct (cur_page_nth _ _ H1) as [q Hq]. destruct (ids_nth _ _ _ H5 Hq) as (nd & N1 & N2).
  exists (set_locked false (set_sync (sync_count (w_stack w) + 1) (set_locked true (w_stack w)))),
         (mkS nd (Z.of_nat (length q) - 1)).
  split.
  - unfold sync_begin. apply noexcept_ok. unfold with_lock. rewrite Hlk. unfold bind, get, cur_page, page_at, lift_opt.
    unfold bind, get. cb. rewrite Hq. unfold ret, node_at, bind, get, lift_opt. cb. rewrite N1. reflexivity.
  - unfold is_sync_begin. rewrite N1, Hq.
    rewrite !andb_true_iff, Nat.eqb_eq, Z.eqb_eq. unfold torn. rewrite negb_involutive, Nat.eqb_eq.
    destruct it as [a d b]. cbn [s_node s_data s_off]. split; [intros [[-> <-] ->]; auto|].
    intros G. injection G as -> -> ->. auto.
Qed.

Lemma sync_throw_iff : forall debug ps pa es (w : world T) (x : sspec T) e x' w' a, wreaches debug ps pa es w x ->
  sspec_step ps pa e x = Some x' -> uses_iter e = true -> wexec debug e w = ROk w' a ->
  (a = AThrown <-> ss_list x = []) /\ w_stack w' = w_stack w /\ locked (w_stack w') = false.
Proof.
  intros debug ps pa es w x e x' w' a H Hs Hu He. pose proof (wreaches_inv _ _ _ _ _ _ H) as I.
  destruct H as (Hp & _).
  assert (Hlk : locked (w_stack w) = false) by (destruct I as ((? & ? & ? & ? & ? & ? & ? & ? & ?) & _); auto).
  destruct (hazard ps e w x) eqn:Hh; [rewrite (hazard_UB debug _ _ _ _ _ _ I Hp Hs Hh) in He; discriminate|].
  destruct (wstep debug _ _ _ _ _ _ I Hp Hs Hh) as (w1 & a1 & W1 & W2 & W3).
  rewrite W1 in He. injection He as -> ->.
  destruct e; try discriminate; cbn [answers] in W3; destruct W3 as [W3 [[G1 G2]|[G1 G2]]];
    (split; [|split; congruence]); try tauto; split; intros G; try congruence.
  destruct G2 as (v & G2 & _). congruence.
Qed.

Lemma sync_throw_empty : forall debug ps pa es (w : world T) (x : sspec T) e x', wreaches debug ps pa es w x ->
  sspec_step ps pa e x = Some x' -> uses_iter e = true -> ss_list x = [] -> hazard ps e w x = false ->
  exists w', wexec debug e w = ROk w' AThrown.
Proof.
  intros debug ps pa es w x e x' H Hs Hu Hl Hh. pose proof (wreaches_inv _ _ _ _ _ _ H) as I.
  destruct H as (Hp & _).
  destruct (wstep debug _ _ _ _ _ _ I Hp Hs Hh) as (w1 & a1 & W1 & W2 & W3). exists w1. rewrite W1. f_equal.
  destruct e; try discriminate; cbn [answers] in W3; destruct W3 as [W3 [[G1 G2]|[G1 G2]]]; congruence.
Qed.

(** After an exception. *)
Lemma wrun_ops_live : forall debug ops (w w' : world T) rs, wrun debug (map Op ops) w = ROk w' rs -> w_live w' = w_live w.
Proof.
  intros debug ops. induction ops as [|o ops IH]; intros w w' rs H; cbn [map wrun] in H; [congruence|].
  destruct (wexec debug (Op o) w) as [w1 a1| |] eqn:E; try discriminate.
  destruct (wrun debug (map Op ops) w1) as [w2 rs2| |] eqn:E2; try discriminate. injection H as -> <-.
  rewrite (IH _ _ _ E2). cbn [wexec] in E. unfold on_stack in E.
  destruct (exec debug o (w_stack w)); try discriminate; injection E as <- _; reflexivity.
Qed.

Lemma nth_error_upd : forall {A} k (y : A) m z, nth_error m k = Some z -> nth_error (upd k (fun _ => y) m) k = Some y.
Proof. intros A k y m. revert k. induction m; intros [|k] z H; cbn in *; try discriminate; eauto. Qed.

Lemma thrown_live : forall debug e k (w w1 : world T) it, nth_error (w_live w) k = Some it -> uses_nth k e = true ->
  wexec debug e w = ROk w1 AThrown -> nth_error (w_live w1) k = Some (s_thrown it (w_stack w1)).
Proof.
  intros debug e k w w1 it Hit Hu He.
  destruct e; try discriminate; cbn [uses_nth] in Hu; apply Nat.eqb_eq in Hu; subst k0; cbn [wexec] in He;
    unfold with_iter in He; rewrite Hit in He; unfold on_iter in He.
  - destruct (s_get it (w_stack w)) as [s' [it' v]|s'|]; try discriminate. injection He as <-.
    eapply nth_error_upd; eauto.
  - destruct (s_inc it (w_stack w)) as [s' it'|s'|]; try discriminate. injection He as <-.
    eapply nth_error_upd; eauto.
  - destruct (s_dec it (w_stack w)) as [s' it'|s'|]; try discriminate. injection He as <-.
    eapply nth_error_upd; eauto.
Qed.

Lemma sync_after_throw : forall debug ps pa es (w : world T) (x : sspec T) k it e1 w1 ops x2 w2 rs e2,
  wreaches debug ps pa es w x -> nth_error (w_live w) k = Some it -> at_bottom (w_stack w) it = false ->
  uses_nth k e1 = true -> wexec debug e1 w = ROk w1 AThrown ->
  sspec_run ps pa (map Op ops) x = Some x2 -> wrun debug (map Op ops) w1 = ROk w2 rs ->
  uses_nth k e2 = true -> (is_get e2 = true -> length (ss_list x2) <= ps) ->
  wexec debug e2 w2 = RBad UB.
Proof.
  intros debug ps pa es w x k it e1 w1 ops x2 w2 rs e2 H Hit Hb Hu1 He1 Hs Hr Hu2 Hg.
  pose proof (wreaches_inv _ _ _ _ _ _ H) as HW. pose proof H as (Hp & _).
  assert (Hk : k < ss_live x).
  { destruct HW as (_ & _ & _ & _ & _ & _ & E & _). rewrite <- E. apply nth_error_Some. congruence. }
  assert (Hk' : forall e : event T, uses_nth k e = true -> forall y : sspec T, k < ss_live y -> sspec_step ps pa e y = Some y).
  { intros e Hu [l n pd bl] L. destruct e; try discriminate; cbn [uses_nth] in Hu; apply Nat.eqb_eq in Hu; subst;
      cbn [sspec_step ss_live] in *; destruct (Nat.ltb_spec k n); auto; lia. }
  assert (Hui : uses_iter e1 = true) by (destruct e1; auto).
  destruct (sync_throw_iff _ _ _ _ _ _ _ _ _ _ H (Hk' _ Hu1 _ Hk) Hui He1) as ((Hnil & _) & Hst & _).
  specialize (Hnil eq_refl).
  pose proof (thrown_live _ _ _ _ _ _ Hit Hu1 He1) as Hl1. rewrite Hst in Hl1.
  assert (HW1 : winv ps pa w1 x).
  { apply (wrun_inv debug ps pa [e1] w x x w1 [AThrown]); auto; cbn [sspec_run wrun].
    - rewrite (Hk' _ Hu1 _ Hk). reflexivity.
    - rewrite He1. reflexivity. }
  pose proof (wrun_inv _ _ _ _ _ _ _ _ _ HW1 Hp Hs Hr) as HW2.
  rewrite <- (wrun_ops_live _ _ _ _ _ Hr) in Hl1.
  assert (Ht : torn (s_thrown it (w_stack w)) = true).
  { destruct HW as (H1 & H2 & H3 & H4 & H5 & _). rewrite Hnil in H1. pose proof (empty_cur _ H1) as Ec.
    destruct (cur_page_nth _ _ H1) as [q Hq]. destruct (ids_nth _ _ q H5 Hq) as (n & N1 & N2).
    unfold s_thrown. rewrite N1. unfold torn. cb. unfold at_bottom in Hb. rewrite Ec in N1.
    destruct (ids (w_stack w)); [discriminate|]. cbn in N1. injection N1 as ->.
    rewrite Nat.eqb_sym, Hb. reflexivity. }
  assert (Hk2 : k < ss_live x2).
  { destruct HW2 as (_ & _ & _ & _ & _ & _ & E & _). rewrite <- E. apply nth_error_Some. congruence. }
  apply (hazard_UB debug ps pa e2 w2 x2 x2 HW2 Hp (Hk' _ Hu2 _ Hk2)).
  destruct e2; try discriminate; cbn [uses_nth] in Hu2; apply Nat.eqb_eq in Hu2; subst k0; cbn [hazard];
    rewrite Hl1, Ht; auto.
  destruct (Nat.ltb_spec ps (length (ss_list x2))) as [L|L]; auto. specialize (Hg eq_refl). lia.
Qed.

Lemma sync_stats : forall debug ps pa es (w : world T) (x : sspec T), wreaches debug ps pa es w x ->
  getStats (w_stack w) = ROk (w_stack w) (ss_blocks x, ps, pages_for ps (length (ss_list x)),
     length (ss_list x) - (pages_for ps (length (ss_list x)) - 1) * ps).
Proof.
  intros debug ps pa es w x H. pose proof (wreaches_inv _ _ _ _ _ _ H) as I. destruct H as (Hp & _).
  destruct I as (H1 & H2 & H3 & H4 & H5 & H6 & H7 & H8 & H9 & H10 & H11).
  destruct H1 as (b & t & a & R1 & R2 & R3 & R4 & R5 & R6).
  destruct x as [l n pend blocks]. destruct w as [s its]. cbn [w_stack w_live ss_list ss_live ss_pending ss_blocks] in *.
  destruct s as [ps0 asz pgs ids nid c sc sr lk].
  cbn [page_size alloc_size pages PagedStackModel.ids next_id cur sync_count shrink_req locked] in *. subst.
  rewrite rev_length, pages_for_shape by auto. rewrite (shape_len ps) by auto.
  unfold getStats. apply noexcept_ok. unfold with_lock. cbn. msimp. rewrite nth_error_mid.
  repeat f_equal. lia.
Qed.

Lemma firstn_index_none : forall x l i c, NoDup l -> nth_error l i = Some x -> c <= i -> index_of x (firstn c l) = None.
Proof.
  intros x l i c Hn Hi Hc. apply index_of_none. intros Hin.
  apply In_nth_error in Hin. destruct Hin as [j Hj].
  assert (Hl : j < length (firstn c l)) by (apply nth_error_Some; congruence).
  rewrite firstn_length in Hl.
  assert (G : nth_error l j = Some x).
  { rewrite <- (firstn_skipn c l), nth_error_app1; auto. rewrite firstn_length. lia. }
  assert (i = j); [|lia]. rewrite NoDup_nth_error in Hn. apply Hn; [apply nth_error_Some; congruence|congruence].
Qed.

Lemma sync_copy_dangles : forall debug ps pa es (w : world T) (x : sspec T) n, wreaches debug ps pa es w x ->
  ss_live x = 0 -> n <= length (ss_list x) ->
  pages_for ps (length (ss_list x) - n) < pages_for ps (length (ss_list x)) ->
  exists w', (exists rs, wrun debug [SyncBegin; SyncCopy 0; SyncDestroy 0; Op (Discard n); Op Shrink] w = ROk w' rs) /\
    length (w_live w') = 1 /\
    wexec debug (SyncGet 0) w' = RBad UB /\ wexec debug (SyncInc 0) w' = RBad UB /\
    wexec debug (SyncDec 0) w' = RBad UB.
Proof.
  intros debug ps pa es w x n H Hlive Hn Hpf. pose proof (wreaches_inv _ _ _ _ _ _ H) as HW. destruct H as (Hp & _).
  pose proof HW as (H1 & H2 & H3 & H4 & H5 & H6 & H7 & H8 & H9 & H10 & H11).
  assert (Hlk : locked (w_stack w) = false) by (destruct H1 as (? & ? & ? & ? & ? & ? & ? & ? & ?); auto).
  assert (El : w_live w = []) by (apply length_zero_iff_nil; lia).
  assert (Hsr : shrink_req (w_stack w) = false).
  { rewrite H8. destruct (ss_pending x); auto. specialize (H9 eq_refl). lia. }
  assert (Hsc : sync_count (w_stack w) = 0%Z) by (rewrite H6, El; reflexivity).
  destruct (cur_page_nth _ _ H1) as [q Hq]. destruct (ids_nth _ _ _ H5 Hq) as (nd & N1 & N2).
  set (it := mkS nd (Z.of_nat (length q) - 1)).
  assert (E : sync_begin (w_stack w) =
      ROk (set_locked false (set_sync (sync_count (w_stack w) + 1) (set_locked true (w_stack w)))) it).
  { unfold sync_begin. apply noexcept_ok. unfold with_lock. rewrite Hlk. unfold bind, get, cur_page, page_at, lift_opt.
    unfold bind, get. cb. rewrite Hq. unfold ret, node_at, bind, get, lift_opt. cb. rewrite N1. reflexivity. }
  assert (ED : s_destroy it (set_locked false (set_sync (sync_count (w_stack w) + 1) (set_locked true (w_stack w)))) =
      ROk (w_stack w) tt).
  { unfold s_destroy, noexcept, with_lock. unfold bind, get, put. cb.
    cbn [set_sync set_locked sync_count shrink_req locked]. rewrite Hsc, Hsr. cbn [Z.add Z.sub Z.opp Z.pos_sub Z.eqb andb].
    unfold ret. revert Hlk Hsc. clear. destruct (w_stack w). cbn. intros -> ->. reflexivity. }
  assert (Hsp : spec_step (Discard n) (ss_list x) = Some (skipn n (ss_list x), RUnit)).
  { cbn [spec_step]. destruct (Nat.leb_spec n (length (ss_list x))); [auto|lia]. }
  destruct (exec_ok debug (Discard n) (w_stack w) (ss_list x) _ _ H1 ltac:(discriminate) ltac:(discriminate) Hsp)
    as (s1 & E1 & E2 & E3 & E4 & _).
  pose proof (exec_keeps debug (Discard n) eq_refl (w_stack w)) as K. rewrite E1 in K.
  destruct K as (K1 & K2 & K3 & K4 & K5 & K6 & K7).
  pose proof (cur_pages_for _ _ H1 ltac:(lia)) as P1. rewrite H3 in P1.
  destruct E3 as (F1 & F2 & F3).
  pose proof (cur_pages_for _ _ E2 ltac:(lia)) as P2. rewrite F1, H3, skipn_length in P2.
  assert (Hlk1 : locked s1 = false) by (destruct E2 as (? & ? & ? & ? & ? & ? & ? & ? & ?); auto).
  destruct (cur_page_nth _ _ E2) as [q1 Hq1].
  set (s2 := set_locked false (set_ids (firstn (S (cur s1)) (ids s1)) (next_id s1)
         (set_pages (firstn (S (cur s1)) (pages s1)) (set_locked true s1)))).
  assert (E5 : shrink_to_fit s1 = ROk s2 tt).
  { unfold shrink_to_fit, with_lock. rewrite Hlk1. unfold bind, get. cbn [set_locked sync_count]. rewrite F3, Hsc.
    cbn [Z.gtb Z.compare]. unfold internal_shrink_to_fit, cur_page, page_at, bind, get, put, lift_opt.
    cbn [set_locked pages cur]. rewrite Hq1. reflexivity. }
  assert (Hnone : index_of nd (ids s2) = None).
  { cbn [s2 set_locked set_ids set_pages ids]. rewrite K2. apply (firstn_index_none _ _ (cur (w_stack w))); auto; [apply H5|lia]. }
  exists (mkW s2 [it]). split; [|split; [reflexivity|]].
  - eexists. cbn [wrun wexec]. rewrite E. cbn [on_stack]. rewrite El. cbn [app].
    cbn [wrun wexec]. unfold with_iter. cbn [w_live nth_error]. unfold s_copy, ret. cbn [on_stack w_stack w_live app].
    cbn [nth_error]. rewrite ED. cbn [on_stack w_stack w_live remove_nth firstn skipn app]. unfold remove_nth. cbn [firstn skipn app].
    rewrite E1. cbn [on_stack w_stack w_live]. cbn [exec]. unfold bind. rewrite E5. unfold ret. cbn [on_stack w_stack w_live].
    reflexivity.
  - cbn [wexec]. unfold with_iter. cbn [w_live nth_error w_stack].
    assert (Hs : forall s3, ids s3 = ids s2 -> synchronize it s3 = RBad UB).
    { intros s3 G. unfold synchronize, node_pos, bind, get, lift_opt. rewrite G. cbn [it mkS s_node]. rewrite Hnone. reflexivity. }
    assert (Hl2 : locked s2 = false) by reflexivity.
    unfold s_get, s_inc, s_dec, with_lock. rewrite !Hl2. unfold bind.
    rewrite Hs by reflexivity. auto.
Qed.

End SyncProofs.
