(** * PagedStack: how many pages exist after a history. *)
From Coq Require Import List Arith ZArith Lia Bool.
From Verif Require Import Base ListFacts PagedStackModel PagedStackSpec PagedStackExec
  PagedStackProofs PagedStackIter PagedStackFrame.
Import ListNotations.
Open Scope m_scope.

Section Blocks.
Context {T : Type}.
Implicit Types (b a : list (list T)) (t p : list T).

Lemma shape_len : forall ps b t, shape ps b t -> length (concat b ++ t) = length b * ps + length t.
Proof.
  intros ps b t H. rewrite app_length, (concat_uniform_length ps) by apply (sh_full _ _ _ H). auto.
Qed.

Lemma full_iff : forall ps b t a, 1 <= ps -> shape ps b t ->
  (length t = ps /\ a = [] <-> length (concat b ++ t) = length (b ++ t :: a) * ps).
Proof.
  intros ps b t a Hp H. rewrite (shape_len ps) by auto. rewrite app_length. cbn [length].
  pose proof (sh_cap _ _ _ H I Hp). split.
  - intros [E ->]. cbn [length]. nia.
  - intros E. destruct a; cbn [length] in E; [|nia]. split; auto. nia.
Qed.

Lemma internal_push_blocks : forall xs ps asz b t a ids nid sc sr lk s',
  1 <= ps -> 1 <= asz -> shape ps b t -> Forall (fun p => p = []) a ->
  internal_push xs (mkStack ps asz (b ++ t :: a) ids nid (length b) sc sr lk) = ROk s' tt ->
  length (pages s') =
    push_many_blocks ps asz (length xs) (length (concat b ++ t)) (length (b ++ t :: a)).
Proof.
  induction xs as [|x xs IH]; intros ps asz b t a ids nid sc sr lk s' Hp Hasz Hs Ha H.
  - cbn in H. injection H as <-. reflexivity.
  - cbn [internal_push] in H.
    destruct (push_one_shape ps asz b t a ids nid sc sr lk x Hasz Hs Ha)
      as (b1 & t1 & a1 & i1 & n1 & H1 & H2 & H3 & H4 & H5).
    erewrite bind_ok in H by apply H1. apply IH in H; auto. rewrite H, H3. cbn [length push_many_blocks].
    replace (length (concat b ++ t ++ [x])) with (S (length (concat b ++ t))).
    2:{ rewrite !app_length. simpl. lia. }
    f_equal. unfold push_blocks.
    destruct (Nat.eqb_spec (length (concat b ++ t)) (length (b ++ t :: a) * ps)) as [E|E];
      rewrite <- full_iff in E by auto; intuition.
Qed.

Lemma pages_for_shape : forall ps b t, 1 <= ps -> shape ps b t ->
  pages_for ps (length (concat b ++ t)) = S (length b).
Proof.
  intros ps b t Hp H. rewrite (shape_len ps) by auto. unfold pages_for.
  pose proof (sh_cap _ _ _ H I Hp). destruct t as [|x t].
  - rewrite (sh_top _ _ _ H eq_refl). cbn [length]. simpl.
    rewrite Nat.div_small by lia. reflexivity.
  - cbn [length] in *.
    replace (length b * ps + S (length t) + ps - 1) with (length t + S (length b) * ps) by lia.
    rewrite Nat.div_add by lia. rewrite Nat.div_small by lia. lia.
Qed.

Lemma exec_blocks : forall debug o (s : stack T) l l' r s' r', rep s l -> clean s -> 1 <= page_size s ->
  sync_count s = 0%Z -> spec_step o l = Some (l', r) -> exec debug o s = ROk s' r' ->
  length (pages s') = blocks_step (page_size s) (alloc_size s) o (length l) (length (pages s)).
Proof.
  intros debug o s l l' r s' r' Hr Hc Hp Hsc Hs He.
  destruct (makes_pages o) eqn:Em.
  2:{ pose proof (exec_keeps debug o Em s) as K. rewrite He in K. destruct K as (K & _).
      rewrite K. destruct o; try discriminate; reflexivity. }
  assert (Push_case : forall xs s1, with_lock (internal_push xs) s = ROk s1 tt ->
     length (pages s1) = push_many_blocks (page_size s) (alloc_size s) (length xs) (length l) (length (pages s))).
  { intros xs s1 E. apply with_lock_inv in E. destruct E as (s2 & E & ->).
    destruct Hr as (b & t & a & R1 & R2 & R3 & R4 & R5 & R6).
    destruct s as [ps asz pgs ids nid c sc sr lk]. cbn in *. subst.
    rewrite (clean_split _ b t a) in Hc by reflexivity.
    unfold set_locked in E. cbn in E. apply internal_push_blocks in E; auto.
    rewrite rev_length. exact E. }
  destruct o; try discriminate; cbn [exec blocks_step] in *.
  - unfold bind in He. destruct (push x xs s) as [s1 []| |] eqn:E; try discriminate.
    injection He as <- _. apply (Push_case (x :: xs)). exact E.
  - unfold bind in He. destruct (push_emplace x s) as [s1 []| |] eqn:E; try discriminate.
    injection He as <- _. apply (Push_case [x]). rewrite <- E. unfold push_emplace, with_lock.
    destruct (locked s); auto. cbn [internal_push]. unfold internal_push_one, bind, ret.
    destruct (advance (set_locked true s)); auto. destruct (cur_page s0); auto.
  - unfold bind in He. destruct (shrink_ok s l Hr) as (s1 & S1 & S2 & S3 & S4 & S5 & S6 & S7).
    rewrite S1 in He. injection He as <- _. rewrite S6 by lia.
    destruct S2 as (b & t & a & R1 & R2 & R3 & R4 & R5 & R6). rewrite R2, R6, rev_length.
    destruct S3 as (F1 & _). rewrite F1 in R3. symmetry. apply pages_for_shape; auto.
Qed.

Lemma exec_blocks_push : forall debug o (s : stack T) l l' r s' r', rep s l -> clean s -> 1 <= page_size s ->
  is_push o = true -> spec_step o l = Some (l', r) -> exec debug o s = ROk s' r' ->
  length (pages s') = blocks_step (page_size s) (alloc_size s) o (length l) (length (pages s)).
Proof.
  intros debug o s l l' r s' r' Hr Hc Hp Hsc Hs He.
  assert (Push_case : forall xs s1, with_lock (internal_push xs) s = ROk s1 tt ->
     length (pages s1) = push_many_blocks (page_size s) (alloc_size s) (length xs) (length l) (length (pages s))).
  { intros xs s1 E. apply with_lock_inv in E. destruct E as (s2 & E & ->).
    destruct Hr as (b & t & a & R1 & R2 & R3 & R4 & R5 & R6).
    destruct s as [ps asz pgs ids nid c sc sr lk]. cbn in *. subst.
    rewrite (clean_split _ b t a) in Hc by reflexivity.
    unfold set_locked in E. cbn in E. apply internal_push_blocks in E; auto.
    rewrite rev_length. exact E. }
  destruct o; try discriminate; cbn [exec blocks_step] in *.
  - unfold bind in He. destruct (push x xs s) as [s1 []| |] eqn:E; try discriminate.
    injection He as <- _. apply (Push_case (x :: xs)). exact E.
  - unfold bind in He. destruct (push_emplace x s) as [s1 []| |] eqn:E; try discriminate.
    injection He as <- _. apply (Push_case [x]). rewrite <- E. unfold push_emplace, with_lock.
    destruct (locked s); auto. cbn [internal_push]. unfold internal_push_one, bind, ret.
    destruct (advance (set_locked true s)); auto. destruct (cur_page s0); auto.
Qed.

Lemma run_blocks : forall debug ops (s : stack T) l l' rs s' rs', rep s l -> clean s -> 1 <= page_size s ->
  sync_count s = 0%Z -> forallb core_op ops = true -> spec_run ops l = Some (l', rs) ->
  run debug ops s = ROk s' rs' ->
  length (pages s') = spec_blocks (page_size s) (alloc_size s) ops l (length (pages s)).
Proof.
  intros debug ops. induction ops as [|o ops IH]; intros s l l' rs s' rs' Hr Hc Hp Hsc Ho Hs He.
  - cbn in He. injection He as <- _. reflexivity.
  - simpl in Ho. apply andb_true_iff in Ho. destruct Ho as [Ho1 Ho2].
    cbn [spec_run] in Hs. destruct (spec_step o l) as [[l1 r]|] eqn:E; [|discriminate].
    destruct (spec_run ops l1) as [[l2 rs2]|] eqn:E2; [|discriminate]. injection Hs as <- <-.
    destruct (exec_ok debug o s l l1 r Hr) as (s1 & H1 & H2 & H3 & H4 & _); auto.
    { intros ->. discriminate. }
    assert (Cs : clean s1).
    { apply H4; auto. left. auto. }
    pose proof (exec_blocks debug o s l l1 r s1 r Hr Hc Hp Hsc E H1) as B.
    cbn [run] in He. erewrite bind_ok in He by apply H1. unfold bind in He.
    destruct (run debug ops s1) as [s2 rs3| |] eqn:E3; try discriminate. injection He as <- _.
    destruct H3 as (F1 & F2 & F3).
    apply (IH s1 l1 l2 rs2) in E3; auto; try lia.
    cbn [spec_blocks]. rewrite E, E3, F1, F2, B. reflexivity.
Qed.

Lemma reaches_blocks : forall debug ps pa ops (s : stack T) l,
  reaches debug ps pa ops s l -> 1 <= ps -> length (pages s) = spec_blocks ps pa ops [] pa.
Proof.
  intros debug ps pa ops s l (Hpa & Hc & rs & Hs & Hr) Hp.
  destruct (construct_rep (T := T) ps pa Hpa) as [C1 C2].
  apply (run_blocks debug ops (construct ps pa) [] l rs s rs) in Hr; auto.
  rewrite Hr. simpl. rewrite repeat_length. reflexivity.
Qed.

Lemma reaches_stats : forall debug ps pa ops (s : stack T) l,
  reaches debug ps pa ops s l -> 1 <= ps ->
  getStats s = ROk s (spec_blocks ps pa ops [] pa, ps, pages_for ps (length l),
                      length l - (pages_for ps (length l) - 1) * ps).
Proof.
  intros debug ps pa ops s l H Hp. pose proof (reaches_blocks _ _ _ _ _ _ H Hp) as B.
  apply reaches_rep in H. destruct H as (R & Hc & Hps & Hpa & Hsc).
  destruct R as (b & t & a & R1 & R2 & R3 & R4 & R5 & R6).
  destruct s as [ps0 asz pgs ids nid c sc sr lk].
  cbn [page_size alloc_size pages PagedStackModel.ids next_id cur sync_count shrink_req locked] in *. subst.
  rewrite rev_length, pages_for_shape by auto. rewrite (shape_len ps) by auto. rewrite <- B.
  unfold getStats. apply noexcept_ok. unfold with_lock. cbn. msimp. rewrite nth_error_mid.
  repeat f_equal. lia.
Qed.

(** ** Closed form *)

Definition no_shrink (o : op T) : bool := match o with Shrink => false | _ => true end.

(** Invariant: [k] batches, enough for the largest size, and no more than needed. *)
Lemma spec_blocks_hw : forall ps asz ops (l l' : list T) rs m k, 1 <= ps -> 1 <= asz -> 1 <= k ->
  forallb core_op ops = true -> forallb no_shrink ops = true ->
  spec_run ops l = Some (l', rs) -> length l <= m ->
  m <= asz * k * ps -> (k = 1 \/ (k - 1) * asz * ps < m) ->
  exists k', spec_blocks ps asz ops l (asz * k) = asz * k' /\ 1 <= k' /\
    Nat.max m (high_water ops l) <= asz * k' * ps /\
    (k' = 1 \/ (k' - 1) * asz * ps < Nat.max m (high_water ops l)).
Proof.
  intros ps asz ops. induction ops as [|o ops IH]; intros l l' rs m k Hp Ha Hk Hc Hn Hs Hl Hm Hlow.
  - cbn [spec_blocks high_water]. exists k. rewrite Nat.max_l by lia. auto.
  - cbn [forallb] in Hc, Hn. apply andb_true_iff in Hc, Hn. destruct Hc as [Hc1 Hc2], Hn as [Hn1 Hn2].
    cbn [spec_run spec_blocks high_water] in *.
    destruct (spec_step o l) as [[l1 r]|] eqn:E; [|discriminate].
    destruct (spec_run ops l1) as [[l2 rs2]|] eqn:E2; [|discriminate]. injection Hs as <- <-.
    assert (Pc : forall n, length l1 = length l + n ->
      blocks_step ps asz o (length l) (asz * k) = push_many_blocks ps asz n (length l) (asz * k) ->
      exists k', spec_blocks ps asz ops l1 (blocks_step ps asz o (length l) (asz * k)) = asz * k' /\ 1 <= k' /\
        Nat.max m (Nat.max (length l) (high_water ops l1)) <= asz * k' * ps /\
        (k' = 1 \/ (k' - 1) * asz * ps < Nat.max m (Nat.max (length l) (high_water ops l1)))).
    { intros n En Eb. rewrite Eb.
      assert (exists k1, push_many_blocks ps asz n (length l) (asz * k) = asz * k1 /\ k <= k1 /\
         length l + n <= asz * k1 * ps /\ (k1 = k \/ (k1 - 1) * asz * ps < length l + n)) as (k1 & G1 & G2 & G3 & G4).
      { (* generalise the lower bound: only the upper side is needed here *)
        clear -Hp Ha Hk Hl Hm. assert (Hsz : length l <= asz * k * ps) by lia. clear Hl Hm m.
        remember (length l) as size. clear Heqsize l.
        remember (asz * k) as blocks. revert size k blocks Hk Heqblocks Hsz.
        induction n as [|n IHn]; intros size k blocks Hk -> Hsz; cbn [push_many_blocks].
        - exists k. repeat split; auto. lia.
        - unfold push_blocks. destruct (Nat.eqb_spec size (asz * k * ps)) as [E|E].
          + destruct (IHn (S size) (k + 1) (asz * k + asz)) as (k1 & G1 & G2 & G3 & G4); try lia; try nia.
            exists k1. split; [exact G1|]. split; [lia|]. split; [lia|]. right.
            destruct G4 as [->|G4]; [|lia]. replace (k + 1 - 1) with k by lia. nia.
          + destruct (IHn (S size) k (asz * k)) as (k1 & G1 & G2 & G3 & G4); try lia; try nia.
            exists k1. repeat split; auto; lia. }
      rewrite G1.
      destruct (IH l1 l2 rs2 (Nat.max m (length l1)) k1) as (k' & K1 & K2 & K3 & K4); auto; try lia.
      - assert (asz * k * ps <= asz * k1 * ps) by (apply Nat.mul_le_mono_r, Nat.mul_le_mono_l; lia). lia.
      - exists k'. rewrite K1. split; auto. split; auto.
        assert (Hw : length l1 <= high_water ops l1).
        { destruct ops as [|o' ops']; simpl; [lia|].
          destruct (spec_step o' l1) as [[? ?]|]; lia. }
        split; [lia|]. destruct K4; [left; auto|right; lia]. }
    destruct (is_push o) eqn:Ep.
    + destruct o; try discriminate; cbn [spec_step] in E; injection E as <- <-.
      * apply (Pc (S (length xs))); [|reflexivity]. simpl. rewrite !app_length, rev_length. simpl. lia.
      * apply (Pc 1); [simpl; lia|reflexivity].
    + assert (Eb : blocks_step ps asz o (length l) (asz * k) = asz * k).
      { destruct o; try discriminate; reflexivity. }
      rewrite Eb.
      assert (L1 : length l1 <= length l).
      { destruct o; try discriminate; cbn [spec_step] in E;
        repeat match type of E with
        | (if ?c then _ else _) = _ => destruct c; try discriminate
        | match ?c with _ => _ end = _ => destruct c; try discriminate
        end; injection E as <- <-; try (destruct l); cbn [length]; rewrite ?skipn_length; cbn [length]; lia. }
      destruct (IH l1 l2 rs2 m k) as (k' & K1 & K2 & K3 & K4); auto; try lia.
      exists k'. split; auto. split; auto. split; [lia|]. destruct K4; [left; auto|right; lia].
Qed.

Lemma ceil_unique : forall n d k, 1 <= d -> 1 <= k -> n <= k * d -> (k = 1 \/ (k - 1) * d < n) ->
  Nat.max 1 ((n + d - 1) / d) = k.
Proof.
  intros n d k Hd Hk Hu Hl.
  assert (A : (n + d - 1) / d <= k).
  { apply Nat.lt_succ_r. apply Nat.div_lt_upper_bound; [lia|]. nia. }
  destruct Hl as [->|Hl]; [lia|].
  assert (B : k <= (n + d - 1) / d).
  { apply Nat.div_le_lower_bound; [lia|]. nia. }
  lia.
Qed.

Lemma blocks_closed : forall ps pa ops (l : list T) rs, 1 <= ps -> 1 <= pa ->
  forallb core_op ops = true -> forallb no_shrink ops = true ->
  spec_run ops [] = Some (l, rs) ->
  spec_blocks ps pa ops [] pa =
    pa * Nat.max 1 ((high_water ops [] + pa * ps - 1) / (pa * ps)).
Proof.
  intros ps pa ops l rs Hp Ha Hc Hn Hs.
  destruct (spec_blocks_hw ps pa ops [] l rs 0 1) as (k & K1 & K2 & K3 & K4); auto; try lia.
  rewrite Nat.mul_1_r in K1. rewrite K1. f_equal. symmetry.
  rewrite Nat.max_0_l in K3, K4. apply ceil_unique; auto; [nia| |].
  - replace (k * (pa * ps)) with (pa * k * ps) by ring. auto.
  - replace ((k - 1) * (pa * ps)) with ((k - 1) * pa * ps) by ring. auto.
Qed.

Lemma page_caps : forall (s : stack T) l, rep s l -> clean s -> 1 <= page_size s ->
  Forall (fun p => length p <= page_size s) (pages s).
Proof.
  intros s l (b & t & a & R1 & R2 & R3 & R4 & R5 & R6) Hc Hp. rewrite R1.
  apply (clean_split s b t a R1 R2) in Hc.
  apply Forall_app. split.
  - eapply Forall_impl; [|apply (sh_full _ _ _ R3)]. simpl. intros. lia.
  - constructor; [apply (sh_cap _ _ _ R3 I Hp)|]. eapply Forall_impl; [|apply Hc]. simpl.
    intros p ->. simpl. lia.
Qed.

(** Elements keep their page and offset while other elements are pushed. *)
Lemma exec_push_stable : forall debug o (s s' : stack T) r i j p x,
  is_push o = true -> exec debug o s = ROk s' r ->
  nth_error (pages s) i = Some p -> nth_error p j = Some x ->
  exists p', nth_error (pages s') i = Some p' /\ nth_error p' j = Some x /\
    firstn (length (ids s)) (ids s') = ids s.
Proof.
  intros debug o s s' r i j p x Ho He Hi Hj.
  pose proof (exec_push_ex debug o s Ho) as X. rewrite He in X. destruct X as (X1 & [m X2] & _).
  destruct (X1 i p Hi) as [q Hq]. exists (p ++ q). split; auto. split.
  - rewrite nth_error_app1; auto. apply nth_error_Some. congruence.
  - rewrite X2. apply firstn_length_app.
Qed.

End Blocks.
