(** * PagedStack: the remaining lemmas behind PagedStackProps. *)
From Coq Require Import List Arith ZArith Lia Bool.
From Verif Require Import Base ListFacts PagedStackModel PagedStackSpec PagedStackExec
  PagedStackProofs PagedStackIter PagedStackMore PagedStackFrame PagedStackBlocks PagedStackCopy.
Import ListNotations.
Open Scope m_scope.

Section Misc.
Context {T : Type}.
Implicit Types (s : stack T) (l : list T) (ops : list (op T)).

Lemma spec_run_app : forall ops ops' l l1 rs1 l2 rs2,
  spec_run ops l = Some (l1, rs1) -> spec_run ops' l1 = Some (l2, rs2) ->
  spec_run (ops ++ ops') l = Some (l2, rs1 ++ rs2).
Proof.
  induction ops as [|o ops IH]; intros ops' l l1 rs1 l2 rs2 H1 H2; cbn [spec_run app] in *.
  - injection H1 as <- <-. auto.
  - destruct (spec_step o l) as [[l3 r]|]; [|discriminate].
    destruct (spec_run ops l3) as [[l4 rs4]|] eqn:E; [|discriminate]. injection H1 as <- <-.
    rewrite (IH _ _ _ _ _ _ E H2). reflexivity.
Qed.

Lemma run_app : forall debug ops ops' s s1 rs1,
  run debug ops s = ROk s1 rs1 ->
  run debug (ops ++ ops') s = (rs2 <- run debug ops' ;; ret (rs1 ++ rs2)) s1.
Proof.
  induction ops as [|o ops IH]; intros ops' s s1 rs1 H; cbn [run app] in *.
  - cbn in H. injection H as <- <-. unfold bind. simpl.
    destruct (run debug ops' s); reflexivity.
  - unfold bind in H. destruct (exec debug o s) as [s2 r| |] eqn:E; try discriminate.
    destruct (run debug ops s2) as [s3 rs3| |] eqn:E2; try discriminate. injection H as <- <-.
    unfold bind at 1. rewrite E. unfold bind at 1. rewrite (IH ops' _ _ _ E2).
    unfold bind. destruct (run debug ops' s3); reflexivity.
Qed.

Lemma reaches_app : forall debug ps pa ops ops' s l l' rs,
  reaches debug ps pa ops s l -> forallb core_op ops' = true -> spec_run ops' l = Some (l', rs) ->
  exists s', run debug ops' s = ROk s' rs /\ reaches debug ps pa (ops ++ ops') s' l'.
Proof.
  intros debug ps pa ops ops' s l l' rs H Hc Hs.
  pose proof (reaches_rep _ _ _ _ _ _ H) as (R & Cl & _).
  destruct (run_core_ok debug ops' s l l' rs R Cl Hc Hs) as (s' & G1 & _).
  exists s'. split; auto. destruct H as (Hpa & Hc0 & rs0 & Hs0 & Hr0).
  split; auto. split; [rewrite forallb_app, Hc0, Hc; auto|].
  exists (rs0 ++ rs). split; [eapply spec_run_app; eauto|].
  rewrite (run_app _ _ _ _ _ _ Hr0). unfold bind. rewrite G1. reflexivity.
Qed.

Lemma multi_push_pop : forall debug ps pa ops s l x xs,
  reaches debug ps pa ops s l ->
  exists s', run debug [Push x xs; Top; PopN (length xs)] s =
               ROk s' [RUnit; RVals [last xs x]; RVals (rev (x :: xs))] /\
             reaches debug ps pa (ops ++ [Push x xs; Top; PopN (length xs)]) s' l.
Proof.
  intros debug ps pa ops s l x xs H. apply reaches_app with (l := l); auto.
  assert (E : exists y ys, rev (x :: xs) = y :: ys /\ y = last xs x).
  { clear. destruct (snoc_cases xs) as [->|(ys & y & ->)].
    - exists x, []. auto.
    - exists y, (rev ys ++ [x]). cbn [rev]. rewrite rev_app_distr, last_last. auto. }
  destruct E as (y & ys & E & ->).
  assert (L : length (rev (x :: xs)) = S (length xs)) by (rewrite rev_length; reflexivity).
  cbn [spec_run]. unfold spec_step at 1. unfold spec_step at 1. rewrite E in *. cbn [app].
  unfold spec_step.
  change (last xs x :: ys ++ l) with ((last xs x :: ys) ++ l). rewrite <- L.
  rewrite app_length. destruct (Nat.leb_spec (length (last xs x :: ys)) (length (last xs x :: ys) + length l)); [|lia].
  rewrite firstn_length_app, skipn_length_app. reflexivity.
Qed.

Lemma peeks_ok : forall debug ps pa ops s l n d,
  reaches debug ps pa ops s l -> S n <= d -> d <= length l ->
  exists vp vr vd,
    peek debug (S n) s = ROk s vp /\ peek_reverse debug (S n) s = ROk s vr /\
    peek_depth debug d (S n) s = ROk s vd /\
    length vp = S n /\ length vr = S n /\ length vd = S n /\
    forall i, i <= n ->
      nth_error vp i = nth_error l i /\
      nth_error vr i = nth_error l (n - i) /\
      nth_error vd i = nth_error l (d - 1 - i).
Proof.
  intros debug ps pa ops s l n d H H1 H2. apply reaches_rep in H. destruct H as (R & _).
  eexists _, _, _. split; [apply (peek_ok (cap:=True)); eauto; lia|].
  split; [apply (peek_reverse_ok (cap:=True)); eauto; lia|]. split; [apply (peek_depth_ok (cap:=True)); eauto|].
  rewrite rev_length, !firstn_length, rev_length, !firstn_length. split; [lia|]. split; [lia|]. split; [lia|].
  assert (F : forall k j, j < k -> k <= length l -> nth_error (firstn k l) j = nth_error l j).
  { intros k j Hj Hk. rewrite <- (firstn_skipn k l) at 2. rewrite nth_error_app1; auto.
    rewrite firstn_length. lia. }
  intros i Hi. split; [apply F; lia|].
  assert (F2 : forall (m : list T) k j, j < k -> nth_error (firstn k m) j = nth_error m j).
  { intros m k. revert m. induction k; intros m j Hj; [lia|]. destruct m, j; simpl; auto. apply IHk. lia. }
  assert (F3 : forall k j, j < k -> k <= length l -> nth_error (rev (firstn k l)) j = nth_error l (k - 1 - j)).
  { intros k j Hj Hk. rewrite nth_error_rev by (rewrite firstn_length; lia).
    rewrite firstn_length, Nat.min_l by lia. apply F2. lia. }
  rewrite (F2 (rev (firstn d l))) by lia. rewrite !F3 by lia. split; f_equal; lia.
Qed.

Lemma run3 : forall debug o1 x s s1 r1 l k, exec debug o1 s = ROk s1 r1 -> stale s1 l k ->
  exists s', run debug [o1; Push x []; Size] s = ROk s' [r1; RUnit; RNat (length l + 1 + k)].
Proof.
  intros debug o1 x s s1 r1 l k H1 H2. destruct (stale_push s1 l k x H2) as (s2 & P1 & P2).
  exists s2. cbn [run exec]. unfold bind. rewrite H1, P1. cbn. rewrite P2. reflexivity.
Qed.

Lemma pop_reverse_refuted : forall debug ps pa ops s l n x,
  reaches debug ps pa ops s l -> 1 <= ps -> S n <= length l ->
  on_boundary ps (length l - S n) = true ->
  exists s', run debug [PopReverse n; Push x []; Size] s =
    ROk s' [RVals (rev (firstn (S n) l)); RUnit; RNat (length l - S n + 1 + Nat.min ps (S n))].
Proof.
  intros debug ps pa ops s l n x H Hp Hn Hb. apply reaches_rep in H.
  destruct H as (R & _ & <- & _).
  destruct (pop_reverse_stale debug n s l R Hp Hn Hb) as (s1 & P1 & P2).
  rewrite <- (skipn_length (S n) l). eapply run3; eauto. cbn [exec]. erewrite bind_ok by apply P1. reflexivity.
Qed.

Lemma discard_iterator_refuted : forall debug ps pa ops s l k x,
  reaches debug ps pa ops s l -> 1 <= ps -> k < length l ->
  on_boundary ps (length l - S k) = true ->
  (exists s', run debug [DiscardAt k; Push x []; Size] s =
    ROk s' [RUnit; RUnit; RNat (length l - S k + 1 + Nat.min ps (S k))]) /\
  (exists s', run debug [DiscardFromTop (S k); Push x []; Size] s =
    ROk s' [RUnit; RUnit; RNat (length l - S k + 1 + Nat.min ps (S k))]).
Proof.
  intros debug ps pa ops s l k x H Hp Hn Hb. apply reaches_rep in H.
  destruct H as (R & _ & <- & _). rewrite <- (skipn_length (S k) l). split.
  - destruct (discard_at_stale k s l R Hp Hn Hb) as (s1 & P1 & P2).
    eapply run3; eauto. cbn [exec]. revert P1. unfold bind.
    destruct (begin s); try discriminate. destruct (f_plus k a s0); try discriminate.
    intros ->. reflexivity.
  - destruct (discard_from_top_stale debug (S k) s l R Hp ltac:(lia) ltac:(lia) Hb) as (s1 & P1 & P2).
    eapply run3; eauto. cbn [exec]. revert P1. unfold bind.
    destruct (from_top debug (S k) s); try discriminate.
    intros ->. reflexivity.
Qed.

Lemma discard_comment_refuted : forall debug ps pa ops s l k,
  reaches debug ps pa ops s l -> k < length l ->
  exists s', run debug [DiscardAt k; Size] s = ROk s' [RUnit; RNat (length l - k - 1)].
Proof.
  intros debug ps pa ops s l k H Hk. apply reaches_rep in H. destruct H as (R & _).
  destruct (exec_ok debug (DiscardAt k) s l (skipn (S k) l) RUnit R) as (s1 & E1 & R1 & _); try discriminate.
  { cbn [spec_step]. rewrite (proj2 (Nat.ltb_lt k (length l)) Hk). reflexivity. }
  pose proof (size_ok _ _ R1) as Z. rewrite skipn_length in Z.
  exists s1. cbn [run]. unfold bind. rewrite E1. cbn [exec]. unfold bind. rewrite Z.
  unfold ret. do 4 f_equal. lia.
Qed.

Lemma clear_run : forall s l, rep s l -> clean s -> 1 <= page_size s ->
  exists s', clear s = ROk s' tt /\ rep s' (skipn (length l - page_size s) l) /\ clean s'.
Proof.
  intros s l R C Hp. destruct (clear_eq s l R) as (s' & E1 & E2 & E3 & E4 & E5).
  exists s'. rewrite <- (first_page s l I R Hp). auto.
Qed.

Lemma clear_refuted : forall debug ps pa ops s l,
  reaches debug ps pa ops s l -> 1 <= ps -> l <> [] ->
  exists s', run debug [Clear; Size; Empty] s =
    ROk s' [RUnit; RNat (Nat.min ps (length l)); RBool false].
Proof.
  intros debug ps pa ops s l H Hp Hl. apply reaches_rep in H. destruct H as (R & C & <- & _).
  destruct (clear_run s l R C Hp) as (s1 & E1 & R1 & _).
  assert (length l <> 0) by (destruct l; [congruence|simpl; lia]).
  assert (Z : size s1 = ROk s1 (Nat.min (page_size s) (length l))).
  { rewrite (size_ok _ _ R1), skipn_length. f_equal. lia. }
  assert (W : empty s1 = ROk s1 false).
  { rewrite (empty_ok _ _ R1). destruct (skipn (length l - page_size s) l) eqn:E; auto.
    apply (f_equal (@length T)) in E. rewrite skipn_length in E. simpl in E. lia. }
  exists s1. cbn [run exec]. unfold bind. rewrite E1. unfold ret. rewrite Z, W. reflexivity.
Qed.

Lemma clear_keeps_bottom : forall debug ps pa ops s l more l' rs,
  reaches debug ps pa ops s l -> 1 <= ps -> forallb core_op more = true ->
  spec_run more (skipn (length l - ps) l) = Some (l', rs) ->
  exists s', run debug (Clear :: more) s = ROk s' (RUnit :: rs).
Proof.
  intros debug ps pa ops s l more l' rs H Hp Hc Hs. apply reaches_rep in H.
  destruct H as (R & C & <- & _).
  destruct (clear_run s l R C Hp) as (s1 & E1 & R1 & C1).
  destruct (run_core_ok debug more s1 _ l' rs R1 C1 Hc Hs) as (s2 & G1 & _).
  exists s2. cbn [run exec]. unfold bind. rewrite E1. cbn. rewrite G1. reflexivity.
Qed.

Lemma forward_reaches : forall debug ps pa ops s l,
  reaches debug ps pa ops s l ->
  exists x y, begin s = ROk s x /\ end_ s = ROk s y /\ f_loop s x y l.
Proof. intros debug ps pa ops s l H. apply reaches_rep in H. apply (forward_ok (cap:=True)), H. Qed.

Lemma forward_careful : forall debug ps pa ops s l,
  reaches_careful debug ps pa ops s l ->
  exists x y, begin s = ROk s x /\ end_ s = ROk s y /\ f_loop s x y l.
Proof. intros debug ps pa ops s l H. apply careful_rep in H. apply (forward_ok (cap:=True)), H. Qed.

Lemma loop_det : forall {I} eqb deref inc (s : stack T) (e x : I) xs,
  loop eqb deref inc s e x xs -> forall xs', loop eqb deref inc s e x xs' -> xs = xs'.
Proof.
  intros I eqb deref inc s e x xs H. induction H as [it E|it it' v xs E D J H IH]; intros xs' H'.
  - inversion H'; subst; auto. congruence.
  - inversion H' as [it0 E0|it0 it1 v1 xs1 E1 D1 J1 H1]; subst.
    + congruence.
    + assert (it1 = it') by congruence. subst it1. f_equal; [congruence|apply IH; auto].
Qed.
Lemma f_loop_det : forall s x y xs xs', f_loop s x y xs -> f_loop s x y xs' -> xs = xs'.
Proof. intros. eapply loop_det; eauto. Qed.
Lemma r_loop_det : forall s x y xs xs', r_loop s x y xs -> r_loop s x y xs' -> xs = xs'.
Proof. intros. eapply loop_det; eauto. Qed.

Lemma cur_pages_for : forall s l, rep s l -> 1 <= page_size s ->
  pages_for (page_size s) (length l) = S (cur s).
Proof.
  intros s l (b & t & a & R1 & R2 & R3 & R4 & R5 & R6) Hp.
  rewrite R6, rev_length, R2. apply pages_for_shape; auto.
Qed.

Lemma reverse_reaches : forall debug ps pa ops s l,
  reaches debug ps pa ops s l -> 1 <= ps ->
  spec_blocks ps pa ops [] pa = pages_for ps (length l) ->
  exists x y, rbegin s = ROk s x /\ rend s = ROk s y /\ r_loop s x y (rev l).
Proof.
  intros debug ps pa ops s l H Hp E. rewrite <- (reaches_blocks _ _ _ _ _ _ H Hp) in E.
  apply reaches_rep in H. destruct H as (R & C & <- & _).
  apply reverse_ok; auto. rewrite E. apply cur_pages_for; auto.
Qed.

Lemma cur_lt : forall s l, rep s l -> cur s < length (pages s).
Proof.
  intros s l (b & t & a & R1 & R2 & _). rewrite R1, R2, app_length. simpl. lia.
Qed.

Lemma reverse_reaches_refuted : forall debug ps pa ops s l,
  reaches debug ps pa ops s l -> 1 <= ps -> l <> [] ->
  spec_blocks ps pa ops [] pa <> pages_for ps (length l) ->
  exists x y, rbegin s = ROk s x /\ rend s = ROk s y /\ forall xs, ~ r_loop s x y xs.
Proof.
  intros debug ps pa ops s l H Hp Hl E. rewrite <- (reaches_blocks _ _ _ _ _ _ H Hp) in E.
  apply reaches_rep in H. destruct H as (R & C & <- & _).
  rewrite (cur_pages_for s l R Hp) in E. pose proof (cur_lt s l R).
  destruct l as [|x0 l]; [congruence|]. eapply reverse_overshoot; eauto. lia.
Qed.

Lemma from_top_reaches : forall debug ps pa ops s l d,
  reaches debug ps pa ops s l -> d <= length l ->
  exists x y, from_top debug d s = ROk s x /\ rend s = ROk s y /\ r_loop s x y (rev (firstn d l)).
Proof. intros debug ps pa ops s l d H Hd. apply reaches_rep in H. apply (from_top_loop_ok (cap:=True)); auto. apply H. Qed.

Lemma f_inc_state : forall it s s' it', f_inc it s = ROk s' it' -> s' = s.
Proof.
  intros it s s' it' E3. unfold f_inc in E3. msimp. destruct (nth_error _ _); [|discriminate].
  destruct (f_page it).
  - destruct (_ <? _)%Z; [discriminate|]. congruence.
  - destruct (_ =? _)%Z.
    + msimp. destruct (nth_error _ _); [|discriminate]. congruence.
    + destruct (_ <? _)%Z; [discriminate|]. congruence.
Qed.

Lemma f_plus_state : forall n it s s' it', f_plus n it s = ROk s' it' -> s' = s.
Proof.
  unfold f_plus. induction n; intros it s s' it' H; cbn [repeat_m] in H.
  - unfold ret in H. congruence.
  - unfold bind in H. destruct (f_inc it s) as [s1 it1| |] eqn:E; try discriminate.
    apply f_inc_state in E. subst. eauto.
Qed.

Lemma f_plus_add : forall k n it s it1 it2, f_plus k it s = ROk s it1 -> f_plus n it1 s = ROk s it2 ->
  f_plus (k + n) it s = ROk s it2.
Proof.
  unfold f_plus. induction k; intros n it s it1 it2 H1 H2; cbn [repeat_m Nat.add] in *.
  - cbn in H1. injection H1 as ->. auto.
  - unfold bind in *. destruct (f_inc it s) as [s1 it3| |] eqn:E; try discriminate.
    pose proof (f_inc_state _ _ _ _ E). subst. eauto.
Qed.

Lemma f_inverse_reaches : forall debug ps pa ops s l k n,
  reaches debug ps pa ops s l -> k + n <= length l ->
  exists it it', (x <- begin ;; f_plus k x) s = ROk s it /\
    f_plus n it s = ROk s it' /\ f_minus n it' s = ROk s it /\
    (x <- begin ;; f_plus (k + n) x) s = ROk s it'.
Proof.
  intros debug ps pa ops s l k n H Hn. apply reaches_rep in H. destruct H as (R & _).
  destruct (f_inverse s l k n R Hn) as (it & it' & E1 & E2 & E3).
  exists it, it'. repeat split; auto. revert E1. unfold bind.
  destruct (begin s) as [s1 x| |] eqn:B; try discriminate. intros E1.
  pose proof (f_plus_state _ _ _ _ _ E1) as ->. eapply f_plus_add; eauto.
Qed.

Lemma r_inverse_reaches : forall debug ps pa ops s l d n,
  reaches debug ps pa ops s l -> n + d <= length l ->
  exists it it', from_top debug (n + d) s = ROk s it /\
    r_plus n it s = ROk s it' /\ r_minus n it' s = ROk s it /\
    exists it'', from_top debug d s = ROk s it'' /\ r_eqb it' it'' = true.
Proof. intros debug ps pa ops s l d n H Hn. apply reaches_rep in H. eapply r_inverse; eauto. apply H. Qed.

Lemma capacity_reaches : forall debug ps pa ops s l,
  reaches debug ps pa ops s l -> 1 <= ps -> Forall (fun p => length p <= ps) (pages s).
Proof.
  intros debug ps pa ops s l H Hp. apply reaches_rep in H. destruct H as (R & C & <- & _).
  eapply page_caps; eauto.
Qed.

Lemma capacity_zero_refuted : forall debug pa (x : T), 1 <= pa ->
  exists s, run debug [Push x []] (construct 0 pa) = ROk s [RUnit] /\
    Exists (fun p => 0 < length p) (pages s).
Proof.
  intros debug pa x Hpa.
  assert (Hs : spec_run [Push x []] [] = Some ([x], [RUnit])) by reflexivity.
  destruct (core_exists debug 0 pa [Push x []] [x] [RUnit] Hpa eq_refl Hs) as (s & H).
  exists s. split; auto.
  assert (R : reaches debug 0 pa [Push x []] s [x]) by (split; auto; split; auto; eauto).
  apply reaches_rep in R. destruct R as ((b & t & a & R1 & R2 & R3 & R4 & R5 & R6) & _).
  rewrite R1. apply Exists_app. right. constructor.
  destruct t; [|simpl; lia]. rewrite (sh_top _ _ _ R3 eq_refl) in R6. discriminate.
Qed.

Lemma copy_push_refuted : forall debug ps pa ops s l x,
  reaches debug ps pa ops s l -> 1 <= ps -> (length l = 0 \/ length l mod ps <> 0) ->
  exists w, copy_push x (copy_of s) = ROk w tt /\
    size (tw_orig w) = ROk (tw_orig w) (S (length l)) /\ top (tw_orig w) = ROk (tw_orig w) x.
Proof.
  intros debug ps pa ops s l x H Hp Hl. apply reaches_rep in H. destruct H as (R & C & <- & _).
  destruct R as (b & t & a & R1 & R2 & R3 & R4 & R5 & R6).
  assert (Ht : length t <> page_size s).
  { intros E. rewrite R6, rev_length, (shape_len (page_size s)) in Hl by auto.
    rewrite E in Hl. destruct Hl as [Hl|Hl]; [lia|]. apply Hl.
    replace (length b * page_size s + page_size s) with (S (length b) * page_size s) by lia.
    apply Nat.mod_mul. lia. }
  assert (Rn : rep (set_pages (b ++ (t ++ [x]) :: a) s) (x :: l)).
  { exists b, (t ++ [x]), a. cbn. repeat split; auto.
    - apply (sh_full _ _ _ R3).
    - destruct t; discriminate.
    - intros _. rewrite app_length. simpl. pose proof (sh_cap _ _ _ R3 I Hp). lia.
    - apply (sh_zero _ _ _ R3).
    - rewrite app_assoc, (rev_app_distr (concat b ++ t) [x]), <- R6. reflexivity. }
  exists (mkTwin (set_pages (b ++ (t ++ [x]) :: a) s) (pages s) (cur s)). split.
  - unfold copy_push, copy_of, bind, get, lift_opt. cbn. rewrite R1, R2, nth_error_mid. cbn.
    rewrite (proj2 (Nat.eqb_neq _ _) Ht), nth_error_mid. cbn. rewrite upd_mid. reflexivity.
  - cbn [tw_orig]. split; [apply (size_ok _ _ Rn)|apply (top_ok _ _ _ Rn)].
Qed.

Lemma copy_size_refuted : forall s, copy_size (copy_of s) = RBad UB.
Proof.
  intros s. unfold copy_size, copy_of, bind, get. cbn.
  assert (E : forall p : list (list T), copy_size_loop p = None).
  { induction p as [|q p IH]; simpl; auto. rewrite IH. reflexivity. }
  rewrite E. reflexivity.
Qed.

Lemma free_call_meaning : forall A (m : M (stack T) A),
  free_call m <->
  forall s, locked s = false ->
    match m s with
    | ROk s' _ | RThrow s' => locked s' = false
    | RBad b => b <> Deadlock
    end.
Proof.
  intros A m. unfold free_call. split; intros H s Hs; specialize (H s Hs);
    unfold post, same_lock, not_deadlock in *; destruct (m s); congruence.
Qed.

Lemma all_free : forall debug d n (fi : fiter) (ri : riter) (it it' : siter),
  free_call (@getStats T) /\ free_call (@from_top T debug d) /\
  free_call (@begin T) /\ free_call (@end_ T) /\ free_call (@rbegin T) /\ free_call (@rend T) /\
  free_call (@f_plus T n fi) /\ free_call (@f_minus T n fi) /\ free_call (@f_deref T fi) /\
  free_call (@r_plus T n ri) /\ free_call (@r_minus T n ri) /\ free_call (@r_deref T ri) /\
  free_call (@sync_begin T) /\ free_call (@sync_end T) /\
  free_call (@s_get T it) /\ free_call (@s_inc T it) /\ free_call (@s_dec T it) /\
  free_call (@s_eq T it it') /\ free_call (@s_copy T it) /\ free_call (@s_destroy T it).
Proof.
  intros. pose proof (@iters_free T). pose proof (@f_moves_free T n fi). pose proof (@r_moves_free T n ri).
  pose proof (@sync_free T) as (S1 & S2 & S3). specialize (S3 it it').
  pose proof (@getStats_free T). pose proof (@from_top_free T debug d). intuition.
Qed.

Lemma stats_reaches : forall debug ps pa ops s l,
  reaches debug ps pa ops s l -> 1 <= ps ->
  exists blocks curBlock curData,
    getStats s = ROk s (blocks, ps, curBlock, curData) /\
    size s = ROk s ((curBlock - 1) * ps + curData) /\
    blocks = length (pages s) /\ 1 <= curBlock <= blocks /\ curData <= ps /\
    (2 <= curBlock -> 1 <= curData) /\ length l = (curBlock - 1) * ps + curData.
Proof.
  intros debug ps pa ops s l H Hp.
  pose proof (reaches_stats _ _ _ _ _ _ H Hp) as G.
  pose proof (reaches_blocks _ _ _ _ _ _ H Hp) as B.
  apply reaches_rep in H. destruct H as (R & C & <- & _).
  pose proof (cur_pages_for s l R Hp) as Ec. pose proof (cur_lt s l R) as Lc.
  pose proof (size_ok s l R) as Sz.
  destruct R as (b & t & a & R1 & R2 & R3 & R4 & R5 & R6).
  assert (Ln : length l = cur s * page_size s + length t).
  { rewrite R6, rev_length, R2. apply shape_len. auto. }
  rewrite Ec in G.
  exists (length (pages s)), (S (cur s)), (length t).
  replace (S (cur s) - 1) with (cur s) in * by lia.
  replace (length l - cur s * page_size s) with (length t) in G by lia.
  rewrite B. split; [exact G|]. rewrite <- Ln, <- B. split; [exact Sz|].
  repeat split; auto; try lia.
  - apply (sh_cap _ _ _ R3 I Hp).
  - intros. destruct t; [|simpl; lia]. rewrite (sh_top _ _ _ R3 eq_refl) in R2. simpl in R2. lia.
Qed.

Lemma construct_push : forall debug ps pa (x : T) xs, 1 <= pa ->
  exists s, run debug [Push x xs; Size] (construct ps pa) = ROk s [RUnit; RNat (S (length xs))].
Proof.
  intros debug ps pa x xs Hpa.
  apply (core_exists debug ps pa [Push x xs; Size] (rev (x :: xs) ++ [])); auto.
  cbn [spec_run]. unfold spec_step at 1. unfold spec_step. rewrite app_nil_r, rev_length. reflexivity.
Qed.

Lemma construct_zero : forall debug ps (x : T) xs,
  run debug [Push x xs] (construct ps 0) = RBad UB.
Proof. intros. reflexivity. Qed.

End Misc.
