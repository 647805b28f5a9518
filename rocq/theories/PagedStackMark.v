(** * Proofs about iterators kept as marks. *)
From Coq Require Import List Arith ZArith Lia Bool.
From Verif Require Import Base ListFacts PagedStackModel PagedStackSpec PagedStackExec
  PagedStackProofs PagedStackIter PagedStackFrame PagedStackMisc PagedStackSyncSpec PagedStackSync
  PagedStackMarkSpec.
Import ListNotations.
Open Scope m_scope.

Section Mark.
Context {T : Type}.

(** In a stack with full pages below the current one, the element of height [j]
    is on page [j / ps], at offset [j mod ps]. *)
Lemma at_pos_div : forall ps (b : list (list T)) t j pg off, 1 <= ps -> shape ps b t -> at_pos b t j pg off ->
  pg = j / ps /\ off = j mod ps.
Proof.
  intros ps b t j pg off Hp [Hf Ht Hc Hz] (b1 & p & b2 & E & -> & Ho & ->).
  assert (F : Forall (fun p => length p = ps) b1 /\ length p <= ps).
  { destruct (snoc_cases b2) as [->|(b3 & q & ->)].
    - change (b1 ++ [p]) with (b1 ++ [p]) in E. apply app_inj_tail in E. destruct E as [-> ->]. auto.
    - change (b1 ++ p :: b3 ++ [q]) with (b1 ++ (p :: b3) ++ [q]) in E. rewrite app_assoc in E.
      apply app_inj_tail in E. destruct E as [-> _]. apply Forall_app in Hf. destruct Hf as [H1 H2].
      inversion H2; subst. split; auto. }
  destruct F as [F1 F2].
  assert (L : length (concat b1) = length b1 * ps).
  { clear - F1. induction F1 as [|x l Hx F IH]; auto. cbn [concat length]. rewrite app_length, IH, Hx. lia. }
  rewrite L. rewrite Nat.add_comm. split.
  - rewrite Nat.div_add by lia. rewrite Nat.div_small by lia. lia.
  - rewrite Nat.mod_add by lia. rewrite Nat.mod_small by lia. reflexivity.
Qed.

Lemma mark_at : forall (s : stack T) l k x, rep s l -> 1 <= page_size s -> nth_error l k = Some x ->
  let j := length l - S k in
  let it := mkF (j / page_size s) (Z.of_nat (j mod page_size s)) in
  (i <- begin ;; f_plus k i) s = ROk s it /\ f_deref it s = ROk s x /\ j / page_size s <= cur s.
Proof.
  intros s l k x H Hp Hx j it.
  assert (Hk : k < length l) by (apply nth_error_Some; congruence).
  destruct H as (b & t & a & H1 & H2 & H3 & H4 & H5 & H6).
  assert (Lh : length l = length (concat b ++ t)) by (subst l; apply rev_length).
  destruct s as [ps asz pgs ids nid c sc sr lk]. cbn [page_size pages cur alloc_size locked] in *. subst pgs c lk.
  destruct (begin_at ps asz nid ids sc sr false b a t H3) as (off0 & B1 & B2).
  { eapply shape_tne with (n := 1); eauto; lia. }
  replace (length (concat b ++ t) - 1) with (k + j) in B2 by (unfold j; lia).
  destruct (f_plus_at k j ps asz nid ids sc sr false b t a _ _ H3 B2) as (pg & off & G1 & G2).
  destruct (at_pos_div ps b t j pg off Hp H3 G2) as [E1 E2].
  assert (EI : mkF pg (Z.of_nat off) = it) by (unfold it; subst; reflexivity).
  split; [|split].
  - erewrite bind_ok by apply B1. rewrite <- EI. exact G1.
  - rewrite <- EI. apply deref_at_ok with (j := j); auto.
    rewrite H6 in Hx. unfold j. clear - Hx Lh Hk.
    rewrite nth_error_rev in Hx by lia. rewrite Lh. rewrite <- Hx. f_equal. lia.
  - rewrite <- E1. destruct G2 as (b1 & p & b2 & E & -> & _ & _).
    apply (f_equal (@length _)) in E. rewrite !app_length in E. cbn [length] in E. lia.
Qed.

Lemma exec_mark_ids : forall debug o (s s' : stack T) r i, exec debug o s = ROk s' r -> ids_ok s -> i <= cur s ->
  cur s < length (pages s) ->
  nth_error (ids s') i = nth_error (ids s) i.
Proof.
  intros debug o s s' r i H I Hi Hc. destruct (exec_ids debug o s s' r H I) as (_ & X & _).
  assert (Li : i < length (ids s)) by (destruct I as (-> & _); lia).
  assert (D : o = Shrink \/ o <> Shrink) by (destruct o; auto; right; discriminate).
  destruct D as [->|D].
  2:{ destruct X as (more & ->); auto. apply nth_error_app1. auto. }
  cbn [exec] in H. unfold bind in H.
  unfold shrink_to_fit, with_lock in H. destruct (locked s); [discriminate|].
  unfold bind, get in H. cbn [sync_count set_locked] in H.
  destruct (Z.gtb_spec (sync_count s) 0) as [G|G].
  - cbn in H. injection H as <- <-. reflexivity.
  - unfold internal_shrink_to_fit, cur_page, page_at, bind, get, lift_opt in H.
    cbn [cur pages set_locked] in H. destruct (nth_error (pages s) (cur s)); [|discriminate].
    unfold put, ret in H. cbn [cur pages set_locked set_ids set_pages ids next_id] in H.
    injection H as <- <-. cbn [ids set_locked set_ids set_pages].
    clear - Hi Li. revert Hi Li. generalize (ids s) as u. generalize (cur s) as c. revert i.
    induction i; intros c u H L; destruct u; cbn [firstn nth_error length] in *; auto; try lia.
    destruct c; [lia|]. apply (IHi c u); lia.
Qed.

Lemma rep_cur : forall (s : stack T) l, rep s l -> cur s < length (pages s).
Proof. intros s l (b & t & a & -> & -> & _). rewrite app_length. cbn [length]. lia. Qed.

(** Runs of careful histories, with the node of a page that is never left. *)
Lemma mark_run : forall debug ops (s : stack T) l l' rs (tainted : bool) n,
  1 <= page_size s -> (sync_count s <= 0)%Z -> ids_ok s ->
  rep s l -> (tainted = false -> clean s) -> careful (page_size s) tainted ops l = true ->
  spec_run ops l = Some (l', rs) -> n < length l -> never_below (S n) ops l = true ->
  exists s', run debug ops s = ROk s' rs /\ rep s' l' /\ page_size s' = page_size s /\ n < length l' /\
    nth_error (ids s') (n / page_size s) = nth_error (ids s) (n / page_size s).
Proof.
  intros debug ops. induction ops as [|o ops IH]; intros s l l' rs tainted n Hps Hsc I Hr Hc Ho Hs Hn Hb.
  - cbn [spec_run] in Hs. injection Hs as <- <-. exists s. repeat split; auto.
  - cbn [careful] in Ho. apply andb_true_iff in Ho. destruct Ho as [Ho Ho3].
    apply andb_true_iff in Ho. destruct Ho as [Ho1 Ho2].
    cbn [spec_run never_below] in Hs, Hb. destruct (spec_step o l) as [[l1 r]|] eqn:E; [|discriminate].
    apply andb_true_iff in Hb. destruct Hb as [Hb1 Hb2]. apply Nat.leb_le in Hb1.
    destruct (spec_run ops l1) as [[l2 rs2]|] eqn:E2; [|discriminate]. injection Hs as <- <-.
    destruct (exec_ok debug o s l l1 r Hr) as (s1 & H1 & H2 & H3 & H4 & H5); auto.
    { intros P. rewrite P in Ho1. destruct tainted; [discriminate|auto]. }
    { intros ->. apply Nat.eqb_eq in Ho2. apply length_zero_iff_nil; auto. }
    pose proof H3 as (F1 & F2 & F3).
    assert (Hcur : n / page_size s <= cur s).
    { destruct (nth_error l (length l - S n)) as [x|] eqn:X.
      2:{ apply nth_error_None in X. lia. }
      destruct (mark_at s l (length l - S n) x Hr Hps X) as (_ & _ & M).
      replace (length l - S (length l - S n)) with n in M by lia. exact M. }
    pose proof (exec_mark_ids debug o s s1 r _ H1 I Hcur (rep_cur s l Hr)) as HI.
    destruct (exec_ids debug o s s1 r H1 I) as (I1 & _).
    rewrite <- F1 in Hps, Ho3. rewrite <- F3 in Hsc.
    edestruct IH as (s2 & G1 & G2 & G3 & G4 & G5); [exact Hps|exact Hsc|exact I1|exact H2| |exact Ho3|exact E2| |exact Hb2|].
    { rewrite F1 in *. rewrite F3 in *. intros Ht.
      assert (D : o = Shrink \/ o <> Shrink) by (destruct o; auto; right; discriminate).
      destruct D as [D|D]; [apply H5; auto|].
      assert (Ht' : tainted = false /\ boundary_removal (page_size s) o l = false).
      { destruct o; try (apply orb_false_iff in Ht; exact Ht). congruence. }
      destruct Ht' as [T1 T2]. apply H4; auto.
      right. right. auto. }
    { lia. }
    exists s2. cbn [run]. erewrite bind_ok by apply H1. erewrite bind_ok by apply G1.
    rewrite F1 in G3, G5. rewrite G3, G5, HI. repeat split; auto.
Qed.

(** The state of the "tainted" flag after a careful history. *)
Lemma careful_split : forall debug ops ops' (s s' : stack T) l l' rs (tainted : bool),
  1 <= page_size s -> (sync_count s <= 0)%Z -> ids_ok s ->
  rep s l -> (tainted = false -> clean s) -> careful (page_size s) tainted (ops ++ ops') l = true ->
  spec_run ops l = Some (l', rs) -> run debug ops s = ROk s' rs ->
  exists tainted', careful (page_size s') tainted' ops' l' = true /\ (tainted' = false -> clean s') /\
    rep s' l' /\ ids_ok s' /\ same_frame s s'.
Proof.
  intros debug ops. induction ops as [|o ops IH]; intros ops' s s' l l' rs tainted Hps Hsc I Hr Hc Ho Hs Hrun.
  - cbn [spec_run] in Hs. injection Hs as <- <-. cbn [run] in Hrun. injection Hrun as <-.
    exists tainted. split; [exact Ho|]. split; [exact Hc|]. split; [exact Hr|]. split; [exact I|].
    repeat split.
  - cbn [careful app] in Ho. apply andb_true_iff in Ho. destruct Ho as [Ho Ho3].
    apply andb_true_iff in Ho. destruct Ho as [Ho1 Ho2].
    cbn [spec_run] in Hs. destruct (spec_step o l) as [[l1 r]|] eqn:E; [|discriminate].
    destruct (spec_run ops l1) as [[l2 rs2]|] eqn:E2; [|discriminate]. injection Hs as <- <-.
    destruct (exec_ok debug o s l l1 r Hr) as (s1 & H1 & H2 & H3 & H4 & H5); auto.
    { intros P. rewrite P in Ho1. destruct tainted; [discriminate|auto]. }
    { intros ->. apply Nat.eqb_eq in Ho2. apply length_zero_iff_nil; auto. }
    cbn [run] in Hrun. unfold bind in Hrun. rewrite H1 in Hrun.
    destruct (run debug ops s1) as [s2 rs3| |] eqn:R; try discriminate. injection Hrun as -> ->.
    pose proof H3 as (F1 & F2 & F3).
    destruct (exec_ids debug o s s1 r H1 I) as (I1 & _).
    rewrite <- F1 in Hps, Ho3. rewrite <- F3 in Hsc.
    edestruct IH as (t' & G1 & G2 & G3 & G4 & G5); [exact Hps|exact Hsc|exact I1|exact H2| |exact Ho3|exact E2|exact R|].
    { rewrite F1 in *. rewrite F3 in *. intros Ht.
      assert (D : o = Shrink \/ o <> Shrink) by (destruct o; auto; right; discriminate).
      destruct D as [D|D]; [apply H5; auto|].
      assert (Ht' : tainted = false /\ boundary_removal (page_size s) o l = false).
      { destruct o; try (apply orb_false_iff in Ht; exact Ht). congruence. }
      destruct Ht' as [T1 T2]. apply H4; auto.
      right. right. auto. }
    exists t'. split; [exact G1|]. split; [exact G2|]. split; [exact G3|]. split; [exact G4|].
    eapply same_frame_trans; eauto.
Qed.

Lemma construct_ids : forall ps pa, ids_ok (construct (T := T) ps pa).
Proof.
  intros ps pa. unfold construct. repeat split; cbn [ids pages next_id].
  - rewrite seq_length, repeat_length. reflexivity.
  - apply seq_NoDup.
  - apply Forall_forall. intros y Hy. apply in_seq in Hy. lia.
Qed.

Lemma mark : forall debug ps pa ops ops' (s : stack T) l l' rs k,
  reaches_careful debug ps pa ops s l -> k < length l ->
  careful ps false (ops ++ ops') [] = true -> spec_run ops' l = Some (l', rs) ->
  never_below (length l - k) ops' l = true ->
  exists it s' x,
    (i <- begin ;; f_plus k i) s = ROk s it /\
    run debug ops' s = ROk s' rs /\
    nth_error l' (length l' - (length l - k)) = Some x /\
    f_deref it s' = ROk s' x /\
    (i <- begin ;; f_plus (length l' - (length l - k)) i) s' = ROk s' it /\
    nth_error (ids s') (f_page it) = nth_error (ids s) (f_page it).
Proof.
  intros debug ps pa ops ops' s l l' rs k (Hps & Hpa & Hc & rs0 & Hs & Hr) Hk Hc' Hs' Hn.
  destruct (construct_rep (T := T) ps pa Hpa) as [C1 C2].
  destruct (careful_split debug ops ops' (construct ps pa) s [] l rs0 false) as (t & G1 & G2 & G3 & G4 & G5 & G6 & G7);
    auto using construct_ids; [cbn; lia|].
  cbn [page_size construct] in G5. cbn [sync_count construct] in G7.
  assert (P1 : 1 <= page_size s) by lia.
  destruct (nth_error l k) as [y|] eqn:Y; [|apply nth_error_None in Y; lia].
  destruct (mark_at s l k y G3 P1 Y) as (M1 & _ & _).
  destruct (mark_run debug ops' s l l' rs t (length l - S k)) as (s' & R1 & R2 & R3 & R4 & R5); auto; try lia.
  { replace (S (length l - S k)) with (length l - k) by lia. exact Hn. }
  assert (P2 : 1 <= page_size s') by lia.
  destruct (nth_error l' (length l' - (length l - k))) as [x|] eqn:X; [|apply nth_error_None in X; lia].
  destruct (mark_at s' l' _ x R2 P2 X) as (N1 & N2 & _).
  replace (length l' - S (length l' - (length l - k))) with (length l - S k) in N1, N2 by lia.
  rewrite R3 in N1, N2.
  eexists _, s', x. split; [exact M1|]. repeat split; auto.
Qed.

Lemma lives_rep : forall (s : stack T) l j x, rep s l -> ids_ok s -> 1 <= page_size s ->
  j < length l -> nth_error l (length l - S j) = Some x ->
  exists id, nth_error (ids s) (j / page_size s) = Some id /\ lives_at s j id (j mod page_size s) x.
Proof.
  intros s l j x Hr I Hp Hj Hx.
  destruct (mark_at s l (length l - S j) x Hr Hp Hx) as (_ & D & Hc).
  replace (length l - S (length l - S j)) with j in D, Hc by lia.
  unfold f_deref, deref_at, page_at, bind, get, lift_opt in D. cbn [f_page f_off] in D.
  destruct (nth_error (pages s) (j / page_size s)) as [p|] eqn:P; [|discriminate].
  destruct (ids_nth s _ p I P) as (id & Hid & _). unfold ret at 1 in D.
  exists id. split; [exact Hid|]. exists (j / page_size s), p. split; [exact Hid|]. split; [exact P|].
  destruct (Z.ltb_spec (Z.of_nat (j mod page_size s)) 0) as [Z|Z]; [lia|].
  rewrite Nat2Z.id in D. destruct (nth_error p (j mod page_size s)) as [y|] eqn:Y; [|discriminate].
  split; [unfold ret in D; congruence|].
  destruct Hr as (b & t & a & R1 & R2 & R3 & _). rewrite R1.
  rewrite (concat_uniform_length (page_size s)).
  - rewrite firstn_length, app_length. cbn [length].
    rewrite Nat.min_l by lia. pose proof (Nat.div_mod j (page_size s)). nia.
  - rewrite firstn_app. replace (j / page_size s - length b) with 0 by lia. cbn [firstn].
    rewrite app_nil_r. apply Forall_forall. intros q Hq.
    pose proof (sh_full _ _ _ R3) as F. rewrite Forall_forall in F. apply F.
    rewrite <- (firstn_skipn (j / page_size s) b). apply in_or_app. auto.
Qed.

Lemma references : forall debug ps pa ops ops' (s : stack T) l l' rs k x,
  reaches_careful debug ps pa ops s l -> nth_error l k = Some x ->
  careful ps false (ops ++ ops') [] = true -> spec_run ops' l = Some (l', rs) ->
  never_below (length l - k) ops' l = true ->
  exists s' id off x',
    run debug ops' s = ROk s' rs /\
    lives_at s (length l - S k) id off x /\
    lives_at s' (length l - S k) id off x' /\
    nth_error l' (length l' - (length l - k)) = Some x'.
Proof.
  intros debug ps pa ops ops' s l l' rs k x (Hps & Hpa & Hc & rs0 & Hs & Hr) Hx Hc' Hs' Hn.
  assert (Hk : k < length l) by (apply nth_error_Some; congruence).
  destruct (construct_rep (T := T) ps pa Hpa) as [C1 C2].
  destruct (careful_split debug ops ops' (construct ps pa) s [] l rs0 false) as (t & G1 & G2 & G3 & G4 & G5 & G6 & G7);
    auto using construct_ids; [cbn; lia|].
  cbn [page_size construct] in G5. cbn [sync_count construct] in G7.
  assert (P1 : 1 <= page_size s) by lia.
  destruct (mark_run debug ops' s l l' rs t (length l - S k)) as (s' & R1 & R2 & R3 & R4 & R5); auto; try lia.
  { replace (S (length l - S k)) with (length l - k) by lia. exact Hn. }
  assert (P2 : 1 <= page_size s') by lia.
  assert (I' : ids_ok s').
  { clear - R1 G4. revert s rs R1 G4. induction ops' as [|o ops' IH]; intros s rs R1 G4.
    - cbn [run] in R1. injection R1 as <- <-. auto.
    - cbn [run] in R1. unfold bind in R1. destruct (exec debug o s) as [s1 r1| |] eqn:E; try discriminate.
      destruct (run debug ops' s1) as [s2 r2| |] eqn:E2; try discriminate.
      cbn in R1. injection R1 as <- <-.
      eapply IH; [exact E2|]. apply (exec_ids debug o s s1 r1 E G4). }
  destruct (lives_rep s l (length l - S k) x G3 G4 P1) as (id & L1 & L2); try lia.
  { replace (length l - S (length l - S k)) with k by lia. auto. }
  destruct (nth_error l' (length l' - (length l - k))) as [x'|] eqn:X; [|apply nth_error_None in X; lia].
  destruct (lives_rep s' l' (length l - S k) x' R2 I' P2) as (id' & M1 & M2); try lia.
  { replace (length l' - S (length l - S k)) with (length l' - (length l - k)) by lia. auto. }
  rewrite R3 in M1, M2. rewrite R5, L1 in M1. injection M1 as <-.
  exists s', id, ((length l - S k) mod page_size s), x'. auto.
Qed.
End Mark.
