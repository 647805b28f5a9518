(** * PagedStack: proofs about histories with copied synchronised iterators. *)
From Coq Require Import List Arith ZArith Lia Bool.
From Verif Require Import Base ListFacts PagedStackModel PagedStackSpec PagedStackExec
  PagedStackProofs PagedStackIter PagedStackFrame PagedStackBlocks PagedStackMisc PagedStackSyncSpec
  PagedStackSync PagedStackSyncCopySpec.
Import ListNotations.
Open Scope m_scope.

Section CopyProofs.
Context {T : Type}.
Notation stack := (stack T).
Implicit Types (s : stack).

Ltac cb := cbn [page_size alloc_size pages PagedStackModel.ids next_id cur sync_count shrink_req locked
  set_locked mkS s_node s_data s_off fst snd f_page f_off ret] in *.

(** A live iterator, dangling or not. *)
Definition cit_ok s (it : siter) : Prop :=
  (-1 <= s_off it < Z.of_nat (page_size s))%Z /\
  (s_off it = (-1)%Z -> exists r, ids s = s_node it :: r) /\
  (torn it = true -> (exists r, ids s = s_node it :: r) /\ (0 <= s_off it)%Z).

Definition cinv (ps pa : nat) (w : world T) (x : cspec T) : Prop :=
  let s := w_stack w in
  rep s (cs_list x) /\ clean s /\ page_size s = ps /\ alloc_size s = pa /\ ids_ok s /\
  sync_count s = (Z.of_nat (cs_live x) - Z.of_nat (cs_copies x))%Z /\ length (w_live w) = cs_live x /\
  shrink_req s = cs_pending x /\ length (pages s) = cs_blocks x /\ Forall (cit_ok s) (w_live w).

Definition sound (w : world T) : Prop := Forall (fun it => dangling (w_stack w) it = false) (w_live w).

Lemma dangling_in : forall s it, dangling s it = false <-> In (s_node it) (ids s).
Proof.
  intros s it. unfold dangling. rewrite negb_false_iff, existsb_exists. split.
  - intros (y & H1 & H2). apply Nat.eqb_eq in H2. subst. auto.
  - intros H. exists (s_node it). rewrite Nat.eqb_refl. auto.
Qed.

Lemma in_index : forall x l, In x l -> exists i, index_of x l = Some i.
Proof.
  intros x l. induction l as [|y l IH]; intros H; [destruct H|]. cbn [index_of].
  destruct (Nat.eqb_spec y x) as [->|N]; eauto. destruct H as [H|H]; [congruence|].
  destruct (IH H) as [i ->]. cbn. eauto.
Qed.

Lemma cit_mono : forall s s' it more, ids s' = ids s ++ more -> page_size s' = page_size s ->
  cit_ok s it -> cit_ok s' it.
Proof.
  intros s s' it more H1 H2 (G1 & G2 & G3). split; [rewrite H2; auto|]. split.
  - intros E. destruct (G2 E) as [r Hr]. exists (r ++ more). rewrite H1, Hr. reflexivity.
  - intros E. destruct (G3 E) as [[r Hr] G4]. split; auto. exists (r ++ more). rewrite H1, Hr. reflexivity.
Qed.

Lemma cit_firstn : forall s s' it c, ids s' = firstn (S c) (ids s) -> page_size s' = page_size s ->
  cit_ok s it -> cit_ok s' it.
Proof.
  intros s s' it c H1 H2 (G1 & G2 & G3). split; [rewrite H2; auto|]. split.
  - intros E. destruct (G2 E) as [r Hr]. exists (firstn c r). rewrite H1, Hr. reflexivity.
  - intros E. destruct (G3 E) as [[r Hr] G4]. split; auto. exists (firstn c r). rewrite H1, Hr. reflexivity.
Qed.

(** An iterator that does not dangle is one the lemmas of [PagedStackSync] apply to. *)
Lemma cit_use : forall s it, ids_ok s -> cit_ok s it -> dangling s it = false ->
  exists i p, index_of (s_node it) (ids s) = Some i /\ nth_error (pages s) i = Some p /\
    (-1 <= s_off it < Z.of_nat (page_size s))%Z /\ (s_off it = (-1)%Z -> i = 0) /\
    (torn it = true -> i = 0 /\ (0 <= s_off it)%Z).
Proof.
  intros s it HI (G1 & G2 & G3) D. apply dangling_in in D. destruct (in_index _ _ D) as [i Hi].
  destruct (page_of_node _ _ _ HI Hi) as [p Hp]. exists i, p. split; auto. split; auto. split; auto.
  assert (Z0 : (exists r, ids s = s_node it :: r) -> i = 0).
  { intros [r Hr]. rewrite Hr in Hi. cbn [index_of] in Hi. rewrite Nat.eqb_refl in Hi. congruence. }
  split; [auto|]. intros E. destruct (G3 E). auto.
Qed.

Lemma iter_ok_cit : forall s it, iter_ok s it -> cit_ok s it /\ dangling s it = false.
Proof.
  intros s it (i & I1 & I2 & I3 & I4). pose proof (index_of_nth _ _ _ I1) as N. split.
  - assert (Z0 : i = 0 -> exists r, ids s = s_node it :: r).
    { intros ->. destruct (ids s) as [|y r]; [discriminate|]. cbn in N. injection N as ->. eauto. }
    split; auto. split; auto. intros E. destruct (I4 E). auto.
  - apply dangling_in. eapply nth_error_In; eauto.
Qed.

Lemma cinv_fresh : forall ps pa, 1 <= pa -> cinv ps pa (wfresh ps pa) (cfresh pa).
Proof.
  intros ps pa H. destruct (winv_fresh (T := T) ps pa H) as (H1 & H2 & H3 & H4 & H5 & H6 & H7 & H8 & H9 & H10 & H11).
  unfold cinv. cbn [w_stack w_live cfresh cs_list cs_live cs_copies cs_pending cs_blocks] in *.
  exact (conj H1 (conj H2 (conj H3 (conj H4 (conj H5 (conj H6 (conj H7 (conj H8 (conj H10 (Forall_nil _)))))))))).
Qed.

Definition canswers (e : event T) (w w' : world T) (x x' : cspec T) (a : answer T) : Prop :=
  match e with
  | Op o => exists r, a = ARet r /\ spec_step o (cs_list x) = Some (cs_list x', r)
  | SyncGet _ => w_stack w' = w_stack w /\
      ((cs_list x = [] /\ a = AThrown) \/ (cs_list x <> [] /\ exists v, a = AVal v /\ In v (cs_list x)))
  | SyncInc _ | SyncDec _ => w_stack w' = w_stack w /\
      ((cs_list x = [] /\ a = AThrown) \/ (cs_list x <> [] /\ a = ADone))
  | _ => a = ADone
  end.

(** Which nodes stay. *)
Definition cids (e : event T) (w w' : world T) (x : cspec T) : Prop :=
  if releases e x then ids (w_stack w') = firstn (S (cur (w_stack w))) (ids (w_stack w))
  else exists more, ids (w_stack w') = ids (w_stack w) ++ more.

Lemma sound_mono : forall w w' more, ids (w_stack w') = ids (w_stack w) ++ more -> w_live w' = w_live w ->
  sound w -> sound w'.
Proof.
  intros w w' more H1 H2 H. unfold sound in *. rewrite H2. eapply Forall_impl; [|exact H].
  intros it D. cbv beta in *. apply dangling_in. apply dangling_in in D. rewrite H1. apply in_or_app. auto.
Qed.

Lemma cinv_iter : forall ps pa w x k it', cinv ps pa w x -> iter_ok (w_stack w) it' ->
  cinv ps pa (mkW (w_stack w) (upd k (fun _ => it') (w_live w))) x /\
  (sound w -> sound (mkW (w_stack w) (upd k (fun _ => it') (w_live w)))).
Proof.
  intros ps pa w x k it' (H1 & H2 & H3 & H4 & H5 & H6 & H7 & H8 & H9 & H10) Hi.
  destruct (iter_ok_cit _ _ Hi) as [C D]. split.
  - unfold cinv. cbn [w_stack w_live]. rewrite upd_length. repeat (split; auto). apply Forall_upd; auto.
  - intros S0. unfold sound in *. cbn [w_stack w_live]. apply Forall_upd; auto.
Qed.

Lemma cnew_inv : forall ps pa w x it, cinv ps pa w x -> iter_ok (w_stack w) it ->
  let w' := mkW (set_locked false (set_sync (sync_count (w_stack w) + 1) (set_locked true (w_stack w)))) (w_live w ++ [it]) in
  cinv ps pa w' (mkCS (cs_list x) (S (cs_live x)) (cs_copies x) (cs_pending x) (cs_blocks x)) /\
  (sound w -> sound w').
Proof.
  intros ps pa w x it (H1 & H2 & H3 & H4 & H5 & H6 & H7 & H8 & H9 & H10) Hi w'.
  destruct (iter_ok_cit _ _ Hi) as [C D]. split.
  - unfold cinv, w'. cbn [w_stack w_live cs_list cs_live cs_copies cs_pending cs_blocks].
    destruct H1 as (b & t & a & R1 & R2 & R3 & R4 & R5 & R6).
    split; [exists b, t, a; cbn; auto 10|]. split; [exact H2|]. split; auto. split; auto. split; [exact H5|].
    split; [cbn [set_locked set_sync sync_count]; lia|]. split; [rewrite app_length; cbn; lia|].
    split; auto. split; auto. apply Forall_app. split; [exact H10|]. constructor; auto.
  - intros S0. unfold sound, w' in *. cbn [w_stack w_live]. apply Forall_app. split; [exact S0|].
    constructor; [exact D|constructor].
Qed.

Lemma cstep : forall debug ps pa e w x x', cinv ps pa w x -> 1 <= ps ->
  cspec_step ps pa e x = Some x' -> chazard ps e w x = false ->
  exists w' a, wexec debug e w = ROk w' a /\ cinv ps pa w' x' /\ canswers e w w' x x' a /\ cids e w w' x /\
    ((releases e x = true -> cs_live x' = 0) -> sound w -> sound w').
Proof.
  intros debug ps pa e w x x' HW Hp Hs Hh.
  pose proof HW as (H1 & H2 & H3 & H4 & H5 & H6 & H7 & H8 & H9 & H10).
  assert (Hlk : locked (w_stack w) = false) by (destruct H1 as (? & ? & ? & ? & ? & ? & ? & ? & ?); auto).
  assert (Look : forall k, k < cs_live x -> exists it, nth_error (w_live w) k = Some it /\ cit_ok (w_stack w) it).
  { intros k Hk. destruct (nth_error (w_live w) k) as [it|] eqn:G; [|apply nth_error_None in G; lia].
    exists it. split; auto. rewrite Forall_forall in H10. apply H10. eapply nth_error_In; eauto. }
  assert (Use : forall k, k < cs_live x -> dangles w k = false -> exists it i p, nth_error (w_live w) k = Some it /\
     index_of (s_node it) (ids (w_stack w)) = Some i /\
     (-1 <= s_off it < Z.of_nat (page_size (w_stack w)))%Z /\ (s_off it = (-1)%Z -> i = 0) /\
     nth_error (pages (w_stack w)) i = Some p /\ (torn it = true -> i = 0 /\ (0 <= s_off it)%Z)).
  { intros k Hk D. destruct (Look k Hk) as (it & Hit & C). unfold dangles in D. rewrite Hit in D.
    destruct (cit_use _ _ H5 C D) as (i & p & I1 & I2 & I3 & I4 & I5). exists it, i, p. auto 10. }
  assert (Same : exists more, ids (w_stack w) = ids (w_stack w) ++ more) by (exists []; rewrite app_nil_r; auto).
  unfold chazard in Hh. apply orb_false_iff in Hh. destruct Hh as [Hd Hh].
  destruct e; cbn [wexec].
  - (* Op *)
    clear Hd Hh Use Look.
    destruct x as [l n m pend blocks]. cbn [cs_list cs_live cs_copies cs_pending cs_blocks] in *.
    assert (Hsp : exists l' r, spec_step o l = Some (l', r) /\ core_op o = true /\ cs_list x' = l' /\ cs_live x' = n /\
       cs_copies x' = m /\
       (o <> Shrink -> cs_pending x' = pend /\ cs_blocks x' = blocks_step ps pa o (length l) blocks) /\
       (o = Shrink -> x' = if n <=? m then mkCS l n m pend (pages_for ps (length l)) else mkCS l n m true blocks)).
    { unfold cspec_step in Hs.
      destruct o; cbn [core_op] in Hs;
        try (destruct (spec_step _ l) as [[l1 r1]|] eqn:E; [|discriminate];
             injection Hs as <-; exists l1, r1; repeat split; auto; intros; congruence);
        try discriminate.
      injection Hs as <-. exists l, RUnit. destruct (n <=? m); repeat split; auto; congruence. }
    destruct Hsp as (l' & r & S1 & S2 & S3 & S4 & S4' & S5 & S6).
    destruct (exec_ok debug o (w_stack w) l l' r H1) as (s1 & E1 & E2 & E3 & E4 & _); auto.
    { intros ->. discriminate. }
    destruct (exec_ids debug o (w_stack w) s1 r E1 H5) as (I1 & I2 & I3).
    rewrite E1. cbn [on_stack]. exists (mkW s1 (w_live w)), (ARet r). split; auto.
    assert (C1 : clean s1) by (apply E4; auto; left; auto).
    destruct E3 as (F1 & F2 & F3).
    assert (An : canswers (Op o) w (mkW s1 (w_live w)) (mkCS l n m pend blocks) x' (ARet r)).
    { cbn [canswers cs_list]. exists r. split; auto; congruence. }
    assert (Hsh : o = Shrink \/ o <> Shrink) by (destruct o; auto; right; discriminate).
    destruct Hsh as [->|Ns].
    + rewrite (S6 eq_refl) in *. cbn [exec] in E1. unfold bind in E1.
      destruct (shrink_to_fit (w_stack w)) as [s2 []| |] eqn:Esh; try discriminate. injection E1 as -> Er.
      pose proof Esh as Esh2. unfold shrink_to_fit, with_lock in Esh. rewrite Hlk in Esh.
      unfold bind, get in Esh. cbn [sync_count set_locked] in Esh.
      destruct (Nat.leb_spec n m) as [En|En].
      * destruct (Z.gtb_spec (sync_count (w_stack w)) 0); [lia|].
        cbn [cs_pending cs_blocks cs_live cs_list cs_copies] in *.
        destruct (shrink_ok (w_stack w) l H1) as (s3 & T1 & T2 & T3 & T4 & T5 & T6 & T7).
        rewrite T1 in Esh2. injection Esh2 as ->.
        unfold internal_shrink_to_fit, cur_page, page_at, bind, get, lift_opt in Esh. cbn in Esh.
        destruct (nth_error _ _); [|discriminate]. cbn in Esh. injection Esh as Esh.
        assert (Ei : ids s1 = firstn (S (cur (w_stack w))) (ids (w_stack w))) by (rewrite <- Esh; reflexivity).
        split; [|split; [exact An|split]].
        -- unfold cinv. cbn [w_stack w_live cs_list cs_live cs_copies cs_pending cs_blocks].
           split; [congruence|]. split; auto. split; [congruence|].
           split; [congruence|]. split; auto. split; [congruence|]. split; auto.
           split; [rewrite <- Esh; cbn; congruence|].
           split.
           ++ rewrite T6 by lia. rewrite <- (cur_pages_for _ _ T2); [|lia]. rewrite F1, H3. reflexivity.
           ++ eapply Forall_impl; [|exact H10]. intros it. apply (cit_firstn _ _ _ _ Ei F1).
        -- unfold cids. cbn [releases cs_live cs_copies]. destruct (Nat.leb_spec n m); [|lia]. exact Ei.
        -- cbn [releases cs_live cs_copies]. destruct (Nat.leb_spec n m); [|lia]. intros Z0 _.
           assert (w_live w = []) as El by (apply length_zero_iff_nil; rewrite H7; auto).
           unfold sound. cbn [w_live]. rewrite El. constructor.
      * destruct (Z.gtb_spec (sync_count (w_stack w)) 0); [|lia].
        cbn in Esh. injection Esh as <-. cbn [cs_pending cs_blocks cs_live cs_list cs_copies] in *.
        split; [|split; [exact An|split]].
        -- unfold cinv. cbn [w_stack w_live cs_list cs_live cs_copies cs_pending cs_blocks].
           split; [congruence|]. repeat (split; auto).
        -- unfold cids. cbn [releases cs_live cs_copies]. destruct (Nat.leb_spec n m); [lia|]. exact Same.
        -- intros _ S0. exact S0.
    + destruct (S5 Ns) as [S7 S8].
      assert (Nr : releases (Op o) (mkCS l n m pend blocks) = false) by (destruct o; auto; congruence).
      destruct (I2 (or_introl Ns)) as [more Hm].
      split; [|split; [exact An|split]].
      * unfold cinv. cbn [w_stack w_live]. rewrite S3, S4, S4', S7, S8, (I3 Ns).
        split; auto. split; auto. split; [congruence|]. split; [congruence|]. split; auto. split; [congruence|].
        split; auto. split; auto. split.
        -- assert (Em : makes_pages o = true \/ makes_pages o = false) by (destruct (makes_pages o); auto).
           destruct Em as [Em|Em].
           ++ assert (Ep : is_push o = true).
              { unfold makes_pages in Em. destruct (is_push o); auto. destruct o; discriminate || congruence. }
              rewrite <- H3, <- H4, <- H9.
              eapply exec_blocks_push; eauto. lia.
           ++ pose proof (exec_keeps debug o Em (w_stack w)) as K. rewrite E1 in K. destruct K as (K & _).
              rewrite K, H9. destruct o; try discriminate; reflexivity.
        -- eapply Forall_impl; [|exact H10]. intros it. apply (cit_mono (w_stack w) s1 it more Hm F1).
      * unfold cids. rewrite Nr. exists more. exact Hm.
      * intros _. apply (sound_mono w (mkW s1 (w_live w)) more); auto.
  - (* SyncBegin *)
    destruct x as [l n m pend blocks]. cbn [cspec_step] in Hs. injection Hs as <-.
    destruct (cur_page_nth _ _ H1) as [q Hq]. destruct (ids_nth _ _ _ H5 Hq) as (nd & N1 & N2).
    assert (E : sync_begin (w_stack w) =
      ROk (set_locked false (set_sync (sync_count (w_stack w) + 1) (set_locked true (w_stack w))))
          (mkS nd (Z.of_nat (length q) - 1))).
    { unfold sync_begin. apply noexcept_ok. unfold with_lock. rewrite Hlk. unfold bind, get, cur_page, page_at, lift_opt.
      unfold bind, get. cb. rewrite Hq. unfold ret, node_at, bind, get, lift_opt. cb. rewrite N1. reflexivity. }
    rewrite E. cbn [on_stack]. eexists _, _. split; [reflexivity|].
    destruct (cnew_inv ps pa w (mkCS l n m pend blocks) (mkS nd (Z.of_nat (length q) - 1)) HW) as [A B].
    { destruct (page_len _ _ _ _ H1 H2 ltac:(lia) Hq) as (P1 & P2 & P3 & P4 & P5 & P6).
      apply (iter_ok_mkS _ _ _ (cur (w_stack w))); auto; [lia|]. intros Eo.
      destruct q; [|cbn [length] in Eo; lia]. destruct H1 as (b & t & a & R1 & R2 & R3 & R4 & R5 & R6).
      rewrite R1, R2, nth_error_mid in Hq. injection Hq as ->. rewrite (sh_top _ _ _ R3 eq_refl) in R2. exact R2. }
    split; [exact A|]. split; [reflexivity|]. split; [exact Same|]. intros _. exact B.
  - (* SyncEnd *)
    destruct x as [l n m pend blocks]. cbn [cspec_step] in Hs. injection Hs as <-.
    assert (exists q, nth_error (pages (w_stack w)) 0 = Some q) as [q Hq].
    { pose proof (cur_lt _ _ H1). destruct (pages (w_stack w)); [cbn in *; lia|cbn; eauto]. }
    destruct (ids_nth _ _ _ H5 Hq) as (nd & N1 & N2).
    assert (E : sync_end (w_stack w) =
      ROk (set_locked false (set_sync (sync_count (w_stack w) + 1) (set_locked true (w_stack w)))) (mkS nd (-1))).
    { unfold sync_end. apply noexcept_ok. unfold with_lock. rewrite Hlk. unfold bind, get, page_at, lift_opt.
      unfold bind, get. cb. rewrite Hq. unfold ret, node_at, bind, get, lift_opt. cb. rewrite N1. reflexivity. }
    rewrite E. cbn [on_stack]. eexists _, _. split; [reflexivity|].
    destruct (cnew_inv ps pa w (mkCS l n m pend blocks) (mkS nd (-1)) HW) as [A B].
    { apply (iter_ok_mkS _ _ _ 0); auto; lia. }
    split; [exact A|]. split; [reflexivity|]. split; [exact Same|]. intros _. exact B.
  - (* SyncGet *)
    destruct x as [l n m pend blocks]. cbn [cspec_step cs_live cs_list cs_pending cs_blocks] in *.
    destruct (Nat.ltb_spec k n) as [Hk|Hk]; [|discriminate]. injection Hs as <-.
    destruct (Use k Hk Hd) as (it & i & p & U1 & U2 & U3 & U4 & U5 & U6).
    unfold with_iter. rewrite U1. cbn [hazard ss_list] in Hh. rewrite U1 in Hh.
    destruct (torn it) eqn:Et.
    { destruct (U6 eq_refl) as [-> U7]. apply negb_false_iff in Hh. rewrite <- H3 in Hh.
      destruct (torn_get (w_stack w) l it H1 H2 ltac:(lia) H5 U2 ltac:(lia) Et Hlk Hh) as (v & G1 & G2).
      rewrite G1. cbn [on_iter fst snd]. eexists _, _. split; [reflexivity|].
      assert (Hok : iter_ok (w_stack w) it) by (exists 0; auto 10).
      destruct (cinv_iter ps pa w _ k it HW Hok) as [A B].
      split; [exact A|]. split; [|split; [exact Same|auto]].
      cbn [canswers cs_list w_stack]. split; auto. right.
      split; [intros ->; destruct G2|eauto]. }
    destruct (s_get_ok (w_stack w) l it i p H1 H2 ltac:(lia) H5 U2 U3 U4 U5 Et) as [(G1 & G2)|(G1 & it' & v & G2 & G3 & G4)]; auto.
    { intros Ee. rewrite Ee in Hh. cbn in Hh. apply Nat.ltb_ge in Hh. lia. }
    + rewrite G2. cbn [on_iter]. eexists _, _. split; [reflexivity|].
      destruct (cinv_iter ps pa w _ k (s_thrown it (w_stack w)) HW) as [A B].
      { apply thrown_ok; [rewrite <- G1; auto|auto|apply (self_ok (w_stack w) it i); auto]. }
      split; [exact A|].
      split; [cbn [canswers cs_list]; auto|]. split; [exact Same|auto].
    + rewrite G2. cbn [on_iter]. eexists _, _. split; [reflexivity|].
      destruct (cinv_iter ps pa w _ k it' HW G4) as [A B].
      split; [exact A|]. split; [cbn [canswers cs_list w_stack]; split; auto; right; split; eauto|].
      split; [exact Same|auto].
  - (* SyncInc *)
    destruct x as [l n m pend blocks]. cbn [cspec_step cs_live cs_list cs_pending cs_blocks] in *.
    destruct (Nat.ltb_spec k n) as [Hk|Hk]; [|discriminate]. injection Hs as <-.
    destruct (Use k Hk Hd) as (it & i & p & U1 & U2 & U3 & U4 & U5 & U6).
    unfold with_iter. rewrite U1. cbn [hazard ss_list] in Hh. rewrite U1 in Hh.
    destruct (torn it) eqn:Et; [discriminate|].
    destruct (s_inc_ok (w_stack w) l it i p H1 H2 ltac:(lia) H5 U2 U3 U4 U5 Et) as [(G1 & G2)|(G1 & it' & G2 & G3)]; auto.
    { intros Ee. rewrite Ee in Hh. cbn in Hh. apply Nat.ltb_ge in Hh. lia. }
    + rewrite G2. cbn [on_iter]. eexists _, _. split; [reflexivity|].
      destruct (cinv_iter ps pa w _ k (s_thrown it (w_stack w)) HW) as [A B].
      { apply thrown_ok; [rewrite <- G1; auto|auto|apply (self_ok (w_stack w) it i); auto]. }
      split; [exact A|].
      split; [cbn [canswers cs_list]; auto|]. split; [exact Same|auto].
    + rewrite G2. cbn [on_iter]. eexists _, _. split; [reflexivity|].
      destruct (cinv_iter ps pa w _ k it' HW G3) as [A B].
      split; [exact A|]. split; [cbn [canswers cs_list w_stack]; split; auto|]. split; [exact Same|auto].
  - (* SyncDec *)
    destruct x as [l n m pend blocks]. cbn [cspec_step cs_live cs_list cs_pending cs_blocks] in *.
    destruct (Nat.ltb_spec k n) as [Hk|Hk]; [|discriminate]. injection Hs as <-.
    destruct (Use k Hk Hd) as (it & i & p & U1 & U2 & U3 & U4 & U5 & U6).
    unfold with_iter. rewrite U1. cbn [hazard ss_list ss_blocks] in Hh. rewrite U1 in Hh.
    destruct (torn it) eqn:Et; [discriminate|].
    destruct (s_dec_ok (w_stack w) l it i p H1 H2 ltac:(lia) H5 U2 U3 U4 U5 Et) as [(G1 & G2)|(G1 & it' & G2 & G3)]; auto.
    { intros Ee Hl. rewrite Ee in Hh. destruct l as [|x0 l0]; [congruence|]. cbn [length Nat.eqb negb andb] in Hh.
      apply Nat.eqb_neq in Hh. pose proof (cur_pages_for _ _ H1 ltac:(lia)) as Ec. rewrite H3 in Ec.
      cbn [length] in Ec. pose proof (cur_lt _ _ H1). lia. }
    + rewrite G2. cbn [on_iter]. eexists _, _. split; [reflexivity|].
      destruct (cinv_iter ps pa w _ k (s_thrown it (w_stack w)) HW) as [A B].
      { apply thrown_ok; [rewrite <- G1; auto|auto|apply (self_ok (w_stack w) it i); auto]. }
      split; [exact A|].
      split; [cbn [canswers cs_list]; auto|]. split; [exact Same|auto].
    + rewrite G2. cbn [on_iter]. eexists _, _. split; [reflexivity|].
      destruct (cinv_iter ps pa w _ k it' HW G3) as [A B].
      split; [exact A|]. split; [cbn [canswers cs_list w_stack]; split; auto|]. split; [exact Same|auto].
  - (* SyncDestroy *)
    destruct x as [l n m pend blocks]. cbn [cspec_step cs_live cs_list cs_copies cs_pending cs_blocks] in *.
    destruct (Nat.ltb_spec k n) as [Hk|Hk]; [|discriminate]. injection Hs as <-.
    destruct (Look k Hk) as (it & U1 & _).
    unfold with_iter. rewrite U1.
    destruct (cur_page_nth _ _ H1) as [q Hq].
    pose proof (cur_pages_for _ _ H1 ltac:(lia)) as Ec. rewrite H3 in Ec.
    assert (E0 : (sync_count (w_stack w) - 1 =? 0)%Z = (n - 1 =? m)).
    { rewrite H6. destruct (Nat.eqb_spec (n - 1) m) as [E|N]; [apply Z.eqb_eq; lia|apply Z.eqb_neq; lia]. }
    assert (Er : length (remove_nth k (w_live w)) = n - 1) by (rewrite remove_nth_length; lia).
    unfold s_destroy, noexcept, with_lock. rewrite Hlk. unfold bind, get, put. cb.
    cbn [set_sync set_locked sync_count shrink_req]. rewrite E0, H8.
    unfold cids. cbn [releases cs_live cs_copies cs_pending].
    destruct ((n - 1 =? m) && pend) eqn:Eb.
    + apply andb_true_iff in Eb. destruct Eb as [Eb Epd]. apply Nat.eqb_eq in Eb.
      unfold internal_shrink_to_fit, cur_page, page_at, bind, get, put, lift_opt. cb.
      cbn [set_shrink set_sync set_locked pages cur ids next_id]. rewrite Hq. cbn [ret].
      unfold ret. cbn [on_stack]. eexists _, _. split; [reflexivity|].
      split; [|split; [reflexivity|split; [reflexivity|]]].
      2:{ intros Z0 _. specialize (Z0 eq_refl). cbn [cs_live] in Z0.
          assert (El : remove_nth k (w_live w) = []) by (apply length_zero_iff_nil; lia).
          unfold sound. cbn [w_live]. rewrite El. constructor. }
      unfold cinv. cbn [w_stack w_live cs_list cs_live cs_copies cs_pending cs_blocks].
      destruct H1 as (b & t & a & R1 & R2 & R3 & R4 & R5 & R6).
      assert (F : firstn (S (cur (w_stack w))) (pages (w_stack w)) = b ++ [t]).
      { rewrite R1, R2. replace (b ++ t :: a) with ((b ++ [t]) ++ a) by (rewrite <- app_assoc; auto).
        replace (S (length b)) with (length (b ++ [t])) by (rewrite app_length; simpl; lia).
        apply firstn_length_app. }
      split; [exists b, t, []; cbn [set_ids set_pages set_shrink set_sync set_locked pages cur page_size alloc_size locked];
              rewrite F; auto 10|].
      split; [apply (clean_split _ b t []); [exact F|exact R2|constructor]|].
      split; auto. split; auto. split; [apply (shrink_ids (w_stack w) (S (cur (w_stack w))) H5)|].
      split; [cbn [set_ids set_pages set_shrink set_sync set_locked sync_count]; lia|].
      split; auto. split; auto. split.
      * cbn [set_ids set_pages set_shrink set_sync set_locked pages cur]. rewrite firstn_length, Ec.
        assert (S (length b) <= length (pages (w_stack w))) by (rewrite R1, app_length; cbn; lia).
        rewrite R2. lia.
      * apply Forall_remove. eapply Forall_impl; [|exact H10]. intros it0.
        apply (cit_firstn (w_stack w) _ it0 (cur (w_stack w))); reflexivity.
    + unfold ret. cbn [on_stack]. eexists _, _. split; [reflexivity|].
      split; [|split; [reflexivity|split; [exact Same|]]].
      2:{ intros _ S0. unfold sound in *. cbn [w_live w_stack]. apply Forall_remove. exact S0. }
      unfold cinv. cbn [w_stack w_live cs_list cs_live cs_copies cs_pending cs_blocks].
      destruct H1 as (b & t & a & R1 & R2 & R3 & R4 & R5 & R6).
      split; [exists b, t, a; cbn; auto 10|]. split; [exact H2|]. split; auto. split; auto. split; [exact H5|].
      split; [cbn [set_sync set_locked sync_count]; lia|]. split; auto. split; auto.
      split; [exact H9|]. apply Forall_remove. exact H10.
  - (* SyncCopy *)
    destruct x as [l n m pend blocks]. cbn [cspec_step cs_live cs_list cs_copies cs_pending cs_blocks] in *.
    destruct (Nat.ltb_spec k n) as [Hk|Hk]; [|discriminate]. injection Hs as <-.
    destruct (Look k Hk) as (it & U1 & C).
    unfold with_iter. rewrite U1. unfold s_copy, ret. cbn [on_stack].
    eexists _, _. split; [reflexivity|]. split; [|split; [reflexivity|split; [exact Same|]]].
    + unfold cinv. cbn [w_stack w_live cs_list cs_live cs_copies cs_pending cs_blocks].
      split; auto. split; auto. split; auto. split; auto. split; auto. split; [lia|].
      split; [rewrite app_length; cbn; lia|]. split; auto. split; auto.
      apply Forall_app. split; auto.
    + intros _ S0. unfold sound in *. cbn [w_stack w_live]. apply Forall_app. split; auto.
      constructor; auto. rewrite Forall_forall in S0. apply S0. eapply nth_error_In; eauto.
Qed.

(** The excluded uses have undefined behaviour. *)
Lemma dangling_UB : forall debug ps pa w x k, cinv ps pa w x -> dangles w k = true ->
  wexec debug (SyncGet k) w = RBad UB /\ wexec debug (SyncInc k) w = RBad UB /\ wexec debug (SyncDec k) w = RBad UB.
Proof.
  intros debug ps pa w x k (H1 & _) D.
  assert (Hlk : locked (w_stack w) = false) by (destruct H1 as (? & ? & ? & ? & ? & ? & ? & ? & ?); auto).
  unfold dangles in D. cbn [wexec]. unfold with_iter.
  destruct (nth_error (w_live w) k) as [it|]; [|discriminate].
  assert (Hn : index_of (s_node it) (ids (w_stack w)) = None).
  { apply index_of_none. intros G. apply dangling_in in G. congruence. }
  assert (Hs : synchronize it (set_locked true (w_stack w)) = RBad UB).
  { unfold synchronize, node_pos, bind, get, lift_opt. cb. rewrite Hn. reflexivity. }
  unfold s_get, s_inc, s_dec, with_lock. rewrite Hlk. unfold bind. rewrite Hs. auto.
Qed.

Lemma chazard_UB : forall debug ps pa e w x x', cinv ps pa w x -> 1 <= ps ->
  cspec_step ps pa e x = Some x' -> chazard ps e w x = true -> wexec debug e w = RBad UB.
Proof.
  intros debug ps pa e w x x' HW Hp Hs Hh.
  pose proof HW as (H1 & H2 & H3 & H4 & H5 & H6 & H7 & H8 & H10 & H11).
  assert (Hlk : locked (w_stack w) = false) by (destruct H1 as (? & ? & ? & ? & ? & ? & ? & ? & ?); auto).
  assert (Hd : match e with SyncGet k | SyncInc k | SyncDec k => dangles w k | _ => false end = true -> wexec debug e w = RBad UB).
  { intros D. destruct e; try discriminate; destruct (dangling_UB debug _ _ _ _ _ HW D) as (A & B & C); auto. }
  unfold chazard in Hh.
  destruct (match e with SyncGet k | SyncInc k | SyncDec k => dangles w k | _ => false end) eqn:Ed; [auto|].
  clear Hd. cbn [orb] in Hh.
  destruct e; try discriminate; cbn [wexec hazard ss_list ss_blocks] in *; unfold with_iter; unfold dangles in Ed;
    destruct (nth_error (w_live w) k) as [it|] eqn:Hit; try discriminate;
    (assert (Hc0 : cit_ok (w_stack w) it) by (rewrite Forall_forall in H11; apply H11; eapply nth_error_In; eauto));
    destruct (cit_use _ _ H5 Hc0 Ed) as (i & p & I1 & Hpg & I2 & I3 & I4); clear Hc0;
    (destruct (torn it) eqn:Et; [destruct (I4 eq_refl) as [-> I5]|]).
  - apply negb_true_iff in Hh. rewrite <- H3 in Hh.
    rewrite (torn_get_UB (w_stack w) (cs_list x) it H1 H2 ltac:(lia) H5 I1 ltac:(lia) Et Hlk Hh). reflexivity.
  - apply andb_true_iff in Hh. destruct Hh as [Ha Hb]. apply Nat.ltb_lt in Hb.
    apply (is_end_iff (w_stack w) (cs_list x) it i p H1 H2 ltac:(lia) H5 I1 I2 I3 Hpg Et) in Ha.
    assert (s_off it = (-1)%Z) as Eo by lia. specialize (I3 Eo). subst i.
    pose proof (cur_pages_for _ _ H1 ltac:(lia)) as Ec. rewrite H3 in Ec.
    assert (Hc : 0 < cur (w_stack w)).
    { destruct H1 as (b & t & a & R1 & R2 & R3 & R4 & R5 & R6).
      rewrite R6, rev_length, (shape_len ps) in Hb by (rewrite <- H3; auto).
      pose proof (sh_cap _ _ _ R3 I ltac:(lia)). rewrite H3 in *. rewrite R2. destruct b; cbn in *; lia. }
    assert (Ei : in_sync (w_stack w) 0 p (s_off it) = true).
    { unfold in_sync. destruct (Nat.eqb_spec (cur (w_stack w)) 0); [lia|]. apply Nat.ltb_lt. auto. }
    unfold s_get, with_lock. rewrite Hlk. unfold bind.
    rewrite (sync_stay (w_stack w) (cs_list x) it 0 p H1 H2 ltac:(lia) H5 I1 I2 ltac:(auto) Hpg Et Ei).
    unfold data_pos, bind, get, lift_opt. cb. rewrite (same_page it Et), I1. unfold ret, deref_at, page_at, bind, get, lift_opt.
    cb. rewrite Hpg. unfold ret. rewrite Eo. reflexivity.
  - destruct (torn_step_UB (w_stack w) (cs_list x) it H1 H2 ltac:(lia) H5 I1 ltac:(lia) Et Hlk) as [G1 G2].
    rewrite G1. reflexivity.
  - apply andb_true_iff in Hh. destruct Hh as [Ha Hb]. apply Nat.ltb_lt in Hb.
    apply (is_end_iff (w_stack w) (cs_list x) it i p H1 H2 ltac:(lia) H5 I1 I2 I3 Hpg Et) in Ha.
    assert (s_off it = (-1)%Z) as Eo by lia. specialize (I3 Eo). subst i.
    assert (Hc : 0 < cur (w_stack w)).
    { destruct H1 as (b & t & a & R1 & R2 & R3 & R4 & R5 & R6).
      rewrite R6, rev_length, (shape_len ps) in Hb by (rewrite <- H3; auto).
      pose proof (sh_cap _ _ _ R3 I ltac:(lia)). rewrite H3 in *. rewrite R2. destruct b; cbn in *; lia. }
    assert (Ei : in_sync (w_stack w) 0 p (s_off it) = true).
    { unfold in_sync. destruct (Nat.eqb_spec (cur (w_stack w)) 0); [lia|]. apply Nat.ltb_lt. auto. }
    unfold s_inc, with_lock. rewrite Hlk. unfold bind.
    rewrite (sync_stay (w_stack w) (cs_list x) it 0 p H1 H2 ltac:(lia) H5 I1 I2 ltac:(auto) Hpg Et Ei).
    cb. rewrite Et. unfold node_pos, bind, get, lift_opt. cb. rewrite I1. unfold ret, f_inc, page_at, bind, get, lift_opt.
    cb. rewrite Hpg. unfold ret. rewrite Eo. reflexivity.
  - destruct (torn_step_UB (w_stack w) (cs_list x) it H1 H2 ltac:(lia) H5 I1 ltac:(lia) Et Hlk) as [G1 G2].
    rewrite G2. reflexivity.
  - apply andb_true_iff in Hh. destruct Hh as [Ha Hb]. apply andb_true_iff in Ha. destruct Ha as [Ha Hl].
    apply Nat.eqb_eq in Hb. apply negb_true_iff, Nat.eqb_neq in Hl.
    pose proof (cur_pages_for _ _ H1 ltac:(lia)) as Ec. rewrite H3 in Ec.
    assert (Hlast : length (pages (w_stack w)) = S (cur (w_stack w))) by congruence.
    destruct (cur_page_nth _ _ H1) as [q Hq]. destruct (ids_nth _ _ _ H5 Hq) as (nd & N1 & N2).
    unfold is_sync_begin in Ha. rewrite N1, Hq in Ha. rewrite Et, andb_true_r in Ha.
    apply andb_true_iff in Ha. destruct Ha as [Ha1 Ha2].
    apply Nat.eqb_eq in Ha1. apply Z.eqb_eq in Ha2. subst nd. rewrite I1 in N2. injection N2 as ->.
    rewrite Hpg in Hq. injection Hq as ->.
    destruct (page_len _ _ _ _ H1 H2 ltac:(lia) Hpg) as (P1 & P2 & P3 & P4 & P5 & P6).
    assert (q <> []) by (apply P5; auto; intros E; apply Hl; rewrite E; reflexivity).
    assert (1 <= length q) by (destruct q; [congruence|simpl; lia]).
    assert (Ei : in_sync (w_stack w) (cur (w_stack w)) q (s_off it) = true).
    { unfold in_sync. rewrite Nat.eqb_refl. apply andb_true_iff. split; [apply Z.leb_le|apply Z.ltb_lt]; lia. }
    unfold s_dec, with_lock. rewrite Hlk. unfold bind.
    rewrite (sync_stay (w_stack w) (cs_list x) it _ q H1 H2 ltac:(lia) H5 I1 I2 I3 Hpg Et Ei).
    cb. rewrite Et. unfold node_pos, bind, get, lift_opt. cb. rewrite I1. unfold ret, f_dec, page_at, bind, get, lift_opt.
    cb. rewrite Hpg. unfold ret.
    destruct (Z.ltb_spec (Z.of_nat (length q)) (s_off it + 1)); [lia|].
    destruct (Z.eqb_spec (s_off it + 1) (Z.of_nat (length q))); [|lia].
    cb. destruct (nth_error (pages (w_stack w)) (S (cur (w_stack w)))) eqn:En; [|reflexivity].
    assert (S (cur (w_stack w)) < length (pages (w_stack w))) by (apply nth_error_Some; congruence). lia.
Qed.

Lemma crun_inv : forall debug ps pa es w x x' w' rs, cinv ps pa w x -> 1 <= ps ->
  cspec_run ps pa es x = Some x' -> wrun debug es w = ROk w' rs ->
  cinv ps pa w' x' /\ (quiet ps pa es x -> sound w -> sound w').
Proof.
  intros debug ps pa es. induction es as [|e es IH]; intros w x x' w' rs HW Hp Hs Hr; cbn [cspec_run wrun quiet] in *.
  - injection Hs as <-. injection Hr as <- <-. auto.
  - destruct (cspec_step ps pa e x) as [x1|] eqn:E; [|discriminate].
    destruct (chazard ps e w x) eqn:Eh.
    + rewrite (chazard_UB debug _ _ _ _ _ _ HW Hp E Eh) in Hr. discriminate.
    + destruct (cstep debug _ _ _ _ _ _ HW Hp E Eh) as (w1 & a1 & W1 & W2 & _ & _ & W3). rewrite W1 in Hr.
      destruct (wrun debug es w1) as [w2 rs2| |] eqn:E2; try discriminate. injection Hr as <- <-.
      destruct (IH _ _ _ _ _ W2 Hp Hs E2) as [A B]. split; auto. intros [Q1 Q2] S0. auto.
Qed.

Lemma creaches_inv : forall debug ps pa es w x, creaches debug ps pa es w x -> cinv ps pa w x.
Proof.
  intros debug ps pa es w x (Hp & Hpa & Hs & rs & Hr).
  eapply crun_inv; eauto. apply cinv_fresh; auto.
Qed.

(** ** Property-level lemmas *)

Lemma copy_safe : forall debug ps pa es (w : world T) (x : cspec T) e x', creaches debug ps pa es w x ->
  cspec_step ps pa e x = Some x' -> chazard ps e w x = false ->
  exists w' a, wexec debug e w = ROk w' a /\ creaches debug ps pa (es ++ [e]) w' x' /\
    (forall k, e = SyncGet k -> cs_list x <> [] -> exists v, a = AVal v /\ In v (cs_list x)) /\
    (forall o, e = Op o -> exists r, a = ARet r /\ spec_step o (cs_list x) = Some (cs_list x', r)).
Proof.
  intros debug ps pa es w x e x' H Hs Hh. pose proof (creaches_inv _ _ _ _ _ _ H) as I.
  destruct H as (Hp & Hpa & Hsp & rs & Hr).
  destruct (cstep debug _ _ _ _ _ _ I Hp Hs Hh) as (w' & a & W1 & W2 & W3 & _).
  exists w', a. split; auto. split.
  - split; auto. split; auto. split.
    + clear -Hsp Hs. revert Hsp. generalize (cfresh (T := T) pa). induction es as [|e0 es IH]; intros y Hsp; cbn in *.
      * injection Hsp as ->. rewrite Hs. auto.
      * destruct (cspec_step ps pa e0 y); [|discriminate]. auto.
    + exists (rs ++ [a]). clear -Hr W1. revert rs Hr. generalize (wfresh (T := T) ps pa).
      induction es as [|e0 es IH]; intros y rs Hr; cbn [wrun app] in *.
      * injection Hr as -> <-. rewrite W1. reflexivity.
      * destruct (wexec debug e0 y) as [y1 a1| |]; try discriminate.
        destruct (wrun debug es y1) as [y2 rs2| |] eqn:E; try discriminate. injection Hr as -> <-.
        rewrite (IH _ _ E). reflexivity.
  - split.
    + intros k -> Hl. destruct W3 as (_ & [[G _]|[_ G]]); [congruence|auto].
    + intros o ->. exact W3.
Qed.

Lemma copy_unsafe : forall debug ps pa es (w : world T) (x : cspec T) e x', creaches debug ps pa es w x ->
  cspec_step ps pa e x = Some x' -> chazard ps e w x = true -> wexec debug e w = RBad UB.
Proof.
  intros debug ps pa es w x e x' H Hs Hh. pose proof (creaches_inv _ _ _ _ _ _ H) as I.
  destruct H as (Hp & _). eapply chazard_UB; eauto.
Qed.

Lemma copy_quiet : forall debug ps pa es (w : world T) (x : cspec T) k, creaches debug ps pa es w x ->
  quiet ps pa es (cfresh pa) -> dangles w k = false.
Proof.
  intros debug ps pa es w x k (Hp & Hpa & Hs & rs & Hr) Q.
  destruct (crun_inv _ _ _ _ _ _ _ _ _ (cinv_fresh ps pa Hpa) Hp Hs Hr) as [_ B].
  specialize (B Q ltac:(constructor)). unfold dangles. destruct (nth_error (w_live w) k) as [it|] eqn:E; auto.
  unfold sound in B. rewrite Forall_forall in B. apply B. eapply nth_error_In; eauto.
Qed.

Lemma no_shrink_quiet : forall ps pa es (x : cspec T), cs_pending x = false -> existsb is_shrink es = false ->
  quiet ps pa es x.
Proof.
  intros ps pa es. induction es as [|e es IH]; intros x Hx H; cbn [quiet]; auto.
  cbn [existsb] in H. apply orb_false_iff in H. destruct H as [He H].
  destruct (cspec_step ps pa e x) as [x'|] eqn:E; auto.
  assert (N : releases e x = false).
  { destruct e as [o| | | | | | |]; auto; [destruct o; auto; discriminate|]. cbn [releases]. rewrite Hx, andb_false_r. auto. }
  split; [congruence|]. apply IH; auto.
  destruct x as [l n m pend blocks]. cbn [cs_pending] in Hx. subst pend. unfold cspec_step in E.
  destruct e as [o| | | | | | |]; try (injection E as <-; reflexivity);
    try (destruct (_ <? _); [|discriminate]; rewrite ?andb_false_r in E; injection E as <-; reflexivity).
  destruct o; try discriminate; cbn [core_op] in E; try discriminate;
    destruct (spec_step _ l) as [[? ?]|]; try discriminate; injection E as <-; reflexivity.
Qed.

Lemma no_copy_quiet : forall ps pa es (x : cspec T), cs_copies x = 0 -> existsb is_copy es = false ->
  quiet ps pa es x.
Proof.
  intros ps pa es. induction es as [|e es IH]; intros x Hx H; cbn [quiet]; auto.
  cbn [existsb] in H. apply orb_false_iff in H. destruct H as [He H].
  destruct (cspec_step ps pa e x) as [x'|] eqn:E; auto.
  destruct x as [l n m pend blocks]. cbn [cs_copies] in Hx. subst m. unfold cspec_step in E.
  split.
  - destruct e as [o| | | | | | |]; try discriminate.
    + destruct o; try discriminate. cbn [releases cs_live cs_copies]. intros L. rewrite L in E. injection E as <-.
      apply Nat.leb_le in L. cbn. lia.
    + cbn [releases cs_live cs_copies cs_pending]. intros L. rewrite L in E.
      destruct (k <? n); [|discriminate]. injection E as <-. apply andb_true_iff in L. destruct L as [L _].
      apply Nat.eqb_eq in L. exact L.
  - apply IH; auto. destruct e as [o| | | | | | |]; try discriminate; try (injection E as <-; reflexivity);
      try (destruct (k <? n); [|discriminate]; try (destruct (_ && _)); injection E as <-; reflexivity).
    destruct o; cbn [core_op] in E; try discriminate;
      try (destruct (spec_step _ l) as [[? ?]|]; [|discriminate]; injection E as <-; reflexivity).
    destruct (n <=? 0); injection E as <-; reflexivity.
Qed.

Lemma copy_no_dangling : forall debug ps pa es (w : world T) (x : cspec T) k, creaches debug ps pa es w x ->
  existsb is_shrink es = false \/ existsb is_copy es = false -> dangles w k = false.
Proof.
  intros debug ps pa es w x k H [N|N]; eapply copy_quiet; eauto.
  - apply no_shrink_quiet; auto.
  - apply no_copy_quiet; auto.
Qed.

(** A release cuts the iterators above the top page off. *)
Lemma copy_release : forall debug ps pa es (w : world T) (x : cspec T) e x' w' a it j, creaches debug ps pa es w x ->
  cspec_step ps pa e x = Some x' -> releases e x = true -> wexec debug e w = ROk w' a ->
  nth_error (ids (w_stack w)) j = Some (s_node it) ->
  dangling (w_stack w') it = (pages_for ps (length (cs_list x)) <=? j).
Proof.
  intros debug ps pa es w x e x' w' a it j H Hs Hr He Hj. pose proof (creaches_inv _ _ _ _ _ _ H) as I.
  destruct H as (Hp & _).
  assert (Hh : chazard ps e w x = false).
  { destruct (chazard ps e w x) eqn:Hh; auto. rewrite (chazard_UB debug _ _ _ _ _ _ I Hp Hs Hh) in He. discriminate. }
  destruct (cstep debug _ _ _ _ _ _ I Hp Hs Hh) as (w1 & a1 & W1 & _ & _ & W2 & _).
  rewrite W1 in He. injection He as -> ->. unfold cids in W2. rewrite Hr in W2.
  destruct I as (H1 & H2 & H3 & H4 & (H5 & H6 & H7) & _).
  pose proof (cur_pages_for _ _ H1 ltac:(lia)) as Ec. rewrite H3 in Ec. rewrite Ec.
  destruct (Nat.leb_spec (S (cur (w_stack w))) j) as [L|L].
  - destruct (dangling (w_stack w') it) eqn:D; auto. apply dangling_in in D. rewrite W2 in D.
    destruct (in_index _ _ D) as [i Hi]. rewrite (firstn_index_none _ _ j) in Hi; auto. discriminate.
  - apply dangling_in. rewrite W2. apply (nth_error_In _ j).
    rewrite <- Hj. rewrite <- (firstn_skipn (S (cur (w_stack w))) (ids (w_stack w))) at 2.
    symmetry. apply nth_error_app1. rewrite firstn_length.
    assert (j < length (ids (w_stack w))) by (apply nth_error_Some; congruence). lia.
Qed.

End CopyProofs.
