(** * PagedStack: boundary removals, iterator inverses, page accounting, lock. *)
From Coq Require Import List Arith ZArith Lia Bool.
From Verif Require Import Base ListFacts PagedStackModel PagedStackSpec PagedStackExec
  PagedStackProofs PagedStackIter.
Import ListNotations.
Open Scope m_scope.

Section More.
Context {T : Type}.
Implicit Types (b a : list (list T)) (t p : list T).

Ltac open_stack s H :=
  let ps := fresh "ps" in let asz := fresh "asz" in let i := fresh "ids" in
  let n := fresh "nid" in let sc := fresh "sc" in let sr := fresh "sr" in
  let b := fresh "b" in let t := fresh "t" in let a := fresh "a" in
  destruct s as [ps asz ? i n ? sc sr ?];
  destruct H as (b & t & a & ? & ? & ? & ? & ? & ?);
  cbn [page_size alloc_size pages PagedStackModel.ids next_id cur sync_count shrink_req locked] in *;
  subst.

(** ** Removals that end on a page boundary leave a stale page *)

Definition stale (s : stack T) (l : list T) (k : nat) : Prop :=
  exists b t p a,
    pages s = b ++ t :: p :: a /\ cur s = length b /\ length t = page_size s /\
    length p = k /\ locked s = false /\ l = rev (concat b ++ t).

Lemma stale_push : forall s l k x, stale s l k ->
  exists s', push x [] s = ROk s' tt /\ size s' = ROk s' (length l + 1 + k).
Proof.
  intros s l k x (b & t & p & a & H1 & H2 & H3 & H4 & H5 & H6).
  destruct s as [ps asz pgs i nid c sc sr lk]. simpl in *. subst.
  exists (mkStack (length t) asz ((b ++ [t]) ++ (p ++ [x]) :: a) i nid (length (b ++ [t])) sc sr false).
  split.
  - unfold push. replace (mkStack (length t) asz ((b ++ [t]) ++ (p ++ [x]) :: a) i nid (length (b ++ [t])) sc sr false)
      with (set_locked false (mkStack (length t) asz ((b ++ [t]) ++ (p ++ [x]) :: a) i nid (length (b ++ [t])) sc sr true)) by reflexivity.
    apply with_lock_ok; [reflexivity|]. unfold set_locked. simpl.
    unfold internal_push_one, advance. unfold bind. rewrite cur_page_at. msimp.
    rewrite Nat.eqb_refl.
    replace (S (length b) =? length (b ++ t :: p :: a)) with false.
    2:{ symmetry. apply Nat.eqb_neq. rewrite app_length. simpl. lia. }
    replace (S (length b)) with (length (b ++ [t])) by (rewrite app_length; simpl; lia).
    replace (b ++ t :: p :: a) with ((b ++ [t]) ++ p :: a) by (rewrite <- app_assoc; reflexivity).
    msimp. rewrite nth_error_mid. msimp. rewrite upd_mid. reflexivity.
  - unfold size. apply noexcept_ok. unfold with_lock. simpl. msimp.
    rewrite size_loop_app. msimp. rewrite nth_error_mid. simpl. f_equal.
    rewrite rev_length, concat_app, !app_length. simpl. rewrite app_nil_r. lia.
Qed.

(** Size of the page the removal leaves behind. *)
Lemma discard_boundary : forall s l b t a j pg off,
  pages s = b ++ t :: a -> cur s = length b -> shape (page_size s) b t -> 1 <= page_size s ->
  1 <= alloc_size s -> locked s = false -> l = rev (concat b ++ t) ->
  at_pos b t j pg off -> on_boundary (page_size s) j = true ->
  exists s', with_lock (internal_discard pg (Z.of_nat off)) s = ROk s' tt /\
    stale s' (rev (firstn j (rev l))) (Nat.min (page_size s) (length l - j)).
Proof.
  intros s l b t a j pg off H1 H2 H3 Hp H4 H5 H6 Ha Hb.
  destruct s as [ps asz pgs ids nid c sc sr lk]. simpl in *. subst.
  destruct (at_pos_div _ _ _ _ _ _ I Hp H3 Ha) as [Ej Lo].
  unfold on_boundary in Hb. apply andb_true_iff in Hb. destruct Hb as [Hb1 Hb2].
  apply Nat.eqb_eq in Hb1. apply negb_true_iff, Nat.eqb_neq in Hb2.
  assert (Eoff : off = 0).
  { rewrite Ej in Hb1. rewrite Nat.add_comm, Nat.mod_add in Hb1 by lia.
    rewrite Nat.mod_small in Hb1; auto. }
  assert (Hpg : pg <> 0) by (intros ->; lia).
  destruct (internal_discard_shape ps asz nid ids sc sr true b t a j pg off H3 Ha)
    as (b' & t' & a' & G1 & G2 & G3 & G4 & G5 & G6).
  destruct (G6 Eoff Hpg) as (L & p & b2 & E & Hne & ->).
  eexists. split; [apply with_lock_ok; [reflexivity|apply G1]|].
  exists b', t', p, (map (fun _ => []) b2 ++ a). simpl. 
  assert (Hf : length t' = ps).
  { destruct (all_full ps b t b' t' (p :: b2) H3) as [_ F].
    - rewrite E, <- app_assoc. reflexivity.
    - apply F. discriminate. }
  repeat split; auto.
  - rewrite rev_length.
    assert (Lj : length (concat b ++ t) = j + length p + length (concat b2)).
    { replace (concat b ++ t) with (concat (b ++ [t])) by (rewrite concat_app; simpl; rewrite app_nil_r; auto).
      rewrite E. rewrite concat_app. simpl. rewrite !app_length.
      replace (length (concat (b' ++ [t']))) with j; [lia|].
      rewrite concat_app. simpl. rewrite app_nil_r. rewrite G3.
      rewrite firstn_length. pose proof (at_pos_bound _ _ _ _ _ Ha). lia. }
    rewrite Lj.
    destruct (all_full ps b t (b' ++ [t']) p b2 H3 E) as [_ F].
    destruct b2 as [|u b2].
    + simpl. assert (length p <= ps).
      { apply app_inj_tail in E. destruct E as [_ <-]. apply (sh_cap _ _ _ H3 I Hp). }
      lia.
    + rewrite F by discriminate. lia.
  - rewrite rev_involutive, G3. reflexivity.
Qed.

Lemma pop_reverse_stale : forall debug n (s : stack T) l, rep s l -> 1 <= page_size s ->
  S n <= length l -> on_boundary (page_size s) (length l - S n) = true ->
  exists s', pop_reverse debug (S n) s = ROk s' (rev (firstn (S n) l)) /\
             stale s' (skipn (S n) l) (Nat.min (page_size s) (S n)).
Proof.
  intros debug n s l H Hp Hn Hb. pose proof (assert_size debug s l (S n) H Hn) as Has.
  destruct (pop_reverse_ok debug n s l H Hn) as (s0 & P0 & _).
  open_stack s H. rewrite rev_length in Hn, Hb.
  destruct (from_top_ok ps asz nid ids sc sr true b a t H1 (S n)) as (pg & off & G1 & G2 & G3); try lia.
  destruct (discard_boundary (mkStack ps asz (b ++ t :: a) ids nid (length b) sc sr false)
              (rev (concat b ++ t)) b t a _ pg off eq_refl eq_refl H1 Hp H2 eq_refl eq_refl G2 Hb)
    as (s' & D1 & D2).
  exists s'. split.
  - unfold pop_reverse in P0 |- *.
    rewrite (bind_ok _ _ _ _ _ Has) in P0 |- *.
    apply with_lock_inv in D1. destruct D1 as (s1 & D1 & ->).
    assert (W : with_lock
       (pos <- internal_from_top (S n);;
        vs <- distribute r_deref r_inc pos (S n);;
        internal_discard (r_page pos) (r_off pos);;; ret vs)
       (mkStack ps asz (b ++ t :: a) ids nid (length b) sc sr false) =
       ROk (set_locked false s1) (firstn (S n) (skipn (length (concat b ++ t) - S n) (concat b ++ t)))).
    { apply with_lock_ok; [reflexivity|].
      erewrite bind_ok by apply G1.
      erewrite bind_ok.
      2:{ eapply distribute_r; eauto. lia. }
      cbn [r_page r_off]. erewrite bind_ok by apply D1. reflexivity. }
    rewrite W in P0. rewrite W. clear W. congruence.
  - rewrite rev_firstn_rev, rev_length in D2.
    replace (length (concat b ++ t) - (length (concat b ++ t) - S n)) with (S n) in D2 by lia.
    exact D2.
Qed.

Lemma discard_at_stale : forall k (s : stack T) l, rep s l -> 1 <= page_size s ->
  k < length l -> on_boundary (page_size s) (length l - S k) = true ->
  exists s', (it <- begin ;; it' <- f_plus k it ;; discard_f it') s = ROk s' tt /\
             stale s' (skipn (S k) l) (Nat.min (page_size s) (S k)).
Proof.
  intros k s l H Hp Hk Hb. open_stack s H. rewrite rev_length in Hk, Hb.
  destruct (begin_at ps asz nid ids sc sr false b a t H1) as (off0 & B1 & B2).
  { eapply shape_tne with (n := 1); eauto; lia. }
  replace (length (concat b ++ t) - 1) with (k + (length (concat b ++ t) - S k)) in B2 by lia.
  destruct (f_plus_at k _ ps asz nid ids sc sr false b t a _ _ H1 B2) as (pg & off & G1 & G2).
  destruct (discard_boundary (mkStack ps asz (b ++ t :: a) ids nid (length b) sc sr false)
              (rev (concat b ++ t)) b t a _ pg off eq_refl eq_refl H1 Hp H2 eq_refl eq_refl G2 Hb)
    as (s' & D1 & D2).
  exists s'. split.
  - erewrite bind_ok by apply B1. erewrite bind_ok by apply G1.
    unfold discard_f. apply noexcept_ok. exact D1.
  - rewrite rev_firstn_rev, rev_length in D2.
    replace (length (concat b ++ t) - (length (concat b ++ t) - S k)) with (S k) in D2 by lia.
    exact D2.
Qed.

Lemma discard_from_top_stale : forall debug d (s : stack T) l, rep s l -> 1 <= page_size s ->
  1 <= d -> d <= length l -> on_boundary (page_size s) (length l - d) = true ->
  exists s', (it <- from_top debug d ;; discard_r it) s = ROk s' tt /\
             stale s' (skipn d l) (Nat.min (page_size s) d).
Proof.
  intros debug d s l H Hp Hd1 Hd Hb. pose proof (assert_size debug s l d H Hd) as Has.
  open_stack s H. rewrite rev_length in Hd, Hb.
  destruct (from_top_ok ps asz nid ids sc sr true b a t H1 d) as (pg & off & G1 & G2 & G3); try lia.
  destruct (discard_boundary (mkStack ps asz (b ++ t :: a) ids nid (length b) sc sr false)
              (rev (concat b ++ t)) b t a _ pg off eq_refl eq_refl H1 Hp H2 eq_refl eq_refl G2 Hb)
    as (s' & D1 & D2).
  exists s'. split.
  - unfold from_top. erewrite bind_ok.
    2:{ apply noexcept_ok. erewrite bind_ok by apply Has. apply with_lock_ok; [reflexivity|].
        unfold set_locked; simpl. apply G1. }
    unfold discard_r. apply noexcept_ok. exact D1.
  - rewrite rev_firstn_rev, rev_length in D2.
    replace (length (concat b ++ t) - (length (concat b ++ t) - d)) with d in D2 by lia.
    exact D2.
Qed.

(** ** Iterator inverses *)

Lemma at_pos_unique : forall b t j pg off pg' off',
  at_pos b t j pg off -> at_pos b t j pg' off' -> pg = pg' /\ off = off'.
Proof.
  assert (W : forall b t j pg off pg' off',
    at_pos b t j pg off -> at_pos b t j pg' off' -> pg < pg' -> False).
  { intros b t j pg off pg' off' (b1 & p & b2 & E & -> & Ho & ->) (c1 & q & c2 & E' & -> & Ho' & Ej) L.
    rewrite E in E'.
    assert (X : exists r, c1 = b1 ++ p :: r).
    { clear -E' L. revert c1 E' L. induction b1 as [|u b1 IH]; intros [|v c1] E L; simpl in *; try lia.
      - injection E as -> E. eauto.
      - injection E as -> E. destruct (IH c1 E) as [r ->]; [lia|]. eauto. }
    destruct X as [r ->]. rewrite concat_app, app_length in Ej. simpl in Ej. rewrite app_length in Ej. lia. }
  intros b t j pg off pg' off' H1 H2.
  destruct (Nat.lt_trichotomy pg pg') as [L|[L|L]].
  - destruct (W _ _ _ _ _ _ _ H1 H2 L).
  - subst pg'. split; auto.
    destruct H1 as (b1 & p & b2 & E & E1 & Ho & Ej). destruct H2 as (c1 & q & c2 & E' & E1' & Ho' & Ej').
    assert (b1 = c1).
    { transitivity (firstn pg (b ++ [t])).
      - rewrite E, E1, firstn_app, Nat.sub_diag, firstn_all. simpl. rewrite app_nil_r. auto.
      - rewrite E', E1', firstn_app, Nat.sub_diag, firstn_all. simpl. rewrite app_nil_r. auto. }
    subst c1. lia.
  - destruct (W _ _ _ _ _ _ _ H2 H1 L).
Qed.

Section Inv.
Variables (ps asz nid : nat) (i : list nat) (sc : Z) (sr lk : bool).
Variables (b a : list (list T)) (t : list T).
Hypothesis Hs : shape ps b t.
Notation St := (mkStack ps asz (b ++ t :: a) i nid (length b) sc sr lk).

Lemma f_dec_ok : forall j pg off pg' off', at_pos b t j pg off -> at_pos b t (S j) pg' off' ->
  f_dec (mkF pg (Z.of_nat off)) St = ROk St (mkF pg' (Z.of_nat off')).
Proof using Hs.
  intros j pg off pg' off' H H'. pose proof (at_pos_bound _ _ _ _ _ H') as B.
  destruct (r_inc_any ps asz nid i sc sr lk b a t Hs (S (length b)) j pg off) as (pg1 & off1 & G1 & G2); auto.
  destruct (at_pos_unique _ _ _ _ _ _ _ G2 H') as [-> ->].
  assert (Hpg : pg < S (length b)).
  { destruct H as (b1 & p & b2 & E & -> & _ & _).
    apply (f_equal (@length (list T))) in E. rewrite !app_length in E. simpl in E. lia. }
  unfold r_inc, f_dec in *. msimp. destruct (nth_error (b ++ t :: a) pg) as [p0|]; [|discriminate].
  destruct (Z.of_nat (length p0) <? Z.of_nat off + 1)%Z; [discriminate|].
  rewrite (proj2 (Nat.eqb_neq pg (S (length b)))) in G1 by lia. rewrite andb_true_r in G1.
  destruct (Z.of_nat off + 1 =? Z.of_nat (length p0))%Z.
  - msimp. destruct (nth_error (b ++ t :: a) (S pg)); [|discriminate].
    injection G1 as -> <-. reflexivity.
  - injection G1 as -> <-. reflexivity.
Qed.

Lemma f_dec_end : forall pg off, at_pos b t 0 pg off ->
  f_dec (mkF 0 (-1)) St = ROk St (mkF pg (Z.of_nat off)).
Proof using Hs.
  intros pg off (b1 & p & b2 & E & -> & Ho & Ej).
  assert (off = 0) by lia. subst off.
  assert (Eb : concat b1 = []) by (apply length_zero_iff_nil; lia).
  destruct b1 as [|q b1].
  - simpl in E. unfold f_dec. msimp.
    assert (E0 : nth_error (b ++ t :: a) 0 = Some p) by (destruct b; simpl in *; congruence).
    rewrite E0. simpl.
    destruct (Z.ltb_spec (Z.of_nat (length p)) 0); [lia|].
    destruct p; [simpl in Ho; lia|]. reflexivity.
  - simpl in Eb. apply app_eq_nil in Eb. destruct Eb as [-> Eb].
    destruct (all_full _ _ _ _ _ _ Hs E) as [F1 F2]. inversion F1; subst.
    assert (Z0 : length (@nil T) = 0) by reflexivity.
    pose proof (sh_zero _ _ _ Hs eq_refl) as L.
    assert (length (b ++ [t]) = length (([] :: b1) ++ p :: b2)) by (rewrite E; auto).
    rewrite !app_length in H. simpl in H. assert (b1 = []) as -> by (destruct b1; auto; simpl in H; lia).
    simpl in E. unfold f_dec. msimp.
    replace (b ++ t :: a) with ((b ++ [t]) ++ a) by (rewrite <- app_assoc; auto).
    rewrite E. reflexivity.
Qed.

Lemma r_dec_ok : forall last j pg off pg' off', at_pos b t (S j) pg off -> at_pos b t j pg' off' ->
  r_dec (mkR pg (Z.of_nat off) last) St = ROk St (mkR pg' (Z.of_nat off') last).
Proof using Hs.
  intros last j pg off pg' off' H H'.
  destruct (f_inc_ok ps asz nid i sc sr lk b a t Hs _ _ _ H) as (pg1 & off1 & G1 & G2).
  destruct (at_pos_unique _ _ _ _ _ _ _ G2 H') as [-> ->].
  unfold f_inc, r_dec in *. msimp. destruct (nth_error (b ++ t :: a) pg) as [p0|]; [|discriminate].
  destruct pg as [|pg].
  - destruct (Z.ltb_spec (Z.of_nat off) 0); [lia|]. injection G1 as <- E.
    destruct (Z.eqb_spec (Z.of_nat off) 0); [lia|]. rewrite E. reflexivity.
  - destruct (Z.eqb_spec (Z.of_nat off) 0).
    + msimp. destruct (nth_error (b ++ t :: a) pg) as [q|]; [|discriminate].
      injection G1 as <- E. destruct q; [simpl in E; lia|]. rewrite E. reflexivity.
    + destruct (Z.ltb_spec (Z.of_nat off) 0); [lia|]. injection G1 as <- E.
      rewrite E. reflexivity.
Qed.

Lemma r_dec_end : forall last pg off, at_pos b t (length (concat b ++ t) - 1) pg off -> t <> [] ->
  r_dec (mkR (length b) (Z.of_nat (length t)) last) St = ROk St (mkR pg (Z.of_nat off) last).
Proof using Hs.
  intros last pg off H Ht.
  destruct (at_pos_unique _ _ _ _ _ _ _ H (at_pos_top _ _ _ Hs Ht)) as [-> ->].
  unfold r_dec. msimp. rewrite nth_error_mid.
  destruct (Z.eqb_spec (Z.of_nat (length t)) 0).
  - destruct t; [congruence|simpl in *; lia].
  - do 2 f_equal. destruct t; [congruence|simpl length]. lia.
Qed.

(** Forward iterator after [k] increments from begin. *)
Definition f_at (k : nat) (it : fiter) : Prop :=
  (k < length (concat b ++ t) /\ exists pg off, it = mkF pg (Z.of_nat off) /\
     at_pos b t (length (concat b ++ t) - 1 - k) pg off) \/
  (k = length (concat b ++ t) /\ it = mkF 0 (-1)).

Lemma f_at_begin : exists it, begin St = ROk St it /\ f_at 0 it.
Proof using Hs.
  destruct t as [|x t0] eqn:E.
  - exists (mkF 0 (-1)). rewrite begin_eq. rewrite (sh_top _ _ _ Hs eq_refl). split; [reflexivity|].
    right. rewrite (sh_top _ _ _ Hs eq_refl). rewrite E. auto.
  - rewrite <- E in *. destruct (begin_at ps asz nid i sc sr lk b a t Hs) as (off & B1 & B2).
    { rewrite E. discriminate. }
    eexists. split; [exact B1|]. left. split.
    { pose proof (at_pos_bound _ _ _ _ _ B2). lia. }
    exists (length b), off. split; auto. rewrite Nat.sub_0_r. auto.
Qed.

Lemma f_at_step : forall k it, f_at k it -> k < length (concat b ++ t) ->
  exists it', f_inc it St = ROk St it' /\ f_at (S k) it' /\ f_dec it' St = ROk St it.
Proof using Hs.
  intros k it [(Hk & pg & off & -> & Ha)|[Hk _]] H; [|lia].
  destruct (Nat.eq_dec (S k) (length (concat b ++ t))) as [E|E].
  - replace (length (concat b ++ t) - 1 - k) with 0 in Ha by lia.
    exists (mkF 0 (-1)). split; [apply (f_inc_bottom (cap:=True)); auto|]. split; [right; auto|].
    apply f_dec_end. auto.
  - replace (length (concat b ++ t) - 1 - k) with (S (length (concat b ++ t) - 1 - S k)) in Ha by lia.
    destruct (f_inc_ok ps asz nid i sc sr lk b a t Hs _ _ _ Ha) as (pg' & off' & G1 & G2).
    exists (mkF pg' (Z.of_nat off')). split; [exact G1|]. split.
    + left. split; [lia|]. eauto.
    + eapply f_dec_ok; eauto.
Qed.

Lemma f_at_plus : forall n k it, f_at k it -> k + n <= length (concat b ++ t) ->
  exists it', f_plus n it St = ROk St it' /\ f_at (k + n) it' /\ f_minus n it' St = ROk St it.
Proof using Hs.
  induction n; intros k it H Hn.
  - exists it. rewrite Nat.add_0_r. repeat split; auto.
  - destruct (f_at_step k it H) as (it1 & G1 & G2 & G3); [lia|].
    destruct (IHn (S k) it1 G2) as (it2 & G4 & G5 & G6); [lia|].
    exists it2. split; [|split].
    + unfold f_plus in *. cbn [repeat_m]. erewrite bind_ok by apply G1. exact G4.
    + replace (k + S n) with (S k + n) by lia. auto.
    + unfold f_minus in *.
      assert (R : forall m it3 it4, repeat_m m f_dec it3 St = ROk St it4 ->
                  forall it5, f_dec it4 St = ROk St it5 -> repeat_m (S m) f_dec it3 St = ROk St it5).
      { induction m; intros it3 it4 E1 it5 E2; cbn [repeat_m] in *.
        - unfold ret in E1. injection E1 as ->. erewrite bind_ok by apply E2. reflexivity.
        - unfold bind at 1 in E1. destruct (f_dec it3 St) as [s3 it6|s3|] eqn:E3; try discriminate.
          assert (s3 = St).
          { unfold f_dec in E3. msimp. destruct (nth_error _ _); [|discriminate].
            destruct (_ <? _)%Z; [discriminate|]. destruct (_ =? _)%Z.
            - msimp. destruct (nth_error _ _); [|discriminate]. congruence.
            - congruence. }
          subst s3. erewrite bind_ok by apply E3. eapply IHm; eauto. }
      eapply R; eauto.
Qed.

(** Reverse iterator [d] elements before rend. *)
Definition r_at (d : nat) (it : riter) : Prop :=
  (1 <= d /\ d <= length (concat b ++ t) /\ exists pg off, it = mkR pg (Z.of_nat off) (length b) /\
     at_pos b t (length (concat b ++ t) - d) pg off) \/
  (d = 0 /\ it = mkR (length b) (Z.of_nat (length t)) (length b)).

Lemma r_at_from_top : forall d, d <= length (concat b ++ t) ->
  exists it, internal_from_top d St = ROk St it /\ r_at d it.
Proof using Hs.
  intros [|d] H.
  - eexists. split; [apply from_top_zero|right; auto].
  - destruct (from_top_ok ps asz nid i sc sr lk b a t Hs (S d)) as (pg & off & G1 & G2 & G3); try lia.
    eexists. split; [exact G1|]. left. split; [lia|]. split; [lia|]. eauto.
Qed.

Lemma r_at_step : forall d it, r_at (S d) it ->
  exists it', r_inc it St = ROk St it' /\ r_at d it' /\ r_dec it' St = ROk St it.
Proof using Hs.
  intros d it [(H1 & H2 & pg & off & -> & Ha)|[H _]]; [|lia].
  destruct d as [|d].
  - eexists. split; [eapply r_inc_top; eauto; lia|]. split; [right; auto|].
    apply r_dec_end; auto. eapply shape_tne with (n := 1); eauto.
  - destruct (r_inc_ok ps asz nid i sc sr lk b a t Hs _ _ _ Ha) as (pg' & off' & G1 & G2); [lia|].
    replace (S (length (concat b ++ t) - S (S d))) with (length (concat b ++ t) - S d) in G2 by lia.
    eexists. split; [exact G1|]. split.
    + left. split; [lia|]. split; [lia|]. eauto.
    + eapply r_dec_ok; [|exact Ha].
      replace (S (length (concat b ++ t) - S (S d))) with (length (concat b ++ t) - S d) by lia. exact G2.
Qed.

Lemma r_at_plus : forall n d it, r_at (n + d) it ->
  exists it', r_plus n it St = ROk St it' /\ r_at d it' /\ r_minus n it' St = ROk St it.
Proof using Hs.
  induction n; intros d it H.
  - exists it. repeat split; auto.
  - destruct (r_at_step (n + d) it H) as (it1 & G1 & G2 & G3).
    destruct (IHn d it1 G2) as (it2 & G4 & G5 & G6).
    exists it2. split; [|split; auto].
    + unfold r_plus in *. cbn [repeat_m]. erewrite bind_ok by apply G1. exact G4.
    + unfold r_minus in *.
      assert (R : forall m it3 it4, repeat_m m r_dec it3 St = ROk St it4 ->
                  forall it5, r_dec it4 St = ROk St it5 -> repeat_m (S m) r_dec it3 St = ROk St it5).
      { induction m; intros it3 it4 E1 it5 E2; cbn [repeat_m] in *.
        - unfold ret in E1. injection E1 as ->. erewrite bind_ok by apply E2. reflexivity.
        - unfold bind at 1 in E1. destruct (r_dec it3 St) as [s3 it6|s3|] eqn:E3; try discriminate.
          assert (s3 = St).
          { unfold r_dec in E3. msimp. destruct (nth_error _ _); [|discriminate].
            destruct (_ =? _)%Z.
            - destruct (r_page it3); [discriminate|]. msimp.
              destruct (nth_error _ _) as [[|]|]; try discriminate. congruence.
            - congruence. }
          subst s3. erewrite bind_ok by apply E3. eapply IHm; eauto. }
      eapply R; eauto.
Qed.

End Inv.

Lemma f_inverse : forall (s : stack T) l k n, rep s l -> k + n <= length l ->
  exists it it', (x <- begin ;; f_plus k x) s = ROk s it /\
    f_plus n it s = ROk s it' /\ f_minus n it' s = ROk s it.
Proof.
  intros s l k n H Hn. open_stack s H. rewrite rev_length in Hn.
  destruct (f_at_begin ps asz nid ids sc sr false b a t H1) as (it0 & B1 & B2).
  destruct (f_at_plus ps asz nid ids sc sr false b a t H1 k 0 it0 B2) as (it1 & G1 & G2 & _); [lia|].
  destruct (f_at_plus ps asz nid ids sc sr false b a t H1 n k it1 G2) as (it2 & G3 & G4 & G5); [lia|].
  exists it1, it2. split; [|auto]. erewrite bind_ok by apply B1. exact G1.
Qed.

Lemma r_inverse : forall debug (s : stack T) l d n, rep s l -> n + d <= length l ->
  exists it it', from_top debug (n + d) s = ROk s it /\
    r_plus n it s = ROk s it' /\ r_minus n it' s = ROk s it /\
    exists it'', from_top debug d s = ROk s it'' /\ r_eqb it' it'' = true.
Proof.
  intros debug s l d n H Hn.
  pose proof (assert_size debug s l (n + d) H Hn) as Has.
  pose proof (assert_size debug s l d H ltac:(lia)) as Has'.
  open_stack s H. rewrite rev_length in Hn.
  destruct (r_at_from_top ps asz nid ids sc sr true b a t H1 (n + d) Hn) as (it & B1 & B2).
  destruct (r_at_from_top ps asz nid ids sc sr true b a t H1 d ltac:(lia)) as (it'' & B3 & B4).
  destruct (r_at_plus ps asz nid ids sc sr false b a t H1 n d it B2) as (it' & G1 & G2 & G3).
  exists it, it'. split; [|split; [exact G1|split; [exact G3|]]].
  - unfold from_top. apply noexcept_ok. erewrite bind_ok by apply Has.
    erewrite with_lock_ok; [|reflexivity|apply B1]. reflexivity.
  - exists it''. split.
    + unfold from_top. apply noexcept_ok. erewrite bind_ok by apply Has'.
      erewrite with_lock_ok; [|reflexivity|apply B3]. reflexivity.
    + destruct G2 as [(X1 & X2 & pg & off & -> & A1)|[-> ->]];
      destruct B4 as [(Y1 & Y2 & pg' & off' & -> & A2)|[Y ->]]; try lia.
      * destruct (at_pos_unique _ _ _ _ _ _ _ A1 A2) as [-> ->].
        unfold r_eqb. simpl. rewrite Nat.eqb_refl, Z.eqb_refl. reflexivity.
      * unfold r_eqb. simpl. rewrite Nat.eqb_refl, Z.eqb_refl. reflexivity.
Qed.

End More.
