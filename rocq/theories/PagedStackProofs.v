(** * PagedStack: proofs of the simulation by a plain list. *)
From Coq Require Import List Arith ZArith Lia Bool.
From Verif Require Import Base ListFacts PagedStackModel PagedStackSpec PagedStackExec.
Import ListNotations.
Open Scope m_scope.

Lemma bind_ok : forall {S A B} (m : M S A) (k : A -> M S B) s s' x,
  m s = ROk s' x -> bind m k s = k x s'.
Proof. intros. unfold bind. rewrite H. reflexivity. Qed.

Lemma noexcept_ok : forall {S A} (m : M S A) s s' x,
  m s = ROk s' x -> noexcept m s = ROk s' x.
Proof. intros. unfold noexcept. rewrite H. reflexivity. Qed.

Ltac msimp :=
  repeat (unfold bind, get, put, ret, fail, throw, lift_opt, page_at, cur_page,
          write_cur, set_pages, set_cur, set_ids, set_sync, set_shrink, set_locked in *;
          cbn [page_size alloc_size pages ids next_id cur sync_count shrink_req locked
               fst snd f_page f_off r_page r_off r_last] in *).

Lemma match_snoc : forall {A B} (l : list A) x (u v : B),
  match l ++ [x] with [] => u | _ => v end = v.
Proof. intros. destruct l; reflexivity. Qed.

Section Proofs.
Context {T : Type}.
(** Whether no page holds more than the page size: [True], except in
    PagedStackSafe.v, where histories are not [careful] and pages may exceed it. *)
Context {cap : Prop}.
Implicit Types (b a : list (list T)) (t p : list T).

(** Shape of the page list: full pages [b], current page [t]. *)
Record shapec (ps : nat) b t : Prop := {
  sh_full : Forall (fun p => length p = ps) b;
  sh_top  : t = [] -> b = [];
  sh_cap  : cap -> 1 <= ps -> length t <= ps;
  sh_zero : ps = 0 -> length b <= 1
}.

Lemma shape_pop_page : forall ps b q x, shapec ps (b ++ [q]) [x] -> shapec ps b q.
Proof.
  intros ps b q x [Hf Ht Hc Hz]. apply Forall_app in Hf. destruct Hf as [Hf Hq].
  inversion Hq; subst. rewrite app_length in Hz. simpl in Hz. constructor; auto.
  - intros ->. destruct b; auto. simpl in Hz. specialize (Hz eq_refl). lia.
  - intros Hp. specialize (Hz Hp). lia.
Qed.

Lemma shape_shorter : forall ps b t t',
  shapec ps b t -> length t' <= length t -> (t' = [] -> b = []) -> shapec ps b t'.
Proof. intros ps b t t' [Hf Ht Hc Hz] L E. constructor; auto. intros C H; specialize (Hc C H); lia. Qed.

Lemma shape_prefix : forall ps b q b2 t, shapec ps (b ++ q :: b2) t -> shapec ps b q.
Proof.
  intros ps b q b2 t [Hf Ht Hc Hz]. apply Forall_app in Hf. destruct Hf as [Hf Hq].
  inversion Hq; subst. rewrite app_length in Hz. simpl in Hz. constructor; auto.
  - intros ->. destruct b; auto. simpl in Hz. specialize (Hz eq_refl). lia.
  - intros Hp. specialize (Hz Hp). lia.
Qed.

(** A page below the current one is empty only with page size 0, and then it is
    the only one. *)
Lemma shape_concat_pos : forall ps b q,
  Forall (fun p => length p = ps) (b ++ [q]) ->
  0 < length (concat (b ++ [q])) -> q <> [].
Proof.
  intros ps b q Hf Hl E. subst q.
  assert (ps = 0).
  { apply Forall_app in Hf. destruct Hf as [_ Hf]. inversion Hf; auto. }
  subst. rewrite (concat_uniform_length 0) in Hl by auto. lia.
Qed.

Section Internals.
Variables (ps asz nid : nat) (i : list nat) (sc : Z) (sr lk : bool).
Notation St pgs c := (mkStack ps asz pgs i nid c sc sr lk).

Lemma page_at_mid : forall b t a c n, n = length b ->
  page_at n (St (b ++ t :: a) c) = ROk (St (b ++ t :: a) c) t.
Proof. intros. subst. msimp. rewrite nth_error_mid. reflexivity. Qed.

Lemma cur_page_at : forall b t a, cur_page (St (b ++ t :: a) (length b)) =
  ROk (St (b ++ t :: a) (length b)) t.
Proof. intros. msimp. rewrite nth_error_mid. reflexivity. Qed.

Lemma cur_back_snoc : forall b t x a,
  cur_back (St (b ++ (t ++ [x]) :: a) (length b)) =
  ROk (St (b ++ (t ++ [x]) :: a) (length b)) x.
Proof.
  intros. unfold cur_back. erewrite bind_ok by apply cur_page_at.
  rewrite app_length. simpl. replace (length t + 1 - 1) with (length t) by lia.
  rewrite nth_error_mid. reflexivity.
Qed.

Lemma pop_one_top : forall b t x a,
  (t <> [] \/ b = []) ->
  internal_pop_one (St (b ++ (t ++ [x]) :: a) (length b)) =
  ROk (St (b ++ t :: a) (length b)) tt.
Proof.
  intros b t x a H. unfold internal_pop_one. erewrite bind_ok by apply cur_page_at.
  cbv beta.
  rewrite match_snoc, removelast_snoc.
  msimp. rewrite upd_mid.
  destruct H as [H| ->].
  - destruct t; [congruence|reflexivity].
  - simpl. destruct t; reflexivity.
Qed.

Lemma pop_one_page : forall b q x a,
  internal_pop_one (St ((b ++ [q]) ++ [x] :: a) (length (b ++ [q]))) =
  ROk (St (b ++ q :: [] :: a) (length b)) tt.
Proof.
  intros. unfold internal_pop_one. erewrite bind_ok by apply cur_page_at.
  cbv beta. msimp. rewrite upd_mid. simpl removelast.
  rewrite app_length. simpl. rewrite Nat.add_1_r.
  rewrite <- app_assoc. reflexivity.
Qed.

Lemma pop_one_shape : forall b t a l x,
  shapec ps b t -> concat b ++ t = l ++ [x] ->
  exists b' t' a',
    internal_pop_one (St (b ++ t :: a) (length b)) =
      ROk (St (b' ++ t' :: a') (length b')) tt /\
    cur_back (St (b ++ t :: a) (length b)) = ROk (St (b ++ t :: a) (length b)) x /\
    shapec ps b' t' /\ concat b' ++ t' = l /\ length (b' ++ t' :: a') = length (b ++ t :: a) /\
    (Forall (fun p => p = []) a -> Forall (fun p => p = []) a').
Proof.
  intros b t a l x Hs E.
  destruct (snoc_cases t) as [->|(t0 & y & ->)].
  { rewrite (sh_top _ _ _ Hs eq_refl) in E. destruct l; discriminate. }
  rewrite app_assoc in E. apply app_inj_tail in E. destruct E as [E ->].
  destruct (snoc_cases b) as [->|(b0 & q & ->)].
  - exists [], t0, a. split; [apply (pop_one_top []); auto|].
    split; [apply (cur_back_snoc [])|].
    split; [eapply shape_shorter; eauto; rewrite app_length; lia|].
    split; [assumption|]. split; [reflexivity|auto].
  - destruct t0 as [|z t0].
    + exists b0, q, ([] :: a). simpl app at 2. split; [apply pop_one_page|].
      split; [apply (cur_back_snoc _ [])|].
      split; [eapply shape_pop_page; eauto|].
      rewrite concat_app in E. simpl in E. rewrite !app_nil_r in E. split; auto.
      split; [rewrite !app_length; simpl; lia|]. intros; constructor; auto.
    + exists (b0 ++ [q]), (z :: t0), a.
      split; [apply pop_one_top; left; discriminate|].
      split; [apply cur_back_snoc|].
      split; [eapply shape_shorter; eauto; [rewrite app_length; lia|discriminate]|].
      split; [assumption|]. split; [rewrite !app_length; reflexivity|auto].
Qed.

Lemma internal_pop_shape : forall n b t a,
  shapec ps b t -> n <= length (concat b ++ t) ->
  exists b' t' a',
    internal_pop n (St (b ++ t :: a) (length b)) =
      ROk (St (b' ++ t' :: a') (length b')) (firstn n (rev (concat b ++ t))) /\
    shapec ps b' t' /\ rev (concat b' ++ t') = skipn n (rev (concat b ++ t)) /\
    length (b' ++ t' :: a') = length (b ++ t :: a) /\
    (Forall (fun p => p = []) a -> Forall (fun p => p = []) a').
Proof.
  induction n; intros b t a Hs Hn.
  - exists b, t, a. simpl. auto.
  - destruct (snoc_cases (concat b ++ t)) as [E|(l & x & E)].
    { rewrite E in Hn. simpl in Hn. lia. }
    destruct (pop_one_shape b t a l x Hs E) as (b1 & t1 & a1 & H1 & H2 & H3 & H4 & H5 & H6).
    destruct (IHn b1 t1 a1 H3) as (b2 & t2 & a2 & G1 & G2 & G3 & G4 & G5).
    { rewrite E in Hn. rewrite H4. rewrite app_length in Hn. simpl in Hn. lia. }
    exists b2, t2, a2. cbn [internal_pop].
    erewrite bind_ok by apply H2. erewrite bind_ok by apply H1.
    erewrite bind_ok by apply G1. rewrite H4 in G1, G3 |- *. rewrite E.
    rewrite (rev_app_distr l [x]). simpl. unfold ret. split; [reflexivity|]. split; [assumption|].
    split; [assumption|]. split; [congruence|]. tauto.
Qed.

End Internals.

(** ** Push *)

Lemma push_one_shape : forall ps asz b t a ids nid sc sr lk x,
  1 <= asz -> shapec ps b t -> Forall (fun p => p = []) a ->
  exists b' t' a' ids' nid',
    internal_push_one x (mkStack ps asz (b ++ t :: a) ids nid (length b) sc sr lk) =
      ROk (mkStack ps asz (b' ++ t' :: a') ids' nid' (length b') sc sr lk) tt /\
    shapec ps b' t' /\ concat b' ++ t' = concat b ++ t ++ [x] /\
    Forall (fun p => p = []) a' /\
    ((length t = ps /\ a = [] /\ length (b' ++ t' :: a') = length (b ++ t :: a) + asz /\
      ids' = ids ++ seq nid asz /\ nid' = nid + asz) \/
     (~ (length t = ps /\ a = []) /\ length (b' ++ t' :: a') = length (b ++ t :: a) /\
      ids' = ids /\ nid' = nid)).
Proof.
  intros ps asz b t a ids nid sc sr lk x Hasz Hs Ha.
  unfold internal_push_one, advance.
  destruct (Nat.eqb_spec (length t) ps) as [Ht|Ht].
  - assert (Sh : shapec ps (b ++ [t]) [x]).
    { destruct Hs as [Hf Htp Hc Hz]. constructor.
      - apply Forall_app. auto.
      - discriminate.
      - simpl. auto.
      - intros E. rewrite app_length. simpl. rewrite (Htp (proj1 (length_zero_iff_nil t) (eq_trans Ht E))).
        simpl. lia. }
    destruct a as [|p a].
    + exists (b ++ [t]), [x], (repeat [] (asz - 1)), (ids ++ seq nid asz), (nid + asz).
      split.
      { unfold bind. rewrite cur_page_at. msimp.
        rewrite (proj2 (Nat.eqb_eq _ _) Ht).
        assert (LB : S (length b) = length (b ++ [t])) by (rewrite app_length; simpl; lia).
        rewrite LB, Nat.eqb_refl.
        unfold growBase. msimp.
        destruct asz as [|asz]; [lia|].
        replace (S asz - 1) with asz by lia.
        change (repeat [] (S asz)) with (@nil T :: repeat [] asz).
        rewrite nth_error_mid. msimp. rewrite upd_mid. reflexivity. }
      split; [assumption|]. split.
      { rewrite concat_app. simpl. rewrite app_nil_r, app_assoc. reflexivity. }
      split.
      { apply Forall_forall. intros q Hq. apply repeat_spec in Hq. auto. }
      left. rewrite !app_length. simpl. rewrite repeat_length. repeat split; auto. lia.
    + inversion Ha; subst p. exists (b ++ [t]), [x], a, ids, nid.
      split.
      { unfold bind. rewrite cur_page_at. msimp.
        rewrite (proj2 (Nat.eqb_eq _ _) Ht).
        replace (S (length b) =? length (b ++ t :: [] :: a)) with false.
        2:{ symmetry. apply Nat.eqb_neq. rewrite app_length. simpl. lia. }
        replace (S (length b)) with (length (b ++ [t])) by (rewrite app_length; simpl; lia).
        replace (b ++ t :: [] :: a) with ((b ++ [t]) ++ [] :: a)
          by (rewrite <- app_assoc; reflexivity).
        msimp. rewrite nth_error_mid. msimp. rewrite upd_mid. reflexivity. }
      split; [assumption|]. split.
      { rewrite concat_app. simpl. rewrite app_nil_r, app_assoc. reflexivity. }
      split; [assumption|].
      right. rewrite !app_length. simpl. repeat split; try lia. intros [_ E]; discriminate.
  - exists b, (t ++ [x]), a, ids, nid. split.
    { unfold bind. rewrite cur_page_at. msimp.
      rewrite (proj2 (Nat.eqb_neq _ _) Ht). msimp. rewrite nth_error_mid. msimp. rewrite upd_mid. reflexivity. }
    split.
    { destruct Hs as [Hf Htp Hc Hz]. constructor; auto.
      - intros E. destruct t; discriminate.
      - intros C Hp. specialize (Hc C Hp). rewrite app_length. simpl. lia. }
    split; [reflexivity|]. split; [assumption|].
    right. rewrite !app_length. simpl. repeat split; auto. tauto.
Qed.

(** ** Representation relation *)

(** [repc s l]: [s] is an unlocked stack holding [l] (top first); pages above the
    current one are arbitrary. *)
Definition repc (s : stack T) (l : list T) : Prop :=
  exists b t a,
    pages s = b ++ t :: a /\ cur s = length b /\
    shapec (page_size s) b t /\
    1 <= alloc_size s /\ locked s = false /\
    l = rev (concat b ++ t).

(** [clean s]: no element is left in the pages above the current one. *)
Definition clean (s : stack T) : Prop :=
  Forall (fun p => p = []) (skipn (S (cur s)) (pages s)).

Lemma clean_split : forall s b t a,
  pages s = b ++ t :: a -> cur s = length b ->
  (clean s <-> Forall (fun p => p = []) a).
Proof.
  intros s b t a H1 H2. unfold clean. rewrite H1, H2.
  replace (b ++ t :: a) with ((b ++ [t]) ++ a) by (rewrite <- app_assoc; reflexivity).
  replace (S (length b)) with (length (b ++ [t])) by (rewrite app_length; simpl; lia).
  rewrite skipn_length_app. tauto.
Qed.

(** Everything an operation other than a push leaves alone. *)
Definition same_frame (s s' : stack T) : Prop :=
  page_size s' = page_size s /\ alloc_size s' = alloc_size s /\
  sync_count s' = sync_count s.

Lemma construct_repc : forall ps pa, 1 <= pa ->
  repc (construct ps pa) [] /\ clean (construct ps pa).
Proof.
  intros ps pa H. destruct pa as [|pa]; [lia|]. split.
  - exists [], [], (repeat [] pa). simpl. repeat split; auto; intros; simpl; lia.
  - unfold clean. simpl. apply Forall_forall. intros q Hq. apply repeat_spec in Hq. auto.
Qed.

Ltac open_rep H :=
  let s := match type of H with repc ?s _ => s end in
  let ps := fresh "ps" in let asz := fresh "asz" in let i := fresh "ids" in
  let n := fresh "nid" in let sc := fresh "sc" in let sr := fresh "sr" in
  let b := fresh "b" in let t := fresh "t" in let a := fresh "a" in
  destruct s as [ps asz ? i n ? sc sr ?];
  destruct H as (b & t & a & ? & ? & ? & ? & ? & ?);
  cbn [page_size alloc_size pages PagedStackModel.ids next_id cur sync_count shrink_req locked] in *;
  subst.

Lemma internal_push_shape : forall xs ps asz b t a ids nid sc sr lk,
  1 <= asz -> shapec ps b t -> Forall (fun p => p = []) a ->
  exists b' t' a' ids' nid',
    internal_push xs (mkStack ps asz (b ++ t :: a) ids nid (length b) sc sr lk) =
      ROk (mkStack ps asz (b' ++ t' :: a') ids' nid' (length b') sc sr lk) tt /\
    shapec ps b' t' /\ concat b' ++ t' = (concat b ++ t) ++ xs /\
    Forall (fun p => p = []) a'.
Proof.
  induction xs as [|x xs IH]; intros ps asz b t a ids nid sc sr lk Hasz Hs Ha.
  - exists b, t, a, ids, nid. rewrite app_nil_r. auto.
  - destruct (push_one_shape ps asz b t a ids nid sc sr lk x Hasz Hs Ha)
      as (b1 & t1 & a1 & i1 & n1 & H1 & H2 & H3 & H4 & _).
    destruct (IH ps asz b1 t1 a1 i1 n1 sc sr lk Hasz H2 H4)
      as (b2 & t2 & a2 & i2 & n2 & G1 & G2 & G3 & G4).
    exists b2, t2, a2, i2, n2. cbn [internal_push]. erewrite bind_ok by apply H1.
    split; [apply G1|]. split; [assumption|]. split; [|assumption].
    rewrite G3, H3. rewrite <- !app_assoc. reflexivity.
Qed.

Lemma with_lock_ok : forall {A} (m : M (stack T) A) s s' x,
  locked s = false -> m (set_locked true s) = ROk s' x ->
  with_lock m s = ROk (set_locked false s') x.
Proof. intros A m s s' x H1 H2. unfold with_lock. rewrite H1, H2. reflexivity. Qed.

Lemma with_lock_inv : forall {A} (m : M (stack T) A) s s' x,
  with_lock m s = ROk s' x ->
  exists s1, m (set_locked true s) = ROk s1 x /\ s' = set_locked false s1.
Proof.
  intros A m s s' x H. unfold with_lock in H. destruct (locked s); [discriminate|].
  destruct (m (set_locked true s)) as [s1 y| |]; try discriminate.
  injection H as <- <-. eauto.
Qed.

Lemma push_list_ok : forall xs s l, repc s l -> clean s ->
  exists s', with_lock (internal_push xs) s = ROk s' tt /\ repc s' (rev xs ++ l) /\ clean s' /\
             same_frame s s'.
Proof.
  intros xs s l H Hc. open_rep H.
  rewrite clean_split with (b := b) (t := t) (a := a) in Hc by reflexivity.
  destruct (internal_push_shape xs ps asz b t a ids nid sc sr true) as
    (b' & t' & a' & i' & n' & H4 & H5 & H6 & H7); auto.
  eexists. split; [apply with_lock_ok; [reflexivity|apply H4]|].
  split; [|split].
  - exists b', t', a'. simpl. repeat split; auto; try apply H5.
    rewrite H6, (rev_app_distr (concat b ++ t) xs). reflexivity.
  - apply (clean_split _ b' t' a'); auto.
  - repeat split.
Qed.

Lemma push_ok : forall x xs s l, repc s l -> clean s ->
  exists s', push x xs s = ROk s' tt /\ repc s' (rev (x :: xs) ++ l) /\ clean s' /\
             same_frame s s'.
Proof. intros. apply push_list_ok; auto. Qed.

Lemma push_emplace_ok : forall x s l, repc s l -> clean s ->
  exists s', push_emplace x s = ROk s' tt /\ repc s' (x :: l) /\ clean s' /\ same_frame s s'.
Proof.
  intros x s l H Hc.
  destruct (push_list_ok [x] s l H Hc) as (s' & H1 & H2).
  exists s'. split; [|exact H2]. rewrite <- H1.
  unfold push_emplace, with_lock. destruct (locked s); auto.
  cbn [internal_push]. unfold internal_push_one, bind, ret.
  destruct (advance _) as [s0 u0|s0|]; auto. destruct (cur_page s0) as [s1 p1|s1|]; auto.
Qed.

(** ** Read-only calls *)

Lemma concat_nonempty : forall ps b t, shapec ps b t ->
  (concat b ++ t = [] <-> t = []).
Proof.
  intros ps b t Hs. split; intros E.
  - apply app_eq_nil in E. tauto.
  - rewrite (sh_top _ _ _ Hs E), E. reflexivity.
Qed.

Lemma empty_ok : forall s l, repc s l ->
  empty s = ROk s (match l with [] => true | _ => false end).
Proof.
  intros s l H. open_rep H. unfold empty. apply noexcept_ok.
  unfold with_lock. simpl. msimp. rewrite nth_error_mid. simpl. f_equal.
  destruct t as [|x t].
  - rewrite (sh_top _ _ _ H1 eq_refl). reflexivity.
  - rewrite andb_false_r. destruct (rev (concat b ++ x :: t)) eqn:E; auto.
    apply (f_equal (@length T)) in E. rewrite rev_length, app_length in E. simpl in E. lia.
Qed.

Lemma size_loop_app : forall b pgs, size_loop (b ++ pgs) (length b) = Some (length (concat b)).
Proof.
  intros b. induction b as [|q b IH]; intros pgs; simpl.
  { destruct pgs; reflexivity. }
  rewrite IH. simpl. rewrite app_length. reflexivity.
Qed.

Lemma size_ok : forall s l, repc s l -> size s = ROk s (length l).
Proof.
  intros s l H. open_rep H. unfold size. apply noexcept_ok.
  unfold with_lock. simpl. msimp. rewrite size_loop_app. msimp. rewrite nth_error_mid. simpl. f_equal.
  rewrite rev_length, app_length. reflexivity.
Qed.

Lemma top_ok : forall s x l, repc s (x :: l) -> top s = ROk s x.
Proof.
  intros s x l H. open_rep H.
  assert (E: concat b ++ t = rev l ++ [x]).
  { rewrite <- (rev_involutive (concat b ++ t)), <- H4. reflexivity. }
  destruct (snoc_cases t) as [->|(t0 & y & ->)].
  { rewrite (sh_top _ _ _ H1 eq_refl) in E. simpl in E. destruct (rev l); discriminate. }
  rewrite app_assoc in E. apply app_inj_tail in E. destruct E as [_ ->].
  unfold top. apply noexcept_ok.
  erewrite with_lock_ok; [|reflexivity|apply cur_back_snoc]. reflexivity.
Qed.

Lemma set_top_ok : forall y s x l, repc s (x :: l) ->
  exists s', set_top y s = ROk s' tt /\ repc s' (y :: l) /\ (clean s -> clean s') /\ same_frame s s'.
Proof.
  intros y s x l H. open_rep H.
  assert (E: concat b ++ t = rev l ++ [x]).
  { rewrite <- (rev_involutive (concat b ++ t)), <- H4. reflexivity. }
  destruct (snoc_cases t) as [->|(t0 & z & ->)].
  { rewrite (sh_top _ _ _ H1 eq_refl) in E. simpl in E. destruct (rev l); discriminate. }
  rewrite app_assoc in E. apply app_inj_tail in E. destruct E as [E ->].
  eexists. split; [|split; [|split]].
  - unfold set_top. apply noexcept_ok. apply with_lock_ok; [reflexivity|].
    erewrite bind_ok by apply cur_page_at. cbv beta.
    rewrite match_snoc, removelast_snoc.
    msimp. rewrite upd_mid. reflexivity.
  - exists b, (t0 ++ [y]), a. simpl. repeat split; auto; try apply H1.
    + intros E0. destruct t0; discriminate.
    + intros C Hp. pose proof (sh_cap _ _ _ H1 C Hp) as Hc. rewrite app_length in *. auto.
    + rewrite app_assoc, rev_app_distr, E, rev_involutive. reflexivity.
  - rewrite !clean_split with (b := b) (a := a); try reflexivity. tauto.
  - repeat split.
Qed.

(** ** Pop *)

Lemma pop_values_ok : forall n s l, repc s l -> n <= length l ->
  exists s', with_lock (internal_pop n) s = ROk s' (firstn n l) /\
             repc s' (skipn n l) /\ (clean s -> clean s') /\ same_frame s s' /\
             length (pages s') = length (pages s).
Proof.
  intros n s l H Hn. open_rep H. rewrite rev_length in Hn.
  destruct (internal_pop_shape ps asz nid ids sc sr true n b t a H1 Hn)
    as (b' & t' & a' & G1 & G2 & G3 & G4 & G5).
  eexists. split; [apply with_lock_ok; [reflexivity|apply G1]|].
  split; [|split; [|split]].
  - exists b', t', a'. simpl. repeat split; auto; try apply G2.
  - rewrite (clean_split _ b t a) by reflexivity.
    rewrite (clean_split _ b' t' a') by reflexivity. auto.
  - repeat split.
  - simpl. auto.
Qed.

Lemma pop_one_ok : forall s x l, repc s (x :: l) ->
  exists s', with_lock internal_pop_one s = ROk s' tt /\
             repc s' l /\ (clean s -> clean s') /\ same_frame s s' /\
             length (pages s') = length (pages s).
Proof.
  intros s x l H.
  destruct (pop_values_ok 1 s (x :: l) H) as (s' & H1 & H2 & H3 & H4); [simpl; lia|].
  exists s'. split; [|auto].
  unfold with_lock in *. destruct (locked s); [discriminate|].
  cbn [internal_pop] in H1. unfold bind, ret in H1.
  assert (Hb : forall (st r : stack T) v, cur_back st = ROk r v -> r = st).
  { intros st r v. unfold cur_back, cur_page, page_at, bind, get, lift_opt, ret, fail.
    destruct (nth_error (pages st) (cur st)) as [p0|]; [|discriminate].
    destruct (nth_error p0 (length p0 - 1)); congruence. }
  destruct (cur_back (set_locked true s)) eqn:E; try discriminate.
  apply Hb in E. subst s0.
  destruct (internal_pop_one (set_locked true s)) as [s1 []| |]; try discriminate.
  injection H1 as H1 _. rewrite H1. reflexivity.
Qed.

Lemma cassert_ok : forall (debug : bool) (c : M (stack T) bool) s,
  c s = ROk s true -> cassert debug c s = ROk s tt.
Proof. intros [] c s H; unfold cassert; [erewrite bind_ok by eauto|]; reflexivity. Qed.

Lemma assert_nonempty : forall debug s x l, repc s (x :: l) ->
  cassert debug (e <- empty ;; ret (negb e)) s = ROk s tt.
Proof.
  intros. apply cassert_ok. erewrite bind_ok by (eapply empty_ok; eauto). reflexivity.
Qed.

Lemma assert_size : forall debug s l n, repc s l -> n <= length l ->
  cassert debug (z <- size ;; ret (n <=? z)) s = ROk s tt.
Proof.
  intros. apply cassert_ok. erewrite bind_ok by (eapply size_ok; eauto).
  rewrite (proj2 (Nat.leb_le _ _)); auto.
Qed.

(** ** discard(n) *)

Lemma discard_loop_shape : forall ps b t a count,
  shapec ps b t -> count <= length (concat b ++ t) ->
  exists b' t' a',
    discard_loop count (length b) (b ++ t :: a) = Some (b' ++ t' :: a', length b') /\
    shapec ps b' t' /\ rev (concat b' ++ t') = skipn count (rev (concat b ++ t)) /\
    length (b' ++ t' :: a') = length (b ++ t :: a) /\
    (Forall (fun p => p = []) a -> Forall (fun p => p = []) a').
Proof.
  intros ps b. induction b as [|q b IH] using rev_ind; intros t a count Hs Hn.
  - simpl in *. destruct (Nat.leb_spec (length t) count).
    + exists [], [], a. simpl. repeat split; auto; try lia.
      * intros _. simpl. lia.
      * symmetry. apply skipn_all2. rewrite rev_length. lia.
    + exists [], (firstn (length t - count) t), a. simpl. split; [reflexivity|].
      split; [eapply shape_shorter; eauto; rewrite firstn_length; lia|].
      split; [rewrite skipn_rev_firstn; reflexivity|]. auto.
  - assert (E : forall pgs, length (b ++ [q]) = S (length b) /\
            nth_error ((b ++ [q]) ++ t :: pgs) (S (length b)) = Some t).
    { intros. replace (S (length b)) with (length (b ++ [q])) by (rewrite app_length; simpl; lia).
      split; auto. apply nth_error_mid. }
    destruct (E a) as [E1 E2]. rewrite E1.
    change (discard_loop count (S (length b)) ((b ++ [q]) ++ t :: a)) with
      (match nth_error ((b ++ [q]) ++ t :: a) (S (length b)) with
       | None => None
       | Some p =>
         if length p <=? count then
           discard_loop (count - length p) (length b)
              (upd (S (length b)) (fun _ => []) ((b ++ [q]) ++ t :: a))
         else Some (upd (S (length b)) (fun _ => firstn (length p - count) p)
                      ((b ++ [q]) ++ t :: a), S (length b))
       end).
    rewrite E2. rewrite <- E1. rewrite !upd_mid.
    destruct (Nat.leb_spec (length t) count) as [L|L].
    + replace ((b ++ [q]) ++ [] :: a) with (b ++ q :: [] :: a) by (rewrite <- app_assoc; reflexivity).
      assert (Sq : shapec ps b q) by (eapply shape_prefix; eauto).
      rewrite concat_app, app_length, app_length in Hn. simpl in Hn. rewrite app_nil_r in Hn.
      destruct (IH q ([] :: a) (count - length t) Sq) as (b' & t' & a' & G1 & G2 & G3 & G4 & G5).
      { rewrite app_length. lia. }
      exists b', t', a'. split; [exact G1|]. split; [assumption|].
      split; [|split].
      * rewrite G3. rewrite concat_app. simpl. rewrite app_nil_r.
        rewrite (rev_app_distr (concat b ++ q) t), skipn_app, rev_length.
        rewrite (skipn_all2 (rev t)) by (rewrite rev_length; lia). reflexivity.
      * rewrite G4. rewrite !app_length. simpl. lia.
      * intros. apply G5. constructor; auto.
    + exists (b ++ [q]), (firstn (length t - count) t), a. split; [reflexivity|].
      split.
      { eapply shape_shorter; eauto; [rewrite firstn_length; lia|].
        intros E0. apply (f_equal (@length T)) in E0. rewrite firstn_length in E0. simpl in E0. lia. }
      split.
      { rewrite !rev_app_distr, skipn_app, rev_length.
        replace (count - length t) with 0 by lia. simpl. rewrite skipn_rev_firstn. reflexivity. }
      split; [rewrite !app_length; simpl; lia|auto].
Qed.

Lemma discard_ok : forall debug n s l, repc s l -> n <= length l ->
  exists s', discard debug n s = ROk s' tt /\ repc s' (skipn n l) /\
             (clean s -> clean s') /\ same_frame s s' /\
             length (pages s') = length (pages s).
Proof.
  intros debug n s l H Hn. pose proof H as H0. open_rep H. rewrite rev_length in Hn.
  destruct (discard_loop_shape ps b t a n) as (b' & t' & a' & G1 & G2 & G3 & G4 & G5); auto.
  eexists. split; [|split; [|split; [|split]]].
  - unfold discard. apply noexcept_ok. erewrite bind_ok.
    2:{ eapply assert_size; eauto. rewrite rev_length. auto. }
    apply with_lock_ok; [reflexivity|]. msimp. rewrite G1. msimp. reflexivity.
  - exists b', t', a'. simpl. repeat split; auto; try apply G2.
  - rewrite (clean_split _ b t a) by reflexivity.
    rewrite (clean_split _ b' t' a') by reflexivity. auto.
  - repeat split.
  - simpl. auto.
Qed.

(** ** Iterators *)

(** [at_pos pgs j pg off]: page [pg], offset [off] is the [j]-th element
    counted from the bottom. *)
Definition at_pos (b : list (list T)) (t : list T) (j pg off : nat) : Prop :=
  exists b1 p b2, b ++ [t] = b1 ++ p :: b2 /\ pg = length b1 /\
                  off < length p /\ j = length (concat b1) + off.

Lemma at_pos_lookup : forall b t j pg off,
  at_pos b t j pg off ->
  nth_error (concat b ++ t) j =
  match nth_error (b ++ [t]) pg with None => None | Some p => nth_error p off end.
Proof.
  intros b t j pg off (b1 & p & b2 & E & -> & Ho & ->).
  replace (concat b ++ t) with (concat (b ++ [t])) by (rewrite concat_app; simpl; rewrite app_nil_r; auto).
  rewrite E, nth_error_mid, concat_app. simpl.
  rewrite nth_error_app2 by lia. rewrite nth_error_app1 by lia. f_equal. lia.
Qed.

Lemma at_pos_bound : forall b t j pg off, at_pos b t j pg off -> j < length (concat b ++ t).
Proof.
  intros b t j pg off (b1 & p & b2 & E & -> & Ho & ->).
  replace (concat b ++ t) with (concat (b ++ [t])) by (rewrite concat_app; simpl; rewrite app_nil_r; auto).
  rewrite E, concat_app. simpl. rewrite !app_length. lia.
Qed.

Lemma at_pos_page : forall b t j pg off a, at_pos b t j pg off ->
  exists p, nth_error (b ++ t :: a) pg = Some p /\ off < length p /\ nth_error (b ++ [t]) pg = Some p.
Proof.
  intros b t j pg off a (b1 & p & b2 & E & -> & Ho & ->).
  exists p. rewrite E. split; [|split; auto; apply nth_error_mid].
  replace (b ++ t :: a) with ((b ++ [t]) ++ a) by (rewrite <- app_assoc; auto).
  rewrite E. rewrite <- app_assoc. simpl. apply nth_error_mid.
Qed.

(** every page up to the current one but the last has the page size *)
Lemma all_full : forall ps b t b1 p b2, shapec ps b t -> b ++ [t] = b1 ++ p :: b2 ->
  Forall (fun q => length q = ps) b1 /\ (b2 <> [] -> length p = ps).
Proof.
  intros ps b t b1 p b2 Hs E.
  destruct (snoc_cases b2) as [->|(b3 & u & ->)].
  - apply app_inj_tail in E. destruct E as [<- <-]. split; [apply Hs|congruence].
  - rewrite app_comm_cons, app_assoc in E. apply app_inj_tail in E. destruct E as [-> ->].
    pose proof (sh_full _ _ _ Hs) as F. apply Forall_app in F. destruct F as [F1 F2].
    split; auto. inversion F2; auto.
Qed.

Lemma at_pos_top : forall ps b t, shapec ps b t -> t <> [] ->
  at_pos b t (length (concat b ++ t) - 1) (length b) (length t - 1).
Proof.
  intros ps b t Hs Ht. exists b, t, []. repeat split; auto.
  - destruct t; [congruence|simpl; lia].
  - rewrite app_length. destruct t; [congruence|simpl; lia].
Qed.

Section Iter.
Variables (ps asz nid : nat) (i : list nat) (sc : Z) (sr lk : bool).
Variables (b a : list (list T)) (t : list T).
Hypothesis Hs : shapec ps b t.
Notation St := (mkStack ps asz (b ++ t :: a) i nid (length b) sc sr lk).

Lemma deref_at_ok : forall j pg off x, at_pos b t j pg off ->
  nth_error (concat b ++ t) j = Some x ->
  deref_at pg (Z.of_nat off) St = ROk St x.
Proof using.
  intros j pg off x H E. pose proof H as H'. rewrite (at_pos_lookup _ _ _ _ _ H) in E.
  destruct (at_pos_page b t j pg off a H') as (p & P1 & P2 & P3).
  rewrite P3 in E. unfold deref_at. msimp. rewrite P1.
  destruct (Z.ltb_spec (Z.of_nat off) 0); [lia|]. rewrite Nat2Z.id, E. reflexivity.
Qed.

Lemma f_inc_ok : forall j pg off, at_pos b t (S j) pg off ->
  exists pg' off', f_inc (mkF pg (Z.of_nat off)) St = ROk St (mkF pg' (Z.of_nat off')) /\
                   at_pos b t j pg' off'.
Proof using Hs.
  intros j pg off (b1 & p & b2 & E & -> & Ho & Ej).
  destruct (all_full _ _ _ _ _ _ Hs E) as [F1 F2].
  assert (P : forall c, nth_error (b ++ t :: a) (length b1) = Some p /\
            (forall q b0, b1 = b0 ++ [q] -> c = length b0 -> nth_error (b ++ t :: a) c = Some q)).
  { intros c. replace (b ++ t :: a) with ((b ++ [t]) ++ a) by (rewrite <- app_assoc; auto).
    rewrite E. rewrite <- app_assoc. simpl. split; [apply nth_error_mid|].
    intros q b0 -> ->. rewrite <- app_assoc. simpl. apply nth_error_mid. }
  destruct off as [|off].
  - destruct (snoc_cases b1) as [->|(b0 & q & ->)]; [simpl in Ej; lia|].
    assert (Hq : q <> []).
    { eapply shape_concat_pos; eauto. lia. }
    exists (length b0), (length q - 1). split.
    + unfold f_inc. msimp. rewrite (proj1 (P 0)).
      rewrite app_length. simpl length. rewrite Nat.add_1_r. simpl.
      rewrite (proj2 (P (length b0)) q b0 eq_refl eq_refl). simpl.
      do 2 f_equal. destruct q; [congruence|simpl length]. lia.
    + exists b0, q, (p :: b2). repeat split.
      * rewrite E. rewrite <- app_assoc. reflexivity.
      * destruct q; [congruence|simpl; lia].
      * rewrite concat_app, app_length in Ej. simpl in Ej. rewrite app_nil_r in Ej.
        destruct q; [congruence|simpl in *; lia].
  - exists (length b1), off. split.
    + unfold f_inc. msimp. rewrite (proj1 (P 0)).
      cbv beta iota zeta. cbn [f_page f_off].
      destruct (length b1) eqn:E1; cbv beta iota zeta; cbn [f_page f_off].
      * destruct (Z.ltb_spec (Z.of_nat (S off)) 0); [lia|]. do 2 f_equal. lia.
      * destruct (Z.eqb_spec (Z.of_nat (S off)) 0); [lia|].
        destruct (Z.ltb_spec (Z.of_nat (S off)) 0); [lia|]. do 2 f_equal. lia.
    + exists b1, p, b2. repeat split; auto; lia.
Qed.

Lemma f_inc_bottom : forall pg off, at_pos b t 0 pg off ->
  f_inc (mkF pg (Z.of_nat off)) St = ROk St (mkF 0 (-1)).
Proof using Hs.
  intros pg off (b1 & p & b2 & E & -> & Ho & Ej).
  assert (off = 0) by lia. subst off.
  destruct (all_full _ _ _ _ _ _ Hs E) as [F1 F2].
  destruct (snoc_cases b1) as [->|(b0 & q & ->)].
  - simpl in E. unfold f_inc. msimp.
    assert (E0 : nth_error (b ++ t :: a) (length (@nil (list T))) = Some p)
      by (destruct b; simpl in *; congruence).
    rewrite E0. reflexivity.
  - assert (Z0 : ps = 0).
    { rewrite concat_app, app_length in Ej. simpl in Ej. rewrite app_nil_r in Ej.
      assert (length q = 0) by lia.
      apply Forall_app in F1. destruct F1 as [_ F1]. inversion F1; subst. lia. }
    assert (length (b0 ++ [q]) <= 1).
    { pose proof (sh_zero _ _ _ Hs Z0) as L.
      assert (length (b ++ [t]) = length ((b0 ++ [q]) ++ p :: b2)) by (rewrite E; auto).
      rewrite !app_length in *. simpl in *. lia. }
    rewrite app_length in H. simpl in H. destruct b0; [|simpl in H; lia].
    simpl in E. assert (q = []). { apply length_zero_iff_nil. inversion F1; lia. } subst q.
    unfold f_inc. msimp. simpl app. simpl length.
    replace (b ++ t :: a) with ((b ++ [t]) ++ a) by (rewrite <- app_assoc; auto).
    rewrite E. reflexivity.
Qed.

Lemma r_inc_any : forall last j pg off, length b <= last -> at_pos b t j pg off ->
  S j < length (concat b ++ t) ->
  exists pg' off',
    r_inc (mkR pg (Z.of_nat off) last) St = ROk St (mkR pg' (Z.of_nat off') last) /\
    at_pos b t (S j) pg' off'.
Proof using Hs.
  intros last j pg off Hlast (b1 & p & b2 & E & -> & Ho & Ej) Hj.
  destruct (all_full _ _ _ _ _ _ Hs E) as [F1 F2].
  assert (P : nth_error (b ++ t :: a) (length b1) = Some p).
  { replace (b ++ t :: a) with ((b ++ [t]) ++ a) by (rewrite <- app_assoc; auto).
    rewrite E. rewrite <- app_assoc. simpl. apply nth_error_mid. }
  unfold r_inc. msimp. cbn [r_page r_off r_last]. rewrite P.
  destruct (Z.ltb_spec (Z.of_nat (length p)) (Z.of_nat off + 1)); [lia|].
  destruct (Nat.eq_dec (S off) (length p)) as [Eo|No].
  - destruct b2 as [|q b2].
    + exfalso. apply app_inj_tail in E. destruct E as [<- <-].
      rewrite app_length in Hj. lia.
    + assert (Hne : length b1 <> last).
      { apply (f_equal (@length (list T))) in E. rewrite !app_length in E. simpl in E. lia. }
      rewrite (proj2 (Nat.eqb_neq _ _) Hne).
      destruct (Z.eqb_spec (Z.of_nat off + 1) (Z.of_nat (length p))); [|lia].
      assert (Pq : nth_error (b ++ t :: a) (S (length b1)) = Some q).
      { replace (b ++ t :: a) with ((b ++ [t]) ++ a) by (rewrite <- app_assoc; auto).
        rewrite E. replace (b1 ++ p :: q :: b2) with ((b1 ++ [p]) ++ q :: b2) by (rewrite <- app_assoc; auto).
        replace (S (length b1)) with (length (b1 ++ [p])) by (rewrite app_length; simpl; lia).
        rewrite <- app_assoc. simpl. apply nth_error_mid. }
      cbn [negb andb]. cbv beta iota zeta. msimp. rewrite Pq. exists (S (length b1)), 0. split; [reflexivity|].
      exists (b1 ++ [p]), q, b2. repeat split.
      * rewrite E, <- app_assoc. reflexivity.
      * rewrite app_length. simpl. lia.
      * (* the next page is not empty *)
        destruct (snoc_cases b2) as [->|(b3 & u & ->)].
        -- replace (b1 ++ [p; q]) with ((b1 ++ [p]) ++ [q]) in E by (rewrite <- app_assoc; auto).
           apply app_inj_tail in E. destruct E as [-> <-].
           destruct t; [|simpl; lia]. pose proof (sh_top _ _ _ Hs eq_refl) as X.
           destruct b1; discriminate.
        -- assert (length q = ps).
           { replace (b1 ++ p :: q :: b3 ++ [u]) with ((b1 ++ p :: q :: b3) ++ [u]) in E
               by (rewrite <- app_assoc; auto).
             apply app_inj_tail in E. destruct E as [-> ->].
             pose proof (sh_full _ _ _ Hs) as F. apply Forall_app in F. destruct F as [_ F].
             inversion F; subst. inversion H3; subst. auto. }
           rewrite <- F2 in H0 by discriminate. lia.
      * rewrite concat_app, app_length. simpl. rewrite app_nil_r. lia.
  - destruct (Z.eqb_spec (Z.of_nat off + 1) (Z.of_nat (length p))); [lia|]. simpl.
    exists (length b1), (S off). split; [do 2 f_equal; lia|].
    exists b1, p, b2. repeat split; auto; lia.
Qed.

Lemma r_inc_ok : forall j pg off, at_pos b t j pg off ->
  S j < length (concat b ++ t) ->
  exists pg' off',
    r_inc (mkR pg (Z.of_nat off) (length b)) St = ROk St (mkR pg' (Z.of_nat off') (length b)) /\
    at_pos b t (S j) pg' off'.
Proof using Hs. intros. apply r_inc_any; auto. Qed.

Lemma r_inc_top : forall j pg off, at_pos b t j pg off ->
  S j = length (concat b ++ t) ->
  r_inc (mkR pg (Z.of_nat off) (length b)) St =
    ROk St (mkR (length b) (Z.of_nat (length t)) (length b)).
Proof using Hs.
  intros j pg off (b1 & p & b2 & E & -> & Ho & Ej) Hj.
  assert (b2 = []).
  { destruct (snoc_cases b2) as [->|(b3 & u & ->)]; auto. exfalso.
    rewrite app_comm_cons, app_assoc in E. apply app_inj_tail in E. destruct E as [-> ->].
    rewrite concat_app, !app_length in Hj. simpl in Hj. rewrite app_length in Hj.
    destruct u; [|simpl in *; lia].
    pose proof (sh_top _ _ _ Hs eq_refl) as X. destruct b1; discriminate. }
  subst b2. apply app_inj_tail in E. destruct E as [<- <-].
  rewrite app_length in Hj.
  unfold r_inc. msimp. cbn [r_page r_off r_last]. rewrite nth_error_mid.
  destruct (Z.ltb_spec (Z.of_nat (length t)) (Z.of_nat off + 1)); [lia|].
  rewrite Nat.eqb_refl. rewrite andb_false_r. do 2 f_equal. lia.
Qed.

Lemma from_top_ok : forall d, 1 <= d -> d <= length (concat b ++ t) ->
  exists pg off, internal_from_top d St = ROk St (mkR pg (Z.of_nat off) (length b)) /\
                 at_pos b t (length (concat b ++ t) - d) pg off /\ pg <= length b.
Proof using Hs.
  intros d Hd Hn.
  assert (L : forall b1 p b2 a' d, b ++ [t] = b1 ++ p :: b2 -> 1 <= d ->
             d <= length (concat b1 ++ p) ->
             exists pg off, from_top_loop d (length b1) (b1 ++ p :: a') = Some (pg, off) /\
               at_pos b t (length (concat b1 ++ p) - d) pg off /\ pg <= length b).
  { intros b1. induction b1 as [|q b1 IH] using rev_ind; intros p b2 a' d0 E H1 H2.
    - simpl in *. rewrite (proj2 (Nat.ltb_ge _ _)) by lia.
      exists 0, (length p - d0). split; [reflexivity|]. split; [|lia].
      exists [], p, b2. simpl. repeat split; auto; lia.
    - assert (E1 : length (b1 ++ [q]) = S (length b1)) by (rewrite app_length; simpl; lia).
      rewrite E1.
      change (from_top_loop d0 (S (length b1)) ((b1 ++ [q]) ++ p :: a')) with
        (match nth_error ((b1 ++ [q]) ++ p :: a') (S (length b1)) with
         | None => None
         | Some p0 =>
           if length p0 <? d0 then from_top_loop (d0 - length p0) (length b1) ((b1 ++ [q]) ++ p :: a')
           else Some (S (length b1), length p0 - d0)
         end).
      assert (N : nth_error ((b1 ++ [q]) ++ p :: a') (S (length b1)) = Some p)
        by (rewrite <- E1; apply nth_error_mid).
      rewrite N.
      destruct (Nat.ltb_spec (length p) d0) as [L|L].
      + rewrite <- app_assoc. simpl.
        destruct (IH q (p :: b2) (p :: a') (d0 - length p)) as (pg & off & G1 & G2 & G3).
        * rewrite E, <- app_assoc. reflexivity.
        * lia.
        * rewrite concat_app, !app_length in H2. simpl in H2. rewrite app_nil_r in H2.
          rewrite app_length. lia.
        * exists pg, off. split; auto. split; auto.
          replace (length (concat (b1 ++ [q]) ++ p) - d0)
            with (length (concat b1 ++ q) - (d0 - length p)); auto.
          rewrite concat_app, !app_length. simpl. rewrite app_nil_r. lia.
      + exists (S (length b1)), (length p - d0). split; [reflexivity|]. split.
        * exists (b1 ++ [q]), p, b2. repeat split; auto; try lia.
          rewrite !app_length. lia.
        * apply (f_equal (@length (list T))) in E. rewrite !app_length in E. simpl in E. lia. }
  destruct (L b t [] a d eq_refl Hd Hn) as (pg & off & G1 & G2 & G3).
  exists pg, off. split; auto.
  unfold internal_from_top. msimp. rewrite G1. reflexivity.
Qed.

Lemma from_top_zero :
  internal_from_top 0 St = ROk St (mkR (length b) (Z.of_nat (length t)) (length b)).
Proof using.
  clear Hs. unfold internal_from_top. msimp.
  assert (from_top_loop 0 (length b) (b ++ t :: a) = Some (length b, length t)) as ->.
  { destruct (length b) eqn:E; simpl.
    - destruct b; [|discriminate]. simpl. rewrite Nat.sub_0_r. reflexivity.
    - destruct b as [|q b0] eqn:Eb; [discriminate|]. simpl in *. injection E as E.
      rewrite <- E, nth_error_mid. rewrite Nat.sub_0_r. reflexivity. }
  reflexivity.
Qed.

(** distribute along a walk *)
Lemma distribute_f : forall n j pg off, at_pos b t j pg off -> S n <= S j ->
  distribute f_deref f_inc (mkF pg (Z.of_nat off)) (S n) St =
    ROk St (firstn (S n) (rev (firstn (S j) (concat b ++ t)))).
Proof using Hs.
  induction n; intros j pg off H Hn.
  - pose proof (at_pos_bound _ _ _ _ _ H) as B. apply nth_error_Some in B.
    destruct (nth_error (concat b ++ t) j) eqn:E; [|congruence].
    cbn [distribute]. erewrite bind_ok by (eapply deref_at_ok; eauto).
    rewrite (firstn_S_nth _ _ _ E), rev_app_distr. reflexivity.
  - destruct j; [lia|].
    pose proof (at_pos_bound _ _ _ _ _ H) as B. apply nth_error_Some in B.
    destruct (nth_error (concat b ++ t) (S j)) eqn:E; [|congruence].
    destruct (f_inc_ok _ _ _ H) as (pg' & off' & G1 & G2).
    change (distribute f_deref f_inc (mkF pg (Z.of_nat off)) (S (S n))) with
      (v <- f_deref (mkF pg (Z.of_nat off)) ;; it' <- f_inc (mkF pg (Z.of_nat off)) ;;
       vs <- distribute f_deref f_inc it' (S n) ;; @ret (stack T) _ (v :: vs)).
    erewrite bind_ok by (eapply deref_at_ok; eauto).
    erewrite bind_ok by apply G1.
    erewrite bind_ok by (apply IHn with (j := j); [exact G2|lia]).
    rewrite (firstn_S_nth _ _ _ E), rev_app_distr. reflexivity.
Qed.

Lemma distribute_r : forall n j pg off, at_pos b t j pg off -> j + S n <= length (concat b ++ t) ->
  distribute r_deref r_inc (mkR pg (Z.of_nat off) (length b)) (S n) St =
    ROk St (firstn (S n) (skipn j (concat b ++ t))).
Proof using Hs.
  induction n; intros j pg off H Hn.
  - pose proof (at_pos_bound _ _ _ _ _ H) as B. apply nth_error_Some in B.
    destruct (nth_error (concat b ++ t) j) eqn:E; [|congruence].
    cbn [distribute]. erewrite bind_ok by (eapply deref_at_ok; eauto).
    rewrite (skipn_nth_cons _ _ _ E). reflexivity.
  - pose proof (at_pos_bound _ _ _ _ _ H) as B. apply nth_error_Some in B.
    destruct (nth_error (concat b ++ t) j) eqn:E; [|congruence].
    destruct (r_inc_ok _ _ _ H) as (pg' & off' & G1 & G2); [lia|].
    change (distribute r_deref r_inc (mkR pg (Z.of_nat off) (length b)) (S (S n))) with
      (v <- r_deref (mkR pg (Z.of_nat off) (length b)) ;;
       it' <- r_inc (mkR pg (Z.of_nat off) (length b)) ;;
       vs <- distribute r_deref r_inc it' (S n) ;; @ret (stack T) _ (v :: vs)).
    erewrite bind_ok by (eapply deref_at_ok; eauto).
    erewrite bind_ok by apply G1.
    erewrite bind_ok by (apply IHn with (j := S j); [exact G2|lia]).
    rewrite (skipn_nth_cons _ _ _ E). reflexivity.
Qed.

Lemma begin_eq : begin St = ROk St (mkF (length b) (Z.of_nat (length t) - 1)).
Proof using. clear Hs. unfold begin. msimp. rewrite nth_error_mid. reflexivity. Qed.

Lemma end_eq : end_ St = ROk St (mkF 0 (-1)).
Proof using. clear Hs. unfold end_. msimp. destruct b; reflexivity. Qed.

Lemma rend_eq : rend St = ROk St (mkR (length b) (Z.of_nat (length t)) (length b)).
Proof using. clear Hs. unfold rend. msimp. rewrite nth_error_mid. reflexivity. Qed.

Lemma rbegin_eq : rbegin St = ROk St (mkR 0 0 (length (b ++ t :: a) - 1)).
Proof using. clear Hs. unfold rbegin. msimp. destruct b; reflexivity. Qed.

Lemma begin_at : t <> [] ->
  exists off, begin St = ROk St (mkF (length b) (Z.of_nat off)) /\
              at_pos b t (length (concat b ++ t) - 1) (length b) off.
Proof using Hs.
  intros Ht. exists (length t - 1). split.
  - rewrite begin_eq. do 2 f_equal. destruct t; [congruence|simpl length; lia].
  - eapply at_pos_top; eauto.
Qed.

End Iter.

Lemma shape_tne : forall ps b t n, shapec ps b t -> 1 <= n -> n <= length (concat b ++ t) -> t <> [].
Proof.
  intros ps b t n Hs H1 H2 ->. rewrite (sh_top _ _ _ Hs eq_refl) in H2. simpl in H2. lia.
Qed.

Lemma peek_ok : forall debug n s l, repc s l -> S n <= length l ->
  peek debug (S n) s = ROk s (firstn (S n) l).
Proof.
  intros debug n s l H Hn. unfold peek.
  erewrite bind_ok by (eapply assert_size; eauto).
  open_rep H. rewrite rev_length in Hn.
  destruct (begin_at ps asz nid ids sc sr true b a t H1) as (off & G1 & G2).
  { eapply shape_tne with (n := S n); eauto. lia. }
  erewrite with_lock_ok; [|reflexivity|].
  2:{ unfold set_locked. cbn [page_size alloc_size pages PagedStackModel.ids next_id cur sync_count shrink_req locked]. erewrite bind_ok by apply G1.
      eapply distribute_f; eauto. lia. }
  unfold set_locked. cbn [page_size alloc_size pages PagedStackModel.ids next_id cur sync_count shrink_req locked]. f_equal.
  replace (S (length (concat b ++ t) - 1)) with (length (concat b ++ t)) by lia.
  rewrite firstn_all. reflexivity.
Qed.

Lemma peek_from_ok : forall d n s l, repc s l -> S n <= d -> d <= length l ->
  with_lock (it <- internal_from_top d ;; distribute r_deref r_inc it (S n)) s =
    ROk s (firstn (S n) (rev (firstn d l))).
Proof.
  intros d n s l H Hn Hd. open_rep H. rewrite rev_length in Hd.
  destruct (from_top_ok ps asz nid ids sc sr true b a t H1 d) as (pg & off & G1 & G2 & G3); try lia.
  erewrite with_lock_ok; [|reflexivity|].
  2:{ unfold set_locked. cbn [page_size alloc_size pages PagedStackModel.ids next_id cur sync_count shrink_req locked]. erewrite bind_ok by apply G1.
      eapply distribute_r; eauto. lia. }
  unfold set_locked. cbn [page_size alloc_size pages PagedStackModel.ids next_id cur sync_count shrink_req locked]. f_equal.
  rewrite (firstn_rev d), rev_involutive. reflexivity.
Qed.

Lemma peek_depth_ok : forall debug d n s l, repc s l -> S n <= d -> d <= length l ->
  peek_depth debug d (S n) s = ROk s (firstn (S n) (rev (firstn d l))).
Proof.
  intros. unfold peek_depth. erewrite bind_ok by (eapply assert_size; eauto).
  erewrite bind_ok. 2:{ apply cassert_ok. rewrite (proj2 (Nat.leb_le _ _)); [reflexivity|auto]. }
  apply peek_from_ok; auto.
Qed.

Lemma peek_reverse_ok : forall debug n s l, repc s l -> S n <= length l ->
  peek_reverse debug (S n) s = ROk s (rev (firstn (S n) l)).
Proof.
  intros. unfold peek_reverse. erewrite bind_ok by (eapply assert_size; eauto).
  erewrite peek_from_ok; eauto. f_equal.
  rewrite firstn_all2; auto. rewrite rev_length, firstn_length. lia.
Qed.

(** ** internal_discard *)

Lemma unwind_shape : forall b1 p b2 t a,
  b1 ++ p :: b2 <> [] ->
  forall b, b ++ [t] = b1 ++ p :: b2 ->
  unwind (length b1) (length b) (b ++ t :: a) =
    Some (b1 ++ p :: map (fun _ => []) b2 ++ a, length b1).
Proof.
  intros b1 p b2. revert b1 p. induction b2 as [|u b2 IH] using rev_ind; intros b1 p t a _ b E.
  - apply app_inj_tail in E. destruct E as [-> ->]. 
    destruct (length b1) eqn:L; simpl; rewrite ?Nat.eqb_refl; reflexivity.
  - rewrite app_comm_cons, app_assoc in E. apply app_inj_tail in E. destruct E as [-> ->].
    destruct (snoc_cases (b1 ++ p :: b2)) as [E|(b' & t' & E)]; [destruct b1; discriminate|].
    rewrite E. rewrite app_length. simpl length. rewrite Nat.add_1_r.
    assert (Hne : S (length b') =? length b1 = false).
    { apply Nat.eqb_neq. apply (f_equal (@length (list T))) in E. rewrite !app_length in E. simpl in E. lia. }
    cbn [unwind]. rewrite Hne.
    replace (S (length b')) with (length (b' ++ [t'])) by (rewrite app_length; simpl; lia).
    rewrite upd_mid. rewrite <- app_assoc. simpl.
    erewrite IH; [|destruct b1; discriminate|symmetry; exact E].
    rewrite map_app. simpl. rewrite <- app_assoc. reflexivity.
Qed.

(** Result of internal_discard at a position inside the stack. *)
Lemma internal_discard_shape : forall ps asz nid i sc sr lk b t a j pg off,
  shapec ps b t -> at_pos b t j pg off ->
  exists b' t' a',
    internal_discard pg (Z.of_nat off) (mkStack ps asz (b ++ t :: a) i nid (length b) sc sr lk) =
      ROk (mkStack ps asz (b' ++ t' :: a') i nid (length b') sc sr lk) tt /\
    shapec ps b' t' /\ concat b' ++ t' = firstn j (concat b ++ t) /\
    length (b' ++ t' :: a') = length (b ++ t :: a) /\
    ((off <> 0 \/ pg = 0) -> Forall (fun p => p = []) a -> Forall (fun p => p = []) a') /\
    (off = 0 -> pg <> 0 -> length b' = pg - 1 /\ exists p b2, b ++ [t] = (b' ++ [t']) ++ p :: b2 /\ p <> [] /\ a' = p :: map (fun _ => []) b2 ++ a).
Proof.
  intros ps asz nid i sc sr lk b t a j pg off Hs (b1 & p & b2 & E & -> & Ho & ->).
  assert (Hp : shapec ps b1 p).
  { destruct (snoc_cases b2) as [->|(b3 & u & ->)].
    - apply app_inj_tail in E. destruct E as [<- <-]. auto.
    - rewrite app_comm_cons, app_assoc in E. apply app_inj_tail in E. destruct E as [-> ->].
      eapply shape_prefix; eauto. }
  assert (C : concat b ++ t = concat b1 ++ p ++ concat b2).
  { replace (concat b ++ t) with (concat (b ++ [t])) by (rewrite concat_app; simpl; rewrite app_nil_r; auto).
    rewrite E, concat_app. reflexivity. }
  assert (L : length (map (fun _ : list T => @nil T) b2 ++ a) = length b2 + length a)
    by (rewrite app_length, map_length; auto).
  assert (L2 : length (b ++ t :: a) = length b1 + S (length b2) + length a).
  { apply (f_equal (@length (list T))) in E. rewrite !app_length in *. simpl in *. lia. }
  unfold internal_discard. msimp.
  erewrite unwind_shape; [|destruct b1; discriminate|exact E]. msimp.
  rewrite nth_error_mid.
  destruct off as [|off].
  - simpl (Z.of_nat 0 =? 0)%Z. cbv iota.
    destruct (snoc_cases b1) as [->|(b0 & q & ->)].
    + simpl length. cbv iota. simpl upd.
      exists [], [], (map (fun _ => []) b2 ++ a). split; [reflexivity|].
      split; [constructor; simpl; auto; lia|]. split; [reflexivity|].
      split. { rewrite L2. simpl. rewrite L. simpl. lia. }
      split; [|congruence]. intros _ F. apply Forall_app. split; auto.
      apply Forall_forall. intros x Hx. apply in_map_iff in Hx. destruct Hx as (? & ? & ?); auto.
    + rewrite app_length. simpl length. rewrite Nat.add_1_r. cbv iota.
      exists b0, q, (p :: map (fun _ => []) b2 ++ a).
      split; [rewrite <- app_assoc; reflexivity|].
      split. { eapply shape_prefix. apply Hp. }
      split.
      { rewrite C, concat_app. simpl. rewrite app_nil_r. rewrite Nat.add_0_r.
        rewrite firstn_length_app. reflexivity. }
      split. { rewrite L2. rewrite !app_length in *. simpl in *. rewrite app_length, map_length in *. lia. }
      split; [intros [X|X]; lia|].
      intros _ _. split; [lia|]. exists p, b2. split; [|split; [destruct p; [simpl in Ho; lia|discriminate]|reflexivity]].
      rewrite E. rewrite <- !app_assoc. reflexivity.
  - destruct (Z.eqb_spec (Z.of_nat (S off)) 0); [lia|].
    destruct (Z.ltb_spec (Z.of_nat (S off)) 0); [lia|].
    rewrite Nat2Z.id. rewrite (proj2 (Nat.leb_le (S off) (length p))) by lia.
    msimp. rewrite upd_mid.
    exists b1, (firstn (S off) p), (map (fun _ => []) b2 ++ a). split; [reflexivity|].
    split. { eapply shape_shorter; eauto. rewrite firstn_length; lia.
             destruct p; [simpl in Ho; lia|discriminate]. }
    split.
    { rewrite C. rewrite firstn_app. rewrite (firstn_all2 (concat b1)) by lia.
      replace (length (concat b1) + S off - length (concat b1)) with (S off) by lia.
      rewrite firstn_app. replace (S off - length p) with 0 by lia.
      rewrite firstn_O, app_nil_r. reflexivity. }
    split. { rewrite L2. rewrite !app_length in *. simpl. rewrite app_length, map_length. lia. }
    split; [|congruence].
    intros _ F. apply Forall_app. split; auto.
    apply Forall_forall. intros x Hx. apply in_map_iff in Hx. destruct Hx as (? & ? & ?); auto.
Qed.

(** When is a position at the first slot of a page other than the first one?
    With page size >= 1 exactly at the positive multiples of the page size. *)
Lemma at_pos_div : forall ps b t j pg off, cap -> 1 <= ps -> shapec ps b t ->
  at_pos b t j pg off -> j = pg * ps + off /\ off < ps.
Proof.
  intros ps b t j pg off C Hp Hs (b1 & p & b2 & E & -> & Ho & ->).
  destruct (all_full _ _ _ _ _ _ Hs E) as [F1 F2].
  rewrite (concat_uniform_length ps) by auto. split; auto.
  destruct b2 as [|u b2].
  - apply app_inj_tail in E. destruct E as [<- <-]. pose proof (sh_cap _ _ _ Hs C Hp). lia.
  - rewrite F2 in Ho by discriminate. auto.
Qed.


Lemma not_boundary : forall ps b t j pg off, cap -> 1 <= ps -> shapec ps b t ->
  at_pos b t j pg off -> on_boundary ps j = false -> off <> 0 \/ pg = 0.
Proof.
  intros ps b t j pg off C Hp Hs Ha Hb.
  destruct (at_pos_div _ _ _ _ _ _ C Hp Hs Ha) as [E L].
  destruct off; [|left; lia]. right. unfold on_boundary in Hb.
  rewrite Nat.add_0_r in E. subst j. rewrite Nat.mod_mul in Hb by lia. simpl in Hb.
  destruct pg; auto. exfalso. apply negb_false_iff, Nat.eqb_eq in Hb. nia.
Qed.

(** discard at position [j] (from the bottom). *)
Lemma discard_pos_ok : forall s l b t a j pg off,
  pages s = b ++ t :: a -> cur s = length b -> shapec (page_size s) b t ->
  1 <= alloc_size s -> locked s = false -> l = rev (concat b ++ t) ->
  at_pos b t j pg off ->
  exists s', with_lock (internal_discard pg (Z.of_nat off)) s = ROk s' tt /\
    repc s' (rev (firstn j (rev l))) /\ same_frame s s' /\
    length (pages s') = length (pages s) /\
    ((off <> 0 \/ pg = 0) -> clean s -> clean s').
Proof.
  intros s l b t a j pg off H1 H2 H3 H4 H5 H6 Ha.
  destruct s as [ps asz pgs ids nid c sc sr lk]. simpl in *. subst.
  destruct (internal_discard_shape ps asz nid ids sc sr true b t a j pg off H3 Ha)
    as (b' & t' & a' & G1 & G2 & G3 & G4 & G5 & G6).
  eexists. split; [apply with_lock_ok; [reflexivity|apply G1]|].
  split; [|split; [|split]].
  - exists b', t', a'. simpl. repeat split; auto; try apply G2.
    rewrite rev_involutive. rewrite G3. reflexivity.
  - repeat split.
  - simpl; auto.
  - intros B. rewrite (clean_split _ b t a) by reflexivity.
    rewrite (clean_split _ b' t' a') by reflexivity. auto.
Qed.

Lemma rev_firstn_rev : forall j (l : list T), rev (firstn j (rev l)) = skipn (length l - j) l.
Proof.
  intros. rewrite firstn_rev, rev_involutive. reflexivity.
Qed.

Lemma pop_reverse_ok : forall debug n s l, repc s l -> S n <= length l ->
  exists s', pop_reverse debug (S n) s = ROk s' (rev (firstn (S n) l)) /\
             repc s' (skipn (S n) l) /\ same_frame s s' /\
             (cap -> 1 <= page_size s -> on_boundary (page_size s) (length l - S n) = false ->
              clean s -> clean s').
Proof.
  intros debug n s l H Hn. pose proof (assert_size debug s l (S n) H Hn) as Has.
  pose proof (peek_from_ok (S n) n s l H) as Hpk.
  destruct H as (b & t & a & H1 & H2 & H3 & H4 & H5 & H6).
  assert (Hn' : S n <= length (concat b ++ t)) by (subst l; rewrite rev_length in Hn; auto).
  destruct s as [ps asz pgs ids nid c sc sr lk]. cbn [page_size alloc_size pages PagedStackModel.ids next_id cur sync_count shrink_req locked] in *. subst pgs c lk.
  destruct (from_top_ok ps asz nid ids sc sr true b a t H3 (S n)) as (pg & off & G1 & G2 & G3); try lia.
  assert (Lh : length l = length (concat b ++ t)) by (subst l; apply rev_length).
  destruct (discard_pos_ok (mkStack ps asz (b ++ t :: a) ids nid (length b) sc sr false)
              l b t a _ pg off eq_refl eq_refl H3 H4 eq_refl H6 G2)
    as (s' & D1 & D2 & D3 & D4 & D5).
  exists s'. split; [|split; [|split]].
  - unfold pop_reverse. erewrite bind_ok by apply Has.
    apply with_lock_inv in D1. destruct D1 as (s1 & D1 & ->).
    apply with_lock_ok; [reflexivity|].
    erewrite bind_ok by apply G1.
    erewrite bind_ok.
    2:{ eapply distribute_r; eauto. lia. }
    cbn [r_page r_off]. erewrite bind_ok by apply D1. unfold ret. f_equal.
    subst l. rewrite (firstn_rev (S n)), rev_involutive. rewrite firstn_all2; auto.
    rewrite skipn_length. lia.
  - rewrite rev_firstn_rev in D2. replace (length l - (length (concat b ++ t) - S n)) with (S n) in D2 by lia.
    exact D2.
  - exact D3.
  - intros C Hp Hb. apply D5. simpl in Hp. eapply not_boundary; eauto; rewrite <- Lh; exact Hb.
Qed.

(** walking k steps from begin() *)
Lemma f_plus_at : forall k j ps asz nid i sc sr lk b t a pg off,
  shapec ps b t -> at_pos b t (k + j) pg off ->
  exists pg' off',
    f_plus k (mkF pg (Z.of_nat off)) (mkStack ps asz (b ++ t :: a) i nid (length b) sc sr lk) =
      ROk (mkStack ps asz (b ++ t :: a) i nid (length b) sc sr lk) (mkF pg' (Z.of_nat off')) /\
    at_pos b t j pg' off'.
Proof.
  induction k; intros j ps asz nid i sc sr lk b t a pg off Hs Ha.
  - exists pg, off. split; auto.
  - simpl in Ha. destruct (f_inc_ok ps asz nid i sc sr lk b a t Hs _ _ _ Ha) as (pg1 & off1 & G1 & G2).
    destruct (IHk j ps asz nid i sc sr lk b t a pg1 off1 Hs G2) as (pg2 & off2 & G3 & G4).
    exists pg2, off2. split; auto. unfold f_plus in *. cbn [repeat_m].
    erewrite bind_ok by apply G1. exact G3.
Qed.

Lemma discard_at_ok : forall k s l, repc s l -> k < length l ->
  exists s', (it <- begin ;; it' <- f_plus k it ;; discard_f it') s = ROk s' tt /\
             repc s' (skipn (S k) l) /\ same_frame s s' /\
             (cap -> 1 <= page_size s -> on_boundary (page_size s) (length l - S k) = false ->
              clean s -> clean s').
Proof.
  intros k s l H Hk.
  destruct H as (b & t & a & H1 & H2 & H3 & H4 & H5 & H6).
  assert (Lh : length l = length (concat b ++ t)) by (subst l; apply rev_length).
  destruct s as [ps asz pgs ids nid c sc sr lk]. simpl in *. subst pgs c lk.
  destruct (begin_at ps asz nid ids sc sr false b a t H3) as (off0 & B1 & B2).
  { eapply shape_tne with (n := 1); eauto; lia. }
  replace (length (concat b ++ t) - 1) with (k + (length l - S k)) in B2 by lia.
  destruct (f_plus_at k _ ps asz nid ids sc sr false b t a _ _ H3 B2) as (pg & off & G1 & G2).
  destruct (discard_pos_ok (mkStack ps asz (b ++ t :: a) ids nid (length b) sc sr false)
              l b t a _ pg off eq_refl eq_refl H3 H4 eq_refl H6 G2)
    as (s' & D1 & D2 & D3 & D4 & D5).
  exists s'. split; [|split; [|split]].
  - erewrite bind_ok by apply B1. erewrite bind_ok by apply G1.
    unfold discard_f. apply noexcept_ok. exact D1.
  - rewrite rev_firstn_rev in D2. replace (length l - (length l - S k)) with (S k) in D2 by lia. exact D2.
  - exact D3.
  - intros C Hp Hb. apply D5. eapply not_boundary; eauto.
Qed.

Lemma discard_from_top_ok : forall debug d s l, repc s l -> d <= length l ->
  exists s', (it <- from_top debug d ;; discard_r it) s = ROk s' tt /\
             repc s' (skipn d l) /\ same_frame s s' /\
             (cap -> d = 0 \/ (1 <= page_size s /\ on_boundary (page_size s) (length l - d) = false) ->
              clean s -> clean s').
Proof.
  intros debug d s l H Hd. pose proof (assert_size debug s l d H Hd) as Has.
  destruct H as (b & t & a & H1 & H2 & H3 & H4 & H5 & H6).
  assert (Lh : length l = length (concat b ++ t)) by (subst l; apply rev_length).
  destruct s as [ps asz pgs ids nid c sc sr lk]. simpl in *. subst pgs c lk.
  destruct d as [|d].
  - (* from_top(0) = rend: nothing is discarded *)
    exists (mkStack ps asz (b ++ t :: a) ids nid (length b) sc sr false).
    split; [|split; [|split]].
    + unfold from_top. erewrite bind_ok.
      2:{ apply noexcept_ok. erewrite bind_ok by apply Has. apply with_lock_ok; [reflexivity|].
          unfold set_locked; simpl. apply from_top_zero. }
      unfold set_locked. simpl.
      unfold discard_r. apply noexcept_ok.
      replace (mkStack ps asz (b ++ t :: a) ids nid (length b) sc sr false) with
        (set_locked false (mkStack ps asz (b ++ t :: a) ids nid (length b) sc sr true)) at 2 by reflexivity.
      apply with_lock_ok; [reflexivity|].
      unfold internal_discard. msimp. cbn [r_page r_off].
      erewrite unwind_shape with (b1 := b) (p := t) (b2 := []); [|destruct b; discriminate|reflexivity].
      msimp. simpl app. rewrite nth_error_mid.
      destruct t as [|x t].
      * rewrite (sh_top _ _ _ H3 eq_refl). reflexivity.
      * destruct (Z.eqb_spec (Z.of_nat (length (x :: t))) 0); [simpl in *; lia|].
        destruct (Z.ltb_spec (Z.of_nat (length (x :: t))) 0); [lia|].
        rewrite Nat2Z.id. rewrite (proj2 (Nat.leb_le _ _)) by lia.
        rewrite firstn_all. msimp. rewrite upd_mid. reflexivity.
    + exists b, t, a. simpl. repeat split; auto; try apply H3.
    + repeat split.
    + auto.
  - destruct (from_top_ok ps asz nid ids sc sr true b a t H3 (S d)) as (pg & off & G1 & G2 & G3); try lia.
    destruct (discard_pos_ok (mkStack ps asz (b ++ t :: a) ids nid (length b) sc sr false)
                l b t a _ pg off eq_refl eq_refl H3 H4 eq_refl H6 G2)
      as (s' & D1 & D2 & D3 & D4 & D5).
    exists s'. split; [|split; [|split]].
    + unfold from_top. erewrite bind_ok.
      2:{ apply noexcept_ok. erewrite bind_ok by apply Has. apply with_lock_ok; [reflexivity|].
          unfold set_locked; simpl. apply G1. }
      unfold discard_r. apply noexcept_ok. exact D1.
    + rewrite rev_firstn_rev in D2.
      replace (length l - (length (concat b ++ t) - S d)) with (S d) in D2 by lia. exact D2.
    + exact D3.
    + intros C [Hz|[Hp Hb]]; [lia|]. apply D5. eapply not_boundary; eauto; rewrite <- Lh; exact Hb.
Qed.

(** ** shrink_to_fit and clear *)

Lemma shrink_ok : forall s l, repc s l ->
  exists s', shrink_to_fit s = ROk s' tt /\ repc s' l /\ same_frame s s' /\
             (clean s -> clean s') /\ ((sync_count s <= 0)%Z -> clean s') /\
             ((sync_count s <= 0)%Z -> length (pages s') = S (cur s')) /\
             length (pages s') <= length (pages s).
Proof.
  intros s l H. open_rep H. unfold shrink_to_fit, with_lock. simpl. msimp.
  destruct (Z.gtb_spec sc 0) as [G|G].
  - eexists. split; [reflexivity|]. split; [exists b, t, a; simpl; auto 10|].
    split; [repeat split|]. split.
    + rewrite !(clean_split _ b t a) by reflexivity. auto.
    + split; [lia|]. split; [lia|]. simpl. lia.
  - unfold internal_shrink_to_fit. msimp. rewrite nth_error_mid. msimp.
    assert (F : firstn (S (length b)) (b ++ t :: a) = b ++ [t]).
    { replace (b ++ t :: a) with ((b ++ [t]) ++ a) by (rewrite <- app_assoc; auto).
      replace (S (length b)) with (length (b ++ [t])) by (rewrite app_length; simpl; lia).
      apply firstn_length_app. }
    rewrite F.
    eexists. split; [reflexivity|]. split; [exists b, t, []; simpl; auto 10|].
    split; [repeat split|].
    assert (C : forall st, pages st = b ++ [t] -> cur st = length b -> clean st).
    { intros st E1 E2. apply (clean_split st b t []); auto. }
    split; [intros; apply C; reflexivity|].
    split; [intros; apply C; reflexivity|].
    simpl. rewrite !app_length. simpl. split; lia.
Qed.

Lemma clear_eq : forall s l, repc s l ->
  exists s', clear s = ROk s' tt /\ repc s' (match pages s with [] => [] | p :: _ => rev p end) /\
             same_frame s s' /\ (clean s -> clean s') /\ length (pages s') = length (pages s).
Proof.
  intros s l H. open_rep H.
  assert (E : exists p b2, b ++ [t] = [] ++ p :: b2) by (destruct b; simpl; eauto).
  destruct E as (p & b2 & E).
  assert (Hp : shapec ps [] p).
  { destruct b as [|q b]; simpl in E; injection E as -> E; auto. eapply (shape_prefix ps []); eauto. }
  eexists. split; [|split; [|split; [|split]]].
  - unfold clear. apply noexcept_ok. apply with_lock_ok; [reflexivity|]. msimp.
    pose proof (unwind_shape [] p b2 t a ltac:(discriminate) b E) as U. simpl length in U.
    rewrite U. msimp. reflexivity.
  - exists [], p, (map (fun _ => []) b2 ++ a). simpl. repeat split; auto; try apply Hp.
    destruct b; simpl in *; injection E as -> _; reflexivity.
  - repeat split.
  - rewrite (clean_split _ b t a) by reflexivity. intros F.
    eapply (clean_split _ [] p); [reflexivity|reflexivity|].
    apply Forall_app. split; auto.
    apply Forall_forall. intros x Hx. apply in_map_iff in Hx. destruct Hx as (? & ? & ?); auto.
  - simpl. apply (f_equal (@length (list T))) in E. rewrite !app_length in *. simpl in *.
    rewrite ?app_length, ?map_length in *. lia.
Qed.

Lemma first_page : forall s l, cap -> repc s l -> 1 <= page_size s ->
  match pages s with [] => [] | p :: _ => rev p end = skipn (length l - page_size s) l.
Proof.
  intros s l C H Hp. open_rep H. rewrite rev_length.
  destruct b as [|q b]; simpl.
  - rewrite skipn_rev_firstn. pose proof (sh_cap _ _ _ H1 C Hp).
    replace (length t - (length t - ps)) with (length t) by lia. rewrite firstn_all. reflexivity.
  - pose proof (sh_full _ _ _ H1) as F. inversion F; subst.
    rewrite skipn_rev_firstn.
    replace (length ((q ++ concat b) ++ t) - (length ((q ++ concat b) ++ t) - length q))
      with (length q). 2:{ rewrite !app_length. lia. }
    rewrite <- app_assoc. rewrite firstn_length_app. reflexivity.
Qed.

(** ** One call, any history *)

Definition keeps_clean (ps : nat) (o : op T) (l : list T) : Prop :=
  core_op o = true \/ o = Clear \/ (1 <= ps /\ boundary_removal ps o l = false).

Lemma exec_ok : forall debug o s l l' r,
  repc s l -> (is_push o = true -> clean s) -> (o = Clear -> l = []) ->
  spec_step o l = Some (l', r) ->
  exists s', exec debug o s = ROk s' r /\ repc s' l' /\ same_frame s s' /\
    (cap -> clean s -> keeps_clean (page_size s) o l -> clean s') /\
    (o = Shrink -> (sync_count s <= 0)%Z -> clean s').
Proof.
  intros debug o s l l' r Hr Hp Hcl Hspec.
  destruct o; cbn [spec_step exec is_push] in *.
  - injection Hspec as <- <-. destruct (push_ok x xs s l Hr (Hp eq_refl)) as (s' & H1 & H2 & H3 & H4).
    exists s'. erewrite bind_ok by apply H1. repeat split; auto; try apply H4; discriminate.
  - injection Hspec as <- <-. destruct (push_emplace_ok x s l Hr (Hp eq_refl)) as (s' & H1 & H2 & H3 & H4).
    exists s'. erewrite bind_ok by apply H1. repeat split; auto; try apply H4; discriminate.
  - destruct l as [|x l]; [discriminate|]. injection Hspec as <- <-.
    destruct (pop_one_ok s x l Hr) as (s' & H1 & H2 & H3 & H4 & _).
    exists s'. unfold pop.
    erewrite bind_ok. 2:{ erewrite bind_ok by (eapply assert_nonempty; eauto). exact H1. }
    repeat split; auto; try apply H4; discriminate.
  - destruct (Nat.leb_spec (S n) (length l)) as [L|L]; [|discriminate]. injection Hspec as <- <-.
    destruct (pop_values_ok (S n) s l Hr L) as (s' & H1 & H2 & H3 & H4 & _).
    exists s'. unfold pop_values. destruct l as [|x l]; [simpl in L; lia|].
    erewrite bind_ok. 2:{ erewrite bind_ok by (eapply assert_nonempty; eauto). exact H1. }
    repeat split; auto; try apply H4; discriminate.
  - destruct l as [|x l]; [discriminate|]. injection Hspec as <- <-.
    exists s. erewrite bind_ok by (eapply top_ok; eauto). repeat split; auto; discriminate.
  - destruct l as [|y l]; [discriminate|]. injection Hspec as <- <-.
    destruct (set_top_ok x s y l Hr) as (s' & H1 & H2 & H3 & H4).
    exists s'. erewrite bind_ok by apply H1. repeat split; auto; try apply H4; discriminate.
  - destruct (Nat.leb_spec n (length l)) as [L|L]; [|discriminate]. injection Hspec as <- <-.
    destruct (discard_ok debug n s l Hr L) as (s' & H1 & H2 & H3 & H4 & _).
    exists s'. erewrite bind_ok by apply H1. repeat split; auto; try apply H4; discriminate.
  - destruct (Nat.leb_spec (S n) (length l)) as [L|L]; [|discriminate]. injection Hspec as <- <-.
    exists s. erewrite bind_ok by (eapply peek_ok; eauto). repeat split; auto; discriminate.
  - destruct (Nat.leb_spec (S n) d) as [L|L]; [|discriminate].
    destruct (Nat.leb_spec d (length l)) as [L'|L']; [|discriminate]. injection Hspec as <- <-.
    exists s. erewrite bind_ok by (eapply peek_depth_ok; eauto). repeat split; auto; discriminate.
  - destruct (Nat.leb_spec (S n) (length l)) as [L|L]; [|discriminate]. injection Hspec as <- <-.
    exists s. erewrite bind_ok by (eapply peek_reverse_ok; eauto). repeat split; auto; discriminate.
  - injection Hspec as <- <-. exists s. erewrite bind_ok by (eapply size_ok; eauto).
    repeat split; auto; discriminate.
  - injection Hspec as <- <-. exists s. erewrite bind_ok by (eapply empty_ok; eauto).
    repeat split; auto; discriminate.
  - injection Hspec as <- <-. destruct (shrink_ok s l Hr) as (s' & H1 & H2 & H3 & H4 & H5 & _).
    exists s'. erewrite bind_ok by apply H1. repeat split; auto; try apply H3.
  - destruct (Nat.leb_spec (S n) (length l)) as [L|L]; [|discriminate]. injection Hspec as <- <-.
    destruct (pop_reverse_ok debug n s l Hr L) as (s' & H1 & H2 & H3 & H4).
    exists s'. erewrite bind_ok by apply H1.
    split; [reflexivity|]. split; [assumption|]. split; [assumption|]. split; [|discriminate].
    intros C Hc [K|[K|[K1 K2]]]; try discriminate. auto.
  - destruct (Nat.ltb_spec k (length l)) as [L|L]; [|discriminate]. injection Hspec as <- <-.
    destruct (discard_at_ok k s l Hr L) as (s' & H1 & H2 & H3 & H4).
    exists s'. split.
    { unfold bind in H1 |- *. destruct (begin s) as [s1 it1| |]; try discriminate.
      destruct (f_plus k it1 s1) as [s2 it2| |]; try discriminate. rewrite H1. reflexivity. }
    split; [assumption|]. split; [assumption|]. split; [|discriminate].
    intros C Hc [K|[K|[K1 K2]]]; try discriminate. auto.
  - destruct (Nat.leb_spec d (length l)) as [L|L]; [|discriminate]. injection Hspec as <- <-.
    destruct (discard_from_top_ok debug d s l Hr L) as (s' & H1 & H2 & H3 & H4).
    exists s'. split.
    { unfold bind in H1 |- *. destruct (from_top debug d s) as [s1 it1| |]; try discriminate.
      rewrite H1. reflexivity. }
    split; [assumption|]. split; [assumption|]. split; [|discriminate].
    intros C Hc [K|[K|[K1 K2]]]; try discriminate. apply H4; auto.
    cbn [boundary_removal] in K2. destruct d; [left; auto|right]. auto.
  - injection Hspec as <- <-. specialize (Hcl eq_refl). subst l.
    destruct (clear_eq s [] Hr) as (s' & H1 & H2 & H3 & H4 & _).
    exists s'. erewrite bind_ok by apply H1.
    assert (E : match pages s with [] => [] | p :: _ => rev p end = @nil T).
    { destruct Hr as (b & t & a & -> & _ & Hs & _ & _ & E).
      apply (f_equal (@rev T)) in E. rewrite rev_involutive in E. simpl in E.
      symmetry in E. apply app_eq_nil in E. destruct E as [_ ->].
      rewrite (sh_top _ _ _ Hs eq_refl). reflexivity. }
    rewrite E in H2. repeat split; auto; try apply H3; discriminate.
Qed.

End Proofs.

Notation shape := (@shapec _ True).
Notation rep := (@repc _ True).

Section Runs.
Context {T : Type}.

Lemma construct_rep : forall ps pa, 1 <= pa ->
  rep (@construct T ps pa) [] /\ clean (@construct T ps pa).
Proof. exact construct_repc. Qed.

Lemma same_frame_trans : forall s1 s2 s3 : stack T,
  same_frame s1 s2 -> same_frame s2 s3 -> same_frame s1 s3.
Proof. unfold same_frame. intros; intuition congruence. Qed.

Lemma run_core_ok : forall debug ops (s : stack T) l l' rs,
  rep s l -> clean s -> forallb core_op ops = true ->
  spec_run ops l = Some (l', rs) ->
  exists s', run debug ops s = ROk s' rs /\ rep s' l' /\ clean s' /\ same_frame s s'.
Proof.
  intros debug ops. induction ops as [|o ops IH]; intros s l l' rs Hr Hc Ho Hs.
  - simpl in Hs. injection Hs as <- <-. exists s. repeat split; auto.
  - simpl in Ho. apply andb_true_iff in Ho. destruct Ho as [Ho1 Ho2].
    cbn [spec_run] in Hs. destruct (spec_step o l) as [[l1 r]|] eqn:E; [|discriminate].
    destruct (spec_run ops l1) as [[l2 rs2]|] eqn:E2; [|discriminate]. injection Hs as <- <-.
    destruct (exec_ok debug o s l l1 r Hr) as (s1 & H1 & H2 & H3 & H4 & _); auto.
    { intros ->. discriminate. }
    destruct (IH s1 l1 l2 rs2 H2) as (s2 & G1 & G2 & G3 & G4); auto.
    { apply H4; auto. left. auto. }
    exists s2. cbn [run]. erewrite bind_ok by apply H1. erewrite bind_ok by apply G1.
    repeat split; auto; destruct H3, G4; intuition congruence.
Qed.

Lemma run_careful_ok : forall debug ops (s : stack T) l l' rs (tainted : bool),
  1 <= page_size s -> (sync_count s <= 0)%Z ->
  rep s l -> (tainted = false -> clean s) -> careful (page_size s) tainted ops l = true ->
  spec_run ops l = Some (l', rs) ->
  exists s', run debug ops s = ROk s' rs /\ rep s' l' /\ same_frame s s'.
Proof.
  intros debug ops. induction ops as [|o ops IH]; intros s l l' rs tainted Hps Hsc Hr Hc Ho Hs.
  - simpl in Hs. injection Hs as <- <-. exists s. repeat split; auto.
  - cbn [careful] in Ho. apply andb_true_iff in Ho. destruct Ho as [Ho Ho3].
    apply andb_true_iff in Ho. destruct Ho as [Ho1 Ho2].
    cbn [spec_run] in Hs. destruct (spec_step o l) as [[l1 r]|] eqn:E; [|discriminate].
    destruct (spec_run ops l1) as [[l2 rs2]|] eqn:E2; [|discriminate]. injection Hs as <- <-.
    destruct (exec_ok debug o s l l1 r Hr) as (s1 & H1 & H2 & H3 & H4 & H5); auto.
    { intros P. rewrite P in Ho1. destruct tainted; [discriminate|auto]. }
    { intros ->. apply Nat.eqb_eq in Ho2. apply length_zero_iff_nil; auto. }
    pose proof H3 as (F1 & F2 & F3). rewrite <- F1 in Hps, Ho3. rewrite <- F3 in Hsc.
    edestruct IH as (s2 & G1 & G2 & G3); [exact Hps|exact Hsc|exact H2| |exact Ho3|exact E2|].
    { rewrite F1 in *. rewrite F3 in *. intros Ht.
      assert (D : o = Shrink \/ o <> Shrink) by (destruct o; auto; right; discriminate).
      destruct D as [D|D]; [apply H5; auto|].
      assert (Ht' : tainted = false /\ boundary_removal (page_size s) o l = false).
      { destruct o; try (apply orb_false_iff in Ht; exact Ht). congruence. }
      destruct Ht' as [T1 T2]. apply H4; auto.
      right. right. auto. }
    exists s2. cbn [run]. erewrite bind_ok by apply H1. erewrite bind_ok by apply G1.
    split; [reflexivity|]. split; [assumption|]. eapply same_frame_trans; eauto.
Qed.

End Runs.
