(** * PagedStack: proofs about whole iterations, discards at page boundaries,
    page accounting and the lock. *)
From Coq Require Import List Arith ZArith Lia Bool.
From Verif Require Import Base ListFacts PagedStackModel PagedStackSpec PagedStackExec
  PagedStackProofs.
Import ListNotations.
Open Scope m_scope.

Section Iter.
Context {T : Type}.
Implicit Types (b a : list (list T)) (t p : list T).

Lemma reaches_rep : forall debug ps pa ops (s : stack T) l,
  reaches debug ps pa ops s l ->
  rep s l /\ clean s /\ page_size s = ps /\ alloc_size s = pa /\ sync_count s = 0%Z.
Proof.
  intros debug ps pa ops s l (Hpa & Hc & rs & Hs & Hr).
  destruct (construct_rep (T := T) ps pa Hpa) as [C1 C2].
  destruct (run_core_ok debug ops _ [] l rs C1 C2 Hc Hs) as (s' & G1 & G2 & G3 & G4 & G5 & G6).
  rewrite G1 in Hr. injection Hr as ->. repeat split; auto.
Qed.

Lemma careful_rep : forall debug ps pa ops (s : stack T) l,
  reaches_careful debug ps pa ops s l ->
  rep s l /\ 1 <= page_size s /\ page_size s = ps /\ alloc_size s = pa /\ sync_count s = 0%Z.
Proof.
  intros debug ps pa ops s l (Hps & Hpa & Hc & rs & Hs & Hr).
  destruct (construct_rep (T := T) ps pa Hpa) as [C1 C2].
  destruct (run_careful_ok debug ops (construct ps pa) [] l rs false) as (s' & G1 & G2 & G3); auto.
  { simpl. lia. }
  rewrite G1 in Hr. injection Hr as ->. destruct G3 as (G3 & G4 & G5).
  simpl in *. repeat split; auto; lia.
Qed.

Lemma careful_exists : forall debug ps pa ops (l : list T) rs,
  1 <= ps -> 1 <= pa -> careful ps false ops [] = true -> spec_run ops [] = Some (l, rs) ->
  exists s, run debug ops (construct ps pa) = ROk s rs.
Proof.
  intros debug ps pa ops l rs Hps Hpa Hc Hs.
  destruct (construct_rep (T := T) ps pa Hpa) as [C1 C2].
  destruct (run_careful_ok debug ops (construct ps pa) [] l rs false) as (s' & G1 & G2 & G3); auto.
  { simpl. lia. }
  eauto.
Qed.

Lemma core_exists : forall debug ps pa ops (l : list T) rs,
  1 <= pa -> forallb core_op ops = true -> spec_run ops [] = Some (l, rs) ->
  exists s, run debug ops (construct ps pa) = ROk s rs.
Proof.
  intros debug ps pa ops l rs Hpa Hc Hs.
  destruct (construct_rep (T := T) ps pa Hpa) as [C1 C2].
  destruct (run_core_ok debug ops _ [] l rs C1 C2 Hc Hs) as (s' & G1 & _). eauto.
Qed.

Ltac open_stack s H :=
  let ps := fresh "ps" in let asz := fresh "asz" in let i := fresh "ids" in
  let n := fresh "nid" in let sc := fresh "sc" in let sr := fresh "sr" in
  let b := fresh "b" in let t := fresh "t" in let a := fresh "a" in
  destruct s as [ps asz ? i n ? sc sr ?];
  destruct H as (b & t & a & ? & ? & ? & ? & ? & ?);
  cbn [page_size alloc_size pages PagedStackModel.ids next_id cur sync_count shrink_req locked] in *;
  subst.

(** ** Forward loop *)

Lemma f_loop_from {cap : Prop} : forall ps asz nid i sc sr lk b a t, @shapec T cap ps b t ->
  forall j pg off, at_pos b t j pg off ->
  f_loop (mkStack ps asz (b ++ t :: a) i nid (length b) sc sr lk)
    (mkF pg (Z.of_nat off)) (mkF 0 (-1)) (rev (firstn (S j) (concat b ++ t))).
Proof.
  intros ps asz nid i sc sr lk b a t Hs. induction j as [|j IH]; intros pg off H.
  - pose proof (at_pos_bound _ _ _ _ _ H) as B. apply nth_error_Some in B.
    destruct (nth_error (concat b ++ t) 0) eqn:E; [|congruence].
    rewrite (firstn_S_nth _ _ _ E). simpl. eapply loop_next.
    + unfold f_eqb. simpl. apply andb_false_iff. right. apply Z.eqb_neq. lia.
    + eapply deref_at_ok; eauto.
    + eapply f_inc_bottom; eauto.
    + apply loop_end. reflexivity.
  - pose proof (at_pos_bound _ _ _ _ _ H) as B. apply nth_error_Some in B.
    destruct (nth_error (concat b ++ t) (S j)) eqn:E; [|congruence].
    rewrite (firstn_S_nth _ _ _ E), rev_app_distr. simpl rev at 1. simpl app.
    destruct (f_inc_ok ps asz nid i sc sr lk b a t Hs _ _ _ H) as (pg' & off' & G1 & G2).
    eapply loop_next.
    + unfold f_eqb. simpl. apply andb_false_iff. right. apply Z.eqb_neq. lia.
    + eapply deref_at_ok; eauto.
    + exact G1.
    + apply IH. exact G2.
Qed.

Lemma forward_ok {cap : Prop} : forall (s : stack T) l, @repc T cap s l ->
  exists x y, begin s = ROk s x /\ end_ s = ROk s y /\ f_loop s x y l.
Proof.
  intros s l H. open_stack s H.
  exists (mkF (length b) (Z.of_nat (length t) - 1)), (mkF 0 (-1)).
  split; [apply begin_eq|]. split; [apply end_eq|].
  destruct t as [|x t].
  - rewrite (sh_top _ _ _ H1 eq_refl). simpl. apply loop_end. reflexivity.
  - pose proof (at_pos_top _ _ _ H1 ltac:(discriminate)) as A.
    pose proof (f_loop_from ps asz nid ids sc sr false b a (x :: t) H1 _ _ _ A) as L.
    replace (S (length (concat b ++ x :: t) - 1)) with (length (concat b ++ x :: t)) in L.
    2:{ rewrite app_length. simpl. lia. }
    rewrite firstn_all in L.
    replace (Z.of_nat (length (x :: t)) - 1)%Z with (Z.of_nat (length (x :: t) - 1)); [exact L|].
    simpl length. lia.
Qed.

(** ** Reverse loop, with the correct end page *)

Lemma at_pos_ne_rend : forall b t j pg off last z, at_pos b t j pg off ->
  r_eqb (mkR pg (Z.of_nat off) last) (mkR (length b) (Z.of_nat (length t)) z) = false.
Proof.
  intros b t j pg off last z (b1 & p & b2 & E1 & -> & Ho & ->).
  unfold r_eqb. simpl. apply andb_false_iff.
  destruct (Nat.eqb_spec (length b1) (length b)) as [L|L]; [right|left; reflexivity].
  apply Z.eqb_neq. intros X.
  assert (b2 = []) as ->.
  { apply (f_equal (@length (list T))) in E1. rewrite !app_length in E1. simpl in E1.
    destruct b2; auto. simpl in E1. lia. }
  apply app_inj_tail in E1. destruct E1 as [_ <-]. lia.
Qed.

Lemma r_loop_from {cap : Prop} : forall ps asz nid i sc sr lk b a t, @shapec T cap ps b t ->
  forall k j pg off, at_pos b t j pg off -> j + S k = length (concat b ++ t) ->
  forall z,
  r_loop (mkStack ps asz (b ++ t :: a) i nid (length b) sc sr lk)
    (mkR pg (Z.of_nat off) (length b)) (mkR (length b) (Z.of_nat (length t)) z)
    (skipn j (concat b ++ t)).
Proof.
  intros ps asz nid i sc sr lk b a t Hs. induction k as [|k IH]; intros j pg off H Hj z;
  pose proof (at_pos_bound _ _ _ _ _ H) as B; apply nth_error_Some in B;
  destruct (nth_error (concat b ++ t) j) eqn:E; try congruence;
  rewrite (skipn_nth_cons _ _ _ E);
  pose proof (at_pos_ne_rend b t j pg off (length b) z H) as Hne.
  - eapply loop_next; [exact Hne|eapply deref_at_ok; eauto|eapply r_inc_top; eauto; lia|].
    rewrite skipn_all2 by lia. apply loop_end. unfold r_eqb. simpl. rewrite Nat.eqb_refl, Z.eqb_refl. reflexivity.
  - destruct (r_inc_ok ps asz nid i sc sr lk b a t Hs j pg off H) as (pg' & off' & G1 & G2); [lia|].
    eapply loop_next; [exact Hne|eapply deref_at_ok; eauto|exact G1|].
    apply IH; auto. lia.
Qed.

Lemma from_top_loop_ok {cap : Prop} : forall debug d (s : stack T) l, @repc T cap s l -> d <= length l ->
  exists x y, from_top debug d s = ROk s x /\ rend s = ROk s y /\ r_loop s x y (rev (firstn d l)).
Proof.
  intros debug d s l H Hd. pose proof (assert_size debug s l d H Hd) as Has.
  open_stack s H. rewrite rev_length in Hd.
  destruct d as [|d].
  - exists (mkR (length b) (Z.of_nat (length t)) (length b)), (mkR (length b) (Z.of_nat (length t)) (length b)).
    split; [|split; [apply rend_eq|]].
    + unfold from_top. apply noexcept_ok. erewrite bind_ok by apply Has.
      erewrite with_lock_ok; [|reflexivity|apply from_top_zero]. reflexivity.
    + simpl. apply loop_end. unfold r_eqb. simpl. rewrite Nat.eqb_refl, Z.eqb_refl. reflexivity.
  - destruct (from_top_ok ps asz nid ids sc sr true b a t H1 (S d)) as (pg & off & G1 & G2 & G3); try lia.
    exists (mkR pg (Z.of_nat off) (length b)), (mkR (length b) (Z.of_nat (length t)) (length b)).
    split; [|split; [apply rend_eq|]].
    + unfold from_top. apply noexcept_ok. erewrite bind_ok by apply Has.
      erewrite with_lock_ok; [|reflexivity|apply G1]. reflexivity.
    + rewrite firstn_rev, rev_involutive. apply (r_loop_from ps asz nid ids sc sr false b a t H1 d); auto. lia.
Qed.

(** Without spare pages the rbegin..rend loop is right. *)
Lemma reverse_ok : forall (s : stack T) l, rep s l -> 1 <= page_size s ->
  length (pages s) = S (cur s) ->
  exists x y, rbegin s = ROk s x /\ rend s = ROk s y /\ r_loop s x y (rev l).
Proof.
  intros s l H Hp Hl. open_stack s H.
  assert (a = []) as ->.
  { destruct a; auto. rewrite app_length in Hl. simpl in Hl. lia. }
  eexists _, _. split; [apply rbegin_eq|]. split; [apply rend_eq|].
  rewrite Hl. simpl. replace (length b - 0) with (length b) by lia. rewrite rev_involutive.
  destruct (concat b ++ t) as [|x0 l0] eqn:E.
  - apply app_eq_nil in E. destruct E as [_ ->]. rewrite (sh_top _ _ _ H1 eq_refl).
    simpl. apply loop_end. reflexivity.
  - rewrite <- E. 
    assert (A : at_pos b t 0 0 0).
    { destruct b as [|q b].
      - exists [], t, []. simpl. repeat split; auto. destruct t; [discriminate|simpl; lia].
      - exists [], q, (b ++ [t]). simpl. repeat split; auto.
        pose proof (sh_full _ _ _ H1) as F. inversion F; subst. lia. }
    eapply (r_loop_from ps asz nid ids sc sr false b [] t H1 (length l0) 0 0 0); eauto.
    rewrite E. simpl. lia.
Qed.

(** With spare pages the loop runs into an empty page. *)
Lemma r_loop_overshoot : forall ps asz nid i sc sr lk b a t last, shape ps b t ->
  a <> [] -> Forall (fun p => p = []) a -> length b < last ->
  forall k j pg off, at_pos b t j pg off -> j + S k = length (concat b ++ t) ->
  forall z xs,
  ~ r_loop (mkStack ps asz (b ++ t :: a) i nid (length b) sc sr lk)
    (mkR pg (Z.of_nat off) last) (mkR (length b) (Z.of_nat (length t)) z) xs.
Proof.
  intros ps asz nid i sc sr lk b a t last Hs Hne Ha Hl.
  (* past the current page: dereferencing an empty page *)
  assert (Dead : forall z xs, ~ r_loop (mkStack ps asz (b ++ t :: a) i nid (length b) sc sr lk)
      (mkR (S (length b)) 0 last) (mkR (length b) (Z.of_nat (length t)) z) xs).
  { intros z xs L. inversion L; subst.
    - unfold r_eqb in H. cbn [r_page r_off] in H. apply andb_true_iff in H. destruct H as [H _].
      apply Nat.eqb_eq in H. lia.
    - unfold r_deref, deref_at in H0. msimp.
      destruct a as [|q a]; [congruence|]. inversion Ha; subst.
      replace (b ++ t :: [] :: a) with ((b ++ [t]) ++ [] :: a) in H0 by (rewrite <- app_assoc; auto).
      replace (S (length b)) with (length (b ++ [t])) in H0 by (rewrite app_length; simpl; lia).
      rewrite nth_error_mid in H0. simpl in H0. discriminate. }
  assert (Last : forall j pg off, at_pos b t j pg off -> S j = length (concat b ++ t) ->
      r_inc (mkR pg (Z.of_nat off) last) (mkStack ps asz (b ++ t :: a) i nid (length b) sc sr lk)
        = ROk (mkStack ps asz (b ++ t :: a) i nid (length b) sc sr lk) (mkR (S (length b)) 0 last)).
  { intros j pg off H E.
    destruct H as (b1 & p & b2 & E1 & -> & Ho & ->).
    assert (b2 = []).
    { destruct (snoc_cases b2) as [->|(b3 & u & ->)]; auto. exfalso.
      rewrite app_comm_cons, app_assoc in E1. apply app_inj_tail in E1. destruct E1 as [-> ->].
      rewrite concat_app, !app_length in E. simpl in E. rewrite app_length in E.
      destruct u; [|simpl in *; lia].
      pose proof (sh_top _ _ _ Hs eq_refl) as X. destruct b1; discriminate. }
    subst b2. apply app_inj_tail in E1. destruct E1 as [<- <-]. rewrite app_length in E.
    unfold r_inc. msimp. rewrite nth_error_mid.
    destruct (Z.ltb_spec (Z.of_nat (length t)) (Z.of_nat off + 1)); [lia|].
    destruct (Z.eqb_spec (Z.of_nat off + 1) (Z.of_nat (length t))); [|lia].
    rewrite (proj2 (Nat.eqb_neq (length b) last)) by lia. cbn [negb andb]. cbv beta iota zeta. msimp.
    destruct a as [|q a]; [congruence|].
    replace (b ++ t :: q :: a) with ((b ++ [t]) ++ q :: a) by (rewrite <- app_assoc; auto).
    replace (S (length b)) with (length (b ++ [t])) by (rewrite app_length; simpl; lia).
    rewrite nth_error_mid. reflexivity. }
  induction k as [|k IH]; intros j pg off H Hj z xs L; inversion L; subst.
  1,3: rewrite (at_pos_ne_rend _ _ _ _ _ _ _ H) in H0; discriminate.
  - rewrite (Last _ _ _ H ltac:(lia)) in H2. injection H2 as <-.
    eapply Dead; eauto.
  - destruct (r_inc_any ps asz nid i sc sr lk b a t Hs last j pg off) as (pg' & off' & G1 & G2); auto; try lia.
    rewrite G1 in H2. injection H2 as <-.
    eapply (IH (S j)); eauto. lia.
Qed.

Lemma reverse_overshoot : forall (s : stack T) x0 l, rep s (x0 :: l) -> clean s ->
  1 <= page_size s -> S (cur s) < length (pages s) ->
  exists x y, rbegin s = ROk s x /\ rend s = ROk s y /\ forall xs, ~ r_loop s x y xs.
Proof.
  intros s x0 l H Hc Hp Hl. open_stack s H.
  rewrite (clean_split _ b t a) in Hc by reflexivity.
  eexists _, _. split; [apply rbegin_eq|]. split; [apply rend_eq|].
  intros xs.
  assert (A : at_pos b t 0 0 0).
  { destruct b as [|q b].
    - exists [], t, []. simpl. repeat split; auto. destruct t; [discriminate|simpl; lia].
    - exists [], q, (b ++ [t]). simpl. repeat split; auto.
      pose proof (sh_full _ _ _ H1) as F. inversion F; subst. lia. }
  assert (Ll : length (concat b ++ t) = S (length l)).
  { rewrite <- (rev_length (concat b ++ t)), <- H4. reflexivity. }
  rewrite app_length in Hl |- *. simpl in Hl |- *.
  apply (r_loop_overshoot ps asz nid ids sc sr false b a t
    (length b + S (length a) - 1) H1) with (k := length l) (j := 0) (off := 0); auto; try lia.
  destruct a; [simpl in Hl; lia|discriminate].
Qed.
End Iter.
