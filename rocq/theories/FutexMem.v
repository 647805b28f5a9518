(** * Futex under the C++11 memory model: proofs. *)
From Coq Require Import List Arith Lia Bool Sorting.Sorted.
From Verif Require Import FutexMemSpec FutexMemModel.
Import ListNotations.

Section Traces.
Context {X V : Type}.
Implicit Types (tr : list (label X V)) (l : label X V).

Lemma order_eqb_eq : forall a b, order_eqb a b = true -> a = b.
Proof. intros [] []; simpl; congruence. Qed.

Lemma attempt_in : forall l, attempt l = Some TIn -> l = Update false true AcqRel.
Proof.
  intros l. unfold attempt, cas. destruct l; try discriminate.
  - destruct (order_eqb o cas_failure); discriminate.
  - destruct old, new; cbn [Bool.eqb andb]; try discriminate.
    destruct (order_eqb o cas_success) eqn:O; [|discriminate].
    apply order_eqb_eq in O. subst. reflexivity.
Qed.

Lemma attempt_not_out : forall l, attempt l <> Some TOut.
Proof.
  intros l. unfold attempt. destruct (cas false l) as [[[] []]|]; simpl; discriminate.
Qed.

Lemma attempt_kind : forall l p, attempt l = Some p ->
  (exists v o, l = Load v o) \/ (l = Update false true AcqRel /\ p = TIn).
Proof.
  intros l p. unfold attempt, cas. destruct l; try discriminate.
  - intros _. left. eauto.
  - destruct old, new; cbn [Bool.eqb andb]; try discriminate.
    destruct (order_eqb o cas_success) eqn:O; [|discriminate].
    apply order_eqb_eq in O. subst. intros H. injection H as <-. right. split; reflexivity.
Qed.

(** The kinds of step. *)
Lemma tnext_kind : forall p l p', tnext p l = Some p' ->
  (exists v o, l = Load v o /\ (p' = TIn -> p = TIn)) \/
  (l = Update false true AcqRel /\ p <> TIn /\ p' = TIn) \/
  (ordinary l = true /\ p = TIn /\ p' = TIn) \/
  (l = Store false Release /\ p = TIn /\ p' = TOut).
Proof.
  assert (A : forall p l p', p <> TIn -> attempt l = Some p' ->
    (exists v o, l = Load v o /\ (p' = TIn -> p = TIn)) \/
    (l = Update false true AcqRel /\ p <> TIn /\ p' = TIn) \/
    (ordinary l = true /\ p = TIn /\ p' = TIn) \/
    (l = Store false Release /\ p = TIn /\ p' = TOut)).
  { intros p l p' Hp H. destruct (attempt_kind l p' H) as [(v & o & ->)|[-> ->]]; [left|right; left; auto].
    exists v, o. split; [reflexivity|]. intros ->. apply attempt_in in H. discriminate. }
  intros [] l p'; cbn [tnext].
  - destruct (is_isLocked l) eqn:I.
    + intros H. injection H as <-. left. destruct l; try discriminate. exists v, o. split; auto.
    + apply A. discriminate.
  - apply A. discriminate.
  - destruct (is_isLocked l) eqn:I.
    + intros H. injection H as <-. left. destruct l; try discriminate. exists v, o. split; auto.
    + destruct l; try discriminate.
      * destruct v; [discriminate|]. simpl. destruct (order_eqb o unlock_order) eqn:O; [|discriminate].
        apply order_eqb_eq in O. subst. intros H. injection H as <-. right; right; right. auto.
      * intros H. injection H as <-. right; right; left. auto.
      * intros H. injection H as <-. right; right; left. auto.
Qed.

Lemma tsteps_app : forall tr1 tr2 p,
  tsteps p (tr1 ++ tr2) = match tsteps p tr1 with None => None | Some p' => tsteps p' tr2 end.
Proof.
  induction tr1 as [|l tr1 IH]; intros tr2 p; cbn [tsteps app]; [reflexivity|].
  destruct (tnext p l); [apply IH|reflexivity].
Qed.

(** Before the access [i] of a trace the thread is somewhere. *)
Definition at_ tr (i : nat) (p : tpc) : Prop := tsteps TOut (firstn i tr) = Some p.

Lemma firstn_snoc_nth : forall A (l : list A) i x, nth_error l i = Some x ->
  firstn (S i) l = firstn i l ++ [x].
Proof.
  induction l as [|y l IH]; intros [|i] x H; try discriminate; simpl in *.
  - congruence.
  - f_equal. apply IH. exact H.
Qed.

Lemma at_next : forall tr i l, tsteps TOut tr <> None -> nth_error tr i = Some l ->
  exists p p', at_ tr i p /\ tnext p l = Some p' /\ at_ tr (S i) p'.
Proof.
  intros tr i l H N. unfold at_. rewrite (firstn_snoc_nth _ tr i l N). rewrite tsteps_app.
  rewrite <- (firstn_skipn (S i) tr) in H. rewrite (firstn_snoc_nth _ tr i l N) in H.
  rewrite tsteps_app, tsteps_app in H.
  destruct (tsteps TOut (firstn i tr)) as [p|]; [|congruence]. cbn [tsteps] in *.
  destruct (tnext p l) as [p'|] eqn:E; [|congruence]. exists p, p'. auto.
Qed.

Lemma at_fun : forall tr i p q, at_ tr i p -> at_ tr i q -> p = q.
Proof. unfold at_. congruence. Qed.

Definition is_store (o : option (label X V)) : Prop := exists v q, o = Some (Store v q).
Definition is_update (o : option (label X V)) : Prop := exists v w q, o = Some (Update v w q).

(** [owner tr j i]: the access [i] belongs to the section entered by the update [j]. *)
Definition owner tr (j i : nat) : Prop :=
  j < i /\ nth_error tr j = Some (Update false true AcqRel) /\
  forall k, j < k < i -> ~ is_store (nth_error tr k) /\ ~ is_update (nth_error tr k).

Lemma in_owner : forall tr i, tsteps TOut tr <> None -> i <= length tr -> at_ tr i TIn ->
  exists j, owner tr j i.
Proof.
  intros tr i H. induction i as [|i IH]; intros L A.
  - unfold at_ in A. simpl in A. discriminate.
  - destruct (nth_error tr i) as [l|] eqn:N; [|apply nth_error_None in N; lia].
    destruct (at_next tr i l H N) as (p & p' & A1 & A2 & A3).
    pose proof (at_fun _ _ _ _ A A3) as <-.
    assert (K : p = TIn -> ~ is_store (Some l) -> ~ is_update (Some l) -> exists j, owner tr j (S i)).
    { intros -> N1 N2. destruct IH as (j & J1 & J2 & J3); [lia|exact A1|].
      exists j. split; [lia|]. split; [exact J2|]. intros k Hk.
      destruct (Nat.eq_dec k i) as [->|]; [rewrite N; auto|apply J3; lia]. }
    destruct (tnext_kind p l TIn A2) as [(v & o & -> & E)|[(-> & _)|[(O & -> & _)|(_ & _ & E)]]].
    + apply K; [auto| |]; intros Q; destruct Q as (? & Q); try destruct Q as (? & Q); try destruct Q as (? & Q); discriminate.
    + exists i. split; [lia|]. split; [exact N|]. intros k Hk. lia.
    + apply K; [auto| |]; intros Q; destruct Q as (? & Q); try destruct Q as (? & Q); try destruct Q as (? & Q); injection Q as ->; discriminate.
    + discriminate.
Qed.

Lemma nth_le : forall tr i l, nth_error tr i = Some l -> i <= length tr.
Proof. intros tr i l H. assert (i < length tr) by (apply nth_error_Some; congruence). lia. Qed.

Lemma store_owner : forall tr i v o, tsteps TOut tr <> None -> nth_error tr i = Some (Store v o) ->
  v = false /\ o = Release /\ exists j, owner tr j i.
Proof.
  intros tr i v o H N. destruct (at_next tr i _ H N) as (p & p' & A1 & A2 & _).
  destruct (tnext_kind _ _ _ A2) as [(? & ? & E & _)|[(E & _)|[(E & _)|(E & -> & _)]]]; try discriminate.
  injection E as -> ->. split; [auto|]. split; [auto|].
  eapply in_owner; eauto. eapply nth_le; eauto.
Qed.

Lemma ordinary_owner : forall tr i l, tsteps TOut tr <> None -> nth_error tr i = Some l ->
  ordinary l = true -> exists j, owner tr j i.
Proof.
  intros tr i l H N O. destruct (at_next tr i _ H N) as (p & p' & A1 & A2 & _).
  destruct (tnext_kind _ _ _ A2) as [(? & ? & -> & _)|[(-> & _)|[(_ & -> & _)|(-> & _)]]]; try discriminate.
  eapply in_owner; eauto. eapply nth_le; eauto.
Qed.

Lemma update_form : forall tr i old new o, tsteps TOut tr <> None ->
  nth_error tr i = Some (Update old new o) -> old = false /\ new = true /\ o = AcqRel.
Proof.
  intros tr i old new o H N. destruct (at_next tr i _ H N) as (p & p' & A1 & A2 & _).
  destruct (tnext_kind _ _ _ A2) as [(? & ? & E & _)|[(E & _)|[(E & _)|(E & _)]]]; try discriminate.
  injection E as -> -> ->. auto.
Qed.

(** Two stores do not leave one section. *)
Lemma store_owner_unique : forall tr i i' j v o v' o',
  nth_error tr i = Some (Store v o) -> nth_error tr i' = Some (Store v' o') ->
  owner tr j i -> owner tr j i' -> i = i'.
Proof.
  intros tr i i' j v o v' o' N N' (A & _ & A3) (B & _ & B3).
  destruct (Nat.lt_trichotomy i i') as [L|[E|L]]; [|auto|]; exfalso.
  - destruct (B3 i) as [Q _]; [lia|]. apply Q. eexists _, _; eauto.
  - destruct (A3 i') as [Q _]; [lia|]. apply Q. eexists _, _; eauto.
Qed.

Lemma owner_unique : forall tr i j j', owner tr j i -> owner tr j' i -> j = j'.
Proof.
  intros tr i j j' (A1 & A2 & A3) (B1 & B2 & B3).
  destruct (Nat.lt_trichotomy j j') as [L|[E|L]]; [|auto|]; exfalso.
  - destruct (A3 j') as [_ Q]; [lia|]. apply Q. eexists _, _, _; eauto.
  - destruct (B3 j) as [_ Q]; [lia|]. apply Q. eexists _, _, _; eauto.
Qed.

(** ** Places of the accesses of a section *)
Fixpoint section_ix (n : nat) tr : list nat :=
  match tr with
  | [] => []
  | Store _ _ :: _ => []
  | l :: tr' => if ordinary l then n :: section_ix (S n) tr' else section_ix (S n) tr'
  end.

Fixpoint update_ix (n : nat) tr : list nat :=
  match tr with
  | [] => []
  | Update _ _ _ :: tr' => n :: update_ix (S n) tr'
  | _ :: tr' => update_ix (S n) tr'
  end.

Lemma in_section_ix : forall tr n i,
  In i (section_ix n tr) <->
  n <= i /\ (exists l, nth_error tr (i - n) = Some l /\ ordinary l = true) /\
  forall k, n <= k < i -> ~ is_store (nth_error tr (k - n)).
Proof.
  induction tr as [|l tr IH]; intros n i.
  - split; [intros []|]. intros (_ & (l & H & _) & _). destruct (i - n); discriminate.
  - assert (Sh : forall k, S n <= k -> nth_error (l :: tr) (k - n) = nth_error tr (k - S n)).
    { intros k Hk. replace (k - n) with (S (k - S n)) by lia. reflexivity. }
    assert (St : (exists v o, l = Store v o) \/ ~ is_store (Some l)).
    { destruct l; try (right; intros (? & ? & ?); discriminate). left; eauto. }
    destruct St as [(v & o & ->)|NS].
    + cbn [section_ix]. split; [intros []|]. intros (A & (l & B & C) & D).
      destruct (Nat.eq_dec i n) as [->|Ne].
      * rewrite Nat.sub_diag in B. injection B as <-. discriminate.
      * exfalso. apply (D n); [lia|]. rewrite Nat.sub_diag. eexists _, _; reflexivity.
    + assert (E : section_ix n (l :: tr) = if ordinary l then n :: section_ix (S n) tr else section_ix (S n) tr).
      { destruct l; try reflexivity. exfalso. apply NS. eexists _, _; reflexivity. }
      rewrite E.
      assert (R : In i (section_ix (S n) tr) <-> S n <= i /\
         (exists l', nth_error (l :: tr) (i - n) = Some l' /\ ordinary l' = true) /\
         forall k, n <= k < i -> ~ is_store (nth_error (l :: tr) (k - n))).
      { rewrite IH. split; intros (A & B & C); split; try exact A.
        - rewrite Sh by lia. split; [exact B|]. intros k Hk.
          destruct (Nat.eq_dec k n) as [->|Ne]; [rewrite Nat.sub_diag; exact NS|].
          rewrite Sh by lia. apply C. lia.
        - rewrite Sh in B by lia. split; [exact B|]. intros k Hk.
          rewrite <- Sh by lia. apply C. lia. }
      destruct (ordinary l) eqn:O; cbn [In]; rewrite R.
      * split.
        -- intros [<-|(A & B & C)].
           ++ split; [lia|]. rewrite Nat.sub_diag. split; [exists l; auto|]. intros k Hk. lia.
           ++ split; [lia|auto].
        -- intros (A & B & C). destruct (Nat.eq_dec n i) as [|Ne]; [left; auto|right].
           split; [lia|auto].
      * split; [intros (A & B & C); split; [lia|auto]|].
        intros (A & B & C). destruct (Nat.eq_dec n i) as [<-|Ne].
        -- exfalso. rewrite Nat.sub_diag in B. destruct B as (l' & B & B'). injection B as <-. congruence.
        -- split; [lia|auto].
Qed.

Lemma section_ix_sorted : forall tr n, StronglySorted lt (section_ix n tr).
Proof.
  induction tr as [|l tr IH]; intros n; [constructor|].
  assert (K : StronglySorted lt (if ordinary l then n :: section_ix (S n) tr else section_ix (S n) tr)).
  { destruct (ordinary l); [|apply IH]. constructor; [apply IH|].
    apply Forall_forall. intros k Hk. apply in_section_ix in Hk. lia. }
  destruct l; try exact K. constructor.
Qed.

Lemma section_labels : forall tr n (f : nat -> option (label X V)),
  (forall i, f (n + i) = nth_error tr i) ->
  map f (section_ix n tr) = map Some (section tr).
Proof.
  induction tr as [|l tr IH]; intros n f H; [reflexivity|].
  assert (I : forall i, f (S n + i) = nth_error tr i).
  { intros i. replace (S n + i) with (n + S i) by lia. rewrite H. reflexivity. }
  assert (H0 : f n = Some l). { rewrite <- (Nat.add_0_r n), H. reflexivity. }
  destruct l; cbn [section section_ix ordinary map]; rewrite ?H0, ?(IH (S n) f I); reflexivity.
Qed.

Lemma in_update_ix : forall tr n i, In i (update_ix n tr) <-> n <= i /\ is_update (nth_error tr (i - n)).
Proof.
  induction tr as [|l tr IH]; intros n i.
  - split; [intros []|]. intros (_ & ? & ? & ? & H). destruct (i - n); discriminate.
  - assert (Sh : S n <= i -> nth_error (l :: tr) (i - n) = nth_error tr (i - S n)).
    { intros k. replace (i - n) with (S (i - S n)) by lia. reflexivity. }
    assert (K : In i (update_ix (S n) tr) <-> S n <= i /\ is_update (nth_error (l :: tr) (i - n))).
    { rewrite IH. split; intros [A B]; split; auto; [rewrite Sh by lia; auto|rewrite <- Sh by lia; auto]. }
    assert (N : (n <= i /\ is_update (nth_error (l :: tr) (i - n))) <->
                (i = n /\ is_update (Some l)) \/ (S n <= i /\ is_update (nth_error (l :: tr) (i - n)))).
    { split.
      - intros [A B]. destruct (Nat.eq_dec i n) as [->|]; [left|right; split; [lia|auto]].
        rewrite Nat.sub_diag in B. auto.
      - intros [[-> B]|[A B]]; [rewrite Nat.sub_diag; auto|split; [lia|auto]]. }
    rewrite N, <- K.
    destruct l; cbn [update_ix In];
      try (split; [auto|intros [[_ (? & ? & ? & Q)]|Q]; [discriminate|exact Q]]).
    split; intros [Q|Q]; auto; left; [split; [auto|eexists _, _, _; reflexivity]|].
    symmetry. apply Q.
Qed.

Lemma update_ix_sorted : forall tr n, StronglySorted lt (update_ix n tr).
Proof.
  induction tr as [|l tr IH]; intros n; [constructor|].
  destruct l; cbn [update_ix]; try apply IH. constructor; [apply IH|].
  apply Forall_forall. intros k Hk. apply in_update_ix in Hk. lia.
Qed.

Lemma sections_ix : forall tr (f : nat -> list (label X V)) n,
  (forall i, n <= i -> f i = section (skipn (S i - n) tr)) ->
  sections tr = map f (update_ix n tr).
Proof.
  induction tr as [|l tr IH]; intros f n H; [reflexivity|].
  assert (I : sections tr = map f (update_ix (S n) tr)).
  { apply IH. intros i Hi. rewrite H by lia. replace (S i - n) with (S (S i - S n)) by lia. reflexivity. }
  destruct l; cbn [sections update_ix map]; try exact I.
  rewrite I. f_equal. rewrite H by lia. replace (S n - n) with 1 by lia. reflexivity.
Qed.

(** Sorted lists with the same elements are the same. *)
Lemma sorted_eq : forall l1 l2 : list nat, StronglySorted lt l1 -> StronglySorted lt l2 ->
  (forall i, In i l1 <-> In i l2) -> l1 = l2.
Proof.
  induction l1 as [|a l1 IH]; intros [|b l2] S1 S2 H.
  - reflexivity.
  - destruct (proj2 (H b)). left; reflexivity.
  - destruct (proj1 (H a)). left; reflexivity.
  - inversion S1 as [|? ? T1 F1]; inversion S2 as [|? ? T2 F2]; subst.
    rewrite Forall_forall in F1, F2.
    assert (a = b).
    { destruct (proj1 (H a)) as [|K1]; [left; auto|auto|].
      destruct (proj2 (H b)) as [|K2]; [left; auto|auto|].
      specialize (F1 _ K2). specialize (F2 _ K1). lia. }
    subst b. f_equal. apply IH; auto. intros i. split; intros Hi.
    + destruct (proj1 (H i)) as [->|]; [right; auto| |auto]. specialize (F1 _ Hi). lia.
    + destruct (proj2 (H i)) as [->|]; [right; auto| |auto]. specialize (F2 _ Hi). lia.
Qed.

(** In a trace of the code every ordinary access is in a section. *)
Lemma sections_cover : forall tr, tsteps TOut tr <> None -> concat (sections tr) = filter ordinary tr.
Proof.
  assert (G : forall tr p, tsteps p tr <> None ->
    match p with
    | TIn => section tr ++ concat (sections tr) = filter ordinary tr
    | _ => concat (sections tr) = filter ordinary tr
    end).
  { induction tr as [|l tr IH]; intros p H; [destruct p; reflexivity|].
    cbn [tsteps] in H. destruct (tnext p l) as [p'|] eqn:E; [|congruence].
    specialize (IH p' H).
    destruct (tnext_kind p l p' E) as [(v & o & -> & K)|[(-> & K & ->)|[(O & -> & ->)|(-> & -> & ->)]]].
    - cbn [section sections ordinary filter]. destruct p.
      + destruct p'; try exact IH. specialize (K eq_refl). discriminate.
      + destruct p'; try exact IH. specialize (K eq_refl). discriminate.
      + cbn [tnext] in E. destruct (is_isLocked (Load v o)); [|discriminate]. injection E as <-. exact IH.
    - destruct p; [| |congruence]; cbn [sections concat filter ordinary]; exact IH.
    - destruct l; try discriminate O; cbn [section sections filter ordinary app]; f_equal; exact IH.
    - cbn [section sections filter ordinary app]. exact IH. }
  intros tr H. exact (G tr TOut H).
Qed.
End Traces.

(** ** Executions *)
Section Executions.
Context {X V : Type}.
Variable init : X -> V.
Variable E : execution X V.
Hypothesis C : consistent init E.
Hypothesis G : guarded E.

Lemma lab_trace : forall t i, lab E (t, i) = nth_error (trace E t) i.
Proof. reflexivity. Qed.

Definition upd_ev (e : event) : Prop := is_update (lab E e).

(** [e] is an access in the section entered by [u]. *)
Definition owns (u e : event) : Prop := fst u = fst e /\ owner (trace E (fst e)) (snd u) (snd e).

Lemma owns_hb : forall u e, owns u e -> lab E e <> None -> hb E u e.
Proof.
  intros [t j] [t' i] [E1 (A & B & _)] N. simpl in *. subst t'.
  apply hb_program; [exact A| |exact N]. rewrite lab_trace, B. discriminate.
Qed.

Lemma mo_kind : forall e, In e (mo E) ->
  lab E e = Some (Update false true AcqRel) \/
  (lab E e = Some (Store false Release) /\ exists u, owns u e /\ lab E u = Some (Update false true AcqRel)).
Proof.
  intros [t i] H. apply (c_mo _ _ C) in H. destruct H as (v & o & [H|(old & H)]).
  - right. destruct (store_owner _ _ _ _ (G t) H) as (-> & -> & j & J). split; [exact H|].
    exists (t, j). split; [split; [reflexivity|exact J]|]. apply J.
  - left. destruct (update_form _ _ _ _ _ (G t) H) as (-> & -> & ->). exact H.
Qed.

Lemma before_nth : forall A (l : list A) a b, before l a b ->
  exists p q, p < q /\ nth_error l p = Some a /\ nth_error l q = Some b.
Proof.
  intros A l a b (l1 & l2 & l3 & ->). exists (length l1), (length l1 + S (length l2)).
  split; [lia|]. split.
  - rewrite nth_error_app2, Nat.sub_diag by lia. reflexivity.
  - rewrite nth_error_app2 by lia. replace (length l1 + S (length l2) - length l1) with (S (length l2)) by lia.
    simpl. rewrite nth_error_app2, Nat.sub_diag by lia. reflexivity.
Qed.

Lemma nth_inj : forall p q e, nth_error (mo E) p = Some e -> nth_error (mo E) q = Some e -> p = q.
Proof.
  intros p q e A B. apply (proj1 (NoDup_nth_error (mo E)) (c_mo_nodup _ _ C)).
  - apply nth_error_Some. congruence.
  - congruence.
Qed.

(** The modification order alternates: an update, the store that ends its section, ... *)
Lemma alternates : forall p e, nth_error (mo E) p = Some e ->
  (Nat.even p = true /\ lab E e = Some (Update false true AcqRel) /\
   (p = 0 \/ exists w, nth_error (mo E) (p - 1) = Some w /\ rf E e = Some w /\ lab E w = Some (Store false Release))) \/
  (Nat.even p = false /\ lab E e = Some (Store false Release) /\
   exists u, nth_error (mo E) (p - 1) = Some u /\ owns u e /\ lab E u = Some (Update false true AcqRel)).
Proof.
  intros p. induction p as [p IH] using (well_founded_induction lt_wf). intros e N.
  assert (I : In e (mo E)) by (eapply nth_error_In; eauto).
  destruct (mo_kind e I) as [U|[Sto (u & Ow & U)]].
  - left. assert (P : p = 0 \/ exists w, nth_error (mo E) (p - 1) = Some w /\ rf E e = Some w /\
                 lab E w = Some (Store false Release) /\ p <> 0).
    { destruct (rf E e) as [w|] eqn:R.
      - destruct (c_atomic _ _ C _ _ _ _ _ U R) as (l1 & l2 & M).
        assert (Q : nth_error (mo E) (S (length l1)) = Some e).
        { rewrite M. rewrite nth_error_app2 by lia.
          replace (S (length l1) - length l1) with 1 by lia. reflexivity. }
        pose proof (nth_inj _ _ _ N Q) as ->. right. exists w.
        replace (S (length l1) - 1) with (length l1) by lia.
        assert (W : nth_error (mo E) (length l1) = Some w).
        { rewrite M. rewrite nth_error_app2, Nat.sub_diag by lia. reflexivity. }
        split; [exact W|]. split; [reflexivity|]. split; [|lia].
        destruct (c_rf _ _ C e w false AcqRel) as (o' & St); [right; exists true; exact U|exact R|].
        destruct (mo_kind w) as [K|[K _]]; [eapply nth_error_In; eauto| |exact K].
        destruct St as [St|(old & St)]; rewrite K in St; discriminate.
      - destruct (c_atomic_init _ _ C _ _ _ _ U R) as (l2 & M).
        left. apply (nth_inj _ 0 e N). rewrite M. reflexivity. }
    destruct P as [->|(w & W1 & W2 & W3 & P)]; [auto|].
    split; [|split; [exact U|right; exists w; auto]].
    destruct (IH (p - 1) ltac:(lia) w W1) as [(_ & K & _)|(K & _)]; [congruence|].
    destruct p; [lia|]. replace (S p - 1) with p in K by lia.
    rewrite Nat.even_succ, <- Nat.negb_even, K. reflexivity.
  - right.
    assert (Iu : In u (mo E)).
    { apply (c_mo _ _ C). exists true, AcqRel. right. exists false. exact U. }
    assert (Hb : hb E u e) by (apply owns_hb; [exact Ow|congruence]).
    destruct (before_nth _ _ _ _ (c_mo_hb _ _ C _ _ Iu I Hb)) as (q & q' & L & Q & Q').
    pose proof (nth_inj _ _ _ N Q') as <-.
    destruct (Nat.eq_dec (S q) p) as [<-|Ne].
    + replace (S q - 1) with q by lia.
      destruct (IH q ltac:(lia) u Q) as [(K & _)|(_ & K & _)]; [|congruence].
      split; [rewrite Nat.even_succ, <- Nat.negb_even, K; reflexivity|].
      split; [exact Sto|]. exists u. auto.
    + exfalso.
      destruct (nth_error (mo E) (S q)) as [e'|] eqn:N'.
      2:{ apply nth_error_None in N'. assert (p < length (mo E)) by (apply nth_error_Some; congruence). lia. }
      destruct (IH q ltac:(lia) u Q) as [(K & _)|(_ & K & _)]; [|congruence].
      destruct (IH (S q) ltac:(lia) e' N') as [(K' & _)|(_ & S' & u' & W1 & W2 & W3)].
      { rewrite Nat.even_succ, <- Nat.negb_even, K in K'. discriminate. }
      replace (S q - 1) with q in W1 by lia. rewrite Q in W1. injection W1 as <-.
      destruct u as [t j], e as [t1 i1], e' as [t2 i2]. destruct Ow as [E1 O1], W2 as [E2 O2].
      simpl in *. subst t1 t2. rewrite !lab_trace in *.
      assert (i1 = i2) by (eapply store_owner_unique; eauto). subst i2.
      assert (p = S q) by (eapply nth_inj; eauto). lia.
Qed.

(** Each section ends before the next one begins, and its end happens before. *)
Lemma next_section : forall p u u', nth_error (mo E) p = Some u -> nth_error (mo E) (S (S p)) = Some u' ->
  lab E u = Some (Update false true AcqRel) ->
  exists w, lab E w = Some (Store false Release) /\ owns u w /\ hb E w u' /\
            lab E u' = Some (Update false true AcqRel).
Proof.
  intros p u u' N N' U.
  destruct (alternates _ _ N) as [(Ev & _ & _)|(_ & K & _)]; [|congruence].
  destruct (alternates _ _ N') as [(Ev' & U' & [Z|(w & W1 & W2 & W3)])|(Ev' & _)].
  - discriminate.
  - replace (S (S p) - 1) with (S p) in W1 by lia.
    destruct (alternates _ _ W1) as [(_ & K & _)|(_ & _ & u0 & Q1 & Q2 & Q3)]; [congruence|].
    replace (S p - 1) with p in Q1 by lia. rewrite N in Q1. injection Q1 as <-.
    exists w. split; [exact W3|]. split; [exact Q2|]. split; [|exact U'].
    apply hb_synchronizes with (v := false) (v' := false) (o := Release) (o' := AcqRel).
    + left; exact W3.
    + left; reflexivity.
    + right. exists true. exact U'.
    + right; left; reflexivity.
    + exact W2.
  - change (Nat.even (S (S p))) with (Nat.even p) in Ev'. congruence.
Qed.

Lemma section_end : forall p q u u', p < q -> nth_error (mo E) p = Some u -> nth_error (mo E) q = Some u' ->
  lab E u = Some (Update false true AcqRel) -> lab E u' = Some (Update false true AcqRel) ->
  exists w, lab E w = Some (Store false Release) /\ owns u w /\ hb E w u'.
Proof.
  intros p q. remember (q - p) as d eqn:D. revert p q D.
  induction d as [d IH] using (well_founded_induction lt_wf). intros p q D u u' L N N' U U'.
  destruct (alternates _ _ N) as [(Ev & _)|(_ & K & _)]; [|congruence].
  destruct (alternates _ _ N') as [(Ev' & _)|(_ & K & _)]; [|congruence].
  assert (L2 : S (S p) <= q).
  { assert (q <> S p); [|lia]. intros ->. rewrite Nat.even_succ, <- Nat.negb_even, Ev in Ev'. discriminate. }
  destruct (Nat.eq_dec q (S (S p))) as [->|Ne].
  - destruct (next_section p u u' N N' U) as (w & W1 & W2 & W3 & _). eauto.
  - destruct (nth_error (mo E) (S (S p))) as [u1|] eqn:N1.
    2:{ apply nth_error_None in N1. assert (q < length (mo E)) by (apply nth_error_Some; congruence). lia. }
    destruct (next_section p u u1 N N1 U) as (w & W1 & W2 & W3 & W4).
    destruct (IH (q - S (S p)) ltac:(lia) (S (S p)) q eq_refl u1 u') as (w' & V1 & V2 & V3); auto; [lia|].
    exists w. split; [exact W1|]. split; [exact W2|].
    apply hb_trans with u1; [exact W3|]. apply hb_trans with w'; [|exact V3].
    apply owns_hb; [exact V2|congruence].
Qed.

Definition ord_ev (e : event) : Prop := exists l, lab E e = Some l /\ ordinary l = true.

Lemma update_in_mo : forall u, lab E u = Some (Update false true AcqRel) -> In u (mo E).
Proof. intros u U. apply (c_mo _ _ C). exists true, AcqRel. right. exists false. exact U. Qed.

(** Accesses of an earlier section happen before those of a later one. *)
Lemma sections_hb : forall p q u u' a b, p < q ->
  nth_error (mo E) p = Some u -> nth_error (mo E) q = Some u' ->
  lab E u = Some (Update false true AcqRel) -> lab E u' = Some (Update false true AcqRel) ->
  owns u a -> owns u' b -> ord_ev a -> ord_ev b -> hb E a b.
Proof.
  intros p q u u' a b L N N' U U' Oa Ob (la & La & Ra) (lb & Lb & Rb).
  destruct (section_end p q u u' L N N' U U') as (w & W1 & W2 & W3).
  apply hb_trans with w.
  - destruct u as [t j], a as [t1 i1], w as [t2 i2]. destruct Oa as [E1 O1], W2 as [E2 O2].
    simpl in *. subst t1 t2. apply hb_program; [|rewrite La; discriminate|rewrite W1; discriminate].
    destruct (Nat.lt_trichotomy i1 i2) as [?|[->|?]]; [auto| |].
    + rewrite W1 in La. injection La as <-. discriminate.
    + exfalso. destruct O1 as (_ & _ & O1). destruct (O1 i2) as [Q _]; [destruct O2; lia|].
      apply Q. eexists _, _; exact W1.
  - apply hb_trans with u'; [exact W3|]. apply owns_hb; [exact Ob|congruence].
Qed.

Lemma ord_owner : forall e, ord_ev e -> exists u, owns u e /\ lab E u = Some (Update false true AcqRel).
Proof.
  intros [t i] (l & L & O). destruct (ordinary_owner _ _ _ (G t) L O) as (j & J).
  exists (t, j). split; [split; [reflexivity|exact J]|]. apply J.
Qed.

Lemma total : forall a b, a <> b -> ord_ev a -> ord_ev b -> hb E a b \/ hb E b a.
Proof.
  intros a b Ne Ra Rb.
  destruct (ord_owner a Ra) as (u & Ou & U). destruct (ord_owner b Rb) as (u' & Ou' & U').
  destruct (In_nth_error _ _ (update_in_mo u U)) as (p & N).
  destruct (In_nth_error _ _ (update_in_mo u' U')) as (q & N').
  destruct (Nat.lt_trichotomy p q) as [L|[->|L]].
  - left. eapply (sections_hb p q u u'); eauto.
  - rewrite N in N'. injection N' as <-.
    destruct u as [t j], a as [t1 i1], b as [t2 i2]. destruct Ou as [E1 _], Ou' as [E2 _].
    simpl in *. subst t1 t2. destruct Ra as (la & La & _), Rb as (lb & Lb & _).
    destruct (Nat.lt_trichotomy i1 i2) as [?|[->|?]]; [left|congruence|right];
      (apply hb_program; [auto| |]); congruence.
  - right. eapply (sections_hb q p u' u); eauto.
Qed.

Lemma touches_ord : forall e x, touches E e x -> ord_ev e.
Proof. intros e x [(v & H)|(v & H)]; eexists; split; eauto. Qed.

Lemma no_race : race_free E.
Proof.
  intros a b (Ne & x & Ta & Tb & _). apply total; [exact Ne| |]; eapply touches_ord; eauto.
Qed.

(** ** The serial order *)
Definition is_upd (e : event) : bool :=
  match lab E e with Some (Update _ _ _) => true | _ => false end.

Definition us : list event := filter is_upd (mo E).

Definition events_of (u : event) : list event :=
  map (pair (fst u)) (section_ix (S (snd u)) (skipn (S (snd u)) (trace E (fst u)))).

Definition all : list event := flat_map events_of us.

Lemma in_us : forall u, In u us <-> lab E u = Some (Update false true AcqRel).
Proof.
  intros u. unfold us. rewrite filter_In. unfold is_upd. split.
  - intros [A B]. destruct (mo_kind u A) as [K|[K _]]; [exact K|]. rewrite K in B. discriminate.
  - intros U. split; [apply update_in_mo; exact U|]. rewrite U. reflexivity.
Qed.

Lemma nth_skipn : forall A (l : list A) n i, nth_error (skipn n l) i = nth_error l (n + i).
Proof. induction l as [|x l IH]; intros [|n] i; simpl; auto. destruct i; reflexivity. Qed.

Lemma in_events_of : forall u e, lab E u = Some (Update false true AcqRel) ->
  (In e (events_of u) <-> owns u e /\ ord_ev e).
Proof.
  intros [t j] [t' i] U. unfold events_of. cbn [fst snd]. rewrite in_map_iff. split.
  - intros (k & K1 & K2). injection K1 as <- <-. apply in_section_ix in K2.
    destruct K2 as (A & (l & B & O) & D). rewrite nth_skipn in B.
    replace (S j + (k - S j)) with k in B by lia.
    assert (Oe : ord_ev (t, k)) by (exists l; split; [exact B|exact O]).
    split; [|exact Oe]. split; [reflexivity|]. cbn [fst snd].
    split; [lia|]. split; [exact U|]. intros m Hm.
    destruct (ord_owner _ Oe) as ([t0 j0] & [E0 J0] & U0). simpl in E0, J0. subst t0.
    assert (Jj : j <= j0).
    { destruct (le_lt_dec j j0); [auto|]. exfalso. destruct J0 as (A0 & B0 & C0).
      destruct (C0 j) as [_ Q]; [lia|]. apply Q. eexists _, _, _; exact U. }
    assert (NS : forall m, j < m < k -> ~ is_store (nth_error (trace E t) m)).
    { intros m' Hm'. specialize (D m' ltac:(lia)). rewrite nth_skipn in D.
      replace (S j + (m' - S j)) with m' in D by lia. exact D. }
    split; [apply NS; lia|].
    (* an update in between would have come after a store *)
    intros (v & w & q & Um).
    assert (Hin : forall m, j < m <= k -> at_ (trace E t) m TIn).
    { intros m0. induction m0 as [|m0 IHm]; [lia|]. intros Hm0.
      destruct (Nat.eq_dec m0 j) as [->|Nm].
      - destruct (at_next _ _ _ (G t) U) as (p & p' & P1 & P2 & P3).
        destruct (tnext_kind _ _ _ P2) as [(? & ? & Q & _)|[(_ & _ & ->)|[(Q & _)|(Q & _)]]]; try discriminate.
        exact P3.
      - specialize (IHm ltac:(lia)).
        destruct (nth_error (trace E t) m0) as [lm|] eqn:Nl.
        2:{ apply nth_error_None in Nl. assert (k < length (trace E t)) by (apply nth_error_Some; congruence). lia. }
        destruct (at_next _ _ _ (G t) Nl) as (p & p' & P1 & P2 & P3).
        pose proof (at_fun _ _ _ _ IHm P1) as <-.
        destruct (tnext_kind _ _ _ P2) as [(? & ? & -> & _)|[(_ & Q & _)|[(_ & _ & ->)|(-> & _)]]].
        + cbn [tnext] in P2. destruct (is_isLocked _); [|discriminate]. injection P2 as <-. exact P3.
        + congruence.
        + exact P3.
        + exfalso. apply (NS m0); [lia|]. rewrite Nl. eexists _, _; reflexivity. }
    destruct (at_next _ _ _ (G t) Um) as (p & p' & P1 & P2 & P3).
    pose proof (at_fun _ _ _ _ (Hin m ltac:(lia)) P1) as <-.
    destruct (tnext_kind _ _ _ P2) as [(? & ? & Q & _)|[(_ & Q & _)|[(Q & _)|(Q & _)]]]; try discriminate.
  - intros [[E1 (A & B & D)] (l & L & O)]. simpl in E1. subst t'. cbn [fst snd] in *.
    exists i. split; [reflexivity|]. apply in_section_ix. split; [lia|]. split.
    + exists l. rewrite nth_skipn. replace (S j + (i - S j)) with i by lia. auto.
    + intros k Hk. rewrite nth_skipn. replace (S j + (k - S j)) with k by lia. apply D. lia.
Qed.

Lemma in_all : forall e, In e all <-> ord_ev e.
Proof.
  intros e. unfold all. rewrite in_flat_map. split.
  - intros (u & A & B). apply in_us in A. apply in_events_of in B; tauto.
  - intros O. destruct (ord_owner e O) as (u & A & U). exists u.
    split; [apply in_us; exact U|]. apply in_events_of; auto.
Qed.

Lemma ss_app : forall A (R : A -> A -> Prop) l1 l2, StronglySorted R l1 -> StronglySorted R l2 ->
  (forall a b, In a l1 -> In b l2 -> R a b) -> StronglySorted R (l1 ++ l2).
Proof.
  intros A R l1 l2 H1 H2 H. induction H1 as [|a l1 H1 IH F]; [exact H2|]. simpl. constructor.
  - apply IH. intros; apply H; [right|]; auto.
  - apply Forall_app. split; [exact F|]. apply Forall_forall. intros b Hb. apply H; [left|]; auto.
Qed.

Lemma ss_flat_map : forall A B (R : B -> B -> Prop) (S : A -> A -> Prop) (f : A -> list B) l,
  StronglySorted S l -> (forall x, In x l -> StronglySorted R (f x)) ->
  (forall x y a b, In x l -> In y l -> S x y -> In a (f x) -> In b (f y) -> R a b) ->
  StronglySorted R (flat_map f l).
Proof.
  intros A B R S f l H1 H2 H3. induction H1 as [|x l H1 IH F]; [constructor|]. simpl.
  apply ss_app.
  - apply H2. left; auto.
  - apply IH; [intros; apply H2; right; auto|]. intros; eapply H3; eauto; right; auto.
  - intros a b Ha Hb. apply in_flat_map in Hb. destruct Hb as (y & Y1 & Y2).
    rewrite Forall_forall in F. apply (H3 x y a b); auto; [left; auto|right; auto].
Qed.

(** [us] in modification order. *)
Definition mo_lt (a b : event) : Prop :=
  exists p q, p < q /\ nth_error (mo E) p = Some a /\ nth_error (mo E) q = Some b.

Lemma ss_nth : forall A (l : list A),
  StronglySorted (fun a b => exists p q, p < q /\ nth_error l p = Some a /\ nth_error l q = Some b) l.
Proof.
  intros A l.
  assert (K : forall l1 l2, l = l1 ++ l2 ->
    StronglySorted (fun a b => exists p q, p < q /\ nth_error l p = Some a /\ nth_error l q = Some b) l2).
  { intros l1 l2. revert l1. induction l2 as [|x l2 IH]; intros l1 H; [constructor|]. constructor.
    - apply (IH (l1 ++ [x])). rewrite <- app_assoc. exact H.
    - apply Forall_forall. intros y Hy. destruct (In_nth_error _ _ Hy) as (k & Hk).
      exists (length l1), (length l1 + S k). split; [lia|]. rewrite H. split.
      + rewrite nth_error_app2, Nat.sub_diag by lia. reflexivity.
      + rewrite nth_error_app2 by lia. replace (length l1 + S k - length l1) with (S k) by lia. exact Hk. }
  exact (K [] l eq_refl).
Qed.

Lemma ss_filter : forall A (R : A -> A -> Prop) f l, StronglySorted R l -> StronglySorted R (filter f l).
Proof.
  intros A R f l H. induction H as [|x l H IH F]; [constructor|]. simpl. destruct (f x); [|exact IH].
  constructor; [exact IH|]. apply Forall_forall. intros y Hy. apply filter_In in Hy.
  rewrite Forall_forall in F. apply F. apply Hy.
Qed.

Lemma us_sorted : StronglySorted mo_lt us.
Proof. apply ss_filter. apply ss_nth. Qed.

Lemma ss_map : forall A B (R : A -> A -> Prop) (S : B -> B -> Prop) (f : A -> B) l,
  (forall x y, In x l -> In y l -> R x y -> S (f x) (f y)) ->
  StronglySorted R l -> StronglySorted S (map f l).
Proof.
  intros A B R S f l H H1. induction H1 as [|x l H1 IH F]; [constructor|]. simpl. constructor.
  - apply IH. intros; apply H; auto; right; auto.
  - apply Forall_forall. intros y Hy. apply in_map_iff in Hy. destruct Hy as (z & <- & Hz).
    rewrite Forall_forall in F. apply H; auto; [left; auto|right; auto].
Qed.

Lemma all_sorted : StronglySorted (hb E) all.
Proof.
  unfold all. eapply ss_flat_map; [exact us_sorted| |].
  - intros u Hu. apply in_us in Hu. unfold events_of.
    eapply ss_map; [|apply section_ix_sorted]. intros i k Hi Hk L.
    assert (O : forall i, In i (section_ix (S (snd u)) (skipn (S (snd u)) (trace E (fst u)))) ->
                 lab E (fst u, i) <> None).
    { intros m Hm. destruct (proj1 (in_events_of u (fst u, m) Hu)) as [_ (l & Hl & _)]; [apply in_map; exact Hm|congruence]. }
    apply hb_program; auto.
  - intros u u' a b Hu Hu' (p & q & L & N & N') Ha Hb.
    apply in_us in Hu. apply in_us in Hu'.
    apply in_events_of in Ha; [|exact Hu]. apply in_events_of in Hb; [|exact Hu'].
    destruct Ha, Hb. eapply sections_hb with (u := u) (u' := u'); eauto.
Qed.

(** Labels of a list of events. *)
Fixpoint labels (es : list event) : list (label X V) :=
  match es with
  | [] => []
  | e :: es' => match lab E e with Some l => l :: labels es' | None => labels es' end
  end.

Lemma labels_app : forall a b, labels (a ++ b) = labels a ++ labels b.
Proof. induction a as [|e a IH]; intros b; simpl; [reflexivity|]. rewrite IH. destruct (lab E e); reflexivity. Qed.

Lemma labels_map : forall es ls, map (lab E) es = map Some ls -> labels es = ls.
Proof.
  induction es as [|e es IH]; intros [|l ls] H; try discriminate; [reflexivity|].
  simpl in H. injection H as H1 H2. simpl. rewrite H1. f_equal. auto.
Qed.

Lemma labels_split : forall es l1 l l2, labels es = l1 ++ l :: l2 ->
  exists e1 e e2, es = e1 ++ e :: e2 /\ lab E e = Some l /\ labels e1 = l1.
Proof.
  induction es as [|e es IH]; intros l1 l l2 H; [destruct l1; discriminate|].
  simpl in H. destruct (lab E e) as [l'|] eqn:L.
  - destruct l1 as [|l0 l1].
    + injection H as -> H. exists [], e, es. auto.
    + injection H as -> H. destruct (IH _ _ _ H) as (e1 & e' & e2 & -> & A & B).
      exists (e :: e1), e', e2. split; [reflexivity|]. split; [exact A|]. simpl. rewrite L, B. reflexivity.
  - destruct (IH _ _ _ H) as (e1 & e' & e2 & -> & A & B).
    exists (e :: e1), e', e2. split; [reflexivity|]. split; [exact A|]. simpl. rewrite L, B. reflexivity.
Qed.

Definition sec_of (u : event) : nat * list (label X V) :=
  (fst u, section (skipn (S (snd u)) (trace E (fst u)))).

Lemma events_labels : forall u, labels (events_of u) = snd (sec_of u).
Proof.
  intros u. apply labels_map. unfold events_of, sec_of. cbn [snd]. rewrite map_map.
  apply section_labels. intros i. rewrite nth_skipn. reflexivity.
Qed.

Lemma all_labels : forall l, labels (flat_map events_of l) = concat (map snd (map sec_of l)).
Proof.
  induction l as [|u l IH]; [reflexivity|]. simpl. rewrite labels_app, events_labels, IH. reflexivity.
Qed.

Lemma ss_split : forall A (R : A -> A -> Prop) l1 x l2, StronglySorted R (l1 ++ x :: l2) ->
  (forall a, In a l1 -> R a x) /\ (forall b, In b l2 -> R x b).
Proof.
  induction l1 as [|a l1 IH]; intros x l2 H; simpl in H; inversion H as [|? ? H1 F]; subst.
  - split; [intros ? []|]. apply Forall_forall. exact F.
  - destruct (IH _ _ H1) as [A1 A2]. split; [|exact A2]. intros b [<-|Hb]; [|auto].
    rewrite Forall_forall in F. apply F. apply in_or_app. right. left. reflexivity.
Qed.

Variable eqb : X -> X -> bool.
Hypothesis eqb_spec : forall x y, eqb x y = true <-> x = y.

Lemma last_none : forall (l : list (label X V)) x d, (forall v, ~ In (Write x v) l) -> last_written eqb x l d = d.
Proof.
  induction l as [|a l IH]; intros x d H; [reflexivity|]. cbn [last_written].
  assert (H' : forall v, ~ In (Write x v) l) by (intros v Hv; apply (H v); right; auto).
  destruct a; auto. destruct (eqb x x0) eqn:Q; auto.
  apply eqb_spec in Q. subst. exfalso. apply (H v). left. reflexivity.
Qed.

Lemma last_app : forall (l1 l2 : list (label X V)) x d,
  last_written eqb x (l1 ++ l2) d = last_written eqb x l2 (last_written eqb x l1 d).
Proof. induction l1 as [|a l1 IH]; intros l2 x d; [reflexivity|]. cbn [app last_written]. destruct a; apply IH. Qed.

Lemma in_labels : forall es l, In l (labels es) -> exists e, In e es /\ lab E e = Some l.
Proof.
  induction es as [|e es IH]; intros l H; [destruct H|]. simpl in H.
  destruct (lab E e) as [l'|] eqn:L.
  - destruct H as [<-|H]; [exists e; split; [left|]; auto|].
    destruct (IH l H) as (e' & A & B). exists e'. split; [right|]; auto.
  - destruct (IH l H) as (e' & A & B). exists e'. split; [right|]; auto.
Qed.

Lemma serial_reads : one_at_a_time eqb init (labels all).
Proof.
  intros l1 x v l2 H. destruct (labels_split _ _ _ _ H) as (e1 & r & e2 & Q & L & <-).
  pose proof all_sorted as Srt. rewrite Q in Srt. destruct (ss_split _ _ _ _ _ Srt) as [S1 S2].
  destruct (rf E r) as [w|] eqn:R.
  - destruct (c_read _ _ C r w x v L R) as (W1 & W2 & W3).
    assert (Wa : In w all) by (apply in_all; exists (Write x v); auto).
    rewrite Q in Wa. apply in_app_or in Wa. destruct Wa as [Wa|[Wa|Wa]].
    + apply in_split in Wa. destruct Wa as (f1 & f2 & ->).
      rewrite labels_app. simpl. rewrite W1, last_app. cbn [last_written].
      rewrite (proj2 (eqb_spec x x) eq_refl).
      rewrite last_none; [reflexivity|].
      intros v' Hv. apply in_labels in Hv. destruct Hv as (w' & A & B).
      apply (W3 w'); [exists v'; exact B| |].
      * assert (Srt' : StronglySorted (hb E) (f1 ++ w :: (f2 ++ r :: e2))) by (rewrite <- app_assoc in Srt; exact Srt).
        apply (ss_split _ _ _ _ _ Srt'). apply in_or_app. left. exact A.
      * apply S1. apply in_or_app. right. right. exact A.
    + subst w. congruence.
    + exfalso. apply W2. apply S2. exact Wa.
  - destruct (c_read_init _ _ C r x v L R) as (-> & W).
    symmetry. apply last_none. intros v' Hv. apply in_labels in Hv. destruct Hv as (w' & A & B).
    apply (W w'); [exists v'; exact B|]. apply S1. exact A.
Qed.

Lemma filter_map : forall A B (f : A -> B) (p : B -> bool) l,
  filter p (map f l) = map f (filter (fun x => p (f x)) l).
Proof. induction l as [|x l IH]; simpl; [reflexivity|]. destruct (p (f x)); simpl; rewrite IH; reflexivity. Qed.

Lemma thread_sections : forall t,
  map (@snd nat (list (label X V))) (filter (fun s => fst s =? t) (map sec_of us)) = sections (trace E t).
Proof.
  intros t. rewrite filter_map. cbn [sec_of fst].
  rewrite (sections_ix (trace E t) (fun j => section (skipn (S j) (trace E t))) 0).
  2:{ intros i _. rewrite Nat.sub_0_r. reflexivity. }
  assert (K : map snd (filter (fun u : event => fst u =? t) us) = update_ix 0 (trace E t)).
  { apply sorted_eq.
    - eapply ss_map; [|apply ss_filter; exact us_sorted].
      intros [t1 i1] [t2 i2] H1 H2 (p & q & L & N & N'). cbn [snd].
      apply filter_In in H1. apply filter_In in H2. destruct H1 as [H1 Q1], H2 as [H2 Q2].
      cbn [fst] in Q1, Q2. apply Nat.eqb_eq in Q1, Q2. subst t1 t2.
      apply in_us in H1. apply in_us in H2.
      destruct (Nat.lt_trichotomy i1 i2) as [?|[->|Lt]]; [auto| |]; exfalso.
      + assert (p = q) by (eapply nth_inj; eauto). lia.
      + assert (Hb : hb E (t, i2) (t, i1)) by (apply hb_program; congruence).
        destruct (before_nth _ _ _ _ (c_mo_hb _ _ C _ _ (update_in_mo _ H2) (update_in_mo _ H1) Hb))
          as (q' & p' & L' & M' & M).
        assert (p = p') by (eapply nth_inj; eauto). assert (q = q') by (eapply nth_inj; eauto). lia.
    - apply update_ix_sorted.
    - intros i. rewrite in_map_iff, in_update_ix, Nat.sub_0_r. split.
      + intros ([t' i'] & <- & H). apply filter_In in H. destruct H as [H Q].
        cbn [fst snd] in *. apply Nat.eqb_eq in Q. subst t'. apply in_us in H.
        split; [lia|]. eexists _, _, _. exact H.
      + intros [_ (v & w & q & H)]. exists (t, i). split; [reflexivity|].
        apply filter_In. split; [|apply Nat.eqb_refl]. apply in_us.
        destruct (update_form _ _ _ _ _ (G t) H) as (-> & -> & ->). exact H. }
  rewrite <- K, !map_map. apply map_ext_in. intros [t' i] H. apply filter_In in H. destruct H as [_ Q].
  cbn [fst snd] in *. apply Nat.eqb_eq in Q. subst t'. reflexivity.
Qed.

Lemma serial : exists secs : list (nat * list (label X V)),
  (forall t, map snd (filter (fun s => fst s =? t) secs) = sections (trace E t)) /\
  (forall t, concat (sections (trace E t)) = filter ordinary (trace E t)) /\
  one_at_a_time eqb init (concat (map snd secs)).
Proof.
  exists (map sec_of us). split; [exact thread_sections|]. split.
  - intros t. apply sections_cover. apply G.
  - rewrite <- all_labels. exact serial_reads.
Qed.

End Executions.
