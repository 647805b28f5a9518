(** * PagedStack: every history, also those that are not [careful]. *)
From Coq Require Import List Arith ZArith Lia Bool Permutation.
From Verif Require Import Base ListFacts PagedStackModel PagedStackSpec PagedStackExec
  PagedStackProofs PagedStackFrame PagedStackIter PagedStackMisc PagedStackSafeSpec.
Import ListNotations.
Open Scope m_scope.

Section Safe.
Context {T : Type}.
Notation stack := (stack T).

(** The representation without the bound on the pages. *)
Notation loose := (@repc T False).
Notation lshape := (@shapec T False).

Lemma push_one_loose : forall ps asz b t a ids nid sc sr lk x,
  1 <= asz -> lshape ps b t ->
  exists g b' t' a' ids' nid',
    internal_push_one x (mkStack ps asz (b ++ t :: a) ids nid (length b) sc sr lk) =
      ROk (mkStack ps asz (b' ++ t' :: a') ids' nid' (length b') sc sr lk) tt /\
    lshape ps b' t' /\ concat b' ++ t' = (concat b ++ t) ++ g ++ [x].
Proof.
  intros ps asz b t a ids nid sc sr lk x Hasz Hs.
  unfold internal_push_one, advance.
  destruct (Nat.eqb_spec (length t) ps) as [Ht|Ht].
  - assert (Sh : forall g, lshape ps (b ++ [t]) (g ++ [x])).
    { intros g. destruct Hs as [Hf Htp Hc Hz]. constructor.
      - apply Forall_app. auto.
      - intros E. destruct g; discriminate.
      - tauto.
      - intros E. rewrite app_length. simpl. rewrite (Htp (proj1 (length_zero_iff_nil t) (eq_trans Ht E))).
        simpl. lia. }
    destruct a as [|g a].
    + exists [], (b ++ [t]), [x], (repeat [] (asz - 1)), (ids ++ seq nid asz), (nid + asz).
      split.
      { unfold bind. rewrite cur_page_at. msimp.
        rewrite (proj2 (Nat.eqb_eq _ _) Ht).
        assert (LB : S (length b) = length (b ++ [t])) by (rewrite app_length; simpl; lia).
        rewrite LB, Nat.eqb_refl.
        unfold growBase. msimp.
        destruct asz as [|asz]; [lia|].
        replace (S asz - 1) with asz by lia.
        change (repeat [] (S asz)) with (@nil T :: repeat [] asz).
        rewrite nth_error_mid. msimp. rewrite upd_mid. reflexivity. }
      split; [apply (Sh [])|].
      rewrite concat_app. simpl. rewrite app_nil_r. reflexivity.
    + exists g, (b ++ [t]), (g ++ [x]), a, ids, nid.
      split.
      { unfold bind. rewrite cur_page_at. msimp.
        rewrite (proj2 (Nat.eqb_eq _ _) Ht).
        replace (S (length b) =? length (b ++ t :: g :: a)) with false.
        2:{ symmetry. apply Nat.eqb_neq. rewrite app_length. simpl. lia. }
        replace (S (length b)) with (length (b ++ [t])) by (rewrite app_length; simpl; lia).
        replace (b ++ t :: g :: a) with ((b ++ [t]) ++ g :: a)
          by (rewrite <- app_assoc; reflexivity).
        msimp. rewrite nth_error_mid. msimp. rewrite upd_mid. reflexivity. }
      split; [apply Sh|].
      rewrite concat_app. simpl. rewrite app_nil_r, <- !app_assoc. reflexivity.
  - exists [], b, (t ++ [x]), a, ids, nid. split.
    { unfold bind. rewrite cur_page_at. msimp.
      rewrite (proj2 (Nat.eqb_neq _ _) Ht). msimp. rewrite nth_error_mid. msimp. rewrite upd_mid. reflexivity. }
    split.
    { destruct Hs as [Hf Htp Hc Hz]. constructor; auto; try tauto.
      intros E. destruct t; discriminate. }
    rewrite <- app_assoc. reflexivity.
Qed.

Lemma push_loose : forall xs ps asz b t a ids nid sc sr lk,
  1 <= asz -> lshape ps b t ->
  exists b' t' a' ids' nid',
    internal_push xs (mkStack ps asz (b ++ t :: a) ids nid (length b) sc sr lk) =
      ROk (mkStack ps asz (b' ++ t' :: a') ids' nid' (length b') sc sr lk) tt /\
    lshape ps b' t' /\ pushed xs (rev (concat b ++ t)) (rev (concat b' ++ t')).
Proof.
  induction xs as [|x xs IH]; intros ps asz b t a ids nid sc sr lk Hasz Hs.
  - exists b, t, a, ids, nid. split; [reflexivity|]. split; [assumption|constructor].
  - destruct (push_one_loose ps asz b t a ids nid sc sr lk x Hasz Hs)
      as (g & b1 & t1 & a1 & i1 & n1 & H1 & H2 & H3).
    destruct (IH ps asz b1 t1 a1 i1 n1 sc sr lk Hasz H2)
      as (b2 & t2 & a2 & i2 & n2 & G1 & G2 & G3).
    exists b2, t2, a2, i2, n2. cbn [internal_push]. erewrite bind_ok by apply H1.
    split; [apply G1|]. split; [assumption|].
    apply (pushed_one x xs (rev g)).
    replace (x :: rev g ++ rev (concat b ++ t)) with (rev (concat b1 ++ t1)); [exact G3|].
    rewrite H3, (rev_app_distr (concat b ++ t) (g ++ [x])), (rev_app_distr g [x]). reflexivity.
Qed.

Lemma push_list_loose : forall xs (s : stack) l, loose s l ->
  exists s' l', with_lock (internal_push xs) s = ROk s' tt /\ loose s' l' /\ same_frame s s' /\
    pushed xs l l'.
Proof.
  intros xs s l (b & t & a & R1 & R2 & R3 & R4 & R5 & R6).
  destruct s as [ps asz pgs i n c sc sr lk]. cbn in *. subst.
  destruct (push_loose xs ps asz b t a i n sc sr true R4 R3) as (b' & t' & a' & i' & n' & H4 & H5 & H6).
  eexists _, _. split; [apply with_lock_ok; [reflexivity|apply H4]|].
  split; [|split; [|exact H6]].
  - exists b', t', a'. cbn. repeat split; auto; apply H5.
  - repeat split.
Qed.

Lemma push_emplace_loose : forall x (s : stack),
  push_emplace x s = with_lock (internal_push [x]) s.
Proof.
  intros x s. unfold push_emplace, with_lock. destruct (locked s); auto.
  cbn [internal_push]. unfold internal_push_one, bind, ret.
  destruct (advance (set_locked true s)) as [s1 ?| |]; auto.
  destruct (cur_page s1) as [s2 p| |]; auto.
Qed.

(** ** What is in the pages *)

Section Within.
Variable V : list T.

(** [p'] is a part of [p], and no value is there more often than in [V]. *)
Definition sub (p' p : list T) : Prop := exists r, Permutation p (p' ++ r).

(** Only values of [V], and no more than the page size on the first page. *)
Definition within (s : stack) : Prop :=
  sub (concat (pages s)) V /\
  (1 <= page_size s -> length (hd [] (pages s)) <= page_size s).
Definition keepw (s s' : stack) : Prop := within s -> within s'.
Notation wn := (post keepw whatever).

Lemma keepw_refl : forall s, keepw s s. Proof. unfold keepw. auto. Qed.
Lemma keepw_trans : forall s1 s2 s3, keepw s1 s2 -> keepw s2 s3 -> keepw s1 s3.
Proof. unfold keepw. auto. Qed.
Hint Resolve keepw_refl keepw_trans : wn.

Lemma sub_refl : forall p, sub p p. Proof. intros p. exists []. rewrite app_nil_r. auto. Qed.
Lemma sub_nil : forall p, sub [] p. Proof. intros p. exists p. auto. Qed.
Lemma sub_trans : forall a b c, sub a b -> sub b c -> sub a c.
Proof.
  intros a b c [r R] [q Q]. exists (r ++ q). rewrite Q, R, app_assoc. auto.
Qed.
Lemma sub_firstn : forall n p, sub (firstn n p) p.
Proof. intros n p. exists (skipn n p). rewrite firstn_skipn. auto. Qed.
Lemma sub_app : forall a b c, sub a b -> sub (a ++ c) (b ++ c).
Proof.
  intros a b c [r R]. exists r. rewrite R, <- !app_assoc. apply Permutation_app_head, Permutation_app_comm.
Qed.

Lemma upd_concat : forall (pgs : list (list T)) c p f, nth_error pgs c = Some p ->
  exists A, Permutation (concat pgs) (p ++ A) /\ Permutation (concat (upd c f pgs)) (f p ++ A).
Proof.
  intros pgs. induction pgs as [|q pgs IH]; intros [|c] p f N; try discriminate; cbn [nth_error] in N.
  - injection N as ->. exists (concat pgs). auto.
  - destruct (IH c p f N) as (A & H1 & H2). exists (q ++ A). cbn [upd concat]. rewrite H1, H2.
    split; rewrite !app_assoc; apply Permutation_app_tail, Permutation_app_comm.
Qed.

Lemma within_upd : forall pgs ps c p f,
  sub (concat pgs) V -> (1 <= ps -> length (hd [] pgs) <= ps) ->
  nth_error pgs c = Some p -> sub (f p) p ->
  (c = 0 -> 1 <= ps -> length p <= ps -> length (f p) <= ps) ->
  sub (concat (upd c f pgs)) V /\ (1 <= ps -> length (hd [] (upd c f pgs)) <= ps).
Proof.
  intros pgs ps c p f F L N W B. split.
  - destruct (upd_concat pgs c p f N) as (A & H1 & H2).
    eapply sub_trans; [|exact F]. destruct (sub_app _ _ A W) as [r R]. exists r. rewrite H1, H2. exact R.
  - destruct pgs as [|q pgs]; [destruct c; discriminate|]. destruct c; cbn [nth_error] in N; cbn [upd hd] in *; auto.
    injection N as ->. auto.
Qed.

Lemma within_none : forall c f (pgs : list (list T)), nth_error pgs c = None -> upd c f pgs = pgs.
Proof.
  intros c f pgs. revert c. induction pgs as [|q pgs IH]; intros [|c] H; auto; try discriminate.
  cbn [upd]. rewrite IH; auto.
Qed.

Lemma within_clear : forall pgs ps c,
  sub (concat pgs) V -> (1 <= ps -> length (hd [] pgs) <= ps) ->
  sub (concat (upd c (fun _ => []) pgs)) V /\
  (1 <= ps -> length (hd [] (upd c (fun _ => []) pgs)) <= ps).
Proof.
  intros pgs ps c F L. destruct (nth_error pgs c) as [p|] eqn:N.
  - eapply within_upd; eauto; [apply sub_nil|cbn; intros; lia].
  - rewrite within_none; auto.
Qed.

Lemma unwind_within : forall target c pgs r ps,
  sub (concat pgs) V -> (1 <= ps -> length (hd [] pgs) <= ps) ->
  @unwind T target c pgs = Some r ->
  sub (concat (fst r)) V /\ (1 <= ps -> length (hd [] (fst r)) <= ps).
Proof.
  intros target c. induction c; intros pgs r ps F L H; cbn [unwind] in H.
  - destruct (0 =? target); [|discriminate]. injection H as <-. auto.
  - destruct (S c =? target); [injection H as <-; auto|].
    destruct (within_clear pgs ps (S c) F L) as [F1 L1]. eapply IHc; eauto.
Qed.

Lemma discard_loop_within : forall c count pgs r ps,
  sub (concat pgs) V -> (1 <= ps -> length (hd [] pgs) <= ps) ->
  @discard_loop T count c pgs = Some r ->
  sub (concat (fst r)) V /\ (1 <= ps -> length (hd [] (fst r)) <= ps).
Proof.
  intros c. induction c; intros count pgs r ps F L H; cbn [discard_loop] in H;
    destruct (nth_error pgs _) as [p|] eqn:N; try discriminate; destruct (_ <=? _);
    cbv zeta in H.
  - injection H as <-. apply (within_clear pgs ps 0); auto.
  - injection H as <-. eapply (within_upd pgs ps 0 p (fun _ => firstn (length p - count) p)); eauto.
    + apply sub_firstn.
    + intros. rewrite firstn_length. lia.
  - destruct (within_clear pgs ps (S c) F L) as [F1 L1]. eapply IHc; eauto.
  - injection H as <-. eapply (within_upd pgs ps (S c) p (fun _ => firstn (length p - count) p)); eauto.
    + apply sub_firstn.
    + intros. rewrite firstn_length. lia.
Qed.

(** Writing a part of the current page. *)
Lemma write_within : forall s p p', nth_error (pages s) (cur s) = Some p -> sub p' p ->
  (cur s = 0 -> 1 <= page_size s -> length p <= page_size s -> length p' <= page_size s) ->
  keepw s (set_pages (upd (cur s) (fun _ => p') (pages s)) s).
Proof.
  intros s p p' N W B [F L].
  apply (within_upd (pages s) (page_size s) (cur s) p (fun _ => p') F L N W B).
Qed.

Lemma cur_page_inv : forall (s s' : stack) p, cur_page s = ROk s' p -> s' = s /\ nth_error (pages s) (cur s) = Some p.
Proof.
  intros s s' p H. unfold cur_page, page_at in H. msimp.
  destruct (nth_error (pages s) (cur s)); [|discriminate]. injection H as <- <-. auto.
Qed.

Lemma removelast_sub : forall l, sub (removelast l) l.
Proof. intros l. rewrite removelast_firstn_len. apply sub_firstn. Qed.
Lemma removelast_len : forall l : list T, length (removelast l) <= length l.
Proof. intros l. rewrite removelast_firstn_len, firstn_length. lia. Qed.

Lemma pop_one_wn : forall s, wn s (internal_pop_one s).
Proof.
  intros s. unfold internal_pop_one. unfold bind at 1. destruct (cur_page s) as [s1 p| |] eqn:E.
  - apply cur_page_inv in E. destruct E as [-> N]. destruct p as [|x p]; [exact I|]. cbv zeta.
    apply post_bind; [eauto with wn| |intros].
    + apply post_get. apply post_put. eapply write_within; eauto.
      * apply removelast_sub.
      * intros. pose proof (removelast_len (x :: p)). lia.
    + apply post_get. destruct (removelast (x :: p)); [|apply post_ret; eauto with wn].
      destruct (cur s') ; [apply post_ret; eauto with wn|]. apply post_put. intros K. exact K.
  - unfold cur_page, page_at in E. msimp. destruct (nth_error (pages s) (cur s)); discriminate.
  - exact I.
Qed.

Lemma cur_page_wn : forall s, wn s (cur_page s).
Proof.
  intros s. unfold cur_page, page_at. msimp. destruct (nth_error (pages s) (cur s)); cbn; auto.
  - apply keepw_refl.
  - exact I.
Qed.

Lemma internal_pop_wn : forall n s, wn s (internal_pop n s).
Proof.
  induction n as [|n IH]; intros s; [apply post_ret; eauto with wn|].
  cbn [internal_pop]. apply post_bind; [eauto with wn| |intros].
  - unfold cur_back. apply post_bind; [eauto with wn|apply cur_page_wn|intros]. apply post_lift; [eauto with wn|exact I].
  - apply post_bind; [eauto with wn|apply pop_one_wn|intros].
    apply post_bind; [eauto with wn|apply IH|intros]. apply post_ret. eauto with wn.
Qed.

Lemma internal_discard_wn : forall i z s, wn s (internal_discard i z s).
Proof.
  intros i z s. unfold internal_discard. apply post_get.
  destruct (unwind i (cur s) (pages s)) as [r|] eqn:E; [|exact I].
  cbn [lift_opt]. unfold bind at 1. cbn [ret].
  apply post_bind; [eauto with wn| |intros].
  - apply post_put. intros [F L]. destruct (unwind_within _ _ _ _ _ F L E) as [F1 L1]. split; auto.
  - unfold bind at 1. destruct (cur_page s') as [s2 p| |] eqn:E2; [|
      unfold cur_page, page_at in E2; msimp; destruct (nth_error (pages s') (cur s')); discriminate|exact I].
    apply cur_page_inv in E2. destruct E2 as [-> N].
    destruct (z =? 0)%Z.
    + apply post_get. destruct (cur s') eqn:C.
      * apply post_get. rewrite C. apply post_put.
        rewrite <- C at 1. eapply write_within; [rewrite C; exact N|apply sub_nil|cbn; lia].
      * apply post_put. intros K. exact K.
    + destruct (z <? 0)%Z; [apply post_throw; eauto with wn|].
      destruct (Z.to_nat z <=? length p); [|exact I].
      apply post_get. apply post_put. eapply write_within; eauto.
      * apply sub_firstn.
      * intros. rewrite firstn_length. lia.
Qed.

Definition keepsw {A} (m : M stack A) : Prop := forall s, wn s (m s).

Lemma keepsw_bind : forall {A B} (m : M stack A) (k : A -> M stack B),
  keepsw m -> (forall a, keepsw (k a)) -> keepsw (bind m k).
Proof. intros A B m k H1 H2 s. apply post_bind; [eauto with wn|auto|]. intros. apply H2. Qed.
Lemma keepsw_ret : forall {A} (a : A), keepsw (ret a).
Proof. intros A x s. apply post_ret. eauto with wn. Qed.
Lemma keepsw_noexcept : forall {A} (m : M stack A), keepsw m -> keepsw (noexcept m).
Proof. intros A m H s. apply post_noexcept; auto. exact I. Qed.
Lemma keepsw_assert : forall debug (c : M stack bool), keepsw c -> keepsw (cassert debug c).
Proof.
  intros [] c H; [|apply keepsw_ret]. apply keepsw_bind; auto. intros [] s; [apply post_ret; eauto with wn|exact I].
Qed.
Lemma keepsw_lock : forall {A} (m : M stack A), (forall s, wn s (m s)) -> keepsw (with_lock m).
Proof.
  intros A m H s. unfold with_lock. destruct (locked s); [exact I|]. specialize (H (set_locked true s)).
  destruct (m (set_locked true s)); cbn in *; auto; intros K; apply H; exact K.
Qed.

Lemma discard_loop_wn : forall n s,
  wn s ((s0 <- get;; r <- lift_opt (discard_loop n (cur s0) (pages s0));;
         put (set_cur (snd r) (set_pages (fst r) s0))) s).
Proof.
  intros n s. apply post_get. destruct (discard_loop n (cur s) (pages s)) as [r|] eqn:E; [|exact I].
  cbn. intros [F L]. destruct (discard_loop_within _ _ _ _ _ F L E) as [F1 L1]. split; auto.
Qed.

Lemma unwind_wn : forall n s,
  wn s ((s0 <- get;; r <- lift_opt (unwind n (cur s0) (pages s0));;
         put (set_cur (snd r) (set_pages (fst r) s0))) s).
Proof.
  intros n s. apply post_get. destruct (unwind n (cur s) (pages s)) as [r|] eqn:E; [|exact I].
  cbn. intros [F L]. destruct (unwind_within _ _ _ _ _ F L E) as [F1 L1]. split; auto.
Qed.

Lemma shrink_wn : forall s,
  wn s ((s <- get ;; if (sync_count s >? 0)%Z then put (set_shrink true s) else internal_shrink_to_fit) s).
Proof.
  intros s. apply post_get. destruct (_ >? _)%Z; [apply post_put; intros K; exact K|].
  unfold internal_shrink_to_fit. apply post_bind; [eauto with wn|apply cur_page_wn|intros].
  apply post_get. apply post_put. intros [F L]. split; cbn [pages set_pages set_ids page_size].
  - eapply sub_trans; [|exact F]. exists (concat (skipn (S (cur s')) (pages s'))).
    rewrite <- concat_app, firstn_skipn. auto.
  - intros P. specialize (L P). destruct (pages s'); exact L.
Qed.

Ltac post_step :=
  match goal with
  | |- post _ _ _ (bind get _ _) => apply post_get; cbn beta
  | |- post _ _ _ (bind _ _ _) => apply post_bind; [| |intros]
  | |- post _ _ _ (get _) => simpl
  | |- post _ _ _ (ret _ _) => apply post_ret
  | |- post _ _ _ (throw _) => apply post_throw
  | |- post _ _ _ (put _ _) => apply post_put
  | |- post _ _ _ (lift_opt _ _) => apply post_lift
  | |- post _ _ _ (fail _ _) => simpl
  | |- post _ _ _ ((if ?c then _ else _) _) => destruct c
  | |- post _ _ _ ((match ?c with _ => _ end) _) => destruct c
  | |- post _ _ _ (page_at _ _) => unfold page_at
  | |- post _ _ _ (cur_page _) => unfold cur_page
  | |- post _ _ _ (write_cur _ _) => unfold write_cur
  | |- post _ _ _ (f_inc _ _) => unfold f_inc
  | |- post _ _ _ (f_dec _ _) => unfold f_dec
  | |- post _ _ _ (r_inc _ _) => unfold r_inc
  | |- post _ _ _ (r_dec _ _) => unfold r_dec
  | |- post _ _ _ (begin _) => unfold begin
  | |- post _ _ _ (end_ _) => unfold end_
  | |- post _ _ _ (rbegin _) => unfold rbegin
  | |- post _ _ _ (rend _) => unfold rend
  | |- post _ _ _ (f_deref _ _) => unfold f_deref
  | |- post _ _ _ (r_deref _ _) => unfold r_deref
  | |- post _ _ _ (deref_at _ _ _) => unfold deref_at
  | |- post _ _ _ (internal_from_top _ _) => unfold internal_from_top
  | |- post _ _ _ (internal_discard _ _ _) => unfold internal_discard
  | |- post _ _ _ (internal_shrink_to_fit _) => unfold internal_shrink_to_fit
  | |- post _ _ _ (internal_pop_one _) => unfold internal_pop_one
  | |- post _ _ _ (cur_back _) => unfold cur_back
  | |- post _ _ _ (growBase _) => unfold growBase
  | |- post _ _ _ (advance _) => unfold advance
  | |- post _ _ _ (internal_push_one _ _) => unfold internal_push_one
  | |- post _ _ _ (node_at _ _) => unfold node_at
  | |- post _ _ _ (node_pos _ _) => unfold node_pos
  | |- post _ _ _ (data_pos _ _) => unfold data_pos
  | |- post _ _ _ (sync_new _ _ _) => unfold sync_new
  | |- post _ _ _ (synchronize _ _) => unfold synchronize
  | |- post _ _ _ (distribute _ _ _ _ _) => apply post_distribute; [| |intros|intros]
  | |- post _ _ _ (repeat_m _ _ _ _) => apply post_repeat; [| |intros]
  end.

Ltac wnd := repeat (post_step; eauto with wn; try exact I).

Ltac keepsw :=
  repeat match goal with
  | |- keepsw (bind _ _) => apply keepsw_bind; [|intros]
  | |- keepsw (ret _) => apply keepsw_ret
  | |- keepsw (noexcept _) => apply keepsw_noexcept
  | |- keepsw (cassert _ _) => apply keepsw_assert
  | |- keepsw (with_lock _) => apply keepsw_lock; intros
  | |- keepsw (pop _) => unfold pop
  | |- keepsw (pop_values _ _) => unfold pop_values
  | |- keepsw top => unfold top
  | |- keepsw (discard _ _) => unfold discard
  | |- keepsw (peek _ _) => unfold peek
  | |- keepsw (peek_depth _ _ _) => unfold peek_depth
  | |- keepsw (peek_reverse _ _) => unfold peek_reverse
  | |- keepsw size => unfold size
  | |- keepsw empty => unfold empty
  | |- keepsw (pop_reverse _ _) => unfold pop_reverse
  | |- keepsw (from_top _ _) => unfold from_top
  | |- keepsw (discard_f _) => unfold discard_f
  | |- keepsw (discard_r _) => unfold discard_r
  | |- keepsw clear => unfold clear
  | |- keepsw (f_plus _ _) => unfold f_plus
  | |- keepsw _ => intros ?; wnd
  | |- wn _ (internal_pop_one _) => apply pop_one_wn
  | |- wn _ (internal_pop _ _) => apply internal_pop_wn
  | |- wn _ (internal_discard _ _ _) => apply internal_discard_wn
  | |- wn _ ((s0 <- get;; r <- lift_opt (discard_loop _ (cur s0) (pages s0));; _) _) => apply discard_loop_wn
  | |- wn _ ((s0 <- get;; r <- lift_opt (unwind _ (cur s0) (pages s0));; _) _) => apply unwind_wn
  | |- wn _ (bind _ _ _) => apply post_bind; [eauto with wn| |intros]
  | _ => progress wnd
  end.

Lemma exec_wn : forall debug o, puts o = [] -> keepsw (exec debug o).
Proof.
  intros debug o Hi.
  assert (Sh : keepsw (exec debug Shrink)).
  { cbn [exec]. apply keepsw_bind; [|intros; apply keepsw_ret]. apply keepsw_lock. intros. apply shrink_wn. }
  destruct o; try discriminate; try exact Sh; cbn [exec]; keepsw.
Qed.

End Within.

(** What a call puts in comes on top of that. *)
Definition after {A} (V : list T) (r : res stack A) : Prop :=
  match r with ROk s' _ | RThrow s' => within V s' | RBad _ => True end.

Lemma wn_after : forall {A} V s (r : res stack A), within V s -> post (keepw V) whatever s r -> after V r.
Proof. intros A V s r W H. destruct r; cbn in *; auto. Qed.

Lemma put_page : forall V x s p p' q, within V s -> nth_error (pages s) (cur s) = Some p ->
  Permutation p (q ++ p') -> (cur s = 0 -> 1 <= page_size s -> length p <= page_size s -> length (p' ++ [x]) <= page_size s) ->
  within (V ++ [x]) (set_pages (upd (cur s) (fun _ => p' ++ [x]) (pages s)) s).
Proof.
  intros V x s p p' q [[r R] L] N Q B.
  destruct (upd_concat (pages s) (cur s) p (fun _ => p' ++ [x]) N) as (A & H1 & H2). split.
  - exists (q ++ r). cbn [pages set_pages]. rewrite R, H1, H2, Q, <- !app_assoc.
    rewrite (Permutation_app_swap_app q p'). apply Permutation_app_head.
    rewrite (Permutation_app_swap_app q A).
    replace (A ++ q ++ r ++ [x]) with ((A ++ q ++ r) ++ [x]) by (rewrite <- !app_assoc; reflexivity).
    apply Permutation_app_comm.
  - cbn [pages set_pages page_size]. destruct (pages s) as [|u pgs]; [destruct (cur s); discriminate|].
    destruct (cur s); cbn [nth_error] in N; cbn [upd hd] in *; auto. injection N as ->. auto.
Qed.

Lemma add_after : forall V x s, within V s ->
  (forall p, nth_error (pages s) (cur s) = Some p -> cur s = 0 -> length p <> page_size s) ->
  after (V ++ [x]) ((p <- cur_page ;; write_cur (p ++ [x])) s).
Proof.
  intros V x s W B. unfold bind. destruct (cur_page s) as [s1 p| |] eqn:E; [| |exact I].
  2:{ unfold cur_page, page_at in E; msimp; destruct (nth_error (pages s) (cur s)); discriminate. }
  apply cur_page_inv in E. destruct E as [-> N]. specialize (B _ N).
  apply (put_page V x s p p []); auto.
  intros C P L. specialize (B C). rewrite app_length. cbn. lia.
Qed.

Lemma push_one_after : forall V x s, within V s -> after (V ++ [x]) (internal_push_one x s).
Proof.
  intros V x s W. unfold internal_push_one, advance.
  unfold bind at 1. unfold bind at 1. destruct (cur_page s) as [s1 p| |] eqn:E; [| |exact I].
  2:{ unfold cur_page, page_at in E; msimp; destruct (nth_error (pages s) (cur s)); discriminate. }
  apply cur_page_inv in E. destruct E as [-> N]. unfold bind at 1, get at 1. cbv beta iota.
  destruct (Nat.eqb_spec (length p) (page_size s)) as [L|L].
  - unfold bind at 1, put at 1. cbv beta iota. unfold bind at 1, get at 1. cbv beta iota.
    destruct (_ =? _).
    + unfold growBase. unfold bind at 1, get at 1, put at 1. cbv beta iota zeta.
      apply add_after; [|cbn; discriminate].
      destruct W as [F H]. split; cbn.
      * rewrite concat_app. replace (concat (repeat (@nil T) (alloc_size s))) with (@nil T).
        -- rewrite app_nil_r. exact F.
        -- induction (alloc_size s); auto.
      * destruct (pages s) as [|q pgs]; [destruct (cur s); discriminate|]. exact H.
    + unfold ret at 1. cbv beta iota. apply add_after; [exact W|cbn; discriminate].
  - unfold ret at 1. cbv beta iota. apply add_after; auto. intros q Nq _. rewrite N in Nq. injection Nq as <-. auto.
Qed.

Lemma push_after : forall xs V s, within V s -> after (V ++ xs) (internal_push xs s).
Proof.
  induction xs as [|x xs IH]; intros V s W; [rewrite app_nil_r; exact W|].
  cbn [internal_push]. unfold bind. pose proof (push_one_after V x s W) as A.
  destruct (internal_push_one x s) as [s1 []|s1|]; cbn in A |- *; auto.
  - replace (V ++ x :: xs) with ((V ++ [x]) ++ xs) by (rewrite <- app_assoc; reflexivity). apply IH. exact A.
  - destruct A as [F L]. split; auto. eapply sub_trans; [exact F|].
    exists xs. rewrite <- app_assoc. auto.
Qed.

Lemma lock_after : forall {A} (m : M stack A) V W s,
  (forall s, within V s -> after W (m s)) -> within V s -> after W (with_lock m s).
Proof.
  intros A m V W s H K. unfold with_lock. destruct (locked s); [exact I|]. specialize (H (set_locked true s) K).
  destruct (m (set_locked true s)); cbn in *; auto.
Qed.

Lemma unit_after : forall {A} V (m : M stack unit) (a : A) s, after V (m s) -> after V ((m ;;; ret a) s).
Proof. intros A V m a s H. unfold bind. destruct (m s); cbn in *; auto. Qed.

Lemma exec_after : forall debug o V s, within V s -> after (V ++ puts o) (exec debug o s).
Proof.
  intros debug o V s W.
  assert (G : puts o = [] -> after (V ++ puts o) (exec debug o s)).
  { intros E. rewrite E, app_nil_r. eapply wn_after; [exact W|]. apply exec_wn; auto. }
  destruct o; try (apply G; reflexivity); clear G; cbn [exec puts].
  - apply unit_after. eapply lock_after; [|exact W]. intros. apply push_after; auto.
  - apply unit_after. rewrite push_emplace_loose. eapply lock_after; [|exact W]. intros. apply push_after; auto.
  - apply unit_after. unfold set_top, noexcept.
    assert (K : after (V ++ [x]) (with_lock (p <- cur_page ;; match p with [] => fail UB | _ => write_cur (removelast p ++ [x]) end) s)).
    { eapply lock_after; [|exact W]. clear s W. intros s W. unfold bind. destruct (cur_page s) as [s1 p| |] eqn:E; [| |exact I].
      2:{ unfold cur_page, page_at in E; msimp; destruct (nth_error (pages s) (cur s)); discriminate. }
      apply cur_page_inv in E. destruct E as [-> N]. destruct p as [|y p]; [exact I|].
      destruct (removelast_sub (y :: p)) as [q Q]. apply (put_page V x s (y :: p) (removelast (y :: p)) q); auto.
      - rewrite Q at 1. apply Permutation_app_comm.
      - intros C P L. rewrite app_length, removelast_firstn_len, firstn_length. cbn [length] in *. lia. }
    destruct (with_lock _ s); cbn in *; auto.
Qed.

Lemma holds_det : forall (s : stack) l l', holds s l -> holds s l' -> l = l'.
Proof.
  intros s l l' (a & e & A & E & L) (a' & e' & A' & E' & L').
  rewrite A in A'. injection A' as <-. rewrite E in E'. injection E' as <-. eapply f_loop_det; eauto.
Qed.

(** One call on any reachable object. *)
Lemma exec_loose : forall debug o (s : stack) l l1 r,
  loose s l -> (1 <= page_size s -> length (hd [] (pages s)) <= page_size s) ->
  spec_step o l = Some (l1, r) ->
  exists s' l', exec debug o s = ROk s' r /\ loose s' l' /\ same_frame s s' /\
    tolerated (page_size s) o l l1 l'.
Proof.
  intros debug o s l l1 r R P Sp.
  assert (G : is_push o = false -> o <> Clear -> exists s' l', exec debug o s = ROk s' r /\ loose s' l' /\ same_frame s s' /\
    tolerated (page_size s) o l l1 l').
  { intros Np Nc. destruct (exec_ok debug o s l l1 r R) as (s' & E1 & E2 & E3 & _); auto.
    - congruence.
    - contradiction.
    - exists s', l1. split; [exact E1|]. split; [exact E2|]. split; [exact E3|]. destruct o; try discriminate; try congruence; reflexivity. }
  destruct o; try (apply G; [reflexivity|discriminate]); clear G; cbn [spec_step exec tolerated] in *.
  - injection Sp as <- <-. destruct (push_list_loose (x :: xs) s l R) as (s' & l' & E1 & E2 & E3 & E4).
    exists s', l'. unfold push. erewrite bind_ok by apply E1. auto.
  - injection Sp as <- <-. destruct (push_list_loose [x] s l R) as (s' & l' & E1 & E2 & E3 & E4).
    exists s', l'. erewrite bind_ok by (rewrite push_emplace_loose; apply E1). auto.
  - injection Sp as <- <-. destruct (clear_eq s l R) as (s' & E1 & E2 & E3 & _).
    eexists s', _. erewrite bind_ok by apply E1. split; [reflexivity|]. split; [exact E2|]. split; [exact E3|].
    destruct R as (b & t & a & R1 & R2 & R3 & R4 & R5 & R6). rewrite R1 in *. subst l. split.
    + destruct b as [|q b].
      * exists 0. reflexivity.
      * cbn. rewrite <- app_assoc, rev_app_distr. exists (length (rev (concat b ++ t))).
        rewrite skipn_length_app. reflexivity.
    + intros Hp. specialize (P Hp). destruct b; cbn in *; rewrite rev_length; exact P.
Qed.

Lemma construct_loose : forall ps pa, 1 <= pa -> loose (construct ps pa) [].
Proof. intros ps pa H. apply (construct_repc (cap := False) ps pa H). Qed.

Lemma lives_inv : forall debug ps pa ops (s : stack) l, 1 <= pa -> lives debug ps pa ops s l ->
  loose s l /\ page_size s = ps /\ within (flat_map puts ops) s.
Proof.
  intros debug ps pa ops s l Hpa H. induction H as [|ops s l o l1 r s' r' l' H IH Sp Ex Ho].
  - split; [apply construct_loose; auto|]. split; [reflexivity|]. split; cbn.
    + replace (concat (repeat (@nil T) pa)) with (@nil T) by (clear; induction pa; auto). apply sub_refl.
    + destruct pa; cbn; lia.
  - destruct IH as (R & Ps & W). pose proof W as [_ P].
    destruct (exec_loose debug o s l l1 r R P Sp) as (s2 & l2 & E1 & E2 & E3 & E4).
    rewrite Ex in E1. injection E1 as <- ->.
    pose proof (forward_ok s' l2 E2) as F. pose proof (holds_det s' l' l2 Ho F) as ->.
    split; [exact E2|]. split; [destruct E3; congruence|].
    pose proof (exec_after debug o (flat_map puts ops) s W) as K. rewrite Ex in K.
    rewrite flat_map_app. cbn [flat_map]. rewrite app_nil_r. exact K.
Qed.

Lemma safe : forall debug ps pa ops (s : stack) l o l1 r,
  1 <= pa -> lives debug ps pa ops s l -> spec_step o l = Some (l1, r) ->
  exists s' l', exec debug o s = ROk s' r /\ holds s' l' /\ lives debug ps pa (ops ++ [o]) s' l' /\
    tolerated ps o l l1 l'.
Proof.
  intros debug ps pa ops s l o l1 r Hpa H Sp.
  destruct (lives_inv debug ps pa ops s l Hpa H) as (R & Ps & W). pose proof W as [_ P].
  destruct (exec_loose debug o s l l1 r R P Sp) as (s2 & l2 & E1 & E2 & E3 & E4).
  pose proof (forward_ok s2 l2 E2) as F. exists s2, l2. split; [exact E1|]. split; [exact F|].
  split; [eapply lives_call; eauto|]. rewrite <- Ps. exact E4.
Qed.

Lemma origin : forall debug ps pa ops (s : stack) l,
  1 <= pa -> lives debug ps pa ops s l -> exists gone, Permutation (flat_map puts ops) (l ++ gone).
Proof.
  intros debug ps pa ops s l Hpa H.
  destruct (lives_inv debug ps pa ops s l Hpa H) as ((b & t & a & R1 & R2 & R3 & R4 & R5 & R6) & Ps & [r W] & _).
  exists (concat a ++ r). rewrite W, R1, R6, concat_app. cbn [concat].
  rewrite <- (Permutation_rev (concat b ++ t)), <- !app_assoc. auto.
Qed.

End Safe.
