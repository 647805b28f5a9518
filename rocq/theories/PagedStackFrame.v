(** * PagedStack: what the member functions never touch (from any state). *)
From Coq Require Import List Arith ZArith Lia Bool.
From Verif Require Import Base ListFacts PagedStackModel PagedStackSpec PagedStackExec
  PagedStackProofs.
Import ListNotations.
Open Scope m_scope.

Section Frame.
Context {T : Type}.
Notation stack := (stack T).

(** Outcome [r] of a call made in state [s] respects [R], and [D] if it goes wrong. *)
Definition post {A} (R : stack -> stack -> Prop) (D : bad -> Prop) (s : stack) (r : res stack A) : Prop :=
  match r with ROk s' _ | RThrow s' => R s s' | RBad b => D b end.

Section Rel.
Variables (R : stack -> stack -> Prop) (D : bad -> Prop).
Hypothesis Rrefl : forall s, R s s.
Hypothesis Rtrans : forall s1 s2 s3, R s1 s2 -> R s2 s3 -> R s1 s3.

Lemma post_bind : forall {A B} (m : M stack A) (k : A -> M stack B) s,
  post R D s (m s) -> (forall s' a, m s = ROk s' a -> R s s' -> post R D s' (k a s')) ->
  post R D s (bind m k s).
Proof.
  intros A B m k s H1 H2. unfold bind. destruct (m s) as [s' x|s'|e] eqn:E; simpl in *; auto.
  specialize (H2 s' x eq_refl H1). unfold post in *. destruct (k x s'); eauto.
Qed.

Lemma post_get : forall {B} (k : stack -> M stack B) s,
  post R D s (k s s) -> post R D s (bind get k s).
Proof. auto. Qed.

Lemma post_ret : forall {A} (a : A) s, post R D s (ret a s).
Proof. simpl. auto. Qed.
Lemma post_throw : forall {A} s, post R D s (@throw _ A s).
Proof. simpl. auto. Qed.
Lemma post_put : forall s s', R s s' -> post R D s (put s' s).
Proof. simpl. auto. Qed.
Lemma post_lift : forall {A} (o : option A) s, D UB -> post R D s (lift_opt o s).
Proof. intros A [x|] s H; simpl; auto. Qed.
Lemma post_noexcept : forall {A} (m : M stack A) s, D Terminate ->
  post R D s (m s) -> post R D s (noexcept m s).
Proof. intros A m s H1 H2. unfold noexcept. destruct (m s); simpl in *; auto. Qed.
Lemma post_repeat : forall {A} n (f : A -> M stack A) a s,
  (forall a s, post R D s (f a s)) -> post R D s (repeat_m n f a s).
Proof.
  intros A n. induction n; intros f x s H; simpl; auto.
  apply post_bind; auto.
Qed.
Lemma post_distribute : forall {I} n (deref : I -> M stack T) inc it s,
  (forall a s, post R D s (deref a s)) -> (forall a s, post R D s (inc a s)) ->
  post R D s (distribute deref inc it n s).
Proof.
  intros I n. induction n as [|n IH]; intros deref inc it s H1 H2; simpl; auto.
  destruct n.
  - apply post_bind; [auto|intros; apply post_ret].
  - apply post_bind; [auto|intros]. apply post_bind; [auto|intros].
    apply post_bind; [auto|intros; apply post_ret].
Qed.
End Rel.

Ltac post_step :=
  match goal with
  | |- post _ _ _ (bind get _ _) => apply post_get; cbn beta
  | |- post _ _ _ (bind _ _ _) => apply post_bind; [| |intros]
  | |- post _ _ _ (get _) => simpl
  | |- post _ _ _ (ret _ _) => apply post_ret
  | |- post _ _ _ (throw _) => apply post_throw
  | |- post _ _ _ (put _ _) => apply post_put
  | |- post _ _ _ (lift_opt _ _) => apply post_lift
  | |- post _ _ _ (fail _ _) => simpl
  | |- post _ _ _ ((if ?c then _ else _) _) => destruct c
  | |- post _ _ _ ((match ?c with _ => _ end) _) => destruct c
  | |- post _ _ _ (page_at _ _) => unfold page_at
  | |- post _ _ _ (cur_page _) => unfold cur_page
  | |- post _ _ _ (write_cur _ _) => unfold write_cur
  | |- post _ _ _ (f_inc _ _) => unfold f_inc
  | |- post _ _ _ (f_dec _ _) => unfold f_dec
  | |- post _ _ _ (r_inc _ _) => unfold r_inc
  | |- post _ _ _ (r_dec _ _) => unfold r_dec
  | |- post _ _ _ (begin _) => unfold begin
  | |- post _ _ _ (end_ _) => unfold end_
  | |- post _ _ _ (rbegin _) => unfold rbegin
  | |- post _ _ _ (rend _) => unfold rend
  | |- post _ _ _ (f_deref _ _) => unfold f_deref
  | |- post _ _ _ (r_deref _ _) => unfold r_deref
  | |- post _ _ _ (deref_at _ _ _) => unfold deref_at
  | |- post _ _ _ (internal_from_top _ _) => unfold internal_from_top
  | |- post _ _ _ (internal_discard _ _ _) => unfold internal_discard
  | |- post _ _ _ (internal_shrink_to_fit _) => unfold internal_shrink_to_fit
  | |- post _ _ _ (internal_pop_one _) => unfold internal_pop_one
  | |- post _ _ _ (cur_back _) => unfold cur_back
  | |- post _ _ _ (growBase _) => unfold growBase
  | |- post _ _ _ (advance _) => unfold advance
  | |- post _ _ _ (internal_push_one _ _) => unfold internal_push_one
  | |- post _ _ _ (node_at _ _) => unfold node_at
  | |- post _ _ _ (node_pos _ _) => unfold node_pos
  | |- post _ _ _ (data_pos _ _) => unfold data_pos
  | |- post _ _ _ (sync_new _ _ _) => unfold sync_new
  | |- post _ _ _ (synchronize _ _) => unfold synchronize
  | |- post _ _ _ (distribute _ _ _ _ _) => apply post_distribute; [| |intros|intros]
  | |- post _ _ _ (repeat_m _ _ _ _) => apply post_repeat; [| |intros]
  end.

(** ** The lock *)

Definition same_lock (s s' : stack) : Prop := locked s' = locked s.
Definition not_deadlock (b : bad) : Prop := b <> Deadlock.
Notation lk := (post same_lock not_deadlock).

Lemma same_lock_refl : forall s, same_lock s s.
Proof. reflexivity. Qed.
Lemma same_lock_trans : forall s1 s2 s3, same_lock s1 s2 -> same_lock s2 s3 -> same_lock s1 s3.
Proof. unfold same_lock. congruence. Qed.
Hint Resolve same_lock_refl same_lock_trans : lk.

Ltac lk := repeat (post_step; eauto with lk; try reflexivity; try discriminate;
  try solve [unfold same_lock in *; cbn in *; congruence]).

Lemma internal_push_lk : forall xs s, lk s (internal_push xs s).
Proof.
  induction xs as [|x xs IH]; intros s; [apply post_ret; eauto with lk|].
  cbn [internal_push]. apply post_bind; [eauto with lk| |intros; apply IH]. lk.
Qed.

Lemma internal_pop_lk : forall n s, lk s (internal_pop n s).
Proof.
  induction n as [|n IH]; intros s; [apply post_ret; eauto with lk|].
  cbn [internal_pop]. apply post_bind; [eauto with lk| |intros]; [lk|].
  apply post_bind; [eauto with lk| |intros]; [lk|].
  apply post_bind; [eauto with lk|apply IH|intros; lk].
Qed.

Lemma with_lock_lk : forall {A} (m : M stack A) s, locked s = false ->
  (forall s, lk s (m s)) -> lk s (with_lock m s).
Proof.
  intros A m s H1 H2. unfold with_lock. rewrite H1. specialize (H2 (set_locked true s)).
  destruct (m (set_locked true s)); simpl in *; auto; unfold same_lock; simpl; auto.
Qed.

Definition free_call {A} (m : M stack A) : Prop := forall s, locked s = false -> lk s (m s).

Lemma free_bind : forall {A B} (m : M stack A) (k : A -> M stack B),
  free_call m -> (forall a, free_call (k a)) -> free_call (bind m k).
Proof.
  intros A B m k H1 H2 s Hs. apply post_bind; [eauto with lk|auto|].
  intros s' x _ E. apply H2. congruence.
Qed.
Lemma free_ret : forall {A} (a : A), free_call (ret a).
Proof. intros A x s _. apply post_ret. eauto with lk. Qed.
Lemma free_noexcept : forall {A} (m : M stack A), free_call m -> free_call (noexcept m).
Proof. intros A m H s Hs. apply post_noexcept; auto. discriminate. Qed.
Lemma free_assert : forall debug (c : M stack bool), free_call c -> free_call (cassert debug c).
Proof.
  intros [] c H; [|apply free_ret]. apply free_bind; auto. intros [] s Hs; [apply post_ret; eauto with lk|].
  simpl. discriminate.
Qed.
Lemma free_lock : forall {A} (m : M stack A), (forall s, lk s (m s)) -> free_call (with_lock m).
Proof. intros A m H s Hs. apply with_lock_lk; auto. Qed.
Lemma free_any : forall {A} (m : M stack A), (forall s, lk s (m s)) -> free_call m.
Proof. intros A m H s _. auto. Qed.

Ltac free :=
  repeat match goal with
  | |- free_call (bind _ _) => apply free_bind; [|intros]
  | |- free_call (ret _) => apply free_ret
  | |- free_call (noexcept _) => apply free_noexcept
  | |- free_call (cassert _ _) => apply free_assert
  | |- free_call (with_lock _) => apply free_lock; intros
  | |- free_call (push _ _) => unfold push
  | |- free_call (push_emplace _) => unfold push_emplace
  | |- free_call (pop _) => unfold pop
  | |- free_call (pop_values _ _) => unfold pop_values
  | |- free_call top => unfold top
  | |- free_call (set_top _) => unfold set_top
  | |- free_call (discard _ _) => unfold discard
  | |- free_call (peek _ _) => unfold peek
  | |- free_call (peek_depth _ _ _) => unfold peek_depth
  | |- free_call (peek_reverse _ _) => unfold peek_reverse
  | |- free_call size => unfold size
  | |- free_call empty => unfold empty
  | |- free_call shrink_to_fit => unfold shrink_to_fit
  | |- free_call (pop_reverse _ _) => unfold pop_reverse
  | |- free_call (from_top _ _) => unfold from_top
  | |- free_call (discard_f _) => unfold discard_f
  | |- free_call (discard_r _) => unfold discard_r
  | |- free_call clear => unfold clear
  | |- free_call getStats => unfold getStats
  | |- free_call sync_begin => unfold sync_begin
  | |- free_call sync_end => unfold sync_end
  | |- free_call (s_get _) => unfold s_get
  | |- free_call (s_inc _) => unfold s_inc
  | |- free_call (s_dec _) => unfold s_dec
  | |- free_call (s_eq _ _) => unfold s_eq
  | |- free_call (s_copy _) => unfold s_copy
  | |- free_call (s_destroy _) => unfold s_destroy
  | |- free_call (f_plus _ _) => unfold f_plus
  | |- free_call (f_minus _ _) => unfold f_minus
  | |- free_call (r_plus _ _) => unfold r_plus
  | |- free_call (r_minus _ _) => unfold r_minus
  | |- free_call _ => apply free_any; intros; lk
  | |- lk _ (internal_push _ _) => apply internal_push_lk
  | |- lk _ (internal_pop _ _) => apply internal_pop_lk
  | _ => progress lk
  end.

Lemma exec_free : forall debug o, free_call (exec debug o).
Proof. intros debug o. destruct o; cbn [exec]; free. Qed.

Lemma run_free : forall debug ops, free_call (run debug ops).
Proof.
  intros debug ops. induction ops as [|o ops IH]; cbn [run]; [free|].
  apply free_bind; [apply exec_free|intros]. apply free_bind; [apply IH|intros; free].
Qed.

Lemma getStats_free : free_call getStats. Proof. free. Qed.
Lemma from_top_free : forall debug d, free_call (from_top debug d). Proof. intros. free. Qed.
Lemma iters_free : free_call begin /\ free_call end_ /\ free_call rbegin /\ free_call rend.
Proof. repeat split; free. Qed.
Lemma f_moves_free : forall n it, free_call (f_plus n it) /\ free_call (f_minus n it) /\ free_call (f_deref it).
Proof. intros. repeat split; free. Qed.
Lemma r_moves_free : forall n it, free_call (r_plus n it) /\ free_call (r_minus n it) /\ free_call (r_deref it).
Proof. intros. repeat split; free. Qed.
Lemma sync_free : free_call sync_begin /\ free_call sync_end /\
  forall it it', free_call (s_get it) /\ free_call (s_inc it) /\ free_call (s_dec it) /\
    free_call (s_eq it it') /\ free_call (s_copy it) /\ free_call (s_destroy it).
Proof. repeat split; free. Qed.

(** ** The pages of calls other than push and shrink_to_fit *)

Definition same_nodes (s s' : stack) : Prop :=
  length (pages s') = length (pages s) /\ ids s' = ids s /\ next_id s' = next_id s /\
  page_size s' = page_size s /\ alloc_size s' = alloc_size s /\
  sync_count s' = sync_count s /\ shrink_req s' = shrink_req s.
Definition whatever (b : bad) : Prop := True.
Notation nd := (post same_nodes whatever).

Lemma same_nodes_refl : forall s, same_nodes s s.
Proof. repeat split. Qed.
Lemma same_nodes_trans : forall s1 s2 s3, same_nodes s1 s2 -> same_nodes s2 s3 -> same_nodes s1 s3.
Proof. unfold same_nodes. intuition congruence. Qed.
Hint Resolve same_nodes_refl same_nodes_trans : lk.

Lemma set_pages_nodes : forall s p, length p = length (pages s) -> same_nodes s (set_pages p s).
Proof. intros. repeat split. auto. Qed.
Lemma set_cur_nodes : forall s c, same_nodes s (set_cur c s).
Proof. intros. repeat split. Qed.

Lemma unwind_length : forall target c pgs r,
  @unwind T target c pgs = Some r -> length (fst r) = length pgs.
Proof.
  intros target c. induction c; intros pgs r H; cbn [unwind] in H.
  - destruct (0 =? target); [|discriminate]. injection H as <-. auto.
  - destruct (S c =? target); [injection H as <-; auto|].
    apply IHc in H. rewrite H. apply upd_length.
Qed.

Lemma discard_loop_length : forall count c pgs r,
  @discard_loop T count c pgs = Some r -> length (fst r) = length pgs.
Proof.
  intros count c. revert count. induction c; intros count pgs r H; cbn [discard_loop] in H;
    destruct (nth_error pgs _); try discriminate; destruct (_ <=? _).
  - injection H as <-. destruct pgs; simpl; rewrite ?upd_length; auto.
  - injection H as <-. destruct pgs; simpl; rewrite ?upd_length; auto.
  - apply IHc in H. rewrite H. apply upd_length.
  - injection H as <-. destruct pgs; simpl; rewrite ?upd_length; auto.
Qed.

Ltac nd := repeat (post_step; eauto with lk; try exact I;
  try solve [repeat split; cbn; try rewrite upd_length; auto]).

Lemma internal_pop_nd : forall n s, nd s (internal_pop n s).
Proof.
  induction n as [|n IH]; intros s; [apply post_ret; eauto with lk|].
  cbn [internal_pop]. apply post_bind; [eauto with lk| |intros]; [nd|].
  apply post_bind; [eauto with lk| |intros]; [nd|].
  apply post_bind; [eauto with lk|apply IH|intros; nd].
Qed.

Lemma internal_discard_nd : forall i z s, nd s (internal_discard i z s).
Proof.
  intros i z s. unfold internal_discard. apply post_get. 
  destruct (unwind i (cur s) (pages s)) as [r|] eqn:E; [|exact I].
  apply unwind_length in E. cbn [lift_opt]. unfold bind at 1. cbn [ret].
  apply post_bind; [eauto with lk| |intros].
  - repeat split. cbn. auto.
  - nd.
Qed.

Lemma with_lock_nd : forall {A} (m : M stack A) s,
  (forall s, nd s (m s)) -> nd s (with_lock m s).
Proof.
  intros A m s H2. unfold with_lock. destruct (locked s); [exact I|]. specialize (H2 (set_locked true s)).
  destruct (m (set_locked true s)); simpl in *; auto.
Qed.

Definition keeps {A} (m : M stack A) : Prop := forall s, nd s (m s).

Lemma keeps_bind : forall {A B} (m : M stack A) (k : A -> M stack B),
  keeps m -> (forall a, keeps (k a)) -> keeps (bind m k).
Proof. intros A B m k H1 H2 s. apply post_bind; [eauto with lk|auto|]. intros. apply H2. Qed.
Lemma keeps_ret : forall {A} (a : A), keeps (ret a).
Proof. intros A x s. apply post_ret. eauto with lk. Qed.
Lemma keeps_noexcept : forall {A} (m : M stack A), keeps m -> keeps (noexcept m).
Proof. intros A m H s. apply post_noexcept; auto. exact I. Qed.
Lemma keeps_assert : forall debug (c : M stack bool), keeps c -> keeps (cassert debug c).
Proof.
  intros [] c H; [|apply keeps_ret]. apply keeps_bind; auto. intros [] s; [apply post_ret; eauto with lk|exact I].
Qed.
Lemma keeps_lock : forall {A} (m : M stack A), (forall s, nd s (m s)) -> keeps (with_lock m).
Proof. intros A m H s. apply with_lock_nd; auto. Qed.

Lemma discard_loop_nd : forall n s,
  nd s ((s0 <- get;; r <- lift_opt (discard_loop n (cur s0) (pages s0));;
         put (set_cur (snd r) (set_pages (fst r) s0))) s).
Proof.
  intros n s. apply post_get. destruct (discard_loop n (cur s) (pages s)) as [r|] eqn:E; [|exact I].
  apply discard_loop_length in E. simpl. repeat split. auto.
Qed.

Lemma unwind_nd : forall n s,
  nd s ((s0 <- get;; r <- lift_opt (unwind n (cur s0) (pages s0));;
         put (set_cur (snd r) (set_pages (fst r) s0))) s).
Proof.
  intros n s. apply post_get. destruct (unwind n (cur s) (pages s)) as [r|] eqn:E; [|exact I].
  apply unwind_length in E. simpl. repeat split. auto.
Qed.

Ltac keeps :=
  repeat match goal with
  | |- keeps (bind _ _) => apply keeps_bind; [|intros]
  | |- keeps (ret _) => apply keeps_ret
  | |- keeps (noexcept _) => apply keeps_noexcept
  | |- keeps (cassert _ _) => apply keeps_assert
  | |- keeps (with_lock _) => apply keeps_lock; intros
  | |- keeps (pop _) => unfold pop
  | |- keeps (pop_values _ _) => unfold pop_values
  | |- keeps top => unfold top
  | |- keeps (set_top _) => unfold set_top
  | |- keeps (discard _ _) => unfold discard
  | |- keeps (peek _ _) => unfold peek
  | |- keeps (peek_depth _ _ _) => unfold peek_depth
  | |- keeps (peek_reverse _ _) => unfold peek_reverse
  | |- keeps size => unfold size
  | |- keeps empty => unfold empty
  | |- keeps (pop_reverse _ _) => unfold pop_reverse
  | |- keeps (from_top _ _) => unfold from_top
  | |- keeps (discard_f _) => unfold discard_f
  | |- keeps (discard_r _) => unfold discard_r
  | |- keeps clear => unfold clear
  | |- keeps (f_plus _ _) => unfold f_plus
  | |- keeps _ => intros ?; nd
  | |- nd _ (internal_pop _ _) => apply internal_pop_nd
  | |- nd _ (internal_discard _ _ _) => apply internal_discard_nd
  | |- nd _ ((s0 <- get;; r <- lift_opt (discard_loop _ (cur s0) (pages s0));; _) _) => apply discard_loop_nd
  | |- nd _ ((s0 <- get;; r <- lift_opt (unwind _ (cur s0) (pages s0));; _) _) => apply unwind_nd
  | |- nd _ (bind _ _ _) => apply post_bind; [eauto with lk| |intros]
  | _ => progress nd
  end.

Definition makes_pages (o : op T) : bool := is_push o || match o with Shrink => true | _ => false end.

Lemma exec_keeps : forall debug o, makes_pages o = false -> keeps (exec debug o).
Proof. intros debug o H. destruct o; try discriminate; cbn [exec]; keeps. Qed.

(** ** Push only extends pages *)

Definition extends (s s' : stack) : Prop :=
  (forall i p, nth_error (pages s) i = Some p -> exists q, nth_error (pages s') i = Some (p ++ q)) /\
  (exists more, ids s' = ids s ++ more) /\
  page_size s' = page_size s /\ alloc_size s' = alloc_size s /\
  sync_count s' = sync_count s /\ shrink_req s' = shrink_req s /\ next_id s <= next_id s'.
Notation ex := (post extends whatever).

Lemma extends_refl : forall s, extends s s.
Proof.
  intros s. repeat split; auto.
  - intros i p H. exists []. rewrite app_nil_r. auto.
  - exists []. rewrite app_nil_r. auto.
Qed.
Lemma extends_trans : forall s1 s2 s3, extends s1 s2 -> extends s2 s3 -> extends s1 s3.
Proof.
  intros s1 s2 s3 (A1 & [m1 A2] & A3 & A4 & A5 & A6 & A7) (B1 & [m2 B2] & B3 & B4 & B5 & B6 & B7).
  split.
  - intros i p H. apply A1 in H. destruct H as [q H]. apply B1 in H. destruct H as [q' H].
    exists (q ++ q'). rewrite app_assoc. auto.
  - split; [exists (m1 ++ m2); rewrite B2, A2, app_assoc; auto|]. repeat split; try congruence. lia.
Qed.
Hint Resolve extends_refl extends_trans : lk.

Lemma internal_push_one_ex : forall x s, ex s (internal_push_one x s).
Proof.
  intros x s. unfold internal_push_one. apply post_bind; [eauto with lk| |intros].
  - unfold advance. apply post_bind; [eauto with lk| |intros].
    + unfold cur_page, page_at. repeat post_step; eauto with lk. exact I.
    + post_step. post_step; [|post_step; eauto with lk].
      apply post_bind; [eauto with lk| |intros].
      * post_step. destruct (extends_refl s') as (E1 & E2 & E3). repeat split; auto.
      * post_step. post_step; [|post_step; eauto with lk].
        unfold growBase. post_step. post_step. split.
        { cbn. intros i p Hi. exists []. rewrite app_nil_r. rewrite nth_error_app1; auto.
          apply nth_error_Some. congruence. }
        split; [cbn; eauto|]. repeat split. cbn. lia.
  - unfold cur_page, page_at. unfold bind, get. 
    destruct (nth_error (pages s') (cur s')) as [p|] eqn:E; [|exact I]. cbn. split; [|split].
    + cbn. intros i q Hi. destruct (Nat.eq_dec i (cur s')) as [->|N].
      * rewrite Hi in E. injection E as ->. exists [x]. erewrite nth_error_upd_eq by eauto. auto.
      * exists []. rewrite app_nil_r, nth_error_upd_neq by auto. auto.
    + exists []. cbn. rewrite app_nil_r. auto.
    + repeat split; cbn; auto.
Qed.

Lemma internal_push_ex : forall xs s, ex s (internal_push xs s).
Proof.
  induction xs as [|x xs IH]; intros s; [apply post_ret; eauto with lk|].
  cbn [internal_push]. apply post_bind; [eauto with lk|apply internal_push_one_ex|intros; apply IH].
Qed.

Lemma with_lock_ex : forall {A} (m : M stack A) s,
  (forall s, ex s (m s)) -> ex s (with_lock m s).
Proof.
  intros A m s H2. unfold with_lock. destruct (locked s); [exact I|]. specialize (H2 (set_locked true s)).
  destruct (m (set_locked true s)); simpl in *; auto; exact H2.
Qed.

Lemma exec_push_ex : forall debug o s, is_push o = true -> ex s (exec debug o s).
Proof.
  intros debug o s H. destruct o; try discriminate; cbn [exec].
  - apply post_bind; [eauto with lk| |intros; apply post_ret; eauto with lk].
    apply with_lock_ex. intros. apply internal_push_ex.
  - apply post_bind; [eauto with lk| |intros; apply post_ret; eauto with lk].
    apply with_lock_ex. intros. apply (internal_push_one_ex x s0).
Qed.

End Frame.
