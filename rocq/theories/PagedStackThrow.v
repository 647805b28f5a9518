(** * PagedStack with failing elements and allocations: proofs. *)
From Coq Require Import List Arith ZArith Lia Bool.
From Verif Require Import Base ListFacts PagedStackModel PagedStackSpec PagedStackExec
  PagedStackProofs PagedStackThrowSpec PagedStackThrowModel.
Import ListNotations.
Open Scope m_scope.

Section Throw.
Context {T : Type}.
Implicit Types (b a : list (list T)) (t p : list T) (s : stack T).

(** ** Without failures the functions are those of PagedStackModel.v *)

Definition fine (x : T) : arg T := mkArg x false None.

Lemma advance_x_ok : forall s,
  advance_x None s = match @advance T s with
                     | ROk s' _ => ROk s' None
                     | RThrow s' => RThrow s'
                     | RBad e => RBad e
                     end.
Proof.
  intros [ps asz pgs i n c sc sr lk]. unfold advance_x, advance, growBase_x, growBase. msimp.
  destruct (nth_error pgs c) as [p|]; [|reflexivity]. msimp.
  destruct (length p =? ps); [|reflexivity]. msimp.
  destruct (S c =? length pgs); [|reflexivity]. msimp.
  replace (S (S c - 1)) with (S c) by lia. reflexivity.
Qed.

Lemma store_x_ok : forall x s,
  store_x (fine x) s = match internal_push_one x s with
                       | ROk s' _ => ROk s' None
                       | RThrow s' => RThrow s'
                       | RBad e => RBad e
                       end.
Proof.
  intros x s. unfold store_x, internal_push_one, fine. cbn [a_memory a_throws a_value].
  unfold bind. rewrite advance_x_ok.
  destruct (advance s) as [s1 []|s1|]; try reflexivity.
  destruct (cur_page s1) as [s2 p2|s2|]; try reflexivity.
Qed.

Lemma internal_push_x_ok : forall xs s,
  internal_push_x (map fine xs) s = match internal_push xs s with
                       | ROk s' _ => ROk s' None
                       | RThrow s' => RThrow s'
                       | RBad e => RBad e
                       end.
Proof.
  induction xs as [|x xs IH]; intros s; cbn [map internal_push_x internal_push]; [reflexivity|].
  unfold bind. rewrite store_x_ok. destruct (internal_push_one x s) as [s1 []|s1|]; auto.
Qed.

(** ** Page lists with an empty current page *)

Record wshape (ps : nat) b t : Prop := {
  ws_full : Forall (fun p => length p = ps) b;
  ws_cap : length t <= ps
}.

Lemma shape_wshape : forall ps b t, 1 <= ps -> shape ps b t -> wshape ps b t.
Proof. intros ps b t P [F _ C _]. constructor; auto. Qed.

Lemma wshape_shape : forall ps b t, 1 <= ps -> wshape ps b t -> (t = [] -> b = []) -> shape ps b t.
Proof. intros ps b t P [F C] E. constructor; auto. lia. Qed.

Lemma store_x_shape : forall ps asz b t a ids nid sc sr lk x,
  1 <= ps -> 1 <= asz -> wshape ps b t -> Forall (fun p => p = []) a ->
  exists b' t' a' ids' nid' r,
    store_x x (mkStack ps asz (b ++ t :: a) ids nid (length b) sc sr lk) =
      ROk (mkStack ps asz (b' ++ t' :: a') ids' nid' (length b') sc sr lk) r /\
    wshape ps b' t' /\ Forall (fun p => p = []) a' /\
    match r with
    | None => stored x /\ concat b' ++ t' = (concat b ++ t) ++ [a_value x] /\ t' <> []
    | Some ElementThrew => a_throws x = true /\ concat b' ++ t' = concat b ++ t
    | Some OutOfMemory => a_memory x <> None /\ b' = b /\ t' = t /\ t' <> []
    end.
Proof.
  intros ps asz b t a ids nid sc sr lk x Hps Hasz [Hf Hc] Ha.
  assert (St : forall b1 t1 a1 i1 n1, wshape ps b1 t1 -> length t1 < ps ->
    Forall (fun p => p = []) a1 -> concat b1 ++ t1 = concat b ++ t ->
    exists b' t' a' ids' nid' r,
    (p <- cur_page ;; if a_throws x then ret (Some ElementThrew)
      else write_cur (p ++ [a_value x]) ;;; ret None)
      (mkStack ps asz (b1 ++ t1 :: a1) i1 n1 (length b1) sc sr lk) =
      ROk (mkStack ps asz (b' ++ t' :: a') ids' nid' (length b') sc sr lk) r /\
    wshape ps b' t' /\ Forall (fun p => p = []) a' /\
    match r with
    | None => stored x /\ concat b' ++ t' = (concat b ++ t) ++ [a_value x] /\ t' <> []
    | Some ElementThrew => a_throws x = true /\ concat b' ++ t' = concat b ++ t
    | Some OutOfMemory => a_memory x <> None /\ b' = b /\ t' = t /\ t' <> []
    end).
  { intros b1 t1 a1 i1 n1 [F1 C1] L1 A1 E1. unfold stored. destruct (a_throws x) eqn:X.
    - exists b1, t1, a1, i1, n1, (Some ElementThrew). unfold bind. rewrite cur_page_at.
      repeat split; auto.
    - exists b1, (t1 ++ [a_value x]), a1, i1, n1, None. unfold bind. rewrite cur_page_at.
      msimp. rewrite upd_mid. split; [reflexivity|]. split.
      { constructor; auto. rewrite app_length. simpl. lia. }
      split; [auto|]. split; [auto|]. split; [rewrite app_assoc, E1; auto|]. destruct t1; discriminate. }
  unfold store_x, advance_x. unfold bind at 1 2. rewrite cur_page_at.
  unfold get at 1. unfold bind at 1. cbn [page_size].
  destruct (Nat.eqb_spec (length t) ps) as [Ht|Ht].
  - destruct a as [|p a].
    + assert (LB : (S (length b) =? length (b ++ [t])) = true)
        by (apply Nat.eqb_eq; rewrite app_length; simpl; lia).
      unfold put, bind, get. cbn [set_cur cur pages]. rewrite LB.
      replace (S (length b) - 1) with (length b) by lia.
      destruct (a_memory x) as [k|] eqn:Mm.
      * exists b, t, (repeat [] (Nat.min k asz)), (ids ++ seq nid (Nat.min k asz)),
          (nid + Nat.min k asz), (Some OutOfMemory).
        unfold growBase_x. msimp. rewrite <- app_assoc.
        split; [reflexivity|]. split; [constructor; auto|]. split.
        { apply Forall_forall. intros q Hq. apply repeat_spec in Hq. auto. }
        repeat split; try congruence. intros ->. simpl in Ht. lia.
      * unfold growBase_x, growBase. msimp. destruct asz as [|asz]; [lia|].
        cbn [repeat].
        replace (S (length b)) with (length (b ++ [t])) by (rewrite app_length; simpl; lia).
        apply (St (b ++ [t]) [] (repeat [] asz) (ids ++ seq nid (S asz)) (nid + S asz)).
        -- constructor; [apply Forall_app; auto|simpl; lia].
        -- simpl; lia.
        -- apply Forall_forall. intros q Hq. apply repeat_spec in Hq. auto.
        -- rewrite concat_app. simpl. rewrite !app_nil_r. reflexivity.
    + inversion Ha; subst p.
      assert (LB : (S (length b) =? length (b ++ t :: [] :: a)) = false).
      { apply Nat.eqb_neq. rewrite app_length. simpl. lia. }
      unfold put, bind at 1, get. cbn [set_cur cur pages]. unfold bind at 1. cbn [set_cur cur pages].
      rewrite LB. unfold ret at 1. unfold set_cur. cbn [page_size alloc_size pages PagedStackModel.ids next_id sync_count shrink_req locked].
      replace (S (length b)) with (length (b ++ [t])) by (rewrite app_length; simpl; lia).
      replace (b ++ t :: [] :: a) with ((b ++ [t]) ++ [] :: a)
        by (rewrite <- app_assoc; reflexivity).
      apply (St (b ++ [t]) [] a ids nid).
      * constructor; [apply Forall_app; auto|simpl; lia].
      * simpl; lia.
      * auto.
      * rewrite concat_app. simpl. rewrite !app_nil_r. reflexivity.
  - unfold ret at 1. apply (St b t a ids nid); auto; [constructor; auto|lia].
Qed.

Lemma internal_push_x_shape : forall xs ps asz b t a ids nid sc sr lk,
  1 <= ps -> 1 <= asz -> wshape ps b t -> Forall (fun p => p = []) a ->
  exists b' t' a' ids' nid' r,
    internal_push_x xs (mkStack ps asz (b ++ t :: a) ids nid (length b) sc sr lk) =
      ROk (mkStack ps asz (b' ++ t' :: a') ids' nid' (length b') sc sr lk) r /\
    wshape ps b' t' /\ Forall (fun p => p = []) a' /\
    match r with
    | None => Forall stored xs /\ concat b' ++ t' = (concat b ++ t) ++ values xs /\
              (xs <> [] \/ t <> [] -> t' <> [])
    | Some e =>
        exists done x rest, xs = done ++ x :: rest /\ Forall stored done /\
          concat b' ++ t' = (concat b ++ t) ++ values done /\
          match e with
          | ElementThrew => a_throws x = true
          | OutOfMemory => a_memory x <> None /\ t' <> []
          end
    end.
Proof.
  induction xs as [|x xs IH]; intros ps asz b t a ids nid sc sr lk Hps Hasz Hs Ha.
  - exists b, t, a, ids, nid, None. unfold values. simpl. rewrite app_nil_r.
    repeat split; auto; try apply Hs. intros [K|K]; [congruence|exact K].
  - destruct (store_x_shape ps asz b t a ids nid sc sr lk x Hps Hasz Hs Ha)
      as (b1 & t1 & a1 & i1 & n1 & r1 & H1 & H2 & H3 & H4).
    cbn [internal_push_x]. unfold bind. rewrite H1.
    destruct r1 as [[]|].
    + exists b1, t1, a1, i1, n1, (Some ElementThrew). destruct H4 as [H4 H5].
      split; [reflexivity|]. split; [auto|]. split; [auto|].
      exists [], x, xs. unfold values. simpl. rewrite app_nil_r. auto.
    + exists b1, t1, a1, i1, n1, (Some OutOfMemory). destruct H4 as (H4 & -> & -> & H5).
      split; [reflexivity|]. split; [auto|]. split; [auto|].
      exists [], x, xs. unfold values. simpl. rewrite app_nil_r. auto.
    + destruct H4 as (H4 & H5 & H6).
      destruct (IH ps asz b1 t1 a1 i1 n1 sc sr lk Hps Hasz H2 H3)
        as (b2 & t2 & a2 & i2 & n2 & r2 & G1 & G2 & G3 & G4).
      exists b2, t2, a2, i2, n2, r2. split; [exact G1|]. split; [auto|]. split; [auto|].
      destruct r2 as [e|].
      * destruct G4 as (done & y & rest & -> & K2 & K3 & K4).
        exists (x :: done), y, rest. split; [reflexivity|]. split; [constructor; auto|].
        split; [|exact K4]. rewrite K3, H5. unfold values. simpl. rewrite <- !app_assoc. reflexivity.
      * destruct G4 as (K1 & K2 & K3). split; [constructor; auto|]. split.
        -- rewrite K2, H5. unfold values. simpl. rewrite <- !app_assoc. reflexivity.
        -- intros _. auto.
Qed.

(** ** Representation: the usual one, or an empty current page above full ones *)

Definition gapped s (l : list T) : Prop :=
  exists b a,
    pages s = b ++ [] :: a /\ cur s = length b /\ b <> [] /\
    Forall (fun p => length p = page_size s) b /\ Forall (fun p => p = []) a /\
    1 <= alloc_size s /\ locked s = false /\ l = rev (concat b).

Definition holds (gap : bool) s (l : list T) : Prop :=
  1 <= page_size s /\ ((rep s l /\ clean s) \/ (gap = true /\ gapped s l)).

Lemma gapped_boundary : forall s l, 1 <= page_size s -> gapped s l ->
  on_boundary (page_size s) (length l) = true.
Proof.
  intros s l P (b & a & _ & _ & B & F & _ & _ & _ & ->). unfold on_boundary.
  rewrite rev_length, (concat_uniform_length (page_size s)) by auto.
  destruct b as [|p b]; [congruence|]. cbn [length].
  rewrite Nat.mod_mul by lia. simpl. destruct (page_size s); [lia|]. reflexivity.
Qed.

Lemma holds_wshape : forall gap s l, holds gap s l ->
  exists b t a, pages s = b ++ t :: a /\ cur s = length b /\ wshape (page_size s) b t /\
    Forall (fun p => p = []) a /\ 1 <= alloc_size s /\ locked s = false /\ l = rev (concat b ++ t).
Proof.
  intros gap s l [P [[H C]|[_ H]]].
  - destruct H as (b & t & a & H1 & H2 & H3 & H4 & H5 & H6). exists b, t, a.
    rewrite (clean_split s b t a H1 H2) in C. repeat split; auto; apply (shape_wshape _ _ _ P H3).
  - destruct H as (b & a & H1 & H2 & H3 & H4 & H5 & H6 & H7 & H8). exists b, [], a.
    rewrite app_nil_r. repeat split; auto. simpl. lia.
Qed.

Lemma wshape_holds : forall gap s b t a l,
  1 <= page_size s -> pages s = b ++ t :: a -> cur s = length b -> wshape (page_size s) b t ->
  Forall (fun p => p = []) a -> 1 <= alloc_size s -> locked s = false -> l = rev (concat b ++ t) ->
  (t = [] -> b <> [] -> gap = true) -> holds gap s l.
Proof.
  intros gap s b t a l P H1 H2 H3 H4 H5 H6 H7 G. split; [auto|].
  destruct b as [|q b]; [|destruct t as [|y t]].
  - left. split; [|apply (clean_split s [] t a H1 H2); auto].
    exists [], t, a. repeat split; auto; try apply H3; intros; simpl; try lia; apply H3.
  - right. split; [apply G; auto; discriminate|].
    exists (q :: b), a. rewrite app_nil_r in H7. repeat split; auto; try apply H3. discriminate.
  - left. split; [|apply (clean_split s (q :: b) (y :: t) a H1 H2); auto].
    exists (q :: b), (y :: t), a. repeat split; auto; try apply H3; try discriminate; intros; try lia; apply H3.
Qed.

Lemma boundary_of : forall ps b t, 1 <= ps -> wshape ps b t -> t = [] -> b <> [] ->
  on_boundary ps (length (rev (concat b ++ t))) = true.
Proof.
  intros ps b t P [F _] -> B. rewrite app_nil_r. unfold on_boundary.
  rewrite rev_length, (concat_uniform_length ps) by auto.
  destruct b as [|p b]; [congruence|]. cbn [length].
  rewrite Nat.mod_mul by lia. simpl. destruct ps; [lia|]. reflexivity.
Qed.

Lemma push_x_ok : forall gap xs s l, holds gap s l -> xs <> [] ->
  exists s' r l', with_lock (internal_push_x xs) s = ROk s' r /\ same_frame s s' /\
    match r with
    | None => Forall stored xs /\ l' = rev (values xs) ++ l /\ holds false s' l'
    | Some e => exists done x rest, xs = done ++ x :: rest /\ Forall stored done /\
          l' = rev (values done) ++ l /\
          match e with
          | ElementThrew => a_throws x = true /\ holds (on_boundary (page_size s) (length l')) s' l'
          | OutOfMemory => a_memory x <> None /\ holds false s' l'
          end
    end.
Proof.
  intros gap xs s l H Hx. pose proof (proj1 H) as P.
  destruct (holds_wshape gap s l H) as (b & t & a & H1 & H2 & H3 & H4 & H5 & H6 & ->).
  destruct s as [ps asz pgs ids nid c sc sr lk]. cbn [page_size alloc_size pages cur locked] in *. subst.
  destruct (internal_push_x_shape xs ps asz b t a ids nid sc sr true P H5 H3 H4)
    as (b' & t' & a' & i' & n' & r & G1 & G2 & G3 & G4).
  eexists _, r, (rev (concat b' ++ t')).
  split; [apply with_lock_ok; [reflexivity|exact G1]|]. split; [repeat split|].
  assert (W : forall gap', (t' = [] -> b' <> [] -> gap' = true) ->
    holds gap' (set_locked false (mkStack ps asz (b' ++ t' :: a') i' n' (length b') sc sr true))
      (rev (concat b' ++ t'))).
  { intros. eapply wshape_holds with (b := b') (t := t') (a := a'); simpl; auto. }
  destruct r as [e|].
  - destruct G4 as (done & x & rest & K1 & K2 & K3 & K4).
    exists done, x, rest. split; [auto|]. split; [auto|].
    split; [rewrite K3; apply rev_app_distr|].
    destruct e.
    + split; [auto|]. apply W. intros. apply boundary_of; auto.
    + split; [apply K4|]. apply W. intros; exfalso. apply (proj2 K4); auto.
  - destruct G4 as (K1 & K2 & K3). split; [auto|].
    split; [rewrite K2; apply rev_app_distr|].
    apply W. intros E _. exfalso. apply K3; auto.
Qed.

(** ** pop into targets that may fail *)

Lemma internal_pop_x_shape : forall ts ps asz nid i sc sr lk b t a,
  shape ps b t -> length ts <= length (concat b ++ t) ->
  exists b' t' a' k r,
    internal_pop_x ts (mkStack ps asz (b ++ t :: a) i nid (length b) sc sr lk) =
      ROk (mkStack ps asz (b' ++ t' :: a') i nid (length b') sc sr lk)
          (firstn k (rev (concat b ++ t)), r) /\
    shape ps b' t' /\ rev (concat b' ++ t') = skipn k (rev (concat b ++ t)) /\
    (Forall (fun p => p = []) a -> Forall (fun p => p = []) a') /\
    match r with
    | None => k = length ts /\ Forall (fun f => f = false) ts
    | Some e => e = ElementThrew /\ exists done rest, ts = done ++ true :: rest /\ k = length done /\
                  Forall (fun f => f = false) done
    end.
Proof.
  induction ts as [|f ts IH]; intros ps asz nid i sc sr lk b t a Hs Hn.
  - exists b, t, a, 0, None. cbn [internal_pop_x firstn skipn]. unfold ret. repeat split; auto; apply Hs.
  - destruct (snoc_cases (concat b ++ t)) as [E|(l & x & E)].
    { rewrite E in Hn. simpl in Hn. lia. }
    destruct (pop_one_shape ps asz nid i sc sr lk b t a l x Hs E) as (b1 & t1 & a1 & H1 & H2 & H3 & H4 & H5 & H6).
    cbn [internal_pop_x]. erewrite bind_ok by apply H2. destruct f.
    + exists b, t, a, 0, (Some ElementThrew). cbn [firstn skipn]. unfold ret.
      split; [reflexivity|]. split; [auto|]. split; [auto|]. split; [auto|].
      split; [auto|]. exists [], ts. auto.
    + destruct (IH ps asz nid i sc sr lk b1 t1 a1 H3) as (b2 & t2 & a2 & k & r & G1 & G2 & G3 & G4 & G5).
      { rewrite E in Hn. rewrite H4. rewrite app_length in Hn. simpl in Hn. lia. }
      exists b2, t2, a2, (S k), r. erewrite bind_ok by apply H1. erewrite bind_ok by apply G1.
      rewrite H4 in G3 |- *. rewrite E. rewrite (rev_app_distr l [x]).
      split; [reflexivity|]. split; [auto|]. split; [auto|]. split; [tauto|].
      destruct r as [e|].
      * destruct G5 as (K1 & done & rest & -> & -> & K2). split; [auto|].
        exists (false :: done), rest. split; [reflexivity|]. split; [reflexivity|]. constructor; auto.
      * destruct G5 as [-> K]. split; [reflexivity|]. constructor; auto.
Qed.

Lemma pop_x_ok : forall ts s l, 1 <= page_size s -> rep s l -> clean s -> length ts <= length l ->
  exists s' k r, with_lock (internal_pop_x ts) s = ROk s' (firstn k l, r) /\ same_frame s s' /\
    rep s' (skipn k l) /\ clean s' /\
    match r with
    | None => k = length ts /\ Forall (fun f => f = false) ts
    | Some e => e = ElementThrew /\ exists done rest, ts = done ++ true :: rest /\ k = length done /\
                  Forall (fun f => f = false) done
    end.
Proof.
  intros ts s l P H C Hn. destruct s as [ps asz pgs ids nid c sc sr lk].
  destruct H as (b & t & a & H1 & H2 & H3 & H4 & H5 & H6).
  cbn [page_size alloc_size pages cur locked] in *. subst.
  rewrite clean_split with (b := b) (t := t) (a := a) in C by reflexivity.
  rewrite rev_length in Hn.
  destruct (internal_pop_x_shape ts ps asz nid ids sc sr true b t a H3 Hn)
    as (b' & t' & a' & k & r & G1 & G2 & G3 & G4 & G5).
  eexists _, k, r. split; [apply with_lock_ok; [reflexivity|exact G1]|].
  split; [repeat split|]. split; [|split; [|exact G5]].
  - exists b', t', a'. simpl. repeat split; auto; apply G2.
  - apply (clean_split _ b' t' a'); auto.
Qed.

(** ** Calls on a stack whose current page is empty *)

Lemma gapped_size : forall s l, gapped s l -> size s = ROk s (length l).
Proof.
  intros [ps asz pgs ids nid c sc sr lk] l (b & a & H1 & H2 & H3 & H4 & H5 & H6 & H7 & ->).
  cbn [page_size alloc_size pages cur locked] in *. subst.
  unfold size. apply noexcept_ok. unfold with_lock. simpl. msimp.
  rewrite size_loop_app. msimp. rewrite nth_error_mid. simpl. f_equal.
  rewrite rev_length. lia.
Qed.

Lemma gapped_nonempty : forall s l, 1 <= page_size s -> gapped s l -> l <> [].
Proof.
  intros s l P (b & a & H1 & H2 & H3 & H4 & H5 & H6 & H7 & ->) E.
  apply (f_equal (@length T)) in E.
  rewrite rev_length, (concat_uniform_length (page_size s)) in E by auto.
  destruct b; [congruence|]. simpl in E. lia.
Qed.

Lemma gapped_empty : forall s l, 1 <= page_size s -> gapped s l ->
  empty s = ROk s (match l with [] => true | _ => false end).
Proof.
  intros s l P G. pose proof (gapped_nonempty s l P G) as N.
  destruct s as [ps asz pgs ids nid c sc sr lk].
  destruct G as (b & a & H1 & H2 & H3 & H4 & H5 & H6 & H7 & H8).
  cbn [page_size alloc_size pages cur locked] in *. subst.
  unfold empty. apply noexcept_ok. unfold with_lock. simpl. msimp. rewrite nth_error_mid. simpl.
  destruct b as [|q b]; [congruence|]. cbn [length Nat.eqb andb].
  destruct (rev (concat (q :: b))); [congruence|]. reflexivity.
Qed.

Lemma gapped_shrink : forall s l, gapped s l ->
  exists s', shrink_to_fit s = ROk s' tt /\ gapped s' l /\ same_frame s s'.
Proof.
  intros [ps asz pgs ids nid c sc sr lk] l (b & a & H1 & H2 & H3 & H4 & H5 & H6 & H7 & ->).
  cbn [page_size alloc_size pages cur locked] in *. subst.
  unfold shrink_to_fit, with_lock. simpl. msimp.
  destruct (Z.gtb_spec sc 0) as [G|G].
  - eexists. split; [reflexivity|]. split; [exists b, a; simpl; auto 10|]. repeat split.
  - unfold internal_shrink_to_fit. msimp. rewrite nth_error_mid. msimp.
    assert (F : firstn (S (length b)) (b ++ [] :: a) = b ++ [[]]).
    { replace (b ++ [] :: a) with ((b ++ [[]]) ++ a) by (rewrite <- app_assoc; auto).
      replace (S (length b)) with (length (b ++ [@nil T])) by (rewrite app_length; simpl; lia).
      apply firstn_length_app. }
    rewrite F. eexists. split; [reflexivity|]. split; [exists b, []; simpl; auto 10|]. repeat split.
Qed.

Lemma gapped_discard : forall debug n s l, 1 <= page_size s -> gapped s l -> n <= length l ->
  exists s', discard debug n s = ROk s' tt /\ rep s' (skipn n l) /\ clean s' /\ same_frame s s'.
Proof.
  intros debug n s l P G Hn. pose proof (gapped_size s l G) as Sz.
  destruct s as [ps asz pgs ids nid c sc sr lk].
  destruct G as (b & a & H1 & H2 & H3 & H4 & H5 & H6 & H7 & ->).
  cbn [page_size alloc_size pages cur locked] in *. subst.
  destruct (snoc_cases b) as [->|(b0 & q & ->)]; [congruence|].
  apply Forall_app in H4. destruct H4 as [F0 Fq]. inversion Fq as [|? ? Lq _]; subst.
  assert (Sq : shape (length q) b0 q).
  { constructor; auto; [|lia]. intros E. subst q. simpl in P. lia. }
  rewrite rev_length, concat_app in Hn. simpl in Hn. rewrite app_nil_r in Hn.
  destruct (discard_loop_shape (length q) b0 q ([] :: a) n Sq Hn)
    as (b' & t' & a' & G1 & G2 & G3 & G4 & G5).
  eexists. split; [|split; [|split]].
  - unfold discard. apply noexcept_ok. erewrite bind_ok.
    2:{ apply cassert_ok. erewrite bind_ok by exact Sz. unfold ret. f_equal.
        apply Nat.leb_le. rewrite rev_length, concat_app. simpl. rewrite app_nil_r. auto. }
    apply with_lock_ok; [reflexivity|]. msimp.
    assert (E1 : length (b0 ++ [q]) = S (length b0)) by (rewrite app_length; simpl; lia).
    assert (E2 : nth_error ((b0 ++ [q]) ++ [] :: a) (S (length b0)) = Some []).
    { rewrite <- E1. apply nth_error_mid. }
    assert (E3 : upd (S (length b0)) (fun _ : list T => []) ((b0 ++ [q]) ++ [] :: a) = b0 ++ q :: [] :: a).
    { rewrite <- E1, upd_mid, <- app_assoc. reflexivity. }
    rewrite E1. cbn [discard_loop]. rewrite E2. cbn [length Nat.leb]. rewrite E3, Nat.sub_0_r.
    rewrite G1. msimp. reflexivity.
  - exists b', t', a'. simpl. repeat split; auto; try apply G2.
    rewrite G3, concat_app. simpl. rewrite app_nil_r. reflexivity.
  - apply (clean_split _ b' t' a'); auto.
  - repeat split.
Qed.

(** ** One call *)

Lemma push_fine_ok : forall gap xs s l, holds gap s l -> xs <> [] ->
  exists s', with_lock (internal_push xs) s = ROk s' tt /\ same_frame s s' /\
    holds false s' (rev xs ++ l).
Proof.
  intros gap xs s l H N.
  destruct (push_x_ok gap (map fine xs) s l H) as (s' & r & l' & G1 & G2 & G3).
  { destruct xs; [congruence|discriminate]. }
  assert (V : values (map fine xs) = xs).
  { unfold values. rewrite map_map. simpl. apply map_id. }
  assert (St : Forall stored (map fine xs)).
  { apply Forall_forall. intros x Hx. apply in_map_iff in Hx. destruct Hx as (y & <- & _). reflexivity. }
  assert (Mm : forall x, In x (map fine xs) -> a_throws x = false /\ a_memory x = None).
  { intros x Hx. apply in_map_iff in Hx. destruct Hx as (y & <- & _). split; reflexivity. }
  exists s'.
  assert (R : r = None).
  { destruct r as [e|]; [|reflexivity]. exfalso.
    destruct G3 as (done & x & rest & K1 & _ & _ & K).
    destruct (Mm x) as [M1 M2]. { rewrite K1. apply in_or_app. right. left. reflexivity. }
    destruct e; destruct K as [K _]; congruence. }
  subst r. destruct G3 as (_ & -> & G3). rewrite V in G3.
  split; [|split; [auto|auto]].
  unfold with_lock in *. destruct (locked s); [discriminate|].
  rewrite internal_push_x_ok in G1. destruct (internal_push xs (set_locked true s)) as [s1 []|s1|]; try discriminate.
  injection G1 as <-. reflexivity.
Qed.

Lemma holds_false : forall s l, holds false s l -> rep s l /\ clean s.
Proof. intros s l [_ [H|[H _]]]; [auto|discriminate]. Qed.

Lemma holds_true : forall gap s l, holds false s l -> holds gap s l.
Proof. intros gap s l [P [H|[H _]]]; [split; auto|discriminate]. Qed.

Lemma exec_x_ok : forall debug gap o s l,
  holds gap s l -> in_domain o l -> (gap = true -> not_looking o = true) ->
  exists s' r l', exec_x debug o s = ROk s' r /\ xstep o l l' r /\
    holds (alert (page_size s) o l' r gap) s' l' /\ same_frame s s'.
Proof.
  intros debug gap o s l H D W. destruct o as [a more|a|f more|o]; cbn [exec_x in_domain] in *.
  - destruct (push_x_ok gap (a :: more) s l H) as (s' & r & l' & G1 & G2 & G3); [discriminate|].
    erewrite bind_ok by exact G1. destruct r as [[]|].
    + destruct G3 as (done & x & rest & K1 & K2 & -> & K3 & K4).
      exists s', (Raised ElementThrew []), (rev (values done) ++ l). split; [reflexivity|].
      split; [econstructor; eauto|]. split; [exact K4|auto].
    + destruct G3 as (done & x & rest & K1 & K2 & -> & K3 & K4).
      exists s', (Raised OutOfMemory []), (rev (values done) ++ l). split; [reflexivity|].
      split; [econstructor; eauto|]. split; [exact K4|auto].
    + destruct G3 as (K1 & -> & K2). exists s', (Returned RUnit), (rev (values (a :: more)) ++ l).
      split; [reflexivity|]. split; [constructor; auto|]. split; [exact K2|auto].
  - destruct (push_x_ok gap [a] s l H) as (s' & r & l' & G1 & G2 & G3); [discriminate|].
    assert (G0 : with_lock (store_x a) s = ROk s' r).
    { rewrite <- G1. unfold with_lock. destruct (locked s); [reflexivity|].
      cbn [internal_push_x]. unfold bind.
      destruct (store_x a (set_locked true s)) as [s1 [e|]|s1|]; reflexivity. }
    erewrite bind_ok by exact G0. destruct r as [[]|].
    + destruct G3 as (done & x & rest & K1 & K2 & -> & K3 & K4).
      destruct done as [|? [|]]; try discriminate. injection K1 as <- <-.
      exists s', (Raised ElementThrew []), l. split; [reflexivity|].
      split; [constructor; auto|]. split; [exact K4|auto].
    + destruct G3 as (done & x & rest & K1 & K2 & -> & K3 & K4).
      destruct done as [|? [|]]; try discriminate. injection K1 as <- <-.
      exists s', (Raised OutOfMemory []), l. split; [reflexivity|].
      split; [constructor; auto|]. split; [exact K4|auto].
    + destruct G3 as (K1 & -> & K2). exists s', (Returned RUnit), (a_value a :: l).
      split; [reflexivity|]. split; [constructor; inversion K1; auto|]. split; [exact K2|auto].
  - destruct H as [P [[Hr Hc]|[G _]]]; [|specialize (W G); discriminate].
    destruct (pop_x_ok (f :: more) s l P Hr Hc D) as (s' & k & r & G1 & G2 & G3 & G4 & G5).
    destruct l as [|x l]; [simpl in D; lia|].
    erewrite bind_ok by (eapply assert_nonempty; eauto). erewrite bind_ok by exact G1.
    cbn [fst snd]. exists s'.
    assert (Q : holds false s' (skipn k (x :: l))).
    { split; [|left; auto]. destruct G2 as [-> _]. auto. }
    destruct r as [e|].
    + destruct G5 as (-> & done & rest & K1 & -> & K2).
      exists (Raised ElementThrew (firstn (length done) (x :: l))), (skipn (length done) (x :: l)).
      split; [reflexivity|]. split; [econstructor; eauto|]. split; [exact Q|auto].
    + destruct G5 as (-> & K2).
      exists (Returned (RVals (firstn (S (length more)) (x :: l)))), (skipn (S (length more)) (x :: l)).
      split; [reflexivity|]. split; [constructor; auto|]. split; [exact Q|auto].
  - destruct D as [Co Sp]. destruct (spec_step o l) as [[l' r]|] eqn:E; [|congruence]. clear Sp.
    destruct H as [P [[Hr Hc]|[G Hg]]].
    + destruct (exec_ok debug o s l l' r Hr) as (s' & H1 & H2 & H3 & H4 & _); auto.
      { intros ->. discriminate. }
      exists s', (Returned r), l'. erewrite bind_ok by exact H1. split; [reflexivity|].
      split; [constructor; auto|]. split; [|auto]. apply holds_true. split.
      * destruct H3 as [-> _]. auto.
      * left. split; [auto|]. apply H4; auto. left; auto.
    + specialize (W G). subst gap.
      assert (Hh : holds true s l) by (split; auto).
      destruct o; cbn [not_looking] in W; try discriminate W; cbn [spec_step exec] in *.
      * injection E as <- <-.
        destruct (push_fine_ok true (x :: xs) s l Hh) as (s' & H1 & H2 & H3); [discriminate|].
        exists s', (Returned RUnit), (rev (x :: xs) ++ l). unfold push.
        split; [erewrite bind_ok; [reflexivity|]; erewrite bind_ok by exact H1; reflexivity|].
        split; [constructor; reflexivity|]. split; [exact H3|auto].
      * injection E as <- <-.
        destruct (push_fine_ok true [x] s l Hh) as (s' & H1 & H2 & H3); [discriminate|].
        exists s', (Returned RUnit), (x :: l).
        assert (H0 : push_emplace x s = ROk s' tt).
        { rewrite <- H1. unfold push_emplace, with_lock. destruct (locked s); auto.
          cbn [internal_push]. unfold internal_push_one, bind, ret.
          destruct (advance _) as [s0 u0|s0|]; auto. destruct (cur_page s0) as [s1 p1|s1|]; auto. }
        split; [erewrite bind_ok; [reflexivity|]; erewrite bind_ok by exact H0; reflexivity|].
        split; [constructor; reflexivity|]. split; [exact H3|auto].
      * destruct (Nat.leb_spec n (length l)) as [L|L]; [|discriminate]. injection E as <- <-.
        destruct (gapped_discard debug n s l P Hg L) as (s' & H1 & H2 & H3 & H4).
        exists s', (Returned RUnit), (skipn n l).
        split; [erewrite bind_ok; [reflexivity|]; erewrite bind_ok by exact H1; reflexivity|].
        split; [constructor; cbn [spec_step]; rewrite (proj2 (Nat.leb_le _ _) L); reflexivity|].
        split; [|auto]. split; [destruct H4 as [-> _]; auto|left; auto].
      * injection E as <- <-. exists s, (Returned (RNat (length l))), l.
        split; [erewrite bind_ok; [reflexivity|]; erewrite bind_ok by (eapply gapped_size; eauto); reflexivity|].
        split; [constructor; reflexivity|]. split; [exact Hh|repeat split].
      * injection E as <- <-. exists s, (Returned (RBool (match l with [] => true | _ => false end))), l.
        split; [erewrite bind_ok; [reflexivity|]; erewrite bind_ok by (eapply gapped_empty; eauto); reflexivity|].
        split; [constructor; reflexivity|]. split; [exact Hh|repeat split].
      * injection E as <- <-. destruct (gapped_shrink s l Hg) as (s' & H1 & H2 & H3).
        exists s', (Returned RUnit), l.
        split; [erewrite bind_ok; [reflexivity|]; erewrite bind_ok by exact H1; reflexivity|].
        split; [constructor; reflexivity|]. split; [|auto].
        split; [destruct H3 as [-> _]; auto|right; auto].
Qed.

Lemma run_x_ok : forall debug ops gap s l,
  holds gap s l -> wary (page_size s) gap ops l ->
  exists s' rs l', run_x debug ops s = ROk s' rs /\ xhistory ops l l' rs /\ locked s' = false.
Proof.
  intros debug ops. induction ops as [|o ops IH]; intros gap s l H W.
  - exists s, [], l. split; [reflexivity|]. split; [constructor|].
    destruct (holds_wshape _ _ _ H) as (b & t & a & _ & _ & _ & _ & _ & K & _). exact K.
  - destruct W as (D & N & W).
    destruct (exec_x_ok debug gap o s l H D N) as (s1 & r & l1 & H1 & H2 & H3 & H4).
    destruct (IH (alert (page_size s) o l1 r gap) s1 l1 H3) as (s2 & rs & l2 & G1 & G2 & G3).
    { destruct H4 as [-> _]. apply W. exact H2. }
    exists s2, (r :: rs), l2. cbn [run_x]. erewrite bind_ok by exact H1. erewrite bind_ok by exact G1.
    split; [reflexivity|]. split; [econstructor; eauto|auto].
Qed.

Lemma exceptions : forall debug ps pa (ops : list (xop T)),
  1 <= ps -> 1 <= pa -> wary ps false ops [] ->
  exists s rs l, run_x debug ops (construct ps pa) = ROk s rs /\ xhistory ops [] l rs /\
    locked s = false.
Proof.
  intros debug ps pa ops P A W. destruct (construct_rep (T := T) ps pa A) as [R C].
  apply (run_x_ok debug ops false (construct ps pa) []); [split; auto|exact W].
Qed.

(** ** A failure on the first element of a page *)

Lemma full_page_gap : forall ps pa debug ops s l x, 1 <= ps ->
  reaches debug ps pa ops s l -> on_boundary ps (length l) = true ->
  exists s', exec_x debug (XPush (mkArg x true None) []) s = ROk s' (Raised ElementThrew []) /\
    gapped s' l.
Proof.
  intros ps pa debug ops s l x P (A & Co & rs & Sp & R) B.
  destruct (construct_rep (T := T) ps pa A) as [R0 C0].
  destruct (run_core_ok debug ops (construct ps pa) [] l rs R0 C0 Co Sp) as (s1 & G1 & G2 & G3 & G4).
  rewrite G1 in R. injection R as ->. destruct G4 as (G4 & _).
  change (page_size (construct ps pa)) with ps in G4.
  destruct s as [ps' asz pgs ids nid c sc sr lk].
  destruct G2 as (b & t & a & H1 & H2 & H3 & H4 & H5 & H6).
  cbn [page_size alloc_size pages cur locked] in *. subst.
  rewrite clean_split with (b := b) (t := t) (a := a) in G3 by reflexivity.
  assert (Lt : length t = ps).
  { unfold on_boundary in B. apply andb_true_iff in B. destruct B as [B1 B2].
    apply Nat.eqb_eq in B1. rewrite rev_length, app_length in B1, B2.
    rewrite (concat_uniform_length ps) in B1, B2 by apply H3.
    pose proof (sh_cap _ _ _ H3 I P) as Cp.
    rewrite Nat.add_comm, Nat.mod_add in B1 by lia.
    destruct (Nat.eq_dec (length t) ps) as [|Ne]; [auto|exfalso].
    rewrite Nat.mod_small in B1 by lia. apply length_zero_iff_nil in B1. subst t.
    rewrite (sh_top _ _ _ H3 eq_refl) in B2. simpl in B2. discriminate. }
  cbn [exec_x].
  assert (F : Forall (fun p => length p = ps) (b ++ [t])).
  { apply Forall_app. split; [apply H3|auto]. }
  assert (Go : exists a' ids' nid',
    internal_push_x [mkArg x true None] (mkStack ps asz (b ++ t :: a) ids nid (length b) sc sr true) =
    ROk (mkStack ps asz ((b ++ [t]) ++ [] :: a') ids' nid' (length (b ++ [t])) sc sr true) (Some ElementThrew)
    /\ Forall (fun p => p = []) a').
  { cbn [internal_push_x]. unfold store_x. cbn [a_memory a_throws a_value].
    unfold bind at 1 2. rewrite advance_x_ok. unfold advance. unfold bind at 1 2. rewrite cur_page_at.
    msimp. rewrite (proj2 (Nat.eqb_eq _ _) Lt). msimp.
    replace (S (length b)) with (length (b ++ [t])) by (rewrite app_length; simpl; lia).
    destruct a as [|p a].
    - rewrite Nat.eqb_refl. unfold growBase. msimp.
      destruct asz as [|asz]; [lia|]. cbn [repeat]. rewrite nth_error_mid. msimp.
      eexists _, _, _. split; [reflexivity|].
      apply Forall_forall. intros q Hq. apply repeat_spec in Hq. auto.
    - inversion G3; subst p.
      replace (length (b ++ [t]) =? length (b ++ t :: [] :: a)) with false.
      2:{ symmetry. apply Nat.eqb_neq. rewrite !app_length. simpl. lia. }
      msimp. replace (b ++ t :: [] :: a) with ((b ++ [t]) ++ [] :: a)
        by (rewrite <- app_assoc; reflexivity).
      rewrite nth_error_mid. msimp. eexists _, _, _. split; [reflexivity|auto]. }
  destruct Go as (a' & i' & n' & Go & Fa).
  eexists. split.
  - erewrite bind_ok; [|apply with_lock_ok; [reflexivity|exact Go]]. reflexivity.
  - exists (b ++ [t]), a'. simpl. repeat split; auto.
    + destruct b; discriminate.
    + rewrite concat_app. simpl. rewrite app_nil_r. reflexivity.
Qed.

Lemma gapped_top : forall s l, gapped s l ->
  top s = RBad UB /\ with_lock internal_pop_one s = RBad UB /\
  (forall n, with_lock (internal_pop (S n)) s = RBad UB) /\
  (forall y, set_top y s = RBad UB).
Proof.
  intros [ps asz pgs ids nid c sc sr lk] l (b & a & H1 & H2 & H3 & H4 & H5 & H6 & H7 & ->).
  cbn [page_size alloc_size pages cur locked] in *. subst.
  assert (N : nth_error (b ++ [] :: a) (length b) = Some []) by apply nth_error_mid.
  repeat split; intros; unfold top, set_top, noexcept, with_lock; cbn [locked set_locked];
    cbn [internal_pop]; unfold internal_pop_one, cur_back; msimp; rewrite N; reflexivity.
Qed.

Lemma full_page_throw : forall debug ps pa ops s l x, 1 <= ps ->
  reaches debug ps pa ops s l -> on_boundary ps (length l) = true ->
  exists s', exec_x debug (XPush (mkArg x true None) []) s = ROk s' (Raised ElementThrew []) /\
    exec debug Size s' = ROk s' (RNat (length l)) /\
    exec debug Empty s' = ROk s' (RBool false) /\
    exec debug Top s' = RBad UB /\ exec debug Pop s' = RBad UB /\
    (forall n, exec debug (PopN n) s' = RBad UB) /\
    (forall y, exec debug (SetTop y) s' = RBad UB).
Proof.
  intros debug ps pa ops s l x P R B.
  destruct (full_page_gap ps pa debug ops s l x P R B) as (s' & H1 & H2).
  exists s'. split; [exact H1|].
  assert (P' : 1 <= page_size s').
  { destruct R as (A & Co & rs & Sp & R).
    destruct (construct_rep (T := T) ps pa A) as [R0 C0].
    destruct (run_core_ok debug ops (construct ps pa) [] l rs R0 C0 Co Sp) as (s1 & G1 & G2 & G3 & G4).
    rewrite G1 in R. injection R as ->. destruct G4 as (G4 & _).
    destruct (exec_x_ok debug false (XPush (mkArg x true None) []) s l) as (s2 & r2 & l2 & K1 & _ & _ & K2 & _).
    - split; [rewrite G4; exact P|left; auto].
    - exact I.
    - discriminate.
    - rewrite H1 in K1. injection K1 as <- _. rewrite K2, G4. exact P. }
  pose proof (gapped_nonempty s' l P' H2) as Ne.
  pose proof (gapped_empty s' l P' H2) as Em.
  destruct l as [|y l]; [congruence|].
  assert (As : cassert debug (e <- empty ;; ret (negb e)) s' = ROk s' tt).
  { apply cassert_ok. erewrite bind_ok by exact Em. reflexivity. }
  destruct (gapped_top s' _ H2) as (T1 & T2 & T3 & T4). cbn [exec]. unfold pop, pop_values.
  split; [erewrite bind_ok by (eapply gapped_size; eauto); reflexivity|].
  split; [erewrite bind_ok by exact Em; reflexivity|].
  split; [unfold bind; rewrite T1; reflexivity|].
  split; [unfold bind at 1; unfold bind at 1; rewrite As, T2; reflexivity|].
  split.
  - intros n. unfold bind at 1. unfold bind at 1. rewrite As, T3. reflexivity.
  - intros z. unfold bind. rewrite T4. reflexivity.
Qed.

End Throw.
