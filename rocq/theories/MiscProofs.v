(** * Proofs about Singleton and distribute (C87, C88). *)

From Coq Require Import List Arith Bool Lia.
From Verif Require Import Base ListFacts MiscModel MiscSpec.
Import ListNotations.

Section Singleton.
Variable V : Type.
Variable init : nat -> V.
Notation sstate := (sstate V).
Notation sop := (sop V).

Lemma inst_of_some : forall t l k j, inst_of V t k l = Some j -> k <= j /\ exists v, nth_error l (j - k) = Some (t, v).
Proof.
  intros t l. induction l as [|[u v] l IH]; intros k j H; [discriminate|]. cbn in H. destruct (Nat.eqb_spec t u) as [->|N].
  - injection H as <-. split; auto. rewrite Nat.sub_diag. cbn. eauto.
  - destruct (IH _ _ H) as (A & w & B). split; [lia|]. exists w. replace (j - k) with (S (j - S k)) by lia. auto.
Qed.
Lemma inst_of_none : forall t l k, inst_of V t k l = None <-> ~ In t (map fst l).
Proof.
  intros t l. induction l as [|[u v] l IH]; intros k; cbn; [tauto|]. destruct (Nat.eqb_spec t u) as [->|N].
  - split; [discriminate|]. intros H. exfalso. auto.
  - rewrite IH. split; [|tauto]. intros H [E|E]; auto.
Qed.
Lemma inst_of_app : forall t l l' k j, inst_of V t k l = Some j -> inst_of V t k (l ++ l') = Some j.
Proof. intros t l l'. induction l as [|[u v] l IH]; intros k j H; [discriminate|]. cbn in *. destruct (t =? u); auto. Qed.
Lemma inst_of_app_none : forall t u v l k, inst_of V t k l = None -> inst_of V t k (l ++ [(u, v)]) = if t =? u then Some (k + length l) else None.
Proof.
  intros t u v l. induction l as [|[w x] l IH]; intros k H; cbn in *.
  - rewrite Nat.add_0_r. auto.
  - destruct (t =? w); [discriminate|]. rewrite IH by auto. rewrite <- plus_n_Sm. auto.
Qed.
Lemma inst_of_upd : forall t v n l k, inst_of V t k (upd n (fun p => (fst p, v)) l) = inst_of V t k l.
Proof. intros t v n l. revert n. induction l as [|[u x] l IH]; intros n k; [destruct n; auto|]. destruct n; cbn; destruct (t =? u); auto. Qed.
Lemma fst_upd : forall v n (l : list (nat * V)), map fst (upd n (fun p => (fst p, v)) l) = map fst l.
Proof. intros v n l. revert n. induction l as [|[u x] l IH]; intros n; [destruct n; auto|]. destruct n; cbn; auto. rewrite IH. auto. Qed.

(** The instance of a type, after sget. *)
Lemma sget_spec : forall t s s' k, sget V init t s = (s', k) ->
  inst_of V t 0 (insts V s') = Some k /\ objects V s' = objects V s /\
  (s' = s \/ (~ In t (map fst (insts V s)) /\ insts V s' = insts V s ++ [(t, init t)])).
Proof.
  intros t s s' k H. unfold sget in H. destruct (inst_of V t 0 (insts V s)) as [j|] eqn:E.
  - injection H as <- <-. auto.
  - injection H as <- <-. cbn [insts objects]. split; [|split; auto].
    + rewrite inst_of_app_none by auto. rewrite Nat.eqb_refl. auto.
    + right. split; auto. apply inst_of_none in E. auto.
Qed.

(** Addresses never change. *)
Lemma step_addr : forall op s t k, inst_of V t 0 (insts V s) = Some k -> inst_of V t 0 (insts V (fst (sstep V init op s))) = Some k.
Proof.
  intros op s t k H. destruct op as [x u|x|x|x v]; cbn [sstep]; destruct (type_of x (objects V s)) as [w|]; auto;
    destruct (sget V init w s) as [s' j] eqn:G; cbn [fst insts]; destruct (sget_spec _ _ _ _ G) as (_ & _ & [->|(_ & E)]); rewrite ?inst_of_upd; auto;
    rewrite E; apply inst_of_app; auto.
Qed.
Lemma runs_addr : forall ops s t k, inst_of V t 0 (insts V s) = Some k -> inst_of V t 0 (insts V (fst (sruns V init ops s))) = Some k.
Proof.
  intros ops. induction ops as [|op ops IH]; intros s t k H; auto. cbn. pose proof (step_addr op s t k H) as X.
  destruct (sstep V init op s) as [s' r]. specialize (IH s' t k X). destruct (sruns V init ops s'). auto.
Qed.

(** Objects keep their type. *)
Lemma step_type : forall op s x t, type_of x (objects V s) = Some t -> type_of x (objects V (fst (sstep V init op s))) = Some t.
Proof.
  intros op s x t H. destruct op as [y u|y|y|y v]; cbn [sstep]; destruct (type_of y (objects V s)) as [w|] eqn:E; auto;
    try (destruct (sget V init w s) as [s' j] eqn:G; cbn [fst objects]; destruct (sget_spec _ _ _ _ G) as (_ & O & _); rewrite O; auto).
  cbn [fst objects type_of]. destruct (Nat.eqb_spec x y); auto. congruence.
Qed.
Lemma runs_type : forall ops s x t, type_of x (objects V s) = Some t -> type_of x (objects V (fst (sruns V init ops s))) = Some t.
Proof.
  intros ops. induction ops as [|op ops IH]; intros s x t H; auto. cbn. pose proof (step_type op s x t H) as X.
  destruct (sstep V init op s) as [s' r]. specialize (IH s' x t X). destruct (sruns V init ops s'). auto.
Qed.

Lemma same_address : forall ops s x s1 k, sstep V init (SAddr V x) s = (s1, Some (OAddr V k)) ->
  let s2 := fst (sruns V init ops s1) in sstep V init (SAddr V x) s2 = (s2, Some (OAddr V k)).
Proof.
  intros ops s x s1 k H s2. cbn [sstep] in H. destruct (type_of x (objects V s)) as [t|] eqn:T; [|discriminate].
  destruct (sget V init t s) as [s' j] eqn:G. injection H as -> ->. destruct (sget_spec _ _ _ _ G) as (I & O & _).
  cbn [sstep]. unfold s2. rewrite (runs_type ops s1 x t) by (rewrite O; auto). unfold sget. rewrite (runs_addr ops s1 t k); auto.
Qed.

(** One instance for each type. *)
Lemma nodup_snoc : forall (l : list nat) x, NoDup l -> ~ In x l -> NoDup (l ++ [x]).
Proof.
  intros l x H N. induction H as [|y l Y H IH]; cbn; [constructor; auto; constructor|]. constructor.
  - rewrite in_app_iff. cbn in *. intuition.
  - apply IH. cbn in N. tauto.
Qed.
Lemma step_nodup : forall op s, NoDup (map fst (insts V s)) -> NoDup (map fst (insts V (fst (sstep V init op s)))).
Proof.
  intros op s H. destruct op as [x u|x|x|x v]; cbn [sstep]; destruct (type_of x (objects V s)) as [w|]; auto;
    destruct (sget V init w s) as [s' j] eqn:G; cbn [fst insts]; destruct (sget_spec _ _ _ _ G) as (_ & _ & [->|(N & E)]); rewrite ?fst_upd; auto;
    rewrite E, map_app; cbn; apply nodup_snoc; auto.
Qed.
Lemma runs_nodup : forall ops s, NoDup (map fst (insts V s)) -> NoDup (map fst (insts V (fst (sruns V init ops s)))).
Proof.
  intros ops. induction ops as [|op ops IH]; intros s H; auto. cbn. pose proof (step_nodup op s H) as X.
  destruct (sstep V init op s) as [s' r]. specialize (IH s' X). destruct (sruns V init ops s'). auto.
Qed.
Lemma created_once : forall ops t, created V t (after V init ops) <= 1.
Proof. intros ops t. unfold created, after. apply NoDup_count_occ. apply runs_nodup. constructor. Qed.

Lemma distinct_types : forall s t u s1 s2 k j, sget V init t s = (s1, k) -> sget V init u s1 = (s2, j) -> t <> u -> k <> j.
Proof.
  intros s t u s1 s2 k j A B N E. subst j. destruct (sget_spec _ _ _ _ A) as (I & _ & _). destruct (sget_spec _ _ _ _ B) as (J & _ & D).
  assert (I2 : inst_of V t 0 (insts V s2) = Some k). { destruct D as [->|(_ & ->)]; auto. apply inst_of_app. auto. }
  destruct (inst_of_some _ _ _ _ I2) as (_ & v & P). destruct (inst_of_some _ _ _ _ J) as (_ & w & Q). congruence.
Qed.

(** Reads *)
Definition curs (s : sstate) (cur : nat -> V) : Prop :=
  forall t, match inst_of V t 0 (insts V s) with Some k => nth_error (insts V s) k = Some (t, cur t) | None => cur t = init t end.

Lemma curs_get : forall s cur t s' k, curs s cur -> sget V init t s = (s', k) -> curs s' cur /\ nth_error (insts V s') k = Some (t, cur t).
Proof.
  intros s cur t s' k C G. destruct (sget_spec _ _ _ _ G) as (I & _ & D). assert (C' : curs s' cur).
  { destruct D as [->|(N & E)]; auto. intros u. rewrite E. pose proof (C u) as Cu. destruct (inst_of V u 0 (insts V s)) as [j|] eqn:J.
    - rewrite (inst_of_app _ _ _ _ _ J). rewrite nth_error_app1; auto. apply nth_error_Some. congruence.
    - rewrite inst_of_app_none by auto. destruct (Nat.eqb_spec u t) as [->|]; auto. cbn. rewrite nth_error_app2, Nat.sub_diag by auto. cbn. congruence. }
  split; auto. specialize (C' t). rewrite I in C'. auto.
Qed.

Lemma runs_reads : forall ops s objs cur, (forall x, type_of x (objects V s) = objs x) -> curs s cur ->
  reads V (snd (sruns V init ops s)) = ideal_reads V ops objs cur.
Proof.
  intros ops. induction ops as [|op ops IH]; intros s objs cur O C; auto. cbn [sruns ideal_reads].
  destruct op as [x t|x|x|x v]; cbn [sstep]; pose proof (O x) as Ox; destruct (type_of x (objects V s)) as [w|] eqn:T; try rewrite <- Ox.
  - rewrite <- (IH s objs cur) by auto. destruct (sruns V init ops s); auto.
  - rewrite <- (IH (mkS V (insts V s) ((x, t) :: objects V s))); auto.
    + destruct (sruns V init ops _); auto.
    + intros y. cbn [objects type_of]. destruct (y =? x); auto.
  - destruct (sget V init w s) as [s' k] eqn:G. destruct (sget_spec _ _ _ _ G) as (_ & O' & _). rewrite <- (IH s' objs cur).
    + destruct (sruns V init ops s'); auto.
    + intros y. rewrite O'. auto.
    + eapply curs_get; eauto.
  - rewrite <- (IH s objs cur) by auto. destruct (sruns V init ops s); auto.
  - destruct (sget V init w s) as [s' k] eqn:G. destruct (sget_spec _ _ _ _ G) as (_ & O' & _). destruct (curs_get _ _ _ _ _ C G) as (C' & N). rewrite N.
    rewrite <- (IH s' objs cur); auto.
    + destruct (sruns V init ops s'); auto.
    + intros y. rewrite O'. auto.
  - rewrite <- (IH s objs cur) by auto. destruct (sruns V init ops s); auto.
  - destruct (sget V init w s) as [s' k] eqn:G. destruct (sget_spec _ _ _ _ G) as (I & O' & _). destruct (curs_get _ _ _ _ _ C G) as (C' & N).
    rewrite <- (IH (mkS V (upd k (fun p => (fst p, v)) (insts V s')) (objects V s')) objs).
    + destruct (sruns V init ops _); auto.
    + intros y. cbn [objects]. rewrite O'. auto.
    + intros u. cbn [insts]. rewrite inst_of_upd. specialize (C' u). destruct (Nat.eqb_spec u w) as [->|NE].
      * rewrite I. rewrite (nth_error_upd_eq _ _ _ _ N). auto.
      * destruct (inst_of V u 0 (insts V s')) as [j|] eqn:J; auto. rewrite nth_error_upd_neq; auto. intros ->. congruence.
  - rewrite <- (IH s objs cur) by auto. destruct (sruns V init ops s); auto.
Qed.

Lemma shared : forall s x y t v, type_of x (objects V s) = Some t -> type_of y (objects V s) = Some t ->
  reads V (snd (sruns V init [SWrite V x v; SRead V y] s)) = [v] /\
  exists s' k, sruns V init [SAddr V x; SAddr V y] s = (s', [OAddr V k; OAddr V k]).
Proof.
  intros s x y t v X Y. split.
  - cbn [sruns sstep]. rewrite X. destruct (sget V init t s) as [s' k] eqn:G. destruct (sget_spec _ _ _ _ G) as (I & O & _). cbn [objects insts]. rewrite O, Y.
    unfold sget. cbn [insts]. rewrite inst_of_upd, I. cbn [insts]. destruct (inst_of_some _ _ _ _ I) as (_ & w & N). rewrite Nat.sub_0_r in N.
    rewrite (nth_error_upd_eq _ _ _ _ N). auto.
  - cbn [sruns sstep]. rewrite X. destruct (sget V init t s) as [s' k] eqn:G. destruct (sget_spec _ _ _ _ G) as (I & O & _). rewrite O, Y.
    unfold sget. rewrite I. eauto.
Qed.
End Singleton.

(** ** distribute *)
Section Distribute.
Variable A : Type.

Lemma distribute_ok : forall targets (l : list A) p r, targets <> [] -> p + length targets <= length l ->
  exists r', distribute A l p targets r = Some (p + length targets - 1, r') /\ r' = store targets (firstn (length targets) (skipn p l)) r.
Proof.
  intros targets. induction targets as [|x targets IH]; intros l p r N H; [contradiction|]. cbn [length] in H.
  destruct (nth_error l p) as [v|] eqn:E; [|apply nth_error_None in E; lia].
  assert (S : skipn p l = v :: skipn (S p) l).
  { clear - E. revert p E. induction l as [|a l IH]; intros [|p] E; try discriminate; cbn in *; [congruence|]. apply IH. auto. }
  destruct targets as [|y targets].
  - cbn [distribute]. unfold at_pos. rewrite E. eexists. split; [f_equal; f_equal; cbn; lia|]. rewrite S. reflexivity.
  - change (distribute A l p (x :: y :: targets) r) with
      (match at_pos A l p with None => None | Some v => match next A l p with None => None | Some p' => distribute A l p' (y :: targets) (assign A x v r) end end).
    unfold at_pos, next. rewrite E. destruct (Nat.ltb_spec p (length l)); [|cbn in *; lia].
    destruct (IH l (Datatypes.S p) (assign A x v r)) as (r' & D & R); [discriminate|cbn in *; lia|]. rewrite D. exists r'. split; [f_equal; f_equal; cbn in *; lia|].
    rewrite R, S. reflexivity.
Qed.

Lemma distribute_short : forall targets (l : list A) p r, length l < p + length targets -> distribute A l p targets r = None.
Proof.
  intros targets. induction targets as [|x targets IH]; intros l p r H; auto. cbn [length] in H. destruct targets as [|y targets].
  - cbn [distribute]. unfold at_pos. destruct (nth_error l p) eqn:E; auto. cbn in H. assert (p < length l) by (apply nth_error_Some; congruence). lia.
  - change (distribute A l p (x :: y :: targets) r) with
      (match at_pos A l p with None => None | Some v => match next A l p with None => None | Some p' => distribute A l p' (y :: targets) (assign A x v r) end end).
    unfold at_pos, next. destruct (nth_error l p); auto. destruct (p <? length l); auto. apply IH. cbn in *. lia.
Qed.

Lemma store_nodup : forall targets (vs : list A) r i x v, NoDup targets -> nth_error targets i = Some x -> nth_error vs i = Some v ->
  store targets vs r x = Some v.
Proof.
  intros targets. assert (K : forall targets (vs : list A) r x, ~ In x targets -> store targets vs r x = r x).
  { clear. intros targets. induction targets as [|y targets IH]; intros vs r x N; auto. destruct vs as [|v vs]; auto. cbn [store]. rewrite IH by (cbn in N; tauto).
    unfold assign. destruct (Nat.eqb_spec x y); auto. cbn in N. exfalso. auto. }
  induction targets as [|y targets IH]; intros vs r i x v N X Y; [destruct i; discriminate|]. inversion N as [|? ? N1 N2]; subst.
  destruct vs as [|w vs]; [destruct i; discriminate|]. destruct i as [|i]; cbn in X, Y; cbn [store].
  - injection X as <-. injection Y as <-. rewrite K by auto. unfold assign. rewrite Nat.eqb_refl. auto.
  - eapply IH; eauto.
Qed.
End Distribute.
