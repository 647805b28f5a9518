(** * Proofs about the atomic counters (C85, C86, C89, C90). *)

From Coq Require Import ZArith List Arith Bool Lia Permutation.
From Verif Require Import Base ListFacts AtomicModel AtomicSpec.
Import ListNotations.
Open Scope Z_scope.

(** ** A run is the sequential execution of its log *)

Fixpoint replay (prim : aop -> Z -> Z * aret) (w : Z) (ops : list aop) : Z * list aret :=
  match ops with
  | [] => (w, [])
  | op :: ops' => let (w1, r) := prim op w in let (w2, l) := replay prim w1 ops' in (w2, r :: l)
  end.

Lemma replay_app : forall prim a b w, replay prim w (a ++ b) =
  let (w1, l) := replay prim w a in let (w2, l') := replay prim w1 b in (w2, l ++ l').
Proof.
  intros prim a b. induction a as [|op a IH]; intros w; cbn; [destruct (replay prim w b); auto|].
  destruct (prim op w) as [w1 r]. rewrite IH. destruct (replay prim w1 a) as [w2 l]. destruct (replay prim w2 b). auto.
Qed.

Definition ainv (prim : aop -> Z -> Z * aret) (w0 : Z) (progs : list (list aop)) (s : astate) : Prop :=
  replay prim w0 (ops_of (log s)) = (counter s, rets_of (log s)) /\
  length (todo s) = length progs /\
  forall t p, nth_error progs t = Some p -> exists rest, nth_error (todo s) t = Some rest /\ p = done_by t (log s) ++ rest.

Lemma ops_of_app : forall a b, ops_of (a ++ b) = ops_of a ++ ops_of b. Proof. intros. apply map_app. Qed.
Lemma rets_of_app : forall a b, rets_of (a ++ b) = rets_of a ++ rets_of b. Proof. intros. apply map_app. Qed.
Lemma done_by_app : forall t a b, done_by t (a ++ b) = done_by t a ++ done_by t b.
Proof. intros. unfold done_by. rewrite filter_app. apply map_app. Qed.

Lemma astep_inv : forall prim w0 progs t s, ainv prim w0 progs s -> ainv prim w0 progs (astep prim t s).
Proof.
  intros prim w0 progs t s (R & L & P). unfold astep. destruct (nth_error (todo s) t) as [[|op rest]|] eqn:T; try (split; auto; fail).
  destruct (prim op (counter s)) as [w r] eqn:X. split; [|split]; cbn [counter todo log].
  - rewrite ops_of_app, rets_of_app, replay_app, R. cbn. rewrite X. auto.
  - rewrite upd_length. auto.
  - intros u p H. destruct (P u p H) as (rs & U & D). rewrite done_by_app. destruct (Nat.eq_dec u t) as [->|N].
    + rewrite T in U. injection U as <-. exists rest. rewrite (nth_error_upd_eq _ _ _ _ T). split; auto.
      rewrite D. unfold done_by at 3. cbn. rewrite Nat.eqb_refl. rewrite <- app_assoc. auto.
    + exists rs. rewrite nth_error_upd_neq by auto. split; auto. rewrite D. unfold done_by at 3. cbn.
      destruct (Nat.eqb_spec t u); [congruence|]. cbn. rewrite app_nil_r. auto.
Qed.

Lemma aruns_inv : forall prim w0 progs sched s, ainv prim w0 progs s -> ainv prim w0 progs (aruns prim sched s).
Proof. intros prim w0 progs sched. induction sched as [|t sched IH]; intros s H; auto. cbn. apply IH. apply astep_inv. auto. Qed.

Lemma ainv0 : forall prim w0 progs, ainv prim w0 progs (mkA w0 progs []).
Proof. intros. split; auto. split; auto. intros t p H. exists p. auto. Qed.

Lemma exec_replay : forall w0 progs sched, replay gcc w0 (ops_of (log (exec w0 progs sched))) = (counter (exec w0 progs sched), rets_of (log (exec w0 progs sched))).
Proof. intros. apply (aruns_inv gcc w0 progs sched). apply ainv0. Qed.
Lemma exec_order : forall w0 progs sched t p, nth_error progs t = Some p ->
  exists rest, nth_error (todo (exec w0 progs sched)) t = Some rest /\ p = done_by t (log (exec w0 progs sched)) ++ rest.
Proof. intros w0 progs sched t p H. apply (aruns_inv gcc w0 progs sched (mkA w0 progs []) (ainv0 _ _ _)); auto. Qed.

(** All operations of the log satisfy what those of the programs do. *)
Lemma exec_all : forall P w0 progs sched, all_ops P progs -> Forall P (ops_of (log (exec w0 progs sched))).
Proof.
  intros P w0 progs sched A. unfold exec.
  assert (G : forall sched s, Forall P (ops_of (log s)) -> all_ops P (todo s) -> Forall P (ops_of (log (aruns gcc sched s))) /\ all_ops P (todo (aruns gcc sched s))).
  { clear. intros sched. induction sched as [|t sched IH]; intros s L T; auto. cbn. apply IH; unfold astep;
      destruct (nth_error (todo s) t) as [[|op rest]|] eqn:N; auto; destruct (gcc op (counter s)); cbn [log todo].
    - rewrite ops_of_app. apply Forall_app. split; auto. apply nth_error_In in N. unfold all_ops in T. rewrite Forall_forall in T. specialize (T _ N).
      inversion T; subst. constructor; auto.
    - unfold all_ops in *. clear - T. revert t. induction (todo s) as [|a l IHl]; intros t; [destruct t; constructor|]. inversion T; subst. destruct t; cbn; constructor; auto.
      destruct a; auto. inversion H1; auto. }
  apply G; auto. constructor.
Qed.

(** ** Wrapping *)

Lemma wrap32_reduced : forall z, reduced (wrap32 z) z.
Proof.
  intros z. unfold reduced, int32_range, wrap32, two32. change (2 ^ 31) with 2147483648. change (2 ^ 32) with 4294967296.
  pose proof (Z.mod_pos_bound (z + 2147483648) 4294967296 eq_refl). pose proof (Z.div_mod (z + 2147483648) 4294967296 ltac:(discriminate)).
  split; [lia|]. exists ((z + 2147483648) / 4294967296). lia.
Qed.
Lemma reduced_unique : forall w w' z, reduced w z -> reduced w' z -> w = w'.
Proof.
  unfold reduced, int32_range. change (2 ^ 31) with 2147483648. change (2 ^ 32) with 4294967296. intros w w' z (A & k & B) (C & j & D). lia.
Qed.
Lemma reduced_add : forall w z v w', reduced w z -> reduced w' (w + v) -> reduced w' (z + v).
Proof. intros w z v w' (A & k & B) (C & j & D). split; auto. exists (k + j). subst z. lia. Qed.

Lemma gcc_counting : forall op w, counting op -> exists n, gcc op w = (n, RInt n) /\ reduced n (w + amount0 op).
Proof.
  intros op w C. unfold counting in C. destruct op; try (exfalso; apply C; reflexivity); eexists; (split; [reflexivity|]); unfold amount0; cbn [amount]; apply wrap32_reduced.
Qed.

Lemma replay_counting : forall ops w z, reduced w z -> Forall counting ops ->
  exists w' l, replay gcc w ops = (w', l) /\ reduced w' (z + fold_right Z.add 0 (map amount0 ops)) /\
    forall a op b, ops = a ++ op :: b -> exists n, nth_error l (length a) = Some (RInt n) /\ reduced n (z + fold_right Z.add 0 (map amount0 a) + amount0 op).
Proof.
  intros ops. induction ops as [|op ops IH]; intros w z R F.
  - exists w, []. split; auto. split; [cbn; rewrite Z.add_0_r; auto|]. intros [|] ? ? H; discriminate.
  - inversion F as [|? ? F1 F2]; subst. destruct (gcc_counting op w F1) as (n & G & N). cbn [replay]. rewrite G.
    destruct (IH n (z + amount0 op)) as (w' & l & Q & W & S); auto. { eapply reduced_add; eauto. }
    rewrite Q. exists w', (RInt n :: l). split; auto. split; [cbn; rewrite Z.add_assoc; auto|].
    intros a o b H. destruct a as [|o' a].
    + injection H as <- <-. exists n. split; auto. cbn. rewrite Z.add_0_r. eapply reduced_add; eauto.
    + injection H as <- ->. destruct (S a o b eq_refl) as (k & K1 & K2). exists k. split; auto. cbn. rewrite Z.add_assoc. auto.
Qed.

Lemma log_split : forall (l : list (nat * aop * aret)) a e b, l = a ++ e :: b -> nth_error (rets_of l) (length (ops_of a)) = Some (snd e).
Proof.
  intros l a e b ->. rewrite rets_of_app. unfold ops_of, rets_of. rewrite nth_error_app2 by (rewrite !map_length; auto). rewrite !map_length, Nat.sub_diag. auto.
Qed.

Lemma counting_final : forall w0 progs sched, int32_range w0 -> all_ops counting progs ->
  let s := exec w0 progs sched in reduced (counter s) (w0 + total (log s)).
Proof.
  intros w0 progs sched R A s. destruct (replay_counting (ops_of (log s)) w0 w0) as (w' & l & Q & W & _).
  - split; auto. exists 0. lia.
  - apply exec_all; auto.
  - unfold s in Q. rewrite exec_replay in Q. injection Q as <- <-. exact W.
Qed.

Lemma counting_return : forall w0 progs sched a e b, int32_range w0 -> all_ops counting progs ->
  log (exec w0 progs sched) = a ++ e :: b -> exists n, snd e = RInt n /\ reduced n (w0 + total a + amount0 (snd (fst e))).
Proof.
  intros w0 progs sched a e b R A L. destruct (replay_counting (ops_of (log (exec w0 progs sched))) w0 w0) as (w' & l & Q & _ & S).
  - split; auto. exists 0. lia.
  - apply exec_all; auto.
  - rewrite exec_replay in Q. injection Q as <- <-. destruct (S (ops_of a) (snd (fst e)) (ops_of b)) as (n & N & M).
    + rewrite L, ops_of_app. auto.
    + rewrite (log_split _ _ _ _ L) in N. injection N as N. exists n. split; auto.
Qed.

Lemma total_incs : forall l, Forall (fun op => op = AInc) (ops_of l) -> total l = Z.of_nat (length l).
Proof.
  intros l H. induction l as [|[[t op] r] l IH]; auto. pose proof (Forall_inv H) as H1. apply Forall_inv_tail in H as H2. cbn in H1. subst op. unfold total in *. cbn [ops_of map fst snd fold_right length] in *.
  unfold amount0 at 1. cbn [amount]. fold (ops_of l) in *. rewrite IH by auto. lia.
Qed.

Lemma incs_distinct : forall w0 progs sched, int32_range w0 -> all_ops (fun op => op = AInc) progs ->
  (Z.of_nat (length (log (exec w0 progs sched))) <= 2 ^ 32)%Z -> NoDup (rets_of (log (exec w0 progs sched))).
Proof.
  intros w0 progs sched R A B. pose proof (exec_all _ w0 progs sched A) as P. set (l := log (exec w0 progs sched)) in *.
  assert (C : all_ops counting progs). { unfold all_ops in *. eapply Forall_impl; [|exact A]. intros p H. eapply Forall_impl; [|exact H]. intros op ->. discriminate. }
  assert (V : forall i x, nth_error (rets_of l) i = Some x -> exists n, x = RInt n /\ reduced n (w0 + Z.of_nat i + 1)).
  { intros i x H. unfold rets_of in H. rewrite nth_error_map in H. destruct (nth_error l i) as [e|] eqn:E; [|discriminate]. injection H as <-.
    destruct (nth_error_split _ _ E) as (a & b & S & L). destruct (counting_return w0 progs sched a e b R C S) as (n & N & M).
    exists n. split; auto. unfold l in S. rewrite total_incs in M.
    - assert (K : snd (fst e) = AInc). { fold l in S. rewrite S, ops_of_app in P. apply Forall_app in P. destruct P as (_ & P). inversion P; auto. }
      rewrite K in M. unfold amount0 in M. cbn [amount] in M. rewrite L in M. auto.
    - fold l in S. rewrite S, ops_of_app in P. apply Forall_app in P. tauto. }
  apply NoDup_nth_error. intros i j Hi E. destruct (nth_error (rets_of l) i) as [x|] eqn:X; [|apply nth_error_Some in Hi; congruence].
  symmetry in E. pose proof E as E'. apply V in E. apply V in X as (n & -> & N). destruct E as (m & E & M). injection E as ->.
  assert (J : (j < length (rets_of l))%nat) by (apply nth_error_Some; congruence). unfold rets_of in Hi, J. rewrite map_length in *.
  destruct N as (_ & k & N), M as (_ & k' & M). change (2 ^ 32) with 4294967296 in *. assert (k = k') by lia. lia.
Qed.

(** ** Platforms *)
Lemma platforms : forall op w, vc false op w = gcc op w.
Proof.
  intros [] w; try reflexivity; unfold vc, gcc, InterlockedCompareExchange; try (destruct (Z.eqb_spec w 0); subst; reflexivity).
  destruct (Z.eqb_spec w old).
  - subst. rewrite Z.eqb_refl. auto.
  - destruct (Z.eqb_spec w old); auto. contradiction.
Qed.
Lemma platforms_x86 : forall op w, (forall v, op <> AAdd v) -> vc true op w = gcc op w.
Proof. intros op w H. rewrite <- platforms. destruct op; auto. exfalso. eapply H; eauto. Qed.
Lemma add_x86 : forall v w, int32_range w -> reduced 0 v \/ fst (vc true (AAdd v) w) = fst (gcc (AAdd v) w) /\ snd (vc true (AAdd v) w) = RInt w /\ snd (gcc (AAdd v) w) <> RInt w.
Proof.
  intros v w R. destruct (Z.eq_dec (wrap32 (w + v)) w) as [E|N].
  - left. destruct (wrap32_reduced (w + v)) as (_ & k & K). rewrite E in K. split; [unfold int32_range; lia|]. exists k. lia.
  - right. split; auto. split; auto. cbn. congruence.
Qed.

(** ** CAS *)
Lemma cas_lost : forall ops w old, Forall (fun op => exists n, op = ACAS old n /\ n <> old) ops -> w <> old ->
  replay gcc w ops = (w, map (fun _ => RYes false) ops).
Proof.
  intros ops. induction ops as [|op ops IH]; intros w old F N; auto. inversion F as [|? ? (n & -> & Hn) F2]; subst. cbn.
  destruct (Z.eqb_spec w old); [contradiction|]. rewrite (IH w old) by auto. auto.
Qed.

Lemma cas_one : forall old progs sched, all_ops (fun op => exists n, op = ACAS old n /\ n <> old) progs ->
  let s := exec old progs sched in
  log s = [] \/ exists t n rest, log s = (t, ACAS old n, RYes true) :: rest /\ counter s = n /\ Forall (fun r => r = RYes false) (rets_of rest).
Proof.
  intros old progs sched A s. pose proof (exec_replay old progs sched) as R. pose proof (exec_all _ old progs sched A) as P. fold s in R, P.
  destruct (log s) as [|[[t op] r] rest]; [auto|]. right. destruct (Forall_inv P) as (n & E & Hn). apply Forall_inv_tail in P as P2. cbn in E. subst op.
  cbn in R. rewrite Z.eqb_refl in R. fold (ops_of rest) in *. rewrite (cas_lost (ops_of rest) n old) in R; auto. injection R as C <- L.
  exists t, n, rest. split; auto. split; auto. fold (rets_of rest) in L. rewrite <- L. clear. induction (ops_of rest); constructor; auto.
Qed.

(** ** Exchange *)
Lemma exchange_replay : forall ops w w' l, Forall (fun op => exists v, op = AExchange v) ops -> replay gcc w ops = (w', l) ->
  w :: flat_map given ops = flat_map got l ++ [w'].
Proof.
  intros ops. induction ops as [|op ops IH]; intros w w' l F R.
  - cbn in R. injection R as <- <-. auto.
  - inversion F as [|? ? (v & ->) F2]; subst. cbn in R. destruct (replay gcc v ops) as [w2 l2] eqn:Q. injection R as <- <-.
    cbn. rewrite <- (IH v w2 l2); auto.
Qed.
Lemma exchange_chain : forall w0 progs sched, all_ops (fun op => exists v, op = AExchange v) progs ->
  let s := exec w0 progs sched in w0 :: flat_map given (ops_of (log s)) = flat_map got (rets_of (log s)) ++ [counter s].
Proof. intros w0 progs sched A s. apply exchange_replay. - apply exec_all; auto. - apply exec_replay. Qed.
