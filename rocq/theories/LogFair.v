(** * LogSystem: what happens in every fair execution *)
From Coq Require Import ZArith String Bool List Arith Lia.
From Verif Require Import Base ListFacts LogModel LogSpec LogProofs LogOrder LogCount LogStop LogLive.
Import ListNotations.
Open Scope list_scope.

(** Induction on several numbers, the first the most important. *)
Definition less3 (x y : nat * (nat * nat)) : Prop := fst x < fst y \/ (fst x = fst y /\ less2 (snd x) (snd y)).

Lemma less3_ind : forall P : nat * (nat * nat) -> Prop, (forall x, (forall y, less3 y x -> P y) -> P x) -> forall x, P x.
Proof.
  intros P H. assert (G : forall a b, P (a, b)).
  { intros a. induction a as [a IHa] using lt_wf_ind. intros b. induction b as [b IHb] using less2_ind.
    apply H. intros [a' b'] [L|(E & L)]; cbn in *; [auto|subst; auto]. }
  intros [a b]. apply G.
Qed.

Definition less4 (x y : nat * (nat * (nat * nat))) : Prop := fst x < fst y \/ (fst x = fst y /\ less3 (snd x) (snd y)).

Lemma less4_ind : forall P : nat * (nat * (nat * nat)) -> Prop, (forall x, (forall y, less4 y x -> P y) -> P x) -> forall x, P x.
Proof.
  intros P H. assert (G : forall a b, P (a, b)).
  { intros a. induction a as [a IHa] using lt_wf_ind. intros b. induction b as [b IHb] using less3_ind.
    apply H. intros [a' b'] [L|(E & L)]; cbn in *; [auto|subst; auto]. }
  intros [a b]. apply G.
Qed.

Section Fair.
Context {RE : Type}.
Variable compile : string -> option RE.
Variable rmatch : string -> RE -> bool.
Notation sys := (@sys RE).
Notation world := (@world RE).
Notation cs := (@cs RE compile).
Notation ls := (@ls RE compile rmatch).
Notation st := (@st RE compile rmatch).
Notation run := (run compile rmatch).
Notation step := (step compile rmatch).
Notation reaches := (reaches compile rmatch).
Notation execution := (execution compile rmatch).
Notation fair := (fair compile rmatch).
Implicit Types (s : sys) (w : world).

(** How far the log thread is from the end of the message it has or will have. *)
Definition rank (t : tpc) : nat * (nat * (nat * nat)) :=
  match t with
  | TClean _ _ r => (7, (List.length r, (0, 0))) | TDispose _ => (6, (0, (0, 0))) | TDelete _ => (5, (1, (0, 0))) | TFree _ => (5, (0, (0, 0)))
  | TAsleep => (8, (0, (0, 0))) | TCheck => (4, (0, (0, 0))) | TGot _ => (3, (0, (0, 0))) | TCount _ => (2, (0, (0, 0)))
  | TSend _ r => (1, (3 * List.length r, (0, 0)))
  | TLevel _ _ r => (1, (3 * List.length r + 2, (1, 0)))
  | TCat _ _ r => (1, (3 * List.length r + 2, (0, 0)))
  | TCall _ r c => (1, (3 * List.length r + 1, (cost c, asks c)))
  | TNone | TExited => (0, (0, (0, 0)))
  end.

(** A step of the log thread, in a callback that does not stop, start or throw. *)
Lemma ls_rank : forall s s' es, ls s s' es -> (forall o r c, logt s = TCall o r c -> calm (c_pc c)) ->
  terminated s = false -> (logt s = TCheck -> queue s <> []) ->
  less4 (rank (logt s')) (rank (logt s)) \/ List.length (ended es) = 1.
Proof.
  intros s s' es H C T Q. destruct H; rewrite ?H in *; sfields; unfold less4, less3, less2; cbn [rank fst snd length]; try (left; lia); try (right; reflexivity).
  - exfalso. apply Q; auto.
  - left. right. split; auto. right. split; auto. eapply cs_cost; eauto. intros E. apply (C _ _ _ eq_refl). rewrite E. cbn. tauto.
Qed.

(** What a step of the log thread cannot do to clients and lock. *)
Lemma ls_calm : forall s s' es, ls s s' es ->
  (forall o r c, logt s = TCall o r c -> modest (c_todo c) /\ calm (c_pc c)) ->
  crashed s' = crashed s /\ mtx s' = mtx s /\ terminated s' = terminated s /\ (logt s = TNone -> logt s' = TNone).
Proof.
  intros s s' es H C. destruct H; sfields; repeat split; auto; try congruence;
    destruct (C _ _ _ H) as (M & K); destruct (cs_modest _ _ _ _ _ _ _ H0 M K) as (_ & _ & A & B & D & _); auto.
Qed.

(** A client's step and the log thread. *)
Lemma cs_logt : forall i c s c' s' es, cs (Client i) c s c' s' es ->
  crashed s' = crashed s /\ ended es = [] /\
  (logt s' = logt s \/ (logt s = TAsleep /\ logt s' = TCheck) \/ (logt s = TNone /\ logt s' = TCheck) \/ (logt s = TExited /\ logt s' = TNone)).
Proof.
  intros i c s c' s' es H. assert (Q : ended es = []) by (apply (cs_quiet _ _ _ _ _ _ _ H)).
  destruct H; try discriminate; sfields; nsimp; repeat split; auto.
  - psimp o s. congruence.
  - psimp o s. match goal with E : logt (pushed o s) = _ |- _ => rewrite E end. destruct (logt s); auto.
  - destruct (logt s); auto.
Qed.

Lemma shown_run : forall ws evs n, execution ws evs -> forall m, n <= m -> exists sched x, run sched (ws n) = Some (ws m, x) /\ shown evs m = shown evs n ++ x.
Proof.
  intros ws evs n X m L. induction L as [|m L IH].
  - exists [], []. rewrite app_nil_r. auto.
  - destruct IH as (sched & x & R & E). destruct (X m) as [(ch & S)|(S & V)].
    + exists (sched ++ [ch]), (x ++ evs m). rewrite (run_app _ _ _ _ _ _ _ R). cbn [LogModel.run]. rewrite S, app_nil_r.
      split; auto. cbn [shown]. rewrite E, app_assoc. auto.
    + exists sched, x. rewrite S. split; auto. cbn [shown]. rewrite E, V, app_nil_r. auto.
Qed.

Lemma shown_reaches : forall ws evs sn g lf progs tr, execution ws evs -> reaches sn g lf progs (ws 0) tr ->
  forall n, reaches sn g lf progs (ws n) (tr ++ shown evs n).
Proof.
  intros ws evs sn g lf progs tr X (s0 & R) n. destruct (shown_run ws evs 0 X n) as (sched & x & R' & ->); [lia|].
  exists (s0 ++ sched). rewrite (run_app _ _ _ _ _ _ _ R), R'. auto.
Qed.

Section Execution.
Variables (ws : nat -> world) (evs : nat -> list ev) (sn g : bool) (lf : nat -> @listener RE) (progs : list (list call)) (tr : list ev).
Hypothesis X : execution ws evs.
Hypothesis R : reaches sn g lf progs (ws 0) tr.
Hypothesis M : forall n, modest_now (ws n).
Hypothesis C0 : crashed (w_sys (ws 0)) = None.

Lemma modest_call : forall n o r c, logt (w_sys (ws n)) = TCall o r c -> modest (c_todo c) /\ calm (c_pc c).
Proof. intros n o r c E. pose proof (M n) as H. unfold modest_now in H. rewrite E in H. exact H. Qed.

Lemma never_crashed : forall n, crashed (w_sys (ws n)) = None.
Proof.
  intros n. induction n as [|n IH]; auto. destruct (X n) as [(ch & S)|(S & _)]; [|congruence].
  apply step_st in S. inversion S as [w i c c' s' es K1 K2 K3|w s' es K1 K2|w K1 K2]; subst; cbn [w_sys].
  - apply cs_logt in K3. destruct K3 as (-> & _). auto.
  - apply ls_calm in K2; [destruct K2 as (-> & _); auto|]. intros o r c E. eapply modest_call; eauto.
  - exact IH.
Qed.

(** ** C34 *)
Section Dispatch.
Hypothesis T : forall n, terminated (w_sys (ws n)) = false.
Hypothesis N0 : logt (w_sys (ws 0)) <> TNone.
Hypothesis F : fair LogThread ws evs.

Lemma never_none : forall n, logt (w_sys (ws n)) <> TNone.
Proof.
  intros n. induction n as [|n IH]; auto. destruct (X n) as [(ch & S)|(S & _)]; [|congruence].
  pose proof (reaches_stop _ _ _ _ _ _ _ _ (shown_reaches _ _ _ _ _ _ _ X R n)) as (_ & _ & _ & _ & Ex).
  apply step_st in S. inversion S as [w i c c' s' es K1 K2 K3|w s' es K1 K2|w K1 K2]; subst; cbn [w_sys].
  - apply cs_logt in K3. destruct K3 as (_ & _ & [E|[(_ & E)|[(_ & E)|(E & _)]]]); try congruence. apply Ex in E. rewrite T in E. discriminate.
  - destruct K2; sfields; try congruence; discriminate.
  - discriminate.
Qed.

Definition count_ended n := List.length (ended (tr ++ shown evs n)).
Definition count_accepted n := List.length (accepted (tr ++ shown evs n)).

Lemma behind : forall n, count_ended n < count_accepted n -> unended (ws n) <> [] \/ waiting (ws n) <> [].
Proof.
  intros n L. pose proof (reaches_good _ _ _ _ _ _ _ _ (shown_reaches _ _ _ _ _ _ _ X R n)) as (_ & _ & _ & GA & _ & GE & _).
  unfold count_ended, count_accepted in L. rewrite GA, GE, !app_length in L.
  destruct (unended (ws n)); [|left; discriminate]. destruct (waiting (ws n)); [|right; discriminate]. cbn in L. lia.
Qed.

(** Where the log thread can be while something remains to be done. *)
Lemma awake : forall n, count_ended n < count_accepted n ->
  logt (w_sys (ws n)) <> TAsleep /\ logt (w_sys (ws n)) <> TExited /\ (logt (w_sys (ws n)) = TCheck -> queue (w_sys (ws n)) <> []).
Proof.
  intros n L. pose proof (shown_reaches _ _ _ _ _ _ _ X R n) as Rn. apply behind in L.
  pose proof (reaches_stop _ _ _ _ _ _ _ _ Rn) as (_ & _ & _ & _ & Ex). repeat split.
  - intros E. destruct (no_lost_wakeup _ _ _ _ _ _ _ _ Rn E) as (W & _). unfold unended in L. rewrite E in L. destruct L; congruence.
  - intros E. apply Ex in E. rewrite T in E. discriminate.
  - intros E Q. unfold unended in L. rewrite E in L. unfold waiting in L. rewrite Q in L. cbn in L. destruct L as [L|L]; apply L; reflexivity.
Qed.

Lemma count_mono : forall n m, n <= m -> count_ended n <= count_ended m /\ count_accepted n <= count_accepted m.
Proof.
  intros n m L. destruct (shown_run ws evs n X m L) as (_ & x & _ & E). unfold count_ended, count_accepted. rewrite E.
  destruct (picks_app tr (shown evs n ++ x)) as (A1 & _ & _ & _ & A2 & _).
  destruct (picks_app (shown evs n) x) as (B1 & _ & _ & _ & B2 & _).
  destruct (picks_app tr (shown evs n)) as (D1 & _ & _ & _ & D2 & _).
  rewrite A1, A2, B1, B2, D1, D2, !app_length. lia.
Qed.

Lemma count_step : forall n, count_ended (S n) = count_ended n + List.length (ended (evs n)).
Proof.
  intros n. unfold count_ended. cbn [shown]. rewrite app_assoc.
  destruct (picks_app (tr ++ shown evs n) (evs n)) as (_ & _ & _ & _ & A2 & _). rewrite A2, app_length. auto.
Qed.

(** One step: nothing for the log thread, or progress. *)
Lemma one_step : forall n, count_ended n < count_accepted n ->
  (count_ended (S n) = count_ended n /\ logt (w_sys (ws (S n))) = logt (w_sys (ws n))) \/
  less4 (rank (logt (w_sys (ws (S n))))) (rank (logt (w_sys (ws n)))) \/ count_ended n < count_ended (S n).
Proof.
  intros n L. destruct (awake n L) as (A1 & A2 & A3). pose proof (never_none n) as A4. rewrite count_step.
  destruct (X n) as [(ch & S)|(S & E)].
  2: { rewrite S, E. left. split; auto. }
  apply step_st in S. inversion S as [w i c c' s' es K1 K2 K3|w s' es K1 K2|w K1 K2]; subst; cbn [w_sys].
  - apply cs_logt in K3. destruct K3 as (_ & -> & [E|[(E & _)|[(E & _)|(E & _)]]]); try congruence. left. split; [cbn; lia|auto].
  - destruct (ls_rank _ _ _ K2) as [H|H]; auto.
    + intros o r c E. eapply modest_call; eauto.
    + right. right. rewrite H. lia.
  - congruence.
Qed.

(** The log thread can move. *)
Lemma ready : forall n, count_ended n < count_accepted n -> exists cb, step (GoLog cb) (ws n) <> None.
Proof.
  intros n L. destruct (awake n L) as (A1 & A2 & A3). pose proof (never_none n) as A4. exists [].
  unfold LogModel.step. rewrite never_crashed. unfold lstep.
  destruct (logt (w_sys (ws n))) eqn:E; try congruence.
  - rewrite T. destruct (queue (w_sys (ws n))); discriminate.
  - destruct rest; [discriminate|]. destruct (l_enabled _); discriminate.
  - destruct (_ >=? _)%Z; discriminate.
  - destruct (checkCategory _ _ _); discriminate.
  - destruct (modest_call _ _ _ _ E) as (_ & Cm). destruct c as [pc k]. cbn [c_pc c_todo] in *.
    destruct (cstep compile LogThread (mkC pc k) (w_sys (ws n))) as [[[c1 s1] e1]|] eqn:Ec.
    + destruct pc; try discriminate. destruct k; discriminate.
    + apply cstep_enabled in Ec. cbn [c_pc c_todo] in Ec. unfold calm in Cm.
      destruct Ec as [(-> & ->)|[(-> & _)|[(-> & _)|(-> & _)]]]; try discriminate; exfalso; apply Cm; cbn; tauto.
  - destruct todo; discriminate.
  - destruct (_ <? _); discriminate.
Qed.

Lemma more_ended : forall x n, rank (logt (w_sys (ws n))) = x -> count_ended n < count_accepted n ->
  exists k, n <= k /\ count_ended n < count_ended k.
Proof.
  intros x. induction x as [x IH] using less4_ind. intros n Ex L.
  destruct (F n) as (k & Lk & Fk).
  (* until k, either something happens or the log thread stays *)
  assert (G : forall d, n + d <= k -> (exists j, n <= j /\ count_ended n < count_ended j) \/
    (count_ended (n + d) = count_ended n /\ logt (w_sys (ws (n + d))) = logt (w_sys (ws n)))).
  { intros d. induction d as [|d IHd]; intros Hd.
    - right. rewrite Nat.add_0_r. auto.
    - destruct IHd as [H|(H1 & H2)]; [lia|left; auto|].
      destruct (count_mono n (n + d)) as (_ & Am); [lia|].
      destruct (one_step (n + d)) as [(S1 & S2)|[S1|S1]]; [lia| | |].
      + right. rewrite Nat.add_succ_r. split; congruence.
      + left. rewrite H2, Ex in S1. destruct (count_mono n (S (n + d))) as (Bm & Bm2); [lia|].
        destruct (Nat.eq_dec (count_ended (S (n + d))) (count_ended n)) as [Q|Q].
        * destruct (IH _ S1 (S (n + d)) eq_refl) as (j & J1 & J2); [lia|]. exists j. split; lia.
        * exists (S (n + d)). split; lia.
      + left. exists (S (n + d)). split; lia. }
  destruct (G (k - n)) as [H|(H1 & H2)]; [lia|auto|]. replace (n + (k - n)) with k in * by lia.
  assert (Lk' : count_ended k < count_accepted k) by (destruct (count_mono n k) as (_ & Am); lia).
  destruct Fk as [(ch & Hc & S)|B].
  - destruct ch as [i|cb|]; cbn in Hc; try contradiction. unfold LogModel.step in S. rewrite never_crashed in S.
    destruct (lstep compile rmatch cb (w_sys (ws k))) as [[s' es]|] eqn:E; [|discriminate]. injection S as S1 S2.
    apply lstep_ls in E. destruct (awake k Lk') as (_ & _ & A3).
    destruct (ls_rank _ _ _ E) as [H|H]; auto.
    + intros o r c E2. eapply modest_call; eauto.
    + replace s' with (w_sys (ws (S k))) in H by (rewrite <- S1; auto). rewrite H2, Ex in H.
      destruct (count_mono k (S k)) as (Bm & Bm2); [lia|].
      destruct (Nat.eq_dec (count_ended (S k)) (count_ended n)) as [Q|Q].
      * destruct (IH _ H (S k) eq_refl) as (j & J1 & J2); [lia|]. exists j. split; lia.
      * exists (S k). split; lia.
    + exists (S k). rewrite count_step, <- S2, H. split; lia.
  - exfalso. destruct (ready k Lk') as (cb & Hr). apply Hr. apply B. exact I.
Qed.

Lemma reach_count : forall d n N, N <= count_accepted n -> N <= count_ended n + d -> exists k, n <= k /\ N <= count_ended k.
Proof.
  intros d. induction d as [|d IH]; intros n N A B.
  - exists n. lia.
  - destruct (le_lt_dec N (count_ended n)) as [H|H]; [exists n; lia|].
    destruct (more_ended _ n eq_refl) as (k & K1 & K2); [lia|]. destruct (count_mono n k K1) as (_ & Am).
    destruct (IH k N) as (j & J1 & J2); [lia|lia|]. exists j. lia.
Qed.

Lemma prefix_shorter : forall (A : Type) (a b c d : list A), a ++ b = c ++ d -> List.length a <= List.length c -> prefix a c.
Proof.
  intros A a. induction a as [|x a IH]; intros b c d E L.
  - exists c. auto.
  - destruct c as [|y c]; [cbn in L; lia|]. injection E as -> E. destruct (IH b c d E) as (r & ->); [cbn in L; lia|]. exists r. auto.
Qed.

Lemma dispatched_all : forall n, exists k, n <= k /\ prefix (accepted (tr ++ shown evs n)) (ended (tr ++ shown evs k)).
Proof.
  intros n. destruct (reach_count (count_accepted n) n (count_accepted n)) as (k & K1 & K2); [lia|lia|].
  exists k. split; auto.
  pose proof (reaches_good _ _ _ _ _ _ _ _ (shown_reaches _ _ _ _ _ _ _ X R k)) as (_ & _ & _ & GA & _ & GE & _).
  destruct (shown_run ws evs n X k K1) as (_ & x & _ & E).
  apply prefix_shorter with (b := accepted x) (d := unended (ws k) ++ waiting (ws k)); auto.
  rewrite app_assoc, <- GE, <- GA, E, app_assoc. destruct (picks_app (tr ++ shown evs n) x) as (-> & _). auto.
Qed.
End Dispatch.

(** ** C99 *)
Definition sums (l : list cthread) : nat * nat := (list_sum (map cost l), list_sum (map asks l)).
Definition total w : nat * nat := sums (w_clients w).

Lemma client_cost : forall i c s c' s' es, cs (Client i) c s c' s' es -> less2 (cost c', asks c') (cost c, asks c).
Proof. intros i c s c' s' es H. unfold less2. destruct H; unfold cost, asks; cbn in *; try lia; discriminate. Qed.

Lemma sum_upd : forall (f : cthread -> nat) l i c c', nth_error l i = Some c ->
  list_sum (map f (upd i (fun _ => c') l)) + f c = list_sum (map f l) + f c'.
Proof.
  intros f l. induction l as [|x l IH]; intros [|i] c c' E; try discriminate; cbn in *.
  - injection E as ->. lia.
  - specialize (IH i c c' E). unfold list_sum in *. lia.
Qed.

Lemma upd_sum : forall l i c c', nth_error l i = Some c -> less2 (cost c', asks c') (cost c, asks c) -> less2 (sums (upd i (fun _ => c') l)) (sums l).
Proof.
  intros l i c c' E L. pose proof (sum_upd cost l i c c' E). pose proof (sum_upd asks l i c c' E).
  unfold less2, sums in *. cbn [fst snd] in *. lia.
Qed.

(** How far the log thread is from the end of its loop. *)
Definition to_exit (t : tpc) : nat * (nat * (nat * nat)) :=
  match t with
  | TClean _ _ r => (4, (List.length r, (0, 0))) | TDispose _ => (3, (0, (0, 0))) | TDelete _ => (2, (1, (0, 0))) | TFree _ => (2, (0, (0, 0)))
  | TAsleep => (8, (0, (0, 0))) | TCheck => (1, (0, (0, 0))) | TGot _ => (7, (0, (0, 0))) | TCount _ => (6, (0, (0, 0)))
  | TSend _ r => (5, (3 * List.length r, (0, 0)))
  | TLevel _ _ r => (5, (3 * List.length r + 2, (1, 0)))
  | TCat _ _ r => (5, (3 * List.length r + 2, (0, 0)))
  | TCall _ r c => (5, (3 * List.length r + 1, (cost c, asks c)))
  | TNone | TExited => (0, (0, (0, 0)))
  end.

Lemma ls_to_exit : forall s s' es, ls s s' es -> (forall o r c, logt s = TCall o r c -> calm (c_pc c)) ->
  terminated s = true -> less4 (to_exit (logt s')) (to_exit (logt s)).
Proof.
  intros s s' es H C T. destruct H; rewrite ?H in *; sfields; unfold less4, less3, less2; cbn [to_exit fst snd length]; try lia; try congruence.
  right. split; auto. right. split; auto. eapply cs_cost; eauto. intros E. apply (C _ _ _ eq_refl). rewrite E. cbn. tauto.
Qed.

Hypothesis FA : forall t, fair t ws evs.

Definition moved n : Prop := exists k, n <= k /\ less2 (total (ws k)) (total (ws n)).
Definition stays n k : Prop :=
  w_clients (ws k) = w_clients (ws n) /\ mtx (w_sys (ws k)) = mtx (w_sys (ws n)) /\
  terminated (w_sys (ws k)) = terminated (w_sys (ws n)) /\ (logt (w_sys (ws n)) = TExited -> logt (w_sys (ws k)) = TExited).

Lemma moved_stays : forall n k, n <= k -> stays n k -> moved k -> moved n.
Proof. intros n k L (E & _) (j & J1 & J2). exists j. split; [lia|]. unfold total in *. rewrite <- E. auto. Qed.

Lemma stays_trans : forall a b c, stays a b -> stays b c -> stays a c.
Proof. intros a b c (A1 & A2 & A3 & A4) (B1 & B2 & B3 & B4). repeat split; try congruence. auto. Qed.

(** One step of anybody. *)
Lemma any_step : forall n, less2 (total (ws (S n))) (total (ws n)) \/
  (stays n (S n) /\ (logt (w_sys (ws (S n))) = logt (w_sys (ws n)) \/
    (terminated (w_sys (ws n)) = true -> less4 (to_exit (logt (w_sys (ws (S n))))) (to_exit (logt (w_sys (ws n))))))).
Proof.
  intros n. destruct (X n) as [(ch & S)|(S & E)].
  2: { right. rewrite S. unfold stays. rewrite S. auto. }
  unfold total, stays.
  apply step_st in S. inversion S as [w i c c' s' es K1 K2 K3|w s' es K1 K2|w K1 K2]; subst; cbn [w_sys w_clients].
  - left. apply upd_sum with (c := c); auto. eapply client_cost; eauto.
  - right. destruct (ls_calm _ _ _ K2) as (_ & E1 & E2 & _); [intros; eapply modest_call; eauto|]. repeat split; auto.
    + intros E. exfalso. destruct K2; congruence.
    + right. intros T. apply ls_to_exit with (es := evs n); auto. intros o r c E. eapply modest_call; eauto.
  - right. repeat split; auto.
    + cbn. congruence.
    + right. intros _. rewrite K2. left. cbn. lia.
Qed.

Lemma still : forall n d, moved n \/ stays n (n + d).
Proof.
  intros n d. induction d as [|d IH].
  - right. rewrite Nat.add_0_r. unfold stays. auto.
  - destruct IH as [H|H]; auto. destruct (any_step (n + d)) as [L|(L & _)].
    + left. eapply moved_stays; [|exact H|]; [lia|]. exists (S (n + d)). split; [lia|auto].
    + right. rewrite Nat.add_succ_r. eapply stays_trans; eauto.
Qed.

Lemma client_ready : forall n i c, nth_error (w_clients (ws n)) i = Some c ->
  (forall k, n <= k -> stays n k -> cstep compile (Client i) c (w_sys (ws k)) <> None) -> moved n.
Proof.
  intros n i c E H. destruct (FA (Client i) n) as (k & L & Fk). destruct (still n (k - n)) as [Q|Q]; auto.
  replace (n + (k - n)) with k in Q by lia. specialize (H k L Q). destruct Q as (Q & _). rewrite <- Q in E.
  destruct Fk as [(ch & Hc & S)|B].
  - destruct ch as [j|cb|]; cbn in Hc; try contradiction. subst j. unfold LogModel.step in S. rewrite never_crashed, E in S.
    destruct (cstep compile (Client i) c (w_sys (ws k))) as [[[c' s'] es]|] eqn:Ec; [|congruence]. injection S as S1 S2.
    exists (S k). split; [lia|]. unfold total. rewrite <- Q, <- S1. cbn [w_clients].
    apply upd_sum with (c := c); auto. eapply client_cost. eapply cstep_cs; eauto.
  - exfalso. specialize (B (Go i) eq_refl). unfold LogModel.step in B. rewrite never_crashed, E in B.
    destruct (cstep compile (Client i) c (w_sys (ws k))) as [[[c' s'] es]|]; [discriminate|congruence].
Qed.

Lemma join_returns : forall x n i c, to_exit (logt (w_sys (ws n))) = x -> nth_error (w_clients (ws n)) i = Some c -> c_pc c = StopJoin -> moved n.
Proof.
  intros x. induction x as [x IH] using less4_ind. intros n i c Ex Ei Ep.
  pose proof (shown_reaches _ _ _ _ _ _ _ X R n) as Rn.
  pose proof (reaches_stop _ _ _ _ _ _ _ _ Rn) as (I1 & _ & I3 & I4 & _).
  assert (T : terminated (w_sys (ws n)) = true) by (eapply I1; eauto; right; right; auto).
  assert (Mx : mtx (w_sys (ws n)) = Some (Client i)) by (apply I3; exists c; auto).
  assert (N : logt (w_sys (ws n)) <> TNone) by (apply I4; congruence).
  assert (D : {logt (w_sys (ws n)) = TExited} + {logt (w_sys (ws n)) <> TExited}) by (destruct (logt (w_sys (ws n))); auto; right; discriminate).
  destruct D as [D|D].
  { eapply client_ready; eauto. intros k L (_ & _ & _ & Q) Hs. apply cstep_enabled in Hs. rewrite Ep in Hs.
    destruct Hs as [(A & _)|[(A & _)|[(A & _)|(_ & _ & A)]]]; try discriminate. auto. }
  assert (D2 : {logt (w_sys (ws n)) = TAsleep} + {logt (w_sys (ws n)) <> TAsleep}) by (destruct (logt (w_sys (ws n))); auto; right; discriminate).
  destruct D2 as [D2|D2].
  { destruct (no_lost_wakeup _ _ _ _ _ _ _ _ Rn D2) as (_ & W). destruct (W T) as (j & cj & Hj & Hp).
    eapply client_ready; eauto. intros k L _ Hs. apply cstep_enabled in Hs. rewrite Hp in Hs.
    destruct Hs as [(A & _)|[(A & _)|[(A & _)|(A & _)]]]; discriminate. }
  destruct (FA LogThread n) as (k & Lk & Fk).
  assert (G : forall d, moved n \/ (stays n (n + d) /\ logt (w_sys (ws (n + d))) = logt (w_sys (ws n)))).
  { intros d. induction d as [|d IHd].
    - right. rewrite Nat.add_0_r. unfold stays. auto.
    - destruct IHd as [H|(H1 & H2)]; auto. destruct (any_step (n + d)) as [L|(L & [E|E])].
      + left. eapply moved_stays; [|exact H1|]; [lia|]. exists (S (n + d)). split; [lia|auto].
      + right. rewrite Nat.add_succ_r. split; [eapply stays_trans; eauto|congruence].
      + left. assert (Q : stays n (S (n + d))) by (eapply stays_trans; eauto).
        eapply moved_stays; [|exact Q|]; [lia|]. rewrite H2, Ex in E. eapply IH; [apply E|reflexivity| |exact Ep].
        * destruct H1 as (_ & _ & -> & _). auto.
        * destruct Q as (-> & _). exact Ei. }
  destruct (G (k - n)) as [H|(Q & H2)]; auto. replace (n + (k - n)) with k in * by lia.
  eapply moved_stays; [exact Lk|exact Q|]. pose proof Q as (Q1 & _ & Q3 & _).
  destruct Fk as [(ch & Hc & S)|B].
  - destruct ch as [j|cb|]; cbn in Hc; try contradiction. unfold LogModel.step in S. rewrite never_crashed in S.
    destruct (lstep compile rmatch cb (w_sys (ws k))) as [[s' es]|] eqn:E; [|discriminate]. injection S as S1 S2.
    apply lstep_ls in E. pose proof (ls_to_exit _ _ _ E) as Z. pose proof (ls_calm _ _ _ E) as Z2.
    rewrite H2, Ex in Z. replace s' with (w_sys (ws (S k))) in Z by (rewrite <- S1; auto).
    assert (Y : moved (S k)).
    { eapply IH; [apply Z|reflexivity| |exact Ep].
      - intros o r c0 E0. rewrite <- H2 in E0. eapply modest_call; eauto.
      - congruence.
      - rewrite <- S1. cbn [w_clients]. rewrite Q1. exact Ei. }
    destruct Y as (j & J1 & J2). exists j. split; [lia|]. unfold total in *. rewrite <- S1 in J2. exact J2.
  - exfalso. specialize (B (GoLog []) I). unfold LogModel.step in B. rewrite never_crashed in B. unfold lstep in B.
    rewrite H2 in B. destruct (logt (w_sys (ws n))) eqn:E; try congruence; try discriminate.
    + rewrite Q3, T in B. discriminate.
    + destruct rest; [discriminate|]. destruct (l_enabled _); discriminate.
    + destruct (_ >=? _)%Z; discriminate.
    + destruct (checkCategory _ _ _); discriminate.
    + destruct (modest_call _ _ _ _ E) as (_ & Cm). destruct c0 as [pc k0]. cbn [c_pc c_todo] in *.
      destruct (cstep compile LogThread (mkC pc k0) (w_sys (ws k))) as [[[c1 s1] e1]|] eqn:Ec.
      * destruct pc; try discriminate. destruct k0; discriminate.
      * apply cstep_enabled in Ec. cbn [c_pc c_todo] in Ec. unfold calm in Cm.
        destruct Ec as [(-> & ->)|[(-> & _)|[(-> & _)|(-> & _)]]]; try discriminate; apply Cm; cbn; tauto.
    + destruct todo; discriminate.
    + destruct (_ <? _); discriminate.
Qed.

Lemma somebody_moves : forall n i c, nth_error (w_clients (ws n)) i = Some c -> ~ (c_pc c = Idle /\ c_todo c = []) -> moved n.
Proof.
  intros n i c Ei Nd. pose proof (shown_reaches _ _ _ _ _ _ _ X R n) as Rn.
  pose proof (reaches_stop _ _ _ _ _ _ _ _ Rn) as (_ & _ & I3 & _).
  assert (J : mtx (w_sys (ws n)) <> None -> moved n).
  { intros Hm. destruct (mtx (w_sys (ws n))) as [t|] eqn:Em; [|congruence].
    pose proof (proj2 (I3 t) eq_refl) as Ow. destruct t as [j|]; destruct Ow as (cj & E1 & E2).
    - eapply join_returns; eauto.
    - exfalso. unfold nested in E1. destruct (logt (w_sys (ws n))) eqn:E; try discriminate. injection E1 as <-.
      destruct (modest_call _ _ _ _ E) as (_ & Cm). apply Cm. rewrite E2. cbn. tauto. }
  assert (D : {c_pc c = StopJoin} + {c_pc c <> StopJoin}) by (destruct (c_pc c); auto; right; discriminate).
  destruct D as [D|D]; [eapply join_returns; eauto|].
  destruct (mtx (w_sys (ws n))) as [t|] eqn:Em; [apply J; congruence|].
  eapply client_ready; eauto. intros k L (_ & Q & _) Hs. apply cstep_enabled in Hs. rewrite Q, Em in Hs.
  destruct Hs as [A|[(_ & A)|[(_ & A)|(A & _)]]]; congruence.
Qed.

Lemma undone : forall l : list cthread, (forall i c, nth_error l i = Some c -> c_pc c = Idle /\ c_todo c = []) \/
  exists i c, nth_error l i = Some c /\ ~ (c_pc c = Idle /\ c_todo c = []).
Proof.
  intros l. induction l as [|x l [IH|(i & c & E & N)]].
  - left. intros [|i] c E; discriminate.
  - assert (D : (c_pc x = Idle /\ c_todo x = []) \/ ~ (c_pc x = Idle /\ c_todo x = [])).
    { destruct x as [pc k]. cbn. destruct pc; try (right; intros (A & _); discriminate). destruct k; auto. right; intros (_ & A); discriminate. }
    destruct D as [D|D].
    + left. intros [|i] c E; [injection E as <-; auto|eauto].
    + right. exists 0, x. auto.
  - right. exists (S i), c. auto.
Qed.

Lemma all_return : forall t n, total (ws n) = t -> exists k, n <= k /\ all_done (ws k).
Proof.
  intros t. induction t as [t IH] using less2_ind. intros n E. destruct (undone (w_clients (ws n))) as [H|(i & c & Hi & Hc)].
  - exists n. auto.
  - destruct (somebody_moves n i c Hi Hc) as (k & K1 & K2). destruct (IH (total (ws k))) with (n := k) as (j & J1 & J2); [rewrite <- E; auto|auto|].
    exists j. split; [lia|auto].
Qed.
End Execution.
End Fair.

(** ** Executions made of a finite schedule, for the concrete cases *)
Section Play.
Context {RE : Type}.
Variable compile : string -> option RE.
Variable rmatch : string -> RE -> bool.
Notation step := (step compile rmatch).

Fixpoint play (sched : list choice) (w : @world RE) (n : nat) : @world RE :=
  match n, sched with
  | S n', ch :: sched' => match step ch w with Some (w', _) => play sched' w' n' | None => w end
  | _, _ => w
  end.

Fixpoint plays (sched : list choice) (w : @world RE) (n : nat) : list ev :=
  match sched with
  | [] => []
  | ch :: sched' =>
      match step ch w with
      | Some (w', es) => match n with 0 => es | S n' => plays sched' w' n' end
      | None => []
      end
  end.

Lemma play_execution : forall sched w, execution compile rmatch (play sched w) (plays sched w).
Proof.
  intros sched. induction sched as [|ch sched IH]; intros w n.
  - right. destruct n; auto.
  - destruct (step ch w) as [[w' es]|] eqn:E.
    + destruct n as [|n].
      * left. exists ch. cbn. rewrite E. cbn. destruct sched; auto.
      * specialize (IH w' n). cbn [play plays]. rewrite E. exact IH.
    + right. destruct n; cbn; rewrite E; auto.
Qed.

Lemma play_end : forall sched w w' tr, run compile rmatch sched w = Some (w', tr) -> forall n, List.length sched <= n -> play sched w n = w'.
Proof.
  intros sched. induction sched as [|ch sched IH]; intros w w' tr H n L; cbn [LogModel.run] in H.
  - injection H as <- _. destruct n; auto.
  - destruct (step ch w) as [[w1 es]|] eqn:E; [|discriminate]. destruct (run compile rmatch sched w1) as [[w2 es']|] eqn:E2; [|discriminate].
    injection H as <- _. destruct n as [|n]; [cbn in L; lia|]. cbn [play]. rewrite E. eapply IH; eauto. cbn in L. lia.
Qed.

(** Fair to a thread that cannot move at the end. *)
Lemma play_fair : forall sched w w' tr t, run compile rmatch sched w = Some (w', tr) ->
  (forall ch, of_thread t ch -> step ch w' = None) -> fair compile rmatch t (play sched w) (plays sched w).
Proof.
  intros sched w w' tr t H B n. exists (n + List.length sched). split; [lia|]. right. intros ch Hc.
  rewrite (play_end _ _ _ _ H); auto. lia.
Qed.

(** What holds of all the states on the way. *)
Fixpoint along (P : @world RE -> bool) (sched : list choice) (w : @world RE) : bool :=
  P w && match sched with
         | [] => true
         | ch :: sched' => match step ch w with Some (w', _) => along P sched' w' | None => true end
         end.

Lemma play_along : forall P sched w, along P sched w = true -> forall n, P (play sched w n) = true.
Proof.
  intros P sched. induction sched as [|ch sched IH]; intros w H n; cbn [along] in H; apply andb_prop in H; destruct H as (H1 & H2).
  - destruct n; auto.
  - destruct n as [|n]; auto. cbn [play]. destruct (step ch w) as [[w' es]|]; auto.
Qed.
End Play.
