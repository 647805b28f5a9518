(** * The whole logging service: what happens in every fair execution *)
From Coq Require Import ZArith String Bool List Arith Lia.
From Verif Require Import Base ListFacts LogModel LogSpec LogProofs LogOrder LogCount LogStop LogLive LogFair
  LoggerModel LoggerSpec LoggerProofs WholeModel WholeSpec WholeProofs.
From Verif Require Import LogFilter.
Import ListNotations.
Open Scope string_scope.
Open Scope list_scope.

(** ** How many instructions statements take at most *)
Fixpoint ssize (s : stmt) : nat :=
  match s with
  | SLog _ _ _ _ ops => 3 + list_sum (map opsize ops)
  | SBlock _ _ _ body _ => 3 + list_sum (map ssize body)
  | STry body => 2 + list_sum (map ssize body)
  | SThrow => 2
  | _ => 1
  end
with opsize (o : operand) : nat :=
  match o with Op e r => 1 + (list_sum (map ssize e) + list_sum (map ssize r)) end.

Definition isize (i : instr) : nat :=
  match i with
  | IStmt s => ssize s
  | IOp _ o => opsize o
  | ITest _ _ body _ => 2 + list_sum (map ssize body)
  | _ => 1
  end.
Definition code_cost (c : list instr) : nat := list_sum (map isize c).

Lemma code_cost_app : forall a b, code_cost (a ++ b) = code_cost a + code_cost b.
Proof. intros. unfold code_cost. rewrite map_app, list_sum_app. auto. Qed.
Lemma code_cost_cons : forall i k, code_cost (i :: k) = isize i + code_cost k.
Proof. reflexivity. Qed.
Lemma code_cost_stmts : forall l, code_cost (map IStmt l) = list_sum (map ssize l).
Proof. intros. unfold code_cost. rewrite map_map. auto. Qed.
Lemma code_cost_ops : forall b l, code_cost (map (IOp b) l) = list_sum (map opsize l).
Proof. intros. unfold code_cost. rewrite map_map. auto. Qed.
Lemma isize_pos : forall i, 0 < isize i.
Proof. intros [[]| |b []| | | | |]; cbn; lia. Qed.

Lemma tstep_cost : forall min cur code t code' t' es, tstep min cur code t = Some (code', t', es) -> code_cost code' < code_cost code.
Proof.
  intros min cur code t code' t' es H. destruct code as [|i k]; [discriminate|]. cbn [tstep] in H. pose proof (isize_pos i) as P.
  rewrite code_cost_cons.
  destruct i as [s|b c|b [e r]|b|b lv body early| | |].
  - destruct s as [f l lv c ops|f l lv body early|i|c|z| |body].
    + injection H as <- _ _. rewrite !code_cost_app, code_cost_ops, code_cost_cons. cbn [isize ssize]. destruct c; cbn; lia.
    + injection H as <- _ _. rewrite code_cost_cons. cbn [isize ssize]. lia.
    + injection H as <- _ _. lia.
    + injection H as <- _ _. lia.
    + injection H as <- _ _. lia.
    + destruct (caught k); injection H as <- _ _; rewrite ?code_cost_cons; cbn; lia.
    + injection H as <- _ _. rewrite code_cost_app, code_cost_cons, code_cost_stmts. cbn [isize ssize]. lia.
  - injection H as <- _ _. lia.
  - injection H as <- _ _. rewrite !code_cost_app, code_cost_stmts. cbn [isize opsize].
    destruct b; rewrite ?code_cost_stmts; cbn; lia.
  - destruct b; injection H as <- _ _; lia.
  - injection H as <- _ _. rewrite code_cost_app. cbn [isize]. destruct (_ && _); [|cbn; lia].
    rewrite code_cost_app, code_cost_stmts. destruct early; cbn; lia.
  - injection H as <- _ _. lia.
  - injection H as <- _ _. lia.
  - destruct k as [|x k].
    + injection H as <- _ _. cbn. lia.
    + rewrite code_cost_cons in *. pose proof (isize_pos x).
      destruct x as [| | |[]| | | |]; injection H as <- _ _; rewrite ?code_cost_cons; cbn [isize] in *; lia.
Qed.

Lemma tstep_some : forall min cur i k t, tstep min cur (i :: k) t <> None.
Proof.
  intros min cur i k t. cbn [tstep]. destruct i as [[]| |b []|[]| | | |]; try discriminate.
  - destruct (caught k); discriminate.
  - destruct k as [|[| | |[]| | | |]]; discriminate.
Qed.

Definition codes_cost (l : list (list instr * tls)) : nat := list_sum (map (fun x => code_cost (fst x)) l).

Lemma codes_upd : forall l i code t code' t', nth_error l i = Some (code, t) -> code_cost code' < code_cost code ->
  codes_cost (upd i (fun _ => (code', t')) l) < codes_cost l.
Proof.
  assert (C : forall x l, codes_cost (x :: l) = code_cost (fst x) + codes_cost l) by reflexivity.
  intros l. induction l as [|x l IH]; intros [|i] code t code' t' E L; try discriminate; cbn [upd nth_error] in *; rewrite !C.
  - injection E as ->. cbn [fst]. lia.
  - specialize (IH i code t code' t' E L). lia.
Qed.

Section WholeFair.
Context {RE : Type}.
Variable compile : string -> option RE.
Variable rmatch : string -> RE -> bool.
Variable min : Z.
Notation step := (step compile rmatch).
Notation wstep := (wstep compile rmatch min).
Notation reaches := (reaches compile rmatch).
Notation wreaches := (wreaches compile rmatch min).
Notation wexecution := (wexecution compile rmatch min).
Notation wfair := (wfair compile rmatch min).

(** ** The kinds of steps *)
Lemma wstep_kinds : forall ch w w' es, wstep ch w = Some (w', es) ->
  (exists ch' es', step ch' (wh_log w) = Some (wh_log w', es') /\ es = map WL es' /\ wh_code w' = wh_code w) \/
  (exists i code t code' t' es', nth_error (wh_code w) i = Some (code, t) /\ nth_error (w_clients (wh_log w)) i = Some (mkC Idle []) /\
     crashed (w_sys (wh_log w)) = None /\
     tstep min (slevel (w_sys (wh_log w))) code t = Some (code', t', es') /\
     w' = mkWhole (mkWorld (w_sys (wh_log w)) (upd i (give (calls_of es')) (w_clients (wh_log w)))) (upd i (fun _ => (code', t')) (wh_code w)) /\
     es = map (WS i) es').
Proof.
  intros ch w w' es H.
  assert (Lf : forall c, wlift compile rmatch c w = Some (w', es) ->
    exists ch' es', step ch' (wh_log w) = Some (wh_log w', es') /\ es = map WL es' /\ wh_code w' = wh_code w).
  { intros c E. unfold wlift in E. destruct (step c (wh_log w)) as [[l es0]|] eqn:S; [|discriminate]. injection E as <- <-. eauto. }
  destruct ch as [i|cb|]; cbn [WholeModel.wstep] in H; try (left; eapply Lf; eauto; fail).
  destruct (nth_error (wh_code w) i) as [[code t]|] eqn:Ei; [|left; eapply Lf; eauto].
  destruct (nth_error (w_clients (wh_log w)) i) as [[pc todo]|] eqn:Ec; [|left; eapply Lf; eauto].
  destruct pc; try (left; eapply Lf; eauto; fail). destruct todo; [|left; eapply Lf; eauto; fail].
  right. unfold winstr in H. destruct (crashed _) eqn:Cr; [discriminate|].
  destruct (tstep _ _ _ _) as [[[code' t'] es']|] eqn:T; [|discriminate]. injection H as <- <-.
  exists i, code, t, code', t', es'. auto 10.
Qed.

Section Execution.
Variables (ws : nat -> @whole RE) (evs : nat -> list wev) (sn g : bool) (lf : nat -> @listener RE)
  (progs : list (list stmt)) (others : list (list call)).
Hypothesis X : wexecution ws evs.
Hypothesis W0 : ws 0 = winit sn g lf progs others.
Hypothesis M : forall n, modest_now (wh_log (ws n)).

Notation lw n := (wh_log (ws n)).
Notation sy n := (w_sys (wh_log (ws n))).

Lemma wshown_reaches : forall n, wreaches sn g lf progs others (ws n) (wshown evs n).
Proof.
  intros n. induction n as [|n (sched & IH)].
  - exists []. rewrite W0. reflexivity.
  - destruct (X n) as [(ch & S)|(S & E)].
    + exists (sched ++ [ch]). cbn [wshown]. revert IH. generalize (winit sn g lf progs others). generalize (wshown evs n).
      induction sched as [|c sched IHs]; intros tr w R; cbn [app wrun] in *.
      * injection R as -> <-. rewrite S, app_nil_r. auto.
      * destruct (wstep c w) as [[w1 es1]|]; [|discriminate]. destruct (wrun compile rmatch min sched w1) as [[w2 es2]|] eqn:R2; [|discriminate].
        injection R as -> <-. rewrite (IHs _ _ R2), app_assoc. auto.
    + exists sched. cbn [wshown]. rewrite S, E, app_nil_r. auto.
Qed.

Lemma log_reaches : forall n, exists lp, reaches sn g lf lp (lw n) (logs (wshown evs n)).
Proof. intros n. destruct (wreaches_inv _ _ _ _ _ _ _ _ _ _ (wshown_reaches n)) as (lp & R & _). eauto. Qed.

Lemma w_modest_call : forall n o r c, logt (sy n) = TCall o r c -> modest (c_todo c) /\ calm (c_pc c).
Proof. intros n o r c E. pose proof (M n) as H. unfold modest_now in H. rewrite E in H. exact H. Qed.

Lemma w_never_crashed : forall n, crashed (sy n) = None.
Proof.
  intros n. induction n as [|n IH].
  - rewrite W0. destruct sn; reflexivity.
  - destruct (X n) as [(ch & S)|(S & _)]; [|congruence].
    destruct (wstep_kinds _ _ _ _ S) as [(ch' & es' & K & _)|(i & code & t & code' & t' & es' & _ & _ & _ & _ & K & _)].
    + apply step_st in K. inversion K as [w i c c' s' es K1 K2 K3 Q1 Q2 Q3|w s' es K1 K2 Q1 Q2 Q3|w K1 K2 Q1 Q2 Q3]; subst; cbn [w_sys].
      * apply cs_logt in K3. destruct K3 as (-> & _). auto.
      * apply ls_calm in K2; [destruct K2 as (-> & _); auto|]. intros o r c E. eapply w_modest_call; eauto.
      * exact IH.
    + rewrite K. exact IH.
Qed.

(** ** All the threads finish *)
Hypothesis FA : forall t, wfair t ws evs.

Definition mu n : nat * (nat * nat) := (codes_cost (wh_code (ws n)), total (lw n)).
Definition wmoved n : Prop := exists k, n <= k /\ less3 (mu k) (mu n).
Definition wstays n k : Prop :=
  wh_code (ws k) = wh_code (ws n) /\ w_clients (lw k) = w_clients (lw n) /\ mtx (sy k) = mtx (sy n) /\
  terminated (sy k) = terminated (sy n) /\ (logt (sy n) = TExited -> logt (sy k) = TExited).

Lemma wmoved_stays : forall n k, n <= k -> wstays n k -> wmoved k -> wmoved n.
Proof.
  intros n k L (E0 & E & _) (j & J1 & J2). exists j. split; [lia|]. unfold mu, total in *. rewrite <- E0, <- E. auto.
Qed.

Lemma wstays_trans : forall a b c, wstays a b -> wstays b c -> wstays a c.
Proof. intros a b c (A0 & A1 & A2 & A3 & A4) (B0 & B1 & B2 & B3 & B4). repeat split; try congruence. auto. Qed.

Lemma wany_step : forall n, less3 (mu (S n)) (mu n) \/
  (wstays n (S n) /\ (logt (sy (S n)) = logt (sy n) \/
    (terminated (sy n) = true -> less4 (to_exit (logt (sy (S n)))) (to_exit (logt (sy n)))))).
Proof.
  intros n. destruct (X n) as [(ch & S)|(S & E)].
  2: { right. rewrite S. unfold wstays. rewrite S. auto 10. }
  destruct (wstep_kinds _ _ _ _ S) as [(ch' & es' & K & _ & Kc)|(i & code & t & code' & t' & es' & Hc & _ & _ & T & K & _)].
  - unfold less3, mu, wstays, total. rewrite Kc.
    apply step_st in K. inversion K as [w i c c' s' es K1 K2 K3 Q1 Q2 Q3|w s' es K1 K2 Q1 Q2 Q3|w K1 K2 Q1 Q2 Q3]; subst; cbn [w_sys w_clients fst snd].
    + left. right. split; auto. apply upd_sum with (c := c); auto. eapply client_cost; eauto.
    + right. destruct (ls_calm _ _ _ _ _ K2) as (_ & E1 & E2 & _); [intros; eapply w_modest_call; eauto|]. repeat split; auto.
      * intros E. exfalso. destruct K2; congruence.
      * right. intros Tm. eapply ls_to_exit; eauto. intros o r c E. eapply w_modest_call; eauto.
    + right. repeat split; auto.
      * cbn. congruence.
      * right. intros _. rewrite K2. left. cbn. lia.
  - left. left. unfold mu. cbn [fst]. rewrite K. cbn [wh_code]. eapply codes_upd; eauto. eapply tstep_cost; eauto.
Qed.

Lemma wstill : forall n d, wmoved n \/ wstays n (n + d).
Proof.
  intros n d. induction d as [|d IH].
  - right. rewrite Nat.add_0_r. unfold wstays. auto 10.
  - destruct IH as [H|H]; auto. destruct (wany_step (n + d)) as [L|(L & _)].
    + left. eapply wmoved_stays; [|exact H|]; [lia|]. exists (S (n + d)). split; [lia|auto].
    + right. rewrite Nat.add_succ_r. eapply wstays_trans; eauto.
Qed.

(** A step of thread [i]. *)
Lemma thread_step : forall k i w' es, wstep (WThread i) (ws k) = Some (w', es) -> ws (S k) = w' -> less3 (mu (S k)) (mu k).
Proof.
  intros k i w' es H E. unfold mu, less3, total. rewrite E. cbn [fst snd]. clear E. cbn [WholeModel.wstep] in H.
  assert (Lf : wlift compile rmatch (Go i) (ws k) = Some (w', es) ->
    wh_code w' = wh_code (ws k) /\ less2 (sums (w_clients (wh_log w'))) (sums (w_clients (lw k)))).
  { intros L. unfold wlift in L. destruct (step (Go i) (lw k)) as [[l es0]|] eqn:S; [|discriminate]. injection L as <- _. cbn [wh_code wh_log]. split; auto.
    unfold LogModel.step in S. rewrite w_never_crashed in S. destruct (nth_error (w_clients (lw k)) i) as [c|] eqn:Ec; [|discriminate].
    destruct (cstep compile (Client i) c (sy k)) as [[[c' s'] es']|] eqn:Cs; [|discriminate]. injection S as <- _. cbn [w_clients].
    apply upd_sum with (c := c); auto. eapply client_cost. eapply cstep_cs; eauto. }
  destruct (nth_error (wh_code (ws k)) i) as [[code t]|] eqn:Ei.
  2: { destruct (Lf H) as (-> & A). auto. }
  destruct (nth_error (w_clients (lw k)) i) as [[pc todo]|] eqn:Ec.
  2: { destruct (Lf H) as (-> & A). auto. }
  destruct pc; try (destruct (Lf H) as (-> & A); auto; fail). destruct todo; [|destruct (Lf H) as (-> & A); auto; fail].
  unfold winstr in H. rewrite w_never_crashed in H. destruct (tstep _ _ _ _) as [[[code' t'] es']|] eqn:T; [|discriminate].
  injection H as <- _. cbn [wh_code]. left. eapply codes_upd; eauto. eapply tstep_cost; eauto.
Qed.

(** A thread that is ready to move as long as nothing changes will move. *)
Lemma thread_ready : forall n i, (forall k, n <= k -> wstays n k -> wstep (WThread i) (ws k) <> None) -> wmoved n.
Proof.
  intros n i H. destruct (FA (Client i) n) as (k & L & Fk). destruct (wstill n (k - n)) as [Q|Q]; auto.
  replace (n + (k - n)) with k in Q by lia. specialize (H k L Q).
  destruct Fk as [(ch & Hc & Sk)|B].
  - destruct ch as [j|cb|]; cbn in Hc; try contradiction. subst j. eapply wmoved_stays; eauto.
    exists (S k). split; [lia|]. eapply thread_step; eauto.
  - exfalso. apply H. apply B. reflexivity.
Qed.

Lemma wclient_ready : forall n i c, nth_error (w_clients (lw n)) i = Some c -> c <> mkC Idle [] ->
  (forall k, n <= k -> wstays n k -> cstep compile (Client i) c (sy k) <> None) -> wmoved n.
Proof.
  intros n i c E Nd H. apply thread_ready with (i := i). intros k L Q Hs. apply (H k L Q). destruct Q as (_ & Q & _). rewrite <- Q in E.
  assert (Lf : wlift compile rmatch (Go i) (ws k) = None -> cstep compile (Client i) c (sy k) = None).
  { intros A. unfold wlift, LogModel.step in A. rewrite w_never_crashed, E in A.
    destruct (cstep compile (Client i) c (sy k)) as [[[c' s'] es]|]; [discriminate|auto]. }
  cbn [WholeModel.wstep] in Hs. rewrite E in Hs. destruct (nth_error (wh_code (ws k)) i) as [[code t]|]; auto.
  destruct c as [pc todo]. destruct pc; auto. destruct todo; auto.
Qed.

Lemma wjoin_returns : forall x n i c, to_exit (logt (sy n)) = x -> nth_error (w_clients (lw n)) i = Some c -> c_pc c = StopJoin -> wmoved n.
Proof.
  intros x. induction x as [x IH] using less4_ind. intros n i c Ex Ei Ep.
  destruct (log_reaches n) as (lp & Rn).
  pose proof (reaches_stop _ _ _ _ _ _ _ _ Rn) as (I1 & _ & I3 & I4 & _).
  assert (T : terminated (sy n) = true) by (eapply I1; eauto; right; right; auto).
  assert (Mx : mtx (sy n) = Some (Client i)) by (apply I3; exists c; auto).
  assert (N : logt (sy n) <> TNone) by (apply I4; congruence).
  assert (Nc : c <> mkC Idle []) by (intros ->; discriminate).
  assert (D : {logt (sy n) = TExited} + {logt (sy n) <> TExited}) by (destruct (logt (sy n)); auto; right; discriminate).
  destruct D as [D|D].
  { eapply wclient_ready; eauto. intros k L (_ & _ & _ & _ & Q) Hs. apply cstep_enabled in Hs. rewrite Ep in Hs.
    destruct Hs as [(A & _)|[(A & _)|[(A & _)|(_ & _ & A)]]]; try discriminate. auto. }
  assert (D2 : {logt (sy n) = TAsleep} + {logt (sy n) <> TAsleep}) by (destruct (logt (sy n)); auto; right; discriminate).
  destruct D2 as [D2|D2].
  { destruct (no_lost_wakeup _ _ _ _ _ _ _ _ Rn D2) as (_ & W). destruct (W T) as (j & cj & Hj & Hp).
    eapply wclient_ready; eauto; [intros ->; discriminate|]. intros k L _ Hs. apply cstep_enabled in Hs. rewrite Hp in Hs.
    destruct Hs as [(A & _)|[(A & _)|[(A & _)|(A & _)]]]; discriminate. }
  destruct (FA LogThread n) as (k & Lk & Fk).
  assert (G : forall d, wmoved n \/ (wstays n (n + d) /\ logt (sy (n + d)) = logt (sy n))).
  { intros d. induction d as [|d IHd].
    - right. rewrite Nat.add_0_r. unfold wstays. auto 10.
    - destruct IHd as [H|(H1 & H2)]; auto. destruct (wany_step (n + d)) as [L|(L & [E|E])].
      + left. eapply wmoved_stays; [|exact H1|]; [lia|]. exists (S (n + d)). split; [lia|auto].
      + right. rewrite Nat.add_succ_r. split; [eapply wstays_trans; eauto|congruence].
      + left. assert (Q : wstays n (S (n + d))) by (eapply wstays_trans; eauto).
        eapply wmoved_stays; [|exact Q|]; [lia|]. rewrite H2, Ex in E. eapply IH; [apply E|reflexivity| |exact Ep].
        * destruct H1 as (_ & _ & _ & -> & _). auto.
        * destruct Q as (_ & -> & _). exact Ei. }
  destruct (G (k - n)) as [H|(Q & H2)]; auto. replace (n + (k - n)) with k in * by lia.
  eapply wmoved_stays; [exact Lk|exact Q|]. pose proof Q as (_ & Q1 & _ & Q3 & _).
  destruct Fk as [(ch & Hc & S)|B].
  - destruct ch as [j|cb|]; cbn in Hc; try contradiction. cbn [WholeModel.wstep] in S. unfold wlift, LogModel.step in S. rewrite w_never_crashed in S.
    destruct (lstep compile rmatch cb (sy k)) as [[s' es]|] eqn:E; [|discriminate]. injection S as S1 S2.
    apply lstep_ls in E. pose proof (ls_to_exit _ _ _ _ _ E) as Z.
    rewrite H2, Ex in Z. replace s' with (sy (S k)) in Z by (rewrite <- S1; auto).
    assert (Y : wmoved (S k)).
    { eapply IH; [apply Z|reflexivity| |exact Ep].
      - intros o r c0 E0. rewrite <- H2 in E0. eapply w_modest_call; eauto.
      - congruence.
      - rewrite <- S1. cbn [wh_log w_clients]. rewrite Q1. exact Ei. }
    destruct Y as (j & J1 & J2). exists j. split; [lia|]. unfold mu, total in *. rewrite <- S1 in J2. exact J2.
  - exfalso. specialize (B (WLogThread []) I). cbn [WholeModel.wstep] in B. unfold wlift, LogModel.step in B. rewrite w_never_crashed in B.
    assert (B' : lstep compile rmatch [] (sy k) = None) by (destruct (lstep compile rmatch [] (sy k)) as [[? ?]|]; [discriminate|auto]).
    clear B. rename B' into B. unfold lstep in B.
    rewrite H2 in B. destruct (logt (sy n)) eqn:E; try congruence; try discriminate.
    + rewrite Q3, T in B. discriminate.
    + destruct rest; [discriminate|]. destruct (l_enabled _); discriminate.
    + destruct (_ >=? _)%Z; discriminate.
    + destruct (checkCategory _ _ _); discriminate.
    + destruct (w_modest_call _ _ _ _ E) as (_ & Cm). destruct c0 as [pc k0]. cbn [c_pc c_todo] in *.
      destruct (cstep compile LogThread (mkC pc k0) (sy k)) as [[[c1 s1] e1]|] eqn:Ec.
      * destruct pc; try discriminate. destruct k0; discriminate.
      * apply cstep_enabled in Ec. cbn [c_pc c_todo] in Ec. unfold calm in Cm.
        destruct Ec as [(-> & ->)|[(-> & _)|[(-> & _)|(-> & _)]]]; try discriminate; apply Cm; cbn; tauto.
    + destruct todo; discriminate.
    + destruct (_ <? _)%nat; discriminate.
Qed.

Lemma wsomebody_moves : forall n i c, nth_error (w_clients (lw n)) i = Some c -> c <> mkC Idle [] -> wmoved n.
Proof.
  intros n i c Ei Nd. destruct (log_reaches n) as (lp & Rn).
  pose proof (reaches_stop _ _ _ _ _ _ _ _ Rn) as (_ & _ & I3 & _).
  assert (J : mtx (sy n) <> None -> wmoved n).
  { intros Hm. destruct (mtx (sy n)) as [t|] eqn:Em; [|congruence].
    pose proof (proj2 (I3 t) eq_refl) as Ow. destruct t as [j|]; destruct Ow as (cj & E1 & E2).
    - eapply wjoin_returns; eauto.
    - exfalso. unfold LogOrder.nested in E1. destruct (logt (sy n)) eqn:E; try discriminate. injection E1 as <-.
      destruct (w_modest_call _ _ _ _ E) as (_ & Cm). apply Cm. rewrite E2. cbn. tauto. }
  assert (D : {c_pc c = StopJoin} + {c_pc c <> StopJoin}) by (destruct (c_pc c); auto; right; discriminate).
  destruct D as [D|D]; [eapply wjoin_returns; eauto|].
  destruct (mtx (sy n)) as [t|] eqn:Em; [apply J; congruence|].
  eapply wclient_ready; eauto. intros k L (_ & _ & Q & _) Hs. apply cstep_enabled in Hs. rewrite Q, Em in Hs.
  destruct Hs as [(A & B)|[(_ & A)|[(_ & A)|(A & _)]]]; try congruence. destruct c. cbn in *. congruence.
Qed.

(** The length of the two lists agrees, as far as statements go. *)
Lemma has_client : forall n i x, nth_error (wh_code (ws n)) i = Some x -> exists c, nth_error (w_clients (lw n)) i = Some c.
Proof.
  intros n i x E. destruct (wreaches_inv _ _ _ _ _ _ _ _ _ _ (wshown_reaches n)) as (lp & R & L1 & L2 & _).
  destruct (nth_error (w_clients (lw n)) i) as [c|] eqn:Ec; [eauto|]. exfalso. apply nth_error_None in Ec.
  assert (i < List.length (wh_code (ws n))) by (apply nth_error_Some; congruence).
  assert (Ln : List.length (w_clients (lw n)) = List.length lp).
  { eapply (reaches_inv compile rmatch (fun w _ => List.length (w_clients w) = List.length lp)); [| |exact R].
    - cbn. rewrite map_length. auto.
    - intros w w' tr es H0 H1. destruct H1; cbn [w_clients] in *; rewrite ?upd_length; auto. }
  lia.
Qed.

Lemma idle_dec : forall c : cthread, c = mkC Idle [] \/ c <> mkC Idle [].
Proof. intros [[] [|]]; auto; right; discriminate. Qed.

Lemma wundone : forall n, wall_done (ws n) \/ wmoved n.
Proof.
  intros n.
  assert (A : (forall c, In c (w_clients (lw n)) -> c = mkC Idle []) \/ exists i c, nth_error (w_clients (lw n)) i = Some c /\ c <> mkC Idle []).
  { generalize (w_clients (lw n)). intros l. induction l as [|x l [IH|(i & c & E & N)]].
    - left. intros c [].
    - destruct (idle_dec x) as [D|D]; [|right; exists 0, x; auto]. left. intros c [<-|I]; auto.
    - right. exists (S i), c. auto. }
  destruct A as [A|(i & c & E & N)]; [|right; eapply wsomebody_moves; eauto].
  assert (B : (forall code t, In (code, t) (wh_code (ws n)) -> code = []) \/ exists i code t, nth_error (wh_code (ws n)) i = Some (code, t) /\ code <> []).
  { generalize (wh_code (ws n)). intros l. induction l as [|[code t] l [IH|(i & c0 & t0 & E & N)]].
    - left. intros c t [].
    - destruct code as [|x code]; [|right; exists 0, (x :: code), t; split; [auto|discriminate]]. left. intros c t1 [E|I]; [congruence|eauto].
    - right. exists (S i), c0, t0. auto. }
  destruct B as [B|(i & code & t & E & N)]; [left; split; auto|right].
  destruct (has_client _ _ _ E) as (c & Ec). pose proof (A c (nth_error_In _ _ Ec)) as ->.
  apply thread_ready with (i := i). intros k L (Q1 & Q2 & _) Hs. rewrite <- Q1 in E. rewrite <- Q2 in Ec.
  cbn [WholeModel.wstep] in Hs. rewrite E, Ec in Hs. unfold winstr in Hs. rewrite w_never_crashed in Hs.
  destruct code as [|x code]; [congruence|]. destruct (tstep _ _ _ _) as [[[? ?] ?]|] eqn:T; [discriminate|]. exact (tstep_some _ _ _ _ _ T).
Qed.

Lemma all_finish : forall n, exists k, n <= k /\ wall_done (ws k).
Proof.
  assert (G : forall a b n, mu n = (a, b) -> exists k, n <= k /\ wall_done (ws k)).
  { intros a. induction a as [a IHa] using lt_wf_ind. intros b. induction b as [b IHb] using less2_ind. intros n E.
    destruct (wundone n) as [H|(k & K1 & K2)]; [eauto|]. rewrite E in K2. destruct (mu k) as [a' b'] eqn:Ek.
    destruct K2 as [K2|(K2 & K3)]; cbn [fst snd] in *.
    - destruct (IHa a' K2 b' k Ek) as (j & J1 & J2). exists j. split; [lia|auto].
    - subst a'. destruct (IHb b' K3 k Ek) as (j & J1 & J2). exists j. split; [lia|auto]. }
  intros n. destruct (mu n) as [a b] eqn:E. eauto.
Qed.

(** ** Then the log thread dispatches what is left *)
Lemma done_step : forall n, wall_done (ws n) -> wall_done (ws (S n)) /\
  ((exists ch es, step ch (lw n) = Some (lw (S n), es) /\ evs n = map WL es /\
     (forall t m, In (EvAccept t m) es -> t = LogThread)) \/ (ws (S n) = ws n /\ evs n = [])).
Proof.
  intros n (D1 & D2). destruct (X n) as [(ch & Sn)|(Sn & E)].
  2: { rewrite Sn. split; [split; auto|auto]. }
  destruct (wstep_kinds _ _ _ _ Sn) as [(ch' & es' & K & Ke & Kc)|(i & code & t & code' & t' & es' & Hc & _ & _ & T & _)].
  2: { apply nth_error_In in Hc. apply D1 in Hc. subst code. discriminate. }
  pose proof (step_st _ _ _ _ _ _ K) as Q.
  assert (Q' : w_clients (lw (S n)) = w_clients (lw n) /\ (forall t m, In (EvAccept t m) es' -> t = LogThread)).
  { inversion Q as [w i c c' s' es K1 K2 K3 Q1 Q2 Q3|w s' es K1 K2 Q1 Q2 Q3|w K1 K2 Q1 Q2 Q3]; subst; cbn [w_clients].
    - exfalso. apply nth_error_In in K2. apply D2 in K2. subst c. inversion K3.
    - split; auto. intros t m I. destruct K2; cbn in I; try (destruct I; fail); try (destruct I as [I|I]; [discriminate I|destruct I]; fail).
      + destruct I as [I|[I|[]]]; discriminate I.
      + destruct H0; cbn in I; try (destruct I; fail); repeat (destruct I as [I|I]; [try discriminate I|]); try (destruct I; fail); congruence.
    - split; auto. intros t m []. }
  destruct Q' as (Q1 & Q2). split.
  - split; [rewrite Kc; auto|rewrite Q1; auto].
  - left. exists ch', es'. auto.
Qed.

Lemma done_stays : forall n k, n <= k -> wall_done (ws n) -> wall_done (ws k).
Proof. intros n k L D. induction L as [|k L IH]; auto. apply done_step; auto. Qed.

Section Service.
Hypothesis T : forall n, terminated (sy n) = false.
Hypothesis G0 : sn = true.

Lemma w_never_none : forall n, logt (sy n) <> TNone.
Proof.
  intros n. induction n as [|n IH].
  - rewrite W0, G0. discriminate.
  - destruct (X n) as [(ch & Sn)|(Sn & _)]; [|congruence].
    destruct (log_reaches n) as (lp & Rn). pose proof (reaches_stop _ _ _ _ _ _ _ _ Rn) as (_ & _ & _ & _ & Ex).
    destruct (wstep_kinds _ _ _ _ Sn) as [(ch' & es' & K & _)|(i & code & t & code' & t' & es' & _ & _ & _ & _ & K & _)].
    + apply step_st in K. inversion K as [w i c c' s' es K1 K2 K3 Q1 Q2 Q3|w s' es K1 K2 Q1 Q2 Q3|w K1 K2 Q1 Q2 Q3]; subst; cbn [w_sys].
      * apply cs_logt in K3. destruct K3 as (_ & _ & [E|[(_ & E)|[(_ & E)|(E & _)]]]); try congruence. apply Ex in E. rewrite T in E. discriminate.
      * destruct K2; sfields; try congruence; discriminate.
      * discriminate.
    + rewrite K. exact IH.
Qed.

(** From [N] on the LogSystem is on its own. *)
Definition later (N n : nat) : @world RE := lw (N + n).
Definition later_evs (N n : nat) : list ev := logs (evs (N + n)).

Lemma later_shown : forall N n, logs (wshown evs (N + n)) = logs (wshown evs N) ++ shown (later_evs N) n.
Proof.
  intros N n. induction n as [|n IH]; [rewrite Nat.add_0_r; cbn; rewrite app_nil_r; auto|].
  rewrite Nat.add_succ_r. cbn [wshown shown]. rewrite logs_app, IH, app_assoc. auto.
Qed.

Lemma later_execution : forall N, wall_done (ws N) -> execution compile rmatch (later N) (later_evs N).
Proof.
  intros N D n. unfold later, later_evs. rewrite Nat.add_succ_r. destruct (done_step (N + n)) as (_ & [(ch & es & A & B & _)|(A & B)]).
  - eapply done_stays; [|exact D]. lia.
  - left. exists ch. rewrite B. destruct (logs_WL es) as (-> & _). auto.
  - right. rewrite A, B. auto.
Qed.

Lemma later_fair : forall N, wall_done (ws N) -> fair compile rmatch LogThread (later N) (later_evs N).
Proof.
  intros N D n. destruct (FA LogThread (N + n)) as (k & L & Fk). exists (k - N). split; [lia|].
  unfold later, later_evs. rewrite Nat.add_succ_r. replace (N + (k - N)) with k by lia.
  destruct Fk as [(ch & Hc & Sk)|B].
  - destruct ch as [j|cb|]; cbn in Hc; try contradiction. left. exists (GoLog cb). split; [exact I|].
    cbn [WholeModel.wstep] in Sk. unfold wlift in Sk. destruct (step (GoLog cb) (lw k)) as [[l es]|]; [|discriminate]. injection Sk as <- <-.
    destruct (logs_WL es) as (-> & _). auto.
  - right. intros ch Hc. destruct ch as [j|cb|]; cbn in Hc; try contradiction. specialize (B (WLogThread cb) I).
    cbn [WholeModel.wstep] in B. unfold wlift in B. destruct (step (GoLog cb) (lw k)) as [[l es]|]; [discriminate|auto].
Qed.

Lemma whole_fair : exists N K, N <= K /\ wall_done (ws N) /\
  prefix (accepted (logs (wshown evs N))) (ended (logs (wshown evs K))).
Proof.
  destruct (all_finish 0) as (N & _ & D). destruct (log_reaches N) as (lp & Rn).
  destruct (dispatched_all compile rmatch (later N) (later_evs N) sn g lf lp (logs (wshown evs N))) with (n := 0) as (k & _ & P); auto.
  - apply later_execution; auto.
  - unfold later. rewrite Nat.add_0_r. auto.
  - intros n. unfold later. auto.
  - unfold later. apply w_never_crashed.
  - intros n. unfold later. auto.
  - unfold later. apply w_never_none.
  - apply later_fair; auto.
  - exists N, (N + k). split; [lia|]. split; auto. rewrite later_shown. cbn [shown] in P. rewrite app_nil_r in P. auto.
Qed.

(** If only the clients log. *)
Hypothesis O : forall n, only_below (List.length progs + List.length others) (logs (wshown evs n)).

Lemma done_accepted : forall N k, wall_done (ws N) -> N <= k -> accepted (logs (wshown evs k)) = accepted (logs (wshown evs N)).
Proof.
  intros N k D L. induction L as [|k L IH]; auto. rewrite <- IH. cbn [wshown]. rewrite logs_app.
  destruct (picks_app (logs (wshown evs k)) (logs (evs k))) as (-> & _).
  assert (A : accepted (logs (evs k)) = []); [|rewrite A, app_nil_r; auto].
  destruct (done_step k (done_stays _ _ L D)) as (_ & [(ch & es & _ & E & B)|(_ & E)]); rewrite E; auto.
  destruct (logs_WL es) as (-> & _).
  destruct (accepted es) as [|m l] eqn:Ea; auto. exfalso.
  assert (I : exists t, In (EvAccept t m) es).
  { clear - Ea. unfold accepted in Ea. induction es as [|e es IH]; [discriminate|]. cbn [pick] in Ea.
    destruct e; try (destruct (IH Ea) as (t' & I); exists t'; right; auto; fail). injection Ea as -> _. eexists. left. eauto. }
  destruct I as (t & I). pose proof (B _ _ I) as ->. destruct (O (S k) LogThread m) as (i & Hi & _); [|discriminate].
  cbn [wshown]. rewrite logs_app, E. apply in_or_app. right. destruct (logs_WL es) as (-> & _). auto.
Qed.

Lemma ended_grows : forall N k, N <= k -> prefix (ended (logs (wshown evs N))) (ended (logs (wshown evs k))).
Proof.
  intros N k L. induction L as [|k L (r & IH)]; [exists []; rewrite app_nil_r; auto|]. cbn [wshown]. rewrite logs_app.
  destruct (picks_app (logs (wshown evs k)) (logs (evs k))) as (_ & _ & _ & _ & -> & _). rewrite IH, <- app_assoc. eexists. reflexivity.
Qed.

Lemma whole_served : exists K, forall k, K <= k -> wall_done (ws k) /\ served (ws k) /\
  begun (logs (wshown evs k)) = begun (logs (wshown evs K)).
Proof.
  destruct whole_fair as (N & K & L & D & (r & P)). exists K.
  assert (G : forall k, K <= k -> wall_done (ws k) /\ served (ws k) /\ begun (logs (wshown evs k)) = accepted (logs (wshown evs N))).
  { intros k Lk. split; [eapply done_stays; [|exact D]; lia|].
    destruct (log_reaches k) as (lp & Rk). pose proof (reaches_good _ _ _ _ _ _ _ _ Rk) as (_ & _ & _ & GA & GB & GE & _).
    destruct (ended_grows K k Lk) as (r' & Pk). rewrite (done_accepted N k) in GA by (auto; lia).
    assert (Z : unended (lw k) = [] /\ waiting (lw k) = [] /\ r = [] /\ r' = []).
    { rewrite GE, Pk, P, <- !app_assoc in GA. rewrite <- (app_nil_r (accepted (logs (wshown evs N)))) in GA at 1.
      apply app_inv_head in GA. symmetry in GA. apply app_eq_nil in GA. destruct GA as (-> & GA). apply app_eq_nil in GA. destruct GA as (-> & GA).
      apply app_eq_nil in GA. destruct GA as (-> & ->). auto. }
    destruct Z as (Z1 & Z2 & -> & ->). split; [split; auto|].
    assert (U : unbegun (lw k) = []). { unfold unended, unbegun in *. destruct (logt _); auto. }
    rewrite U in GB. rewrite Z1 in GE. rewrite !app_nil_r in *. congruence. }
  intros k Lk. destruct (G k Lk) as (A & B & C). destruct (G K (le_n K)) as (_ & _ & C'). repeat split; auto; try apply A; try apply B. congruence.
Qed.

End Service.
End Execution.

Lemma wall_finished : forall (w : @whole RE) sn g lf progs others tr i, wreaches sn g lf progs others w tr -> wall_done w -> i < List.length progs -> wfinished w i.
Proof.
  intros w sn g lf progs others tr i H (D1 & D2) Hi. pose proof (wreaches_inv _ _ _ _ _ _ _ _ _ _ H) as (lp & R & L1 & L2 & A & _ & C).
  destruct (nth_error progs i) as [p|] eqn:Ep; [|apply nth_error_None in Ep; lia].
  destruct (C i p Ep) as (curs & code & t & Hc & _). split.
  - exists t. rewrite Hc. apply nth_error_In in Hc. apply D1 in Hc. subst. auto.
  - destruct (reaches_order _ _ _ _ _ _ _ _ R) as (_ & _ & P). destruct (P i _ (A i Hi)) as (c & Ec & _). rewrite Ec.
    apply nth_error_In in Ec. apply D2 in Ec. subst. auto.
Qed.

Lemma whole_eventually : forall ws evs g lf plains others l n0 t1,
  wexecution ws evs -> ws 0 = winit true g lf (map (map embed) plains) others ->
  (forall n, modest_now (wh_log (ws n))) -> (forall n, terminated (w_sys (wh_log (ws n))) = false) -> (forall t, wfair t ws evs) ->
  (forall n z, ~ In (EvLevel z) (logs (wshown evs n))) -> (forall n, only_below (List.length plains) (logs (wshown evs n))) ->
  begun t1 = [] -> l_detached (lf l) = false ->
  (forall n, n0 <= n -> exists t2, logs (wshown evs n) = t1 ++ EvAdd l :: t2 /\ ~ In (EvAdd l) (t1 ++ t2) /\ ~ In l (changed (t1 ++ t2))) ->
  exists K ms, merge_of (map (messages min TRACE "") plains) ms /\
    forall k, K <= k -> wall_done (ws k) /\ delivered_to l (logs (wshown evs k)) = filter (wants rmatch (lf l)) ms.
Proof.
  intros ws evs g lf plains others l n0 t1 X W0 M T F N O B D A.
  destruct (whole_served ws evs true g lf (map (map embed) plains) others X W0 M F T eq_refl) as (K & H).
  { intros n t m I. destruct (O n t m I) as (i & -> & Hi). exists i. split; auto. rewrite map_length. lia. }
  assert (Fin : forall k, K <= k -> forall i, i < List.length plains -> wfinished (ws k) i).
  { intros k Lk i Hi. eapply wall_finished; [eapply wshown_reaches; eauto|apply H; auto|rewrite map_length; auto]. }
  exists (K + n0), (begun (logs (wshown evs K))). split.
  - eapply whole_merge; [eapply wshown_reaches; eauto| | | |]; auto. apply H. lia.
  - intros k Lk. destruct (H k) as (H1 & H2 & H3); [lia|]. split; auto. rewrite <- H3.
    destruct (A k) as (t2 & E & A1 & A2); [lia|].
    pose proof (wreaches_inv _ _ _ _ _ _ _ _ _ _ (wshown_reaches ws evs true g lf (map (map embed) plains) others X W0 k)) as (lp & R & _).
    rewrite E in *. destruct H2 as (_ & S2). rewrite in_app_iff in A1.
    destruct (filter_once _ _ _ _ _ _ _ _ _ _ R) as (_ & Y); auto. rewrite (Y S2). f_equal.
    rewrite begun_app, B. reflexivity.
Qed.
End WholeFair.

(** ** Executions made of a finite schedule, for the concrete cases *)
Section Play.
Context {RE : Type}.
Variable compile : string -> option RE.
Variable rmatch : string -> RE -> bool.
Variable min : Z.
Notation wstep := (wstep compile rmatch min).

Fixpoint wplay (sched : list wchoice) (w : @whole RE) (n : nat) : @whole RE :=
  match n, sched with
  | S n', ch :: sched' => match wstep ch w with Some (w', _) => wplay sched' w' n' | None => w end
  | _, _ => w
  end.

Fixpoint wplays (sched : list wchoice) (w : @whole RE) (n : nat) : list wev :=
  match sched with
  | [] => []
  | ch :: sched' =>
      match wstep ch w with
      | Some (w', es) => match n with 0 => es | S n' => wplays sched' w' n' end
      | None => []
      end
  end.

Lemma wplay_execution : forall sched w, wexecution compile rmatch min (wplay sched w) (wplays sched w).
Proof.
  intros sched. induction sched as [|ch sched IH]; intros w n.
  - right. destruct n; auto.
  - destruct (wstep ch w) as [[w' es]|] eqn:E.
    + destruct n as [|n].
      * left. exists ch. cbn. rewrite E. cbn. destruct sched; auto.
      * specialize (IH w' n). cbn [wplay wplays]. rewrite E. exact IH.
    + right. destruct n; cbn; rewrite E; auto.
Qed.

Lemma wplay_end : forall sched w w' tr, wrun compile rmatch min sched w = Some (w', tr) -> forall n, List.length sched <= n ->
  wplay sched w n = w' /\ wshown (wplays sched w) n = tr.
Proof.
  assert (Sh : forall (e : list wev) f k, wshown (fun n => match n with 0 => e | S n' => f n' end) (S k) = e ++ wshown f k).
  { intros e f k. induction k as [|k IH]; [cbn; rewrite app_nil_r; auto|].
    change (wshown (fun n => match n with 0 => e | S n' => f n' end) (S k) ++ f k = e ++ wshown f k ++ f k).
    rewrite IH, app_assoc. auto. }
  assert (Ext : forall (f h : nat -> list wev) k, (forall n, f n = h n) -> wshown f k = wshown h k).
  { intros f h k E. induction k as [|k IH]; auto. cbn. rewrite IH, E. auto. }
  intros sched. induction sched as [|ch sched IH]; intros w w' tr H n L; cbn [wrun] in H.
  - injection H as <- <-. split; [destruct n; auto|]. clear L. induction n as [|n IH]; auto. cbn [wshown]. rewrite IH. reflexivity.
  - destruct (wstep ch w) as [[w1 es]|] eqn:E; [|discriminate]. destruct (wrun compile rmatch min sched w1) as [[w2 es']|] eqn:E2; [|discriminate].
    injection H as <- <-. destruct n as [|n]; [cbn in L; lia|]. destruct (IH _ _ _ E2 n) as (A & B); [cbn in L; lia|]. split.
    + cbn [wplay]. rewrite E. auto.
    + rewrite (Ext _ (fun n => match n with 0 => es | S n' => wplays sched w1 n' end)), Sh, B; auto. intros [|k]; cbn; rewrite E; auto.
Qed.

Lemma wplay_fair : forall sched w w' tr t, wrun compile rmatch min sched w = Some (w', tr) ->
  (forall ch, of_wthread t ch -> wstep ch w' = None) -> wfair compile rmatch min t (wplay sched w) (wplays sched w).
Proof.
  intros sched w w' tr t H B n. exists (n + List.length sched). split; [lia|]. right. intros ch Hc.
  destruct (wplay_end _ _ _ _ H (n + List.length sched)) as (-> & _); auto. lia.
Qed.

Fixpoint walong (P : @whole RE -> bool) (sched : list wchoice) (w : @whole RE) : bool :=
  P w && match sched with
         | [] => true
         | ch :: sched' => match wstep ch w with Some (w', _) => walong P sched' w' | None => true end
         end.

Lemma wplay_along : forall P sched w, walong P sched w = true -> forall n, P (wplay sched w n) = true.
Proof.
  intros P sched. induction sched as [|ch sched IH]; intros w H n; cbn [walong] in H; apply andb_prop in H; destruct H as (H1 & H2).
  - destruct n; auto.
  - destruct n as [|n]; auto. cbn [wplay]. destruct (wstep ch w) as [[w' es]|]; auto.
Qed.

(** What is shown at any time is a prefix of what is shown at the end. *)
Lemma wplay_prefix : forall sched w w' tr, wrun compile rmatch min sched w = Some (w', tr) -> forall n, exists r, tr = wshown (wplays sched w) n ++ r.
Proof.
  intros sched w w' tr H n.
  assert (G : forall k, n <= k -> exists r, wshown (wplays sched w) k = wshown (wplays sched w) n ++ r).
  { intros k L. induction L as [|k L (r & IH)]; [exists []; rewrite app_nil_r; auto|]. cbn [wshown]. rewrite IH, <- app_assoc. eauto. }
  destruct (G (n + List.length sched)) as (r & E); [lia|]. destruct (wplay_end _ _ _ _ H (n + List.length sched)) as (_ & A); [lia|]. rewrite A in E. eauto.
Qed.
End Play.
