(** * Proofs about log statements that throw. *)

From Coq Require Import ZArith String Bool List Lia.
From Verif Require Import Base ListFacts LogModel LogSpec StreamModel LoggerModel LoggerSpec LoggerProofs LoggerThrowSpec.
Import ListNotations.
Open Scope string_scope.
Open Scope list_scope.

Section Throw.
Variable min : Z.

Definition tail1 (p : list risky) : list instr := map IStmt (map embed_risky p).
Definition tail2 (p : list risky) : list instr := map IStmt (map embed (map cut_short p)).

(** Instructions that do the same on both sides. *)
Definition steady_instr (i : instr) : Prop :=
  match i with
  | ICat _ _ | IEnd _ | IComplete | IStmt (SPut _) => True
  | IOp _ (Op [] [SPut _]) => True
  | ITest _ _ body _ => exists l, body = map SPut l
  | _ => False
  end.

(** The code of the program, and that of the program with the statements cut short. *)
Inductive sim : list instr -> list instr -> Prop :=
| sim_between : forall p, sim (tail1 p) (tail2 p)
| sim_same : forall i L R, steady_instr i -> sim L R -> sim (i :: L) (i :: R)
| sim_log : forall f l v c texts late lost p,
    sim (IStmt (SLog f l v c (map text_op texts ++ throwing_op late :: map text_op lost)) :: ICatch :: tail1 p)
        (IStmt (SLog f l v c (map text_op texts)) :: tail2 p)
| sim_op : forall b late lost p,
    sim (IOp b (throwing_op late) :: map (IOp b) (map text_op lost) ++ IEnd b :: ICatch :: tail1 p) (IEnd b :: tail2 p)
| sim_throw : forall b lost p,
    sim (IStmt SThrow :: map (IOp b) (map text_op lost) ++ IEnd b :: ICatch :: tail1 p) (IEnd b :: tail2 p)
| sim_unwind : forall b lost p,
    sim (IUnwind :: map (IOp b) (map text_op lost) ++ IEnd b :: ICatch :: tail1 p) (IEnd b :: tail2 p)
| sim_lost : forall lost p,
    sim (map (IOp false) (map text_op lost) ++ IEnd false :: ICatch :: tail1 p) (IEnd false :: tail2 p)
| sim_catch : forall p, sim (ICatch :: tail1 p) (tail2 p)
| sim_unwound : forall p, sim (IUnwind :: ICatch :: tail1 p) (tail2 p).

Lemma sim_app : forall mid L R, Forall steady_instr mid -> sim L R -> sim (mid ++ L) (mid ++ R).
Proof. intros mid L R F H. induction F; cbn; auto. apply sim_same; auto. Qed.

Lemma caught_in : forall a k, caught (a ++ ICatch :: k) = true.
Proof. intros a k. unfold caught. rewrite existsb_app. cbn. apply orb_true_r. Qed.

Lemma steady_ops : forall b l, Forall steady_instr (map (IOp b) (map text_op l)).
Proof. intros b l. rewrite map_map. apply Forall_forall. intros x I. apply in_map_iff in I. destruct I as (s & <- & _). exact I. Qed.

(** One step of the program is one of the other, or none. *)
Lemma sim_step : forall cur c1 c2 t c1' t' es, sim c1 c2 -> tstep min cur c1 t = Some (c1', t', es) ->
  (exists c2', tstep min cur c2 t = Some (c2', t', es) /\ sim c1' c2') \/ (t' = t /\ es = [] /\ sim c1' c2).
Proof.
  intros cur c1 c2 t c1' t' es Sm H. destruct Sm as [p|i L R St Sm|f l v c texts late lost p|b late lost p|b lost p|b lost p|lost p|p|p].
  - destruct p as [|[s|f l v c texts late lost] p]; [discriminate| |].
    + left. destruct s as [f l v c texts|f l v texts|c|z]; cbn in H; injection H as <- <- <-; eexists; (split; [reflexivity|]).
      * apply sim_app; [destruct c; repeat constructor|]. apply sim_app; [apply steady_ops|]. apply sim_same; [exact I|]. apply sim_between.
      * apply sim_same; [eexists; symmetry; apply map_map|]. apply sim_between.
      * apply sim_between.
      * apply sim_between.
    + right. cbn [tail1 map embed_risky tstep] in H. injection H as <- <- <-. split; auto. split; auto. apply sim_log.
  - left. destruct i as [[| |s| | | |]|b c|b o|b|b v body early| | |]; cbn [steady_instr] in St; try contradiction; cbn [tstep] in *.
    + injection H as <- <- <-. eexists. split; [reflexivity|]. auto.
    + injection H as <- <- <-. eexists. split; [reflexivity|]. auto.
    + destruct o as [e r]. destruct e; [|contradiction]. destruct r as [|[| |s| | | |] [|]]; try contradiction.
      injection H as <- <- <-. eexists. split; [reflexivity|]. cbn [map app]. destruct b; cbn [map app]; auto. apply sim_same; auto.
    + destruct b; injection H as <- <- <-; eexists; (split; [reflexivity|]); auto.
    + destruct St as (l & ->). injection H as <- <- <-. eexists. split; [reflexivity|].
      destruct (enabled min cur v && b); cbn [app]; auto. rewrite <- !app_assoc. apply sim_app.
      * rewrite map_map. apply Forall_forall. intros x J. apply in_map_iff in J. destruct J as (s & <- & _). exact I.
      * apply sim_app; auto. destruct early; repeat constructor.
    + injection H as <- <- <-. eexists. split; [reflexivity|]. auto.
  - left. cbn [tstep] in *. injection H as <- <- <-. eexists. split; [reflexivity|].
    apply sim_app; [destruct c; repeat constructor|]. rewrite map_app, <- app_assoc. apply sim_app; [apply steady_ops|].
    cbn [map app]. apply sim_op.
  - right. cbn [tstep] in H. destruct late; cbn [throwing_op] in H; injection H as <- <- <-; (split; [auto|split; [auto|]]); cbn [map app].
    + destruct b; cbn [map app]; [apply sim_throw|apply sim_lost].
    + replace (if b then [] else []) with (@nil instr) by (destruct b; auto). cbn [app]. apply sim_throw.
  - right. cbn [tstep] in H. change (IEnd b :: ICatch :: tail1 p) with ([IEnd b] ++ ICatch :: tail1 p) in H.
    rewrite app_assoc, caught_in, <- app_assoc in H. cbn [app] in H. injection H as <- <- <-. split; [auto|split; [auto|]]. apply sim_unwind.
  - destruct lost as [|s lost]; cbn [map app tstep] in *.
    + left. destruct b; injection H as <- <- <-; eexists; (split; [reflexivity|]); apply sim_unwound.
    + right. injection H as <- <- <-. split; [auto|split; [auto|]]. apply sim_unwind.
  - destruct lost as [|s lost]; cbn [map app tstep text_op] in *.
    + left. injection H as <- <- <-. eexists. split; [reflexivity|]. apply sim_catch.
    + right. injection H as <- <- <-. split; [auto|split; [auto|]]. cbn [map app]. apply sim_lost.
  - right. cbn [tstep] in H. injection H as <- <- <-. split; [auto|split; [auto|]]. apply sim_between.
  - right. cbn [tstep] in H. injection H as <- <- <-. split; [auto|split; [auto|]]. apply sim_between.
Qed.

Lemma sim_end : forall c, sim [] c -> c = [].
Proof.
  intros c H. inversion H as [p E| | | | | |lost p E| |]; subst.
  - destruct p; [reflexivity|discriminate].
  - destruct lost; discriminate.
Qed.

Lemma sim_solo : forall p curs code t es, solo min curs (map IStmt (map embed_risky p)) tls0 = Some (code, t, es) ->
  exists curs' code', solo min curs' (map IStmt (map embed (map cut_short p))) tls0 = Some (code', t, es) /\ sim code code' /\
    forall P : Z -> Prop, Forall P curs -> Forall P curs'.
Proof.
  intros p curs code t es H.
  assert (X : exists curs' code', solo min curs' (map IStmt (map embed (map cut_short p))) tls0 = Some (code', t, es) /\ sim code code' /\
    forall cur, In cur curs' -> In cur curs).
  { apply (solo_inv min (fun code t es => exists curs' code', solo min curs' (map IStmt (map embed (map cut_short p))) tls0 = Some (code', t, es) /\ sim code code' /\
      forall cur, In cur curs' -> In cur curs) curs (map IStmt (map embed_risky p)) tls0 [] code t es); auto.
    - clear. intros cur code t es0 code' t' es I (curs' & c2 & S & Sm & Q) H.
      destruct (sim_step _ _ _ _ _ _ _ Sm H) as [(c2' & S2 & Sm')|(-> & -> & Sm')].
      + exists (curs' ++ [cur]), c2'. split; [eapply solo_app; eauto|]. split; auto.
        intros x J. apply in_app_or in J. destruct J as [J|[<-|[]]]; auto.
      + exists curs', c2. rewrite app_nil_r. auto.
    - exists [], (tail2 p). split; [reflexivity|]. split; [apply sim_between|]. intros x []. }
  destruct X as (curs' & code' & A & B & C). exists curs', code'. split; auto. split; auto.
  intros P F. rewrite Forall_forall in *. auto.
Qed.

(** C102: what a thread sends whose statements may throw. *)
Lemma risky_messages : forall progs i p w tr, lreaches min progs w tr -> nth_error progs i = Some (map embed_risky p) ->
  (exists cur, expect "" (map cut_short p) (tests (of_thread i tr)) = commits (of_thread i tr) ++ cur /\ List.length cur <= 1) /\
  (lfinished w i -> commits (of_thread i tr) = expect "" (map cut_short p) (tests (of_thread i tr))).
Proof.
  intros progs i p w tr R Hp. destruct (thread_solo _ _ _ _ _ _ R Hp) as (curs & code & t & Hn & S).
  destruct (sim_solo _ _ _ _ _ S) as (curs' & code' & S' & Sm & _).
  destruct (solo_messages _ _ _ _ _ _ S') as (cur & E & L & Z). split; [eauto|].
  intros (t' & F). rewrite Hn in F. injection F as -> _. apply sim_end in Sm. rewrite E, (Z Sm), app_nil_r. auto.
Qed.

(** All the threads together. *)
Definition same_threads (w w' : lworld) : Prop :=
  lw_level w = lw_level w' /\ Forall2 (fun a b => snd a = snd b /\ sim (fst a) (fst b)) (lw_threads w) (lw_threads w').

Lemma same_step : forall w w' i w1 es, same_threads w w' -> lwstep min i w = Some (w1, es) ->
  (exists w1', lwstep min i w' = Some (w1', es) /\ same_threads w1 w1') \/ (es = [] /\ same_threads w1 w').
Proof.
  intros w w' i w1 es (L & F) H. unfold lwstep in *. destruct (nth_error (lw_threads w) i) as [[code t]|] eqn:E; [|discriminate].
  destruct (tstep min (lw_level w) code t) as [[[code1 t1] es1]|] eqn:S; [|discriminate]. injection H as <- <-.
  assert (X : exists b, nth_error (lw_threads w') i = Some b /\ t = snd b /\ sim code (fst b)).
  { clear - F E. revert i E. induction F as [|x y l l' Fx F IH]; intros [|i] E; cbn in *; try discriminate; eauto.
    injection E as ->. destruct Fx. eauto. }
  destruct X as ([code' t'] & E' & Ht & Sm). cbn [fst snd] in *. subst t'. rewrite E', <- L.
  assert (U : forall x y, snd x = snd y -> sim (fst x) (fst y) ->
    Forall2 (fun a b => snd a = snd b /\ sim (fst a) (fst b)) (upd i (fun _ => x) (lw_threads w)) (upd i (fun _ => y) (lw_threads w'))).
  { intros x y A B. clear - F A B. revert i. induction F; intros [|i]; cbn; constructor; auto. }
  destruct (sim_step _ _ _ _ _ _ _ Sm S) as [(c2 & S2 & Sm')|(-> & -> & Sm')].
  - left. rewrite S2. eexists. split; [reflexivity|]. split; auto. cbn [lw_threads]. apply U; auto.
  - right. split; auto. split; auto. cbn [lw_threads]. cbn [lw_threads lw_level cur_level].
    assert (Y : upd i (fun _ => (code', t)) (lw_threads w') = lw_threads w').
    { clear - E'. revert i E'. induction (lw_threads w') as [|x l IH]; intros [|i] E; cbn in *; auto; [congruence|]. f_equal. auto. }
    rewrite <- Y. apply U; auto.
Qed.

Lemma as_if_cut : forall ps w tr, lreaches min (map (map embed_risky) ps) w tr ->
  exists w', lreaches min (map (fun p => map embed (map cut_short p)) ps) w' tr /\ forall i, lfinished w i -> lfinished w' i.
Proof.
  intros ps w tr R.
  assert (X : exists w', lreaches min (map (fun p => map embed (map cut_short p)) ps) w' tr /\ same_threads w w').
  { eapply (lreaches_inv min (fun w tr => exists w', lreaches min (map (fun p => map embed (map cut_short p)) ps) w' tr /\ same_threads w w'));
      [| |exact R].
    - exists (lwinit (map (fun p => map embed (map cut_short p)) ps)). split; [exists []; reflexivity|]. split; auto.
      unfold lwinit. cbn [lw_threads]. rewrite !map_map. clear. induction ps; cbn; constructor; auto. split; [auto|apply sim_between].
    - clear. intros i w w1 tr es (w' & (sched & R) & Sm) S. destruct (same_step _ _ _ _ _ Sm S) as [(w1' & S' & Sm')|(-> & Sm')].
      + exists w1'. split; auto. exists (sched ++ [i]). clear - R S'. revert R. generalize (lwinit (map (fun p => map embed (map cut_short p)) ps)) as w0.
        revert tr. induction sched as [|j sched IH]; intros tr w0 R; cbn [lwrun app] in *.
        * injection R as <- <-. rewrite S', app_nil_r. auto.
        * destruct (lwstep min j w0) as [[w2 es2]|]; [|discriminate]. destruct (lwrun min sched w2) as [[w3 es3]|] eqn:E; [|discriminate].
          injection R as -> <-. rewrite (IH _ _ E), app_assoc. auto.
      + exists w'. rewrite app_nil_r. split; auto. exists sched. auto. }
  destruct X as (w' & R' & _ & F). exists w'. split; auto. intros i (t & H).
  assert (Y : exists b, nth_error (lw_threads w') i = Some b /\ sim [] (fst b)).
  { clear - F H. revert i H. induction F as [|x y l l' Fx F IH]; intros [|i] E; cbn in *; try discriminate; eauto.
    injection E as ->. destruct Fx. eauto. }
  destruct Y as ([c t'] & E & Sm). apply sim_end in Sm. cbn in Sm. subst c. exists t'. auto.
Qed.

Lemma risky_alone : forall p w tr, lreaches min [map embed_risky p] w tr -> lfinished w 0 ->
  accepts (of_thread 0 tr) = messages min TRACE "" (map cut_short p).
Proof.
  intros p w tr R F. destruct (as_if_cut [p] w tr R) as (w' & R' & X). apply (proj2 (alone_program _ _ _ _ R' (X 0 F))).
Qed.

(** An exception in a block. *)
Lemma thrown_run : forall f l v f2 l2 v2 (t1 t2 : string), enabled min TRACE v = true -> enabled min TRACE v2 = true ->
  exists t, trun min 11 TRACE [IStmt (STry [SBlock f l v [SPut t1; SThrow] false]); IStmt (SLog f2 l2 v2 None [Op [] [SPut t2]])] tls0 =
  Some ([], t, [EvTest v true; EvTest v true; EvPut t1; EvTest v2 true; EvPut t2; EvCommit (mkMsg f2 l2 v2 "" (t1 ++ t2)) true]).
Proof.
  intros f l v f2 l2 v2 t1 t2 E E2. pose proof (enabled_le _ _ _ E2) as L. apply Z.leb_le in L.
  eexists. cbn [trun tstep app map cur_level]. rewrite !E. cbn [trun tstep app map cur_level andb caught existsb orb]. rewrite E2.
  cbn [trun tstep app map cur_level]. cbn. rewrite L. reflexivity.
Qed.

Lemma thrown_block : forall f l v f2 l2 v2 (t1 t2 : string) w tr, enabled min TRACE v = true -> enabled min TRACE v2 = true ->
  lreaches min [[STry [SBlock f l v [SPut t1; SThrow] false]; SLog f2 l2 v2 None [Op [] [SPut t2]]]] w tr -> lfinished w 0 ->
  commits (of_thread 0 tr) = [mkMsg f2 l2 v2 "" (t1 ++ t2)].
Proof.
  intros f l v f2 l2 v2 t1 t2 w tr E E2 R F. destruct (thrown_run f l v f2 l2 v2 t1 t2 E E2) as (t & H).
  rewrite (alone_events min [STry [SBlock f l v [SPut t1; SThrow] false]; SLog f2 l2 v2 None [Op [] [SPut t2]]] _ _ _ w tr H R F). reflexivity.
Qed.

End Throw.
