(** * The test framework: consequences, in the form the properties need. *)

From Coq Require Import ZArith String Ascii Bool List Arith Lia Permutation.
From Verif Require Import Base TextModel TextSpec TextFacts FutModel FutSpec FutProofs FutRun FutQuiet FutMore FutArgs.
Import ListNotations.
Open Scope string_scope.
Open Scope list_scope.

Section Close.
Variable E : env.

Lemma silent : forall u u' z, on_console u -> performUnitTests E u = (u', z) -> u_verbosity u = 0%nat ->
  exists L, output u u' (L ++ (if is_empty (u_xml u) || can_write E (u_xml u) then [] else [mkChunk Err Framework ("Cannot save XML report to " ++ u_xml u)]))
    /\ Forall (fun c => ch_origin c <> Framework) L.
Proof.
  intros u u' z H P V. destruct (perform_pair E u u' z H P) as [T F]. destruct (f_output _ _ _ _ _ F) as (L1 & L2 & ur & O & _ & _ & VR & _ & _ & _ & _ & _ & S & ->).
  exists L1. split; [|exact (S V)]. unfold report_lines in O. rewrite VR, V in O. exact O.
Qed.

Lemma attributed : forall u u' z, on_console u -> performUnitTests E u = (u', z) ->
  on_console u'
  /\ (exists L, output u u' L /\ (u_capture u = true -> Forall (fun c => ch_origin c = Framework) L)
      /\ Forall (fun c => ch_origin c = Framework \/ exists T t, history u u' T /\ In t (started T) /\ ch_origin c = Test t) L)
  /\ exists T, history u u' T /\ forall v, ~ In v (started T) -> t_outStr (caseof u' v) = t_outStr (caseof u v) /\ t_errStr (caseof u' v) = t_errStr (caseof u v).
Proof.
  intros u u' z H P. destruct (perform_pair E u u' z H P) as [T F]. split; [exact (f_console _ _ _ _ _ F)|]. split.
  - destruct (f_output _ _ _ _ _ F) as (L1 & L2 & ur & O & _ & _ & _ & _ & _ & _ & A & B & _ & ->). eexists. split; [exact O|].
    assert (X : Forall (fun c => ch_origin c = Framework) (framework_says (report_lines E ur) ++ (if is_empty (u_xml u) || can_write E (u_xml u) then [] else [mkChunk Err Framework ("Cannot save XML report to " ++ u_xml u)]))).
    { apply Forall_app. split; [apply says_framework|]. destruct (is_empty (u_xml u) || can_write E (u_xml u)); repeat constructor. }
    split.
    + intro C. apply Forall_app. split; [exact (B C)|exact X].
    + apply Forall_app. split.
      * eapply Forall_impl; [|exact A]. intros c [Q|(t & I & Q)]; [now left|]. right. exists T, t. split; [exact (f_history _ _ _ _ _ F)|auto].
      * eapply Forall_impl; [|exact X]. intros c Q. now left.
  - exists T. split; [exact (f_history _ _ _ _ _ F)|]. intros v N. destruct (f_other _ _ _ _ _ F v N) as [->| ->]; split; reflexivity.
Qed.

Lemma one_restores : forall u t n f u' n' f', on_console u -> run_one E t (u, n, f) = (u', n', f') ->
  on_console u' /\ (forall v, v <> t -> caseof u' v = caseof u v)
  /\ (u_capture u = true ->
      t_outStr (caseof u' t) = (t_outCap (caseof u t) ++ written Out (steps (beh E t (t_runs (caseof u t)))))%string
      /\ t_errStr (caseof u' t) = (t_errCap (caseof u t) ++ written Err (steps (beh E t (t_runs (caseof u t)))))%string).
Proof.
  intros u t n f u' n' f' H R. destruct (run_one_one E t u n f H) as (v & Q & O). rewrite Q in R. injection R as <- _ _.
  split; [exact (o_console _ _ _ _ O)|]. split; [exact (o_other _ _ _ _ O)|]. intro C.
  rewrite (o_outStr _ _ _ _ O), (o_errStr _ _ _ _ O), (o_outCap _ _ _ _ O), (o_errCap _ _ _ _ O), C. auto.
Qed.

(** ** Where the streams lead *)

Definition leads (w : world) : dest * dest := (w_out w, w_err w).

Lemma leads_case : forall t f w, leads (on_case t f w) = leads w.
Proof. reflexivity. Qed.
Lemma leads_print : forall st o s w, leads (print st o s w) = leads w.
Proof. intros st o s w. unfold print. destruct st; [destruct (w_out w)|destruct (w_err w)]; reflexivity. Qed.
Lemma leads_exec1 : forall t s w, leads (fst (exec1 t s w)) = leads w.
Proof.
  intros t s w. destruct s; cbn [exec1]; try reflexivity; try apply leads_print.
  - destruct ok; reflexivity.
  - destruct r; reflexivity.
  - destruct r; reflexivity.
  - destruct r as [[what|]|]; reflexivity.
Qed.
Lemma leads_body : forall t l w, leads (fst (exec_body t l w)) = leads w.
Proof.
  induction l as [|s l IH]; intro w; [reflexivity|]. cbn [exec_body]. pose proof (leads_exec1 t s (note (EvStmt t s) w)) as H.
  destruct (exec1 t s (note (EvStmt t s) w)) as [w' [e|]]; cbn [fst] in *; [exact H|]. rewrite IH. exact H.
Qed.
Lemma leads_run : forall t w, leads (run E t w) = leads w.
Proof.
  intros t w. unfold run. cbv zeta. set (sc := beh E t _).
  pose proof (leads_body t (sc_setup sc) (note (EvSetUp t) (on_case t (fun c => with_runs (S (t_runs c)) (with_status NONE c)) w))) as H1.
  destruct (exec_body t (sc_setup sc) _) as [w1 [|e]]; cbn [fst] in H1; [|exact H1].
  pose proof (leads_body t (sc_test sc) (note (EvTest t) (markBegin E t w1))) as H2.
  destruct (exec_body t (sc_test sc) _) as [w2 [|e]]; cbn [fst] in H2; [|etransitivity; [exact H2|exact H1]].
  set (w3 := if is_none _ then _ else _).
  assert (H3 : leads w3 = leads w2) by (unfold w3; destruct (is_none _); reflexivity). clearbody w3.
  pose proof (leads_body t (sc_teardown sc) (note (EvTearDown t) w3)) as H4.
  destruct (exec_body t (sc_teardown sc) _) as [w4 [|e]]; cbn [fst] in H4; (etransitivity; [exact H4|]); (etransitivity; [exact H3|]); (etransitivity; [exact H2|exact H1]).
Qed.

Lemma dests_tell : forall s u, dests (tell s u) = dests u.
Proof. intros s u. apply (leads_print Out Framework s). Qed.
Lemma dests_name : forall n a b m u, dests (writeTestName n a b m u) = dests u.
Proof. intros. apply dests_tell. Qed.
Lemma dests_begin : forall n t u, dests (beginTest n t u) = if u_capture u then (Capture t, Capture t) else dests u.
Proof.
  intros n t u. unfold beginTest. cbv zeta. set (v := if (3 <=? u_verbosity u)%nat then _ else u).
  assert (D : dests v = dests u) by (unfold v; destruct (3 <=? u_verbosity u)%nat; [apply dests_name|reflexivity]).
  assert (C : u_capture v = u_capture u) by (unfold v; destruct (3 <=? u_verbosity u)%nat; reflexivity).
  clearbody v. unfold tc_begin. rewrite C. destruct (u_capture u); [reflexivity|]. exact D.
Qed.
Lemma dests_end : forall o e n t u, dests (endTest o e n t u) = if u_capture u then (o, e) else dests u.
Proof.
  intros o e n t u. unfold endTest. cbv zeta.
  set (u1 := in_world (tc_end (u_capture u) o e t) u).
  assert (D : dests u1 = if u_capture u then (o, e) else dests u) by (unfold u1, tc_end; destruct (u_capture u); reflexivity).
  clearbody u1. set (u2 := if negb (is_empty (capturedOut _)) && _ then _ else u1).
  assert (D2 : dests u2 = dests u1) by (unfold u2; destruct (negb (is_empty (capturedOut _)) && _); [apply dests_tell|reflexivity]). clearbody u2.
  set (u3 := if negb (is_empty (capturedErr _)) && _ then _ else u2).
  assert (D3 : dests u3 = dests u2) by (unfold u3; destruct (negb (is_empty (capturedErr _)) && _); [apply dests_tell|reflexivity]). clearbody u3.
  rewrite <- D, <- D2, <- D3.
  destruct ((0 <? _)%nat && _); [apply dests_tell|]. destruct ((1 <=? _)%nat && _); [apply dests_tell|]. destruct (2 <=? _)%nat; [apply dests_name|reflexivity].
Qed.
Lemma capture_begin : forall n t u, u_capture (beginTest n t u) = u_capture u.
Proof. intros n t u. unfold beginTest. cbv zeta. destruct (3 <=? u_verbosity u)%nat; reflexivity. Qed.

Lemma dests_one : forall u t n f u' n' f', run_one E t (u, n, f) = (u', n', f') -> dests u' = dests u.
Proof.
  intros u t n f u' n' f'. unfold run_one, finish. cbv zeta.
  set (v := endTest _ _ _ _ _). intro R.
  assert (D : dests v = dests u).
  { unfold v. rewrite dests_end. change (u_capture (in_world (run E t) (beginTest (S n) t u))) with (u_capture (beginTest (S n) t u)). rewrite capture_begin.
    destruct (u_capture u) eqn:C; [reflexivity|]. change (leads (run E t (u_world (beginTest (S n) t u))) = dests u). rewrite leads_run.
    change (dests (beginTest (S n) t u) = dests u). now rewrite dests_begin, C. }
  clearbody v. destruct (hasPassed _ _) in R; injection R as <- _ _; exact D.
Qed.
Lemma dests_one3 : forall t s, dests (fst (fst (run_one E t s))) = dests (fst (fst s)).
Proof.
  intros t [[u n] f]. pose proof (dests_one u t n f) as H. revert H. generalize (run_one E t (u, n, f)). intros [[u1 n1] f1] H.
  exact (H _ _ _ eq_refl).
Qed.
Lemma dests_foldg : forall (g : nat -> unit_test * nat * Z -> unit_test * nat * Z), (forall t s, dests (fst (fst (g t s))) = dests (fst (fst s))) ->
  forall l s, dests (fst (fst (fold_left (fun s t => g t s) l s))) = dests (fst (fst s)).
Proof. intros g H. induction l as [|t l IH]; intro s; [reflexivity|]. cbn [fold_left]. rewrite IH. apply H. Qed.
Lemma dests_comps : forall l d u n, dests (run_comps E l d (u, n)) = dests u.
Proof.
  induction l as [|c l IH]; intros d u n; [reflexivity|]. cbn [run_comps].
  pose proof (dests_foldg _ dests_one3 (c_tests c) (in_world tick u, n, c_failures c)) as R. revert R.
  generalize (fold_left (fun s t => run_one E t s) (c_tests c) (in_world tick u, n, c_failures c)). intros [[u1 n1] f1] R. rewrite IH. exact R.
Qed.
Lemma dests_init : forall u, dests (init u) = dests u.
Proof.
  intro u. unfold init. change (leads (fold_left (fun w t => on_case t (with_status NONE) w) (u_tests u) (u_world u)) = leads (u_world u)).
  generalize (u_world u) as w. induction (u_tests u) as [|t l IH]; intro w; [reflexivity|]. cbn [fold_left]. rewrite IH. reflexivity.
Qed.
Lemma dests_report : forall u, dests (report E u) = dests u.
Proof.
  intro u. unfold report. destruct (0 <? u_verbosity u)%nat; [|reflexivity]. cbv zeta. rewrite dests_tell.
  set (v := if (u_status u =? 0)%Z then u else _).
  assert (D : dests v = dests u).
  { unfold v. destruct (u_status u =? 0)%Z; [reflexivity|]. destruct (failed_list u true (u_tests u)) as [r first].
    assert (F : forall x, dests (fold_left (fun u s => tell s u) r x) = dests x) by (induction r as [|s r IH]; intro x; [reflexivity|]; cbn [fold_left]; rewrite IH; apply dests_tell).
    destruct first; [apply F|]. rewrite dests_tell. apply F. }
  clearbody v. rewrite <- D. destruct (1 <? _)%nat; [|reflexivity].
  assert (F : forall l x, dests (fold_left (fun u c => tell ("  Component " ++ c_name c ++ " (elapsed " ++ seconds E 3 (elapsed (c_begin c) (c_end c)) ++ "s) "
                                              ++ (if (c_failures c =? 0)%Z then "Passed" ++ nl else "FAILED " ++ nl)) u) l x) = dests x)
    by (induction l as [|c l IH]; intro x; [reflexivity|]; cbn [fold_left]; rewrite IH; apply dests_tell).
  apply F.
Qed.
Lemma dests_perform : forall u u' z, performUnitTests E u = (u', z) -> dests u' = dests u.
Proof.
  intros u u' z H. unfold performUnitTests in H. cbv zeta in H. injection H as <- _.
  transitivity (dests (report E (runAllTests E (select_all (init u))))).
  { generalize (report E (runAllTests E (select_all (init u)))) as v. intro v. unfold save_report. destruct (is_empty (u_xml v)); [reflexivity|].
    unfold saveToXML. destruct (can_write E (u_xml v)); [reflexivity|]. apply leads_print. }
  rewrite dests_report. unfold runAllTests. cbv zeta. set (v := group (select_all (init u))).
  change (dests (run_comps E (u_comps v) [] (in_world tick v, 0%nat)) = dests u). rewrite dests_comps.
  change (dests (select_all (init u)) = dests u). unfold select_all. destruct (u_select (init u)); exact (dests_init u).
Qed.
Lemma dests_single : forall n u, dests (fst (performTest E n u)) = dests u.
Proof.
  intros n u. unfold performTest. cbv zeta. destruct (lookup n (u_byName (init u))) as [t|]; [|apply dests_init].
  set (v := endTest _ _ _ _ _).
  assert (D : dests v = dests u).
  { unfold v. rewrite dests_end. set (b := beginTest 1 t (init u)).
    match goal with |- (if u_capture ?x then _ else _) = _ => change (u_capture x) with (u_capture b) end.
    unfold b. rewrite capture_begin. destruct (u_capture (init u)) eqn:C.
    - exact (dests_init u).
    - fold b. match goal with |- dests ?x = _ => change (dests x) with (leads (run E t (tick (u_world b)))) end. rewrite leads_run.
      change (dests b = dests u). unfold b. rewrite dests_begin, C. apply dests_init. }
  clearbody v. destruct (hasPassed v t); exact D.
Qed.

(** ** Failing checks *)

Section Test.
Variables (u u' : unit_test) (z : Z) (t : nat).
Hypothesis F : fresh u.
Hypothesis ND : NoDup (selection u).
Hypothesis P : performUnitTests E u = (u', z).
Hypothesis I : In t (selection u).
Let sc := beh E t (t_runs (caseof u t)).

Lemma fail_continues : forall pre f l m next post, sc_test sc = pre ++ SFail f l m :: next :: post ->
  escapes (sc_setup sc) = None -> Forall goes_on pre -> exists T, history u u' T /\ In (EvStmt t next) T.
Proof.
  intros pre f l m next post S U G. destruct (body_steps E u u' z t F ND P I) as (T & H & B). fold sc in B. exists T. split; [exact H|]. apply B.
  unfold steps, before_teardown. rewrite U, S, executed_app by exact G. cbn [executed raised returns]. apply in_or_app. left. apply in_or_app. right.
  apply in_or_app. right. right. left. reflexivity.
Qed.

Lemma continues : forall pre s next post, sc_test sc = pre ++ s :: next :: post -> escapes (sc_setup sc) = None -> Forall goes_on pre -> goes_on s ->
  exists T, history u u' T /\ In (EvStmt t next) T.
Proof.
  intros pre s next post S U G [G1 G2]. destruct (body_steps E u u' z t F ND P I) as (T & H & B). fold sc in B. exists T. split; [exact H|]. apply B.
  unfold steps, before_teardown. rewrite U, S, executed_app by exact G. cbn [executed]. rewrite G1, G2. apply in_or_app. left. apply in_or_app. right.
  apply in_or_app. right. right. left. reflexivity.
Qed.

Lemma failing_verdict : forall s, In s (steps sc) -> fails s = true -> existsb meddles (steps sc) = false ->
  status_of u' t = (match thrown sc with Some _ => ERROR | None => FAIL end) /\ z = (-1)%Z.
Proof.
  intros s IS FS M. destruct (test_result E u u' z t F ND P I) as [V _]. fold sc in V. specialize (V M).
  assert (X : existsb fails (steps sc) = true) by (apply existsb_exists; eauto).
  assert (S : status_of u' t = match thrown sc with Some _ => ERROR | None => FAIL end).
  { rewrite V. unfold verdict. destruct (thrown sc); [reflexivity|]. now rewrite X. }
  split; [exact S|]. destruct (exit_final E u u' z F ND P) as [[Z|Z] G]; [|exact Z].
  exfalso. pose proof (proj1 G Z t I) as Q. rewrite S in Q. destruct (thrown sc); discriminate Q.
Qed.

Lemma last_none : forall l d, (forall s, In s l -> complaint s = None) -> last_complaint l d = d.
Proof. induction l as [|s l IH]; intros d H; [reflexivity|]. cbn [last_complaint]. rewrite (H s (or_introl eq_refl)). apply IH. intros x X. apply H. now right. Qed.

Lemma recorded : forall a s b c, steps sc = a ++ s :: b -> complaint s = Some c -> (forall x, In x b -> complaint x = None) -> thrown sc = None ->
  record_of u' t = c.
Proof.
  intros a s b c S C N TH. destruct (whole E u u' z t F ND P I) as (T & T1 & T2 & _ & _ & _ & R & _). fold sc in R. rewrite R. unfold on_record.
  rewrite TH, S, last_complaint_app. cbn [last_complaint]. rewrite C, last_none by exact N. destruct c as [[m l] f]. reflexivity.
Qed.

(** The usual case: a check in the body fails. *)
Lemma check_stops : forall pre f l d a post, sc_test sc = pre ++ SCheck false f l d a :: post -> escapes (sc_setup sc) = None -> Forall goes_on pre ->
  exists T T1 T2, history u u' T
    /\ T = T1 ++ (EvSetUp t :: map (EvStmt t) (executed (sc_setup sc)) ++ EvTest t :: map (EvStmt t) (pre ++ [SCheck false f l d a])
                  ++ EvTearDown t :: map (EvStmt t) (executed (sc_teardown sc))) ++ [EvDone t (status_of u' t)] ++ T2
    /\ Forall (fun e => about e <> t) (T1 ++ T2)
    /\ steps sc = executed (sc_setup sc) ++ (pre ++ [SCheck false f l d a]) ++ executed (sc_teardown sc).
Proof.
  intros pre f l d a post S U G. destruct (whole E u u' z t F ND P I) as (T & T1 & T2 & H & TE & A & _). fold sc in TE. exists T, T1, T2.
  split; [exact H|]. assert (ET : escapes (sc_test sc) = None) by (rewrite S, escapes_app by exact G; reflexivity).
  assert (XT : executed (sc_test sc) = pre ++ [SCheck false f l d a]) by (rewrite S, executed_app by exact G; reflexivity).
  split; [|split; [exact A|]].
  - rewrite TE. unfold events. rewrite U, ET, XT. reflexivity.
  - unfold steps, before_teardown, reaches_teardown. rewrite U, ET, XT, <- app_assoc. reflexivity.
Qed.

Lemma check_fails : forall pre f l d a post, sc_test sc = pre ++ SCheck false f l d a :: post -> escapes (sc_setup sc) = None -> Forall goes_on pre ->
  existsb meddles (steps sc) = false -> escapes (sc_teardown sc) = None -> (forall x, In x (executed (sc_teardown sc)) -> complaint x = None) ->
  status_of u' t = FAIL /\ z = (-1)%Z /\ record_of u' t = (check_text d (until_nul a), l, base_name f).
Proof.
  intros pre f l d a post S U G M ED N. destruct (check_stops _ _ _ _ _ _ S U G) as (_ & _ & _ & _ & _ & _ & ST).
  assert (ET : escapes (sc_test sc) = None) by (rewrite S, escapes_app by exact G; reflexivity).
  assert (TH : thrown sc = None) by (unfold thrown; rewrite U, ET; exact ED).
  destruct (failing_verdict (SCheck false f l d a)) as [V Z]; [|reflexivity|exact M|].
  { rewrite ST. apply in_or_app. right. apply in_or_app. left. apply in_or_app. right. left. reflexivity. }
  rewrite TH in V. split; [exact V|]. split; [exact Z|].
  apply (recorded (executed (sc_setup sc) ++ pre) (SCheck false f l d a) (executed (sc_teardown sc))); [|reflexivity|exact N|exact TH].
  rewrite ST, <- !app_assoc. reflexivity.
Qed.

(** A check that fails in SetUp does not keep the body from being executed. *)
Lemma setup_check : forall pre f l d a post s body, sc_setup sc = pre ++ SCheck false f l d a :: post -> Forall goes_on pre -> sc_test sc = s :: body ->
  exists T, history u u' T /\ In (EvTest t) T /\ In (EvStmt t s) T.
Proof.
  intros pre f l d a post s body S G B. assert (U : escapes (sc_setup sc) = None) by (rewrite S, escapes_app by exact G; reflexivity).
  destruct (whole E u u' z t F ND P I) as (T & T1 & T2 & H & TE & A & _). fold sc in TE. exists T. split; [exact H|].
  rewrite (in_history t sc T T1 T2 _ (EvTest t) TE A eq_refl) by discriminate. rewrite (in_history t sc T T1 T2 _ (EvStmt t s) TE A eq_refl) by discriminate.
  split; [now apply test_events|]. unfold events. rewrite U, B. right. apply in_or_app. right. right. apply in_or_app. left. left. reflexivity.
Qed.

(** When a test leaves SetUp by an exception, its beginning is that of an earlier run. *)
Lemma setup_time : forall e, escapes (sc_setup sc) = Some e -> exists n, t_begin (caseof u' t) = t_begin (caseof u t) /\ t_end (caseof u' t) = clock E n.
Proof.
  intros e U. destruct (whole E u u' z t F ND P I) as (T & T1 & T2 & _ & _ & _ & _ & n & H). fold sc in H. rewrite U in H. unfold times in H. injection H as H1 H2. eauto.
Qed.
Lemma test_time : escapes (sc_setup sc) = None ->
  exists n m, (n < m <= n + 2)%nat /\ t_begin (caseof u' t) = clock E n /\ t_end (caseof u' t) = clock E m.
Proof.
  intro U. destruct (whole E u u' z t F ND P I) as (T & T1 & T2 & _ & _ & _ & _ & n & H). fold sc in H. rewrite U in H. unfold times in H. injection H as H1 H2.
  exists n. eexists. split; [|split; [exact H1|exact H2]]. destruct (escapes (sc_test sc)), (escapes (sc_teardown sc)); lia.
Qed.
End Test.

(** ** -t *)

Lemma selects_first : forall l w n t, first_named n l = Some t -> parseParams ["-t"; n] (register l (unit0 w)) = ROk (set_select [t] (register l (unit0 w))) 0%Z.
Proof.
  intros l w n t H. cbn [parseParams]. cbn [String.eqb Ascii.eqb Bool.eqb]. rewrite register_lookup. cbn [u_byName unit0 lookup]. rewrite H.
  assert (Q : u_select (register l (unit0 w)) = []).
  { assert (G : forall l u, u_select (register l u) = u_select u).
    { clear. induction l as [|[[a b] c] l IH]; intro u; [reflexivity|]. cbn [register fold_left]. fold (register l (addTestCase a b c u)). rewrite IH. reflexivity. }
    rewrite G. reflexivity. }
  rewrite Q. reflexivity.
Qed.

End Close.

Lemma passing_no_effect : forall E E' t w, clock E' = clock E -> beh E' t (t_runs (w_case w t)) = no_passes (beh E t (t_runs (w_case w t))) ->
  let a := run E t w in let b := run E' t w in
  w_case a = w_case b /\ w_out a = w_out b /\ w_err a = w_err b /\ w_console a = w_console b /\ w_tick a = w_tick b.
Proof.
  intros E E' t w C B. assert (S : simh w w) by (constructor; reflexivity). destruct (simh_run E E' t w w C S B). cbv zeta. auto.
Qed.

(** ** A test program, for the examples *)

Definition T0 := mkScript [] [SOut "hello"; SCheck true "a/b.cpp" 3 "EXPECT_EQ" ""] [].
Definition T1 := mkScript [SOut "up"] [SCheck true "a/b.cpp" 4 "EXPECT_EQ" ""; SCheck false "a/b.cpp" 5 "EXPECT_LT: 2 < 1" "2"; SOut "not reached"] [SErr "down"].
Definition T2 := mkScript [] [SErr "noise"] [].
Definition T3 := mkScript [SThrow (Some "boom")] [] [].
Definition T4 := mkScript [SCheck false "s.cpp" 1 "c" ""] [SFail "a/c.cpp" 9 "wrong"; SOut "on"] [].
Definition T5 := mkScript [] [SExpectThrow TNothing "x.cpp" 2 "int"; SOut "on"; SCheck false "y.cpp" 3 "later" ""] [].
Definition demo : env := mkEnv
  (fun t n => match t, n with 0, _ => T0 | 1, _ => T1 | 2, 0 => T2 | 2, _ => T0 | 3, _ => T3 | 4, _ => T4 | _, _ => T5 end)%nat
  (fun n => 1000 + Z.of_nat n)%Z (fun _ z => dec z) (fun f => String.eqb f "report.xml").
Definition demo_case : tcase := mkT "" "" "" NONE "" "" "" "" "" 0 "" 0 0 0.
Definition demo_world : world := mkW (fun _ => demo_case) Console Console [] 0 [].
Definition demo_tests : list (string * string * nat) :=
  [("Stack", "push", 0); ("Futex", "signal", 1); ("Stack", "pop", 2); ("Log", "setup", 3); ("Log", "fail", 4); ("Stack", "throw", 5)].
Definition demo_unit : unit_test := register demo_tests (unit0 demo_world).
Definition demo_done : unit_test := fst (performUnitTests demo demo_unit).

(** ** The settings of a test program *)
Lemma effects_settings : forall l os u, Forall (valid (u_byName u)) os -> (forall n, lookup n (u_byName u) = first_named n l) ->
  let u' := effects os u in
  u_capture u' = last_of (fun o => match o with ONoCapture => Some false | _ => None end) os (u_capture u)
  /\ u_errfail u' = last_of (fun o => match o with OErrFail => Some true | _ => None end) os (u_errfail u)
  /\ u_verbosity u' = last_of (fun o => match o with OQuiet => Some 0%nat | OLevel n => Some n | _ => None end) os (u_verbosity u)
  /\ u_xml u' = last_of (fun o => match o with OXml f => Some f | _ => None end) os (u_xml u)
  /\ u_name u' = last_of (fun o => match o with OName n => Some n | _ => None end) os (u_name u)
  /\ u_id u' = last_of (fun o => match o with OId i => Some i | _ => None end) os (u_id u)
  /\ exists ts, u_select u' = u_select u ++ ts /\ map Some ts = map (fun n => first_named n l) (named_tests os).
Proof.
  intros l os. induction os as [|o os IH]; intros u V L u'.
  - subst u'. cbn. repeat split; auto. exists []. now rewrite app_nil_r.
  - inversion V as [|? ? V1 V2]; subst.
    assert (N : u_byName (effect o u) = u_byName u) by (destruct o; cbn; auto; destruct (lookup name (u_byName u)); auto).
    specialize (IH (effect o u)). rewrite N in IH. specialize (IH V2 L). cbv zeta in IH. subst u'.
    unfold effects in *. cbn [fold_left]. destruct IH as (A & B & C & D & E & F & ts & G1 & G2).
    unfold last_of in *. cbn [fold_left]. rewrite A, B, C, D, E, F, G1.
    destruct o as [| | |n|n|f|n|i]; cbn [effect named_tests]; try (repeat split; eauto; fail).
    cbn in V1. pose proof (L n) as Ln. destruct (lookup n (u_byName u)) as [t|]; [|congruence]. cbn [u_capture u_errfail u_verbosity u_xml u_name u_id u_select set_select].
    repeat split; auto. exists (t :: ts). rewrite <- app_assoc. split; auto. cbn [map]. rewrite G2, <- Ln. auto.
Qed.

Lemma register_settings : forall l u, u_capture (register l u) = u_capture u /\ u_errfail (register l u) = u_errfail u /\ u_verbosity (register l u) = u_verbosity u
  /\ u_xml (register l u) = u_xml u /\ u_name (register l u) = u_name u /\ u_id (register l u) = u_id u /\ u_select (register l u) = u_select u.
Proof.
  induction l as [|[[co ca] t] l IH]; intros u; [repeat split|]. cbn [register fold_left]. fold (register l (addTestCase co ca t u)).
  destruct (IH (addTestCase co ca t u)) as (A & B & C & D & E & F & G). rewrite A, B, C, D, E, F, G. repeat split.
Qed.

Lemma no_capture : forall os d, last_of (fun o => match o with ONoCapture => Some false | _ => None end) os d = false <-> d = false \/ In ONoCapture os.
Proof.
  unfold last_of. induction os as [|o os IH]; intros d; cbn [fold_left In]; [tauto|]. rewrite IH. destruct o; intuition congruence.
Qed.
Lemma err_fail : forall os d, last_of (fun o => match o with OErrFail => Some true | _ => None end) os d = true <-> d = true \/ In OErrFail os.
Proof.
  unfold last_of. induction os as [|o os IH]; intros d; cbn [fold_left In]; [tauto|]. rewrite IH. destruct o; intuition congruence.
Qed.

Lemma program_settings : forall l w os args, command_line decimal_level os args -> Forall (valid (u_byName (register l (unit0 w)))) os ->
  exists u, parseParams args (register l (unit0 w)) = ROk u 0%Z
  /\ (u_capture u = false <-> In ONoCapture os)
  /\ (u_errfail u = true <-> In OErrFail os)
  /\ u_verbosity u = last_of (fun o => match o with OQuiet => Some 0%nat | OLevel n => Some n | _ => None end) os 2%nat
  /\ u_xml u = last_of (fun o => match o with OXml f => Some f | _ => None end) os ""
  /\ u_name u = last_of (fun o => match o with OName n => Some n | _ => None end) os ""
  /\ u_id u = last_of (fun o => match o with OId i => Some i | _ => None end) os ""
  /\ map Some (u_select u) = map (fun n => first_named n l) (named_tests os).
Proof.
  intros l w os args C V. exists (effects os (register l (unit0 w))). split; [apply parse_accepts; auto; now apply decimal_command_line|].
  destruct (effects_settings l os _ V) as (A & B & D & E & F & G & ts & H1 & H2); [intros n; rewrite register_lookup; reflexivity|].
  destruct (register_settings l (unit0 w)) as (A' & B' & D' & E' & F' & G' & H').
  rewrite A, B, D, E, F, G, H1, A', B', D', E', F', G', H'. cbn [u_capture u_errfail u_verbosity u_xml u_name u_id u_select unit0 app].
  rewrite no_capture, err_fail. repeat split; auto; intuition discriminate.
Qed.

(** ** What the XML report says *)
Lemma entries_case : forall u c t su l, entries su (case_xml u c t ++ l) =
  (su, c_name c, t_case (caseof u t), reported_failure (status_of u t) (record_of u t)) :: entries su l.
Proof.
  intros u c t su l. unfold case_xml, reported_failure, record_of, status_of, hasPassed. destruct (u_errfail u), (t_status (caseof u t)); reflexivity.
Qed.
Lemma entries_cases : forall u c ts su l, entries su (flat_map (case_xml u c) ts ++ l) =
  map (fun t => (su, c_name c, t_case (caseof u t), reported_failure (status_of u t) (record_of u t))) ts ++ entries su l.
Proof.
  intros u c ts su l. induction ts as [|t ts IH]; [reflexivity|]. cbn [flat_map map app]. rewrite <- app_assoc, entries_case, IH. reflexivity.
Qed.
Lemma entries_suites : forall u cs su l, Forall (fun x => match x with XCase _ _ _ _ | XSuite _ _ _ _ _ => False | _ => True end) l ->
  entries su (flat_map (suite_xml u) cs ++ l) =
  flat_map (fun c => map (fun t => (c_name c, c_name c, t_case (caseof u t), reported_failure (status_of u t) (record_of u t))) (c_tests c)) cs.
Proof.
  intros u cs. induction cs as [|c cs IH]; intros su l N.
  - cbn [flat_map app]. clear - N. induction N as [|x l X N IH]; [reflexivity|]. destruct x; try tauto; exact IH.
  - cbn [flat_map]. rewrite <- app_assoc. unfold suite_xml at 1. rewrite <- !app_assoc. cbn [app entries]. rewrite entries_cases. cbn [app entries].
    f_equal. now apply IH.
Qed.

Lemma xml_entries : forall E u u' z, fresh u -> performUnitTests E u = (u', z) ->
  exists T, history u u' T /\ entries "" (report_xml u') =
    map (fun t => (comp_of u t, comp_of u t, t_case (caseof u t), reported_failure (status_of u' t) (record_of u' t))) (started T).
Proof.
  intros E u u' z F P. destruct (perform_pair E u u' z (proj2 F) P) as [T PF]. exists T. split; [exact (f_history _ _ _ _ _ PF)|].
  unfold report_xml. cbn [app entries]. rewrite entries_suites by (repeat constructor).
  pose proof (f_comps _ _ _ _ _ PF) as CR. rewrite (f_started _ _ _ _ _ PF), <- (proj1 (cr_flat _ _ _ CR)).
  assert (S1 : sorted_comps (comp_of u) (u_comps u')) by (eapply cr_sorted; [exact CR|]; apply grouped_sorted; rewrite (proj1 F); constructor).
  clear - S1 PF. assert (K := f_case _ _ _ _ _ PF). clear PF. induction S1 as [|c l A B S1 IH]; [reflexivity|]. cbn [flat_map map]. rewrite map_app, IH. f_equal.
  apply map_ext_in. intros t I. rewrite (B t I), K. reflexivity.
Qed.

Lemma xml_entry : forall E u u' z t, fresh u -> NoDup (selection u) -> performUnitTests E u = (u', z) -> In t (selection u) ->
  let c := caseof u t in let sc := beh E t (t_runs c) in existsb meddles (steps sc) = false ->
  In (comp_of u t, comp_of u t, t_case c,
      reported_failure (verdict sc (if u_capture u then (t_errCap c ++ written Err (before_teardown sc))%string else t_errCap c))
                       (on_record sc (record_of u t))) (entries "" (report_xml u')).
Proof.
  intros E u u' z t F ND P I c sc M. destruct (xml_entries E u u' z F P) as (T & H & Q). rewrite Q.
  destruct (runs_once E u u' z F P) as (T' & H' & PE & _).
  assert (T = T') by (unfold history in *; rewrite H in H'; now apply app_inv_head in H'). subst T'.
  apply in_map_iff. exists t. split; [|eapply Permutation_in; [symmetry; exact PE|exact I]].
  destruct (test_result E u u' z t F ND P I) as [V _]. destruct (whole E u u' z t F ND P I) as (_ & _ & _ & _ & _ & _ & W & _).
  cbv zeta in V. rewrite (V M). cbv zeta in W. rewrite W. reflexivity.
Qed.

Lemma xml_twice : forall E u u' z t, fresh u -> selection u = [t; t] -> performUnitTests E u = (u', z) ->
  exists e, entries "" (report_xml u') = [e; e].
Proof.
  intros E u u' z t F S2 P. destruct (xml_entries E u u' z F P) as (T & H & Q).
  destruct (runs_once E u u' z F P) as (T' & H' & PE & _).
  assert (T = T') by (unfold history in *; rewrite H in H'; now apply app_inv_head in H'). subst T'.
  rewrite Q. rewrite S2 in PE.
  assert (L := Permutation_length PE).
  destruct (started T) as [|a [|b [|? ?]]]; try discriminate.
  assert (A : In a [t; t]) by (eapply Permutation_in; [exact PE|left; reflexivity]).
  assert (B : In b [t; t]) by (eapply Permutation_in; [exact PE|right; left; reflexivity]).
  assert (a = t) by (cbn in A; intuition congruence). assert (b = t) by (cbn in B; intuition congruence). subst. cbn [map]. eexists. reflexivity.
Qed.
