(** * Failure records, TearDown, times, performTest, registration. *)

From Coq Require Import ZArith String Ascii Bool List Arith Lia Sorting.Permutation.
From Verif Require Import Base TextModel TextSpec TextFacts FutModel FutSpec FutProofs FutRun.
Import ListNotations.
Open Scope string_scope.
Open Scope list_scope.

(** ** Paths *)

Lemma base_name_spec : forall s, has_char "/" (base_name s) = false /\ (s = base_name s \/ exists d, s = (d ++ "/" ++ base_name s)%string).
Proof.
  induction s as [|c s [IH1 IH2]]; [split; [reflexivity|left; reflexivity]|]. cbn [base_name].
  destruct (has_char "/" s) eqn:H.
  - split; [exact IH1|]. right. destruct IH2 as [Q|[d Q]]; [rewrite <- Q in IH1; congruence|]. exists (String c d). rewrite Q at 1. reflexivity.
  - destruct (Ascii.eqb c "/") eqn:C.
    + split; [exact H|]. right. apply Ascii.eqb_eq in C. subst c. exists "". reflexivity.
    + split; [|left; reflexivity]. cbn [has_char]. rewrite Ascii.eqb_sym, C. exact H.
Qed.


Lemma rfind_base : forall s, (match rfind DIR_SEP s with Some p => drop (S p) s | None => s end) = base_name s.
Proof.
  assert (R : forall s, rfind DIR_SEP s = None <-> has_char "/" s = false).
  { induction s as [|c s IH]; [split; reflexivity|]. cbn [rfind has_char]. unfold DIR_SEP in *. rewrite (Ascii.eqb_sym "/" c).
    destruct (rfind "/" s); [|destruct (Ascii.eqb c "/"); cbn [orb]].
    - split; [discriminate|]. intro H. apply orb_false_iff in H. destruct H as [_ H]. apply IH in H. discriminate H.
    - split; discriminate.
    - split; [intros _; now apply IH|reflexivity]. }
  induction s as [|c s IH]; [reflexivity|]. cbn [rfind base_name]. pose proof (R s) as Rs.
  destruct (rfind DIR_SEP s) as [p|].
  - destruct (has_char "/" s) eqn:H; [exact IH|]. destruct Rs as [_ Rs]. discriminate (Rs eq_refl).
  - rewrite (proj1 Rs eq_refl). unfold DIR_SEP. destruct (Ascii.eqb c "/"); reflexivity.
Qed.

(** ** What is recorded *)

Definition rec3 (c : tcase) : string * Z * string := (t_desc c, t_line c, t_file c).

Lemma checkFail_rec : forall t f l d a w, rec3 (w_case (checkFail t f l d a w) t) = (check_text d a, l, base_name f).
Proof.
  intros t f l d a w. unfold checkFail. rewrite rfind_base. onc. rewrite Nat.eqb_refl. unfold rec3. onc.
  unfold check_text. destruct a; reflexivity.
Qed.

Lemma exec1_rec : forall t s w, rec3 (w_case (fst (exec1 t s w)) t) = match complaint s with Some c => c | None => rec3 (w_case w t) end.
Proof.
  assert (P : forall t st o x w, rec3 (w_case (print st o x w) t) = rec3 (w_case w t)).
  { intros t st o x w. unfold print. destruct (match st with Out => w_out w | Err => w_err w end) as [|v]; [reflexivity|]. onc.
    destruct (t =? v)%nat eqn:Q; [|reflexivity]. apply Nat.eqb_eq in Q. subst v. destruct st; reflexivity. }
  intros t s w. destruct s; cbn [exec1 complaint]; try (destruct ok); try (destruct r as [| |]); try (destruct r as [[|]|]); try (destruct r);
    cbn [fst]; rewrite ?checkFail_rec; try reflexivity; try apply P.
  - unfold fail. onc. rewrite Nat.eqb_refl. reflexivity.
  - onc. rewrite Nat.eqb_refl. reflexivity.
Qed.

Lemma exec_rec : forall t l w, here t (w_out w) -> here t (w_err w) ->
  rec3 (w_case (fst (exec_body t l w)) t) = last_complaint (executed l) (rec3 (w_case w t)).
Proof.
  induction l as [|s l IH]; intros w Ho He; [reflexivity|]. cbn [exec_body executed].
  destruct (exec1_did t s w Ho He) as [D S]. pose proof (exec1_rec t s (note (EvStmt t s) w)) as R.
  destruct (exec1 t s (note (EvStmt t s) w)) as [w1 r]. cbn [fst snd] in D, S, R. subst r. change (w_case (note (EvStmt t s) w) t) with (w_case w t) in R.
  cbn [last_complaint]. destruct (raised s); [cbn [fst last_complaint]; exact R|]. destruct (returns s); [cbn [fst last_complaint]; exact R|].
  rewrite IH, R; [reflexivity|..]; [rewrite (d_out _ _ _ _ D)|rewrite (d_err _ _ _ _ D)]; assumption.
Qed.

Lemma last_complaint_app : forall l l' d, last_complaint (l ++ l') d = last_complaint l' (last_complaint l d).
Proof. induction l as [|s l IH]; intros l' d; [reflexivity|]. cbn [app last_complaint]. apply IH. Qed.

Section More.
Variable E : env.

Lemma caught_rec : forall t e w, rec3 (w_case (caught E t e w) t) = let '(_, l, f) := rec3 (w_case w t) in (what e, l, f).
Proof. intros t e w. unfold caught, markEnd, tick. onc. rewrite !Nat.eqb_refl. onc. destruct e; reflexivity. Qed.

Definition times (c : tcase) : Z * Z := (t_begin c, t_end c).
Lemma caught_times : forall t e w, times (w_case (caught E t e w) t) = (t_begin (w_case w t), clock E (w_tick w)).
Proof. intros t e w. unfold caught, markEnd, tick. onc. rewrite !Nat.eqb_refl. reflexivity. Qed.
Lemma caught_tick : forall t e w, w_tick (caught E t e w) = S (w_tick w).
Proof. reflexivity. Qed.

Lemma run_rec : forall t w, here t (w_out w) -> here t (w_err w) ->
  let sc := beh E t (t_runs (w_case w t)) in let n := w_tick w in
  rec3 (w_case (run E t w) t) = on_record sc (rec3 (w_case w t))
  /\ match escapes (sc_setup sc) with
     | Some _ => times (w_case (run E t w) t) = (t_begin (w_case w t), clock E n)
     | None => times (w_case (run E t w) t) =
         (clock E n, clock E (match escapes (sc_test sc), escapes (sc_teardown sc) with None, Some _ => n + 2 | _, _ => n + 1 end)%nat)
     end.
Proof.
  intros t w Ho He. cbv zeta. unfold run. set (sc := beh E t (t_runs (w_case w t))). clearbody sc.
  set (w0 := note (EvSetUp t) (on_case t (fun c => with_runs (S (t_runs c)) (with_status NONE c)) w)).
  assert (R0 : rec3 (w_case w0 t) = rec3 (w_case w t)) by (unfold w0; onc; rewrite Nat.eqb_refl; reflexivity).
  assert (B0 : times (w_case w0 t) = times (w_case w t)) by (unfold w0; onc; rewrite Nat.eqb_refl; reflexivity).
  assert (T0 : w_tick w0 = w_tick w) by reflexivity.
  assert (Ho0 : here t (w_out w0)) by exact Ho. assert (He0 : here t (w_err w0)) by exact He. clearbody w0.
  unfold on_record, steps, before_teardown, thrown, reaches_teardown.
  destruct (exec_did t (sc_setup sc) w0 Ho0 He0) as [D1 S1]. pose proof (exec_rec t (sc_setup sc) w0 Ho0 He0) as R1.
  destruct (exec_body t (sc_setup sc) w0) as [w1 r1]. cbn [fst snd] in D1, S1, R1. subst r1. rewrite R0 in R1.
  assert (B1 : times (w_case w1 t) = times (w_case w t)) by (rewrite <- B0; unfold times; now rewrite (d_begin _ _ _ _ D1), (d_end _ _ _ _ D1)).
  pose proof (d_tick _ _ _ _ D1) as T1. rewrite T0 in T1.
  destruct (escapes (sc_setup sc)) as [e|].
  - rewrite caught_rec, caught_times, R1, !app_nil_r, T1. split; [reflexivity|]. unfold times in B1. congruence.
  - set (w2 := note (EvTest t) (markBegin E t w1)).
    assert (R2 : rec3 (w_case w2 t) = rec3 (w_case w1 t)) by (unfold w2, markBegin; onc; rewrite Nat.eqb_refl; reflexivity).
    assert (B2 : t_begin (w_case w2 t) = clock E (w_tick w1)) by (unfold w2, markBegin; onc; rewrite Nat.eqb_refl; reflexivity).
    assert (T2 : w_tick w2 = S (w_tick w1)) by reflexivity.
    assert (Ho2 : here t (w_out w2)) by (change (here t (w_out w1)); now rewrite (d_out _ _ _ _ D1)).
    assert (He2 : here t (w_err w2)) by (change (here t (w_err w1)); now rewrite (d_err _ _ _ _ D1)). clearbody w2.
    destruct (exec_did t (sc_test sc) w2 Ho2 He2) as [D3 S3]. pose proof (exec_rec t (sc_test sc) w2 Ho2 He2) as R3.
    destruct (exec_body t (sc_test sc) w2) as [w3 r3]. cbn [fst snd] in D3, S3, R3. subst r3.
    rewrite R2, R1, <- last_complaint_app in R3.
    pose proof (d_begin _ _ _ _ D3) as B3. rewrite B2, T1 in B3. pose proof (d_tick _ _ _ _ D3) as T3. rewrite T2, T1 in T3.
    destruct (escapes (sc_test sc)) as [e|].
    + rewrite caught_rec, caught_times, R3, app_nil_r, B3, T3. split; [reflexivity|]. now rewrite Nat.add_1_r.
    + cbv zeta. set (w4 := markEnd E t w3).
      assert (R4 : rec3 (w_case w4 t) = rec3 (w_case w3 t)) by (unfold w4, markEnd; onc; rewrite Nat.eqb_refl; reflexivity).
      assert (B4 : times (w_case w4 t) = (t_begin (w_case w3 t), clock E (w_tick w3))) by (unfold w4, markEnd; onc; rewrite Nat.eqb_refl; reflexivity).
      assert (T4 : w_tick w4 = S (w_tick w3)) by reflexivity.
      assert (Ho4 : here t (w_out w4)) by (change (here t (w_out w3)); now rewrite (d_out _ _ _ _ D3)).
      assert (He4 : here t (w_err w4)) by (change (here t (w_err w3)); now rewrite (d_err _ _ _ _ D3)). clearbody w4.
      set (w5 := note (EvTearDown t) (if is_none (t_status (w_case w4 t)) then _ else w4)).
      assert (Q : rec3 (w_case w5 t) = rec3 (w_case w4 t) /\ times (w_case w5 t) = times (w_case w4 t) /\ w_tick w5 = w_tick w4 /\ w_out w5 = w_out w4 /\ w_err w5 = w_err w4).
      { unfold w5. destruct (is_none (t_status (w_case w4 t))); onc; rewrite ?Nat.eqb_refl; repeat split. }
      destruct Q as (R5 & B5 & T5 & Ho5 & He5). clearbody w5.
      assert (Ho6 : here t (w_out w5)) by now rewrite Ho5. assert (He6 : here t (w_err w5)) by now rewrite He5.
      destruct (exec_did t (sc_teardown sc) w5 Ho6 He6) as [D6 S6]. pose proof (exec_rec t (sc_teardown sc) w5 Ho6 He6) as R6.
      destruct (exec_body t (sc_teardown sc) w5) as [w6 r6]. cbn [fst snd] in D6, S6, R6. subst r6.
      rewrite R5, R4, R3, <- last_complaint_app in R6.
      rewrite B4, B3, T3 in B5. pose proof (d_tick _ _ _ _ D6) as T6. rewrite T5, T4, T3 in T6.
      assert (B6 : times (w_case w6 t) = (clock E (w_tick w), clock E (S (w_tick w)))).
      { rewrite <- B5. unfold times. now rewrite (d_begin _ _ _ _ D6), (d_end _ _ _ _ D6). }
      destruct (escapes (sc_teardown sc)) as [e|].
      * rewrite caught_rec, caught_times, R6, T6. split; [reflexivity|]. injection B6 as -> _. f_equal. f_equal. lia.
      * rewrite R6, B6. split; [match goal with |- ?x = _ => destruct x as [[m l] f] end; reflexivity|]. now rewrite Nat.add_1_r.
Qed.

(** One test in a whole run. *)
Lemma whole : forall u u' z t, fresh u -> NoDup (selection u) -> performUnitTests E u = (u', z) -> In t (selection u) ->
  let sc := beh E t (t_runs (caseof u t)) in
  exists T T1 T2, history u u' T /\ T = T1 ++ events t sc ++ [EvDone t (status_of u' t)] ++ T2 /\ Forall (fun e => about e <> t) (T1 ++ T2)
  /\ record_of u' t = on_record sc (record_of u t)
  /\ exists n, match escapes (sc_setup sc) with
     | Some _ => times (caseof u' t) = (t_begin (caseof u t), clock E n)
     | None => times (caseof u' t) =
         (clock E n, clock E (match escapes (sc_test sc), escapes (sc_teardown sc) with None, Some _ => n + 2 | _, _ => n + 1 end)%nat)
     end.
Proof.
  intros u u' z t F ND P I. cbv zeta. destruct (perform_pair E u u' z (proj2 F) P) as [T PF]. destruct (fresh_started E _ _ _ _ F PF) as [PE _].
  assert (ND' : NoDup (started T)) by (eapply Permutation_NoDup; [symmetry; exact PE|exact ND]).
  assert (I' : In t (started T)) by (eapply Permutation_in; [symmetry; exact PE|exact I]).
  destruct (f_one _ _ _ _ _ PF ND' t I') as (a & b & O & A & B & C & (T1 & T2 & W1 & W2)). exists T, T1, T2.
  assert (CA : t_runs (caseof a t) = t_runs (caseof u t) /\ rec3 (caseof a t) = rec3 (caseof u t) /\ t_begin (caseof a t) = t_begin (caseof u t))
    by (destruct A as [->| ->]; auto).
  destruct CA as (CA1 & CA2 & CA3). rewrite CA1 in W1.
  split; [exact (f_history _ _ _ _ _ PF)|]. split; [unfold status_of in *; rewrite B; exact W1|]. split; [exact W2|].
  destruct (o_run _ _ _ _ O) as (w & Q1 & Q2 & Q3 & Q4). destruct (run_rec t w Q2 Q3) as [R1 R2]. cbv zeta in R1, R2.
  assert (X1 : t_runs (w_case w t) = t_runs (caseof u t)) by (rewrite Q1; exact CA1).
  assert (X2 : rec3 (w_case w t) = rec3 (caseof u t)) by (rewrite Q1; exact CA2).
  assert (X3 : t_begin (w_case w t) = t_begin (caseof u t)) by (rewrite Q1; exact CA3).
  rewrite X1, X2 in R1. rewrite X1, X3 in R2.
  assert (Y : rec3 (caseof b t) = rec3 (w_case (run E t w) t) /\ times (caseof b t) = times (w_case (run E t w) t)).
  { rewrite Q4. cbv zeta. destruct (u_capture a); auto. }
  destruct Y as [Y1 Y2].
  split.
  - change (record_of u' t) with (rec3 (caseof u' t)). rewrite B, Y1. exact R1.
  - exists (w_tick w). rewrite B, Y2. exact R2.
Qed.

(** ** C78, C79, C82 *)

Lemma executed_app : forall pre l, Forall goes_on pre -> executed (pre ++ l) = pre ++ executed l.
Proof. induction 1 as [|s pre [R1 R2] H IH]; [reflexivity|]. cbn [app executed]. now rewrite R1, R2, IH. Qed.
Lemma escapes_app : forall pre l, Forall goes_on pre -> escapes (pre ++ l) = escapes l.
Proof. induction 1 as [|s pre [R1 R2] H IH]; [reflexivity|]. cbn [app escapes]. now rewrite R1, R2. Qed.

(** Which functions are called. *)
Lemma in_stmts : forall t l e, (forall s, e <> EvStmt t s) -> ~ In e (map (EvStmt t) l).
Proof. intros t l e H I. apply in_map_iff in I. destruct I as [s [Q _]]. exact (H s (eq_sym Q)). Qed.
Lemma teardown_events : forall t sc, In (EvTearDown t) (events t sc) <-> reaches_teardown sc = true.
Proof.
  intros t sc. unfold events, reaches_teardown.
  assert (S : forall l, ~ In (EvTearDown t) (map (EvStmt t) l)) by (intro l; apply in_stmts; discriminate).
  cbn [In]. split.
  - intros [Q|Q]; [discriminate Q|]. apply in_app_or in Q. destruct Q as [Q|Q]; [destruct (S _ Q)|].
    destruct (escapes (sc_setup sc)); [destruct Q|]. destruct Q as [Q|Q]; [discriminate Q|]. apply in_app_or in Q. destruct Q as [Q|Q]; [destruct (S _ Q)|].
    destruct (escapes (sc_test sc)); [destruct Q|reflexivity].
  - intro Q. right. apply in_or_app. right. destruct (escapes (sc_setup sc)); [discriminate Q|]. right. apply in_or_app. right.
    destruct (escapes (sc_test sc)); [discriminate Q|]. left. reflexivity.
Qed.
Lemma test_events : forall t sc, In (EvTest t) (events t sc) <-> escapes (sc_setup sc) = None.
Proof.
  intros t sc. unfold events.
  assert (S : forall l, ~ In (EvTest t) (map (EvStmt t) l)) by (intro l; apply in_stmts; discriminate).
  cbn [In]. split.
  - intros [Q|Q]; [discriminate Q|]. apply in_app_or in Q. destruct Q as [Q|Q]; [destruct (S _ Q)|].
    destruct (escapes (sc_setup sc)); [destruct Q|reflexivity].
  - intro Q. right. apply in_or_app. right. rewrite Q. left. reflexivity.
Qed.

Lemma not_about : forall t T1 T2 e, Forall (fun e => about e <> t) (T1 ++ T2) -> about e = t -> ~ In e T1 /\ ~ In e T2.
Proof. intros t T1 T2 e F A. rewrite Forall_forall in F. split; intro I; apply (F e); auto; apply in_or_app; auto. Qed.

Lemma in_history : forall t sc T T1 T2 st e, T = T1 ++ events t sc ++ [EvDone t st] ++ T2 -> Forall (fun e => about e <> t) (T1 ++ T2) ->
  about e = t -> (forall s, e <> EvDone t s) -> (In e T <-> In e (events t sc)).
Proof.
  intros t sc T T1 T2 st e -> F A N. destruct (not_about t T1 T2 e F A) as [N1 N2]. split.
  - intro I. apply in_app_or in I. destruct I as [I|I]; [contradiction|]. apply in_app_or in I. destruct I as [I|I]; [exact I|].
    cbn [app] in I. destruct I as [I|I]; [destruct (N _ (eq_sym I))|contradiction].
  - intro I. apply in_or_app. right. apply in_or_app. auto.
Qed.

Lemma teardown_iff : forall u u' z t, fresh u -> NoDup (selection u) -> performUnitTests E u = (u', z) -> In t (selection u) ->
  let sc := beh E t (t_runs (caseof u t)) in
  exists T, history u u' T /\ In (EvSetUp t) T /\ (In (EvTearDown t) T <-> escapes (sc_setup sc) = None /\ escapes (sc_test sc) = None).
Proof.
  intros u u' z t F ND P I. destruct (whole u u' z t F ND P I) as (T & T1 & T2 & H & Q & A & _). exists T. split; [exact H|]. split.
  - apply (in_history _ _ _ _ _ _ _ Q A); [reflexivity|discriminate|]. left. reflexivity.
  - rewrite (in_history _ _ _ _ _ _ (EvTearDown t) Q A) by (try reflexivity; discriminate). rewrite teardown_events. unfold reaches_teardown.
    destruct (escapes (sc_setup _)), (escapes (sc_test _)); split; try discriminate; try (intros [? ?]; discriminate); auto.
Qed.

(** The steps executed, in order. *)
Lemma body_steps : forall u u' z t, fresh u -> NoDup (selection u) -> performUnitTests E u = (u', z) -> In t (selection u) ->
  let sc := beh E t (t_runs (caseof u t)) in
  exists T, history u u' T /\ (forall s, In (EvStmt t s) T <-> In s (steps sc)).
Proof.
  intros u u' z t F ND P I. destruct (whole u u' z t F ND P I) as (T & T1 & T2 & H & Q & A & _). exists T. split; [exact H|]. intro s.
  rewrite (in_history _ _ _ _ _ _ (EvStmt t s) Q A) by (try reflexivity; discriminate).
  set (sc := beh E t (t_runs (caseof u t))).
  assert (M : forall l, In (EvStmt t s) (map (EvStmt t) l) <-> In s l).
  { intro l. split; [|apply in_map]. intro J. apply in_map_iff in J. destruct J as [x [X J]]. injection X as <-. exact J. }
  unfold events, steps, before_teardown, reaches_teardown. cbn [In]. rewrite in_app_iff, M.
  destruct (escapes (sc_setup sc)); [cbn [In]; rewrite !app_nil_r; intuition discriminate|]. cbn [In]. rewrite in_app_iff, M.
  destruct (escapes (sc_test sc)); [cbn [In]; rewrite !app_nil_r, in_app_iff; intuition discriminate|]. cbn [In]. rewrite M, !in_app_iff. intuition discriminate.
Qed.

(** ** Passing checks *)

Record simh (w w' : world) : Prop := mkSimh {
  h_case : w_case w = w_case w'; h_out : w_out w = w_out w'; h_err : w_err w = w_err w';
  h_console : w_console w = w_console w'; h_tick : w_tick w = w_tick w'
}.
Lemma simh_on_case : forall t f w w', simh w w' -> simh (on_case t f w) (on_case t f w').
Proof. intros t f [] [] []. cbn in *. subst. constructor; cbn; auto. Qed.
Lemma simh_note : forall e e' w w', simh w w' -> simh (note e w) (note e' w').
Proof. intros e e' [] [] []. cbn in *. subst. constructor; cbn; auto. Qed.
Lemma simh_note1 : forall e w w', simh w w' -> simh (note e w) w'.
Proof. intros e [] [] []. cbn in *. subst. constructor; cbn; auto. Qed.
Lemma simh_tick : forall w w', simh w w' -> simh (tick w) (tick w').
Proof. intros [] [] []. cbn in *. subst. constructor; cbn; auto. Qed.
Lemma simh_print : forall st o s w w', simh w w' -> simh (print st o s w) (print st o s w').
Proof.
  intros st o s w w' H. unfold print. rewrite <- (h_out _ _ H), <- (h_err _ _ H).
  destruct (match st with Out => w_out w | Err => w_err w end); [|now apply simh_on_case].
  destruct H. constructor; cbn; congruence.
Qed.
Lemma simh_exec1 : forall t s w w', simh w w' -> simh (fst (exec1 t s w)) (fst (exec1 t s w')) /\ snd (exec1 t s w) = snd (exec1 t s w').
Proof.
  intros t s w w' H. destruct s; cbn [exec1]; try (destruct ok); try (destruct r as [| |]); try (destruct r as [[|]|]); try (destruct r);
    cbn [fst snd]; (split; [|reflexivity]); unfold checkFail, fail; try exact H; try (apply simh_on_case; exact H); try (apply simh_print; exact H).
Qed.
Lemma passes_skip : forall t s w, passes s = true -> exec1 t s w = (w, None).
Proof. intros t s w H. destruct s; try discriminate H; cbn [exec1]; try (destruct ok); try (destruct r as [| |]); try (destruct r); try discriminate H; reflexivity. Qed.
Lemma simh_exec : forall t l w w', simh w w' ->
  simh (fst (exec_body t l w)) (fst (exec_body t (filter (fun s => negb (passes s)) l) w'))
  /\ snd (exec_body t l w) = snd (exec_body t (filter (fun s => negb (passes s)) l) w').
Proof.
  induction l as [|s l IH]; intros w w' H; [split; [exact H|reflexivity]|]. cbn [filter]. destruct (passes s) eqn:P; cbn [negb].
  - cbn [exec_body]. rewrite passes_skip by exact P. apply IH. now apply simh_note1.
  - cbn [exec_body]. destruct (simh_exec1 t s _ _ (simh_note (EvStmt t s) (EvStmt t s) _ _ H)) as [A B].
    destruct (exec1 t s (note (EvStmt t s) w)) as [w1 r1], (exec1 t s (note (EvStmt t s) w')) as [w2 r2]. cbn [fst snd] in A, B. subst r2.
    destruct r1; [split; [exact A|reflexivity]|]. now apply IH.
Qed.

End More.

Lemma simh_run : forall E E' t w w', clock E' = clock E -> simh w w' ->
  beh E' t (t_runs (w_case w t)) = no_passes (beh E t (t_runs (w_case w t))) -> simh (run E t w) (run E' t w').
Proof.
  intros E E' t w w' CK H B.
  assert (MB : forall w w', simh w w' -> simh (markBegin E t w) (markBegin E' t w')).
  { intros x y K. unfold markBegin. rewrite CK, (h_tick _ _ K). now apply simh_on_case, simh_tick. }
  assert (ME : forall w w', simh w w' -> simh (markEnd E t w) (markEnd E' t w')).
  { intros x y K. unfold markEnd. rewrite CK, (h_tick _ _ K). now apply simh_on_case, simh_tick. }
  assert (CA : forall e w w', simh w w' -> simh (caught E t e w) (caught E' t e w')).
  { intros e x y K. unfold caught. now apply simh_on_case, ME. }
  unfold run. rewrite <- (h_case _ _ H), B. set (sc := beh E t (t_runs (w_case w t))). clearbody sc. unfold no_passes. cbn [sc_setup sc_test sc_teardown].
  assert (H0 := simh_note (EvSetUp t) (EvSetUp t) _ _ (simh_on_case t (fun c => with_runs (S (t_runs c)) (with_status NONE c)) _ _ H)).
  set (x0 := note (EvSetUp t) (on_case t _ w)) in *. set (y0 := note (EvSetUp t) (on_case t _ w')) in *. clearbody x0 y0.
  destruct (simh_exec t (sc_setup sc) _ _ H0) as [A1 B1].
  destruct (exec_body t (sc_setup sc) x0) as [x1 r1], (exec_body t _ y0) as [y1 r1']. cbn [fst snd] in A1, B1. subst r1'.
  destruct r1; [|now apply CA].
  assert (H1 := simh_note (EvTest t) (EvTest t) _ _ (MB _ _ A1)).
  set (x2 := note (EvTest t) (markBegin E t x1)) in *. set (y2 := note (EvTest t) (markBegin E' t y1)) in *. clearbody x2 y2.
  destruct (simh_exec t (sc_test sc) _ _ H1) as [A3 B3].
  destruct (exec_body t (sc_test sc) x2) as [x3 r3], (exec_body t _ y2) as [y3 r3']. cbn [fst snd] in A3, B3. subst r3'.
  destruct r3; [|now apply CA].
  assert (H4 := ME _ _ A3). cbv zeta. rewrite <- (h_case _ _ H4).
  set (x4 := markEnd E t x3) in *. set (y4 := markEnd E' t y3) in *. clearbody x4 y4.
  set (x5 := note (EvTearDown t) (if is_none (t_status (w_case x4 t)) then on_case t _ x4 else x4)).
  set (y5 := note (EvTearDown t) (if is_none (t_status (w_case x4 t)) then on_case t _ y4 else y4)).
  assert (H5 : simh x5 y5) by (unfold x5, y5; apply simh_note; destruct (is_none (t_status (w_case x4 t))); [now apply simh_on_case|exact H4]).
  clearbody x5 y5. destruct (simh_exec t (sc_teardown sc) _ _ H5) as [A6 B6].
  destruct (exec_body t (sc_teardown sc) x5) as [x6 r6], (exec_body t _ y5) as [y6 r6']. cbn [fst snd] in A6, B6. subst r6'.
  destruct r6; [exact A6|now apply CA].
Qed.

(** ** performTest *)

Section Single.
Variable E : env.

Lemma perform_one : forall u name t, on_console u -> lookup name (u_byName u) = Some t -> In t (u_tests u) ->
  let sc := beh E t (t_runs (caseof u t)) in
  exists u' z, performTest E name u = (u', Some z)
  /\ history u u' (events t sc)
  /\ (existsb meddles (steps sc) = false ->
      status_of u' t = verdict sc (if u_capture u then (t_errCap (caseof u t) ++ written Err (before_teardown sc))%string else t_errCap (caseof u t)))
  /\ (z = 0%Z \/ z = (-1)%Z) /\ (z = 0%Z <-> status_of u' t = SUCCESS) /\ on_console u'.
Proof.
  intros u name t [Ho He] L I. cbv zeta. unfold performTest. change (u_byName (init u)) with (u_byName u). rewrite L.
  destruct (init_fold (u_tests u) (u_world u)) as (A & B & C & D & F & G & H & _). cbv zeta in A, B, C, D, F, G, H.
  set (u0 := init u). 
  change (fold_left (fun w t => on_case t (with_status NONE) w) (u_tests u) (u_world u)) with (u_world u0) in *.
  assert (OC0 : on_console u0) by (split; congruence).
  specialize (H t I). change (w_case (u_world u0) t) with (caseof u0 t) in H. change (w_case (u_world u) t) with (caseof u t) in H.
  assert (CF0 : u_capture u0 = u_capture u) by reflexivity.
  clearbody u0. clear G C D. destruct OC0 as [Ho0 He0].
  cbv zeta. rewrite Ho0, He0. rewrite beginTest_eq by (split; assumption).
  set (bl := begin_lines _ _ _). clearbody bl.
  set (u1 := in_world (tc_begin (u_capture u0) t) (says bl u0)).
  assert (C1 : caseof u1 t = blank (caseof u t)).
  { unfold u1, caseof, tc_begin, in_world. cbn. change (w_case (u_world u0) t) with (caseof u0 t).
    destruct (u_capture u0); onc; rewrite Nat.eqb_refl; change (w_case (u_world u0) t) with (caseof u0 t); rewrite H; reflexivity. }
  assert (T1 : w_trace (u_world u1) = w_trace (u_world u)).
  { unfold u1, tc_begin, in_world. cbn. rewrite <- F. destruct (u_capture u0); reflexivity. }
  assert (D1 : w_out (u_world u1) = (if u_capture u then Capture t else Console) /\ w_err (u_world u1) = (if u_capture u then Capture t else Console)).
  { unfold u1, tc_begin, in_world. cbn. rewrite CF0. destruct (u_capture u); onc; auto. }
  assert (F1 : u_capture u1 = u_capture u) by exact CF0.
  clearbody u1. destruct D1 as [Do1 De1].
  set (w1 := u_world (in_world tick u1)).
  assert (Ho1 : here t (w_out w1)) by (change (here t (w_out (u_world u1))); rewrite Do1; unfold here; destruct (u_capture u); auto).
  assert (He1 : here t (w_err w1)) by (change (here t (w_err (u_world u1))); rewrite De1; unfold here; destruct (u_capture u); auto).
  pose proof (run_ran E t w1 Ho1 He1) as R.
  assert (RR : t_runs (w_case w1 t) = t_runs (caseof u t)) by (change (w_case w1 t) with (caseof u1 t); rewrite C1; reflexivity). rewrite RR in R.
  set (sc := beh E t (t_runs (caseof u t))) in *.
  set (u2 := in_world (run E t) (in_world tick u1)).
  change (run E t w1) with (u_world u2) in R.
  assert (F2 : u_capture u2 = u_capture u) by exact F1. clearbody u2.
  set (u3 := set_lapse _ _ (in_world tick u2)).
  assert (CAP : u_capture u3 = u_capture u) by exact F2.
  destruct R.
  assert (W3 : w_out (u_world u3) = w_out (u_world u1) /\ w_err (u_world u3) = w_err (u_world u1)) by (split; assumption).
  destruct W3 as [W3a W3b].
  rewrite endTest_eq by (intro Q; rewrite CAP in Q; split; rewrite ?W3a, ?W3b, ?Do1, ?De1, Q; reflexivity).
  cbv zeta. rewrite CAP. set (u4 := in_world (tc_end (u_capture u) Console Console t) u3). set (el := end_lines _ _ _). clearbody el.
  assert (OC4 : on_console (says el u4)).
  { change (on_console u4). unfold u4. apply tc_end_on_console. intro Q. split; rewrite ?W3a, ?W3b, ?Do1, ?De1, Q; reflexivity. }
  assert (TR : w_trace (u_world (says el u4)) = w_trace (u_world u) ++ events t sc).
  { rewrite <- T1. change (w_trace (u_world u1)) with (w_trace w1). rewrite <- r_trace. unfold says, u4, tc_end, in_world. destruct (u_capture u); reflexivity. }
  assert (ST : status_of (says el u4) t = t_status (w_case (u_world u2) t)).
  { unfold status_of, caseof, says, u4, tc_end, in_world. destruct (u_capture u); cbn; [onc; rewrite Nat.eqb_refl|]; reflexivity. }
  set (u5 := says el u4) in *. clearbody u5.
  assert (S5 : existsb meddles (steps sc) = false ->
      status_of u5 t = verdict sc (if u_capture u then (t_errCap (caseof u t) ++ written Err (before_teardown sc))%string else t_errCap (caseof u t))).
  { intro M. rewrite ST, (r_status M). change (w_err w1) with (w_err (u_world u1)). rewrite De1.
    change (w_case w1 t) with (caseof u1 t). rewrite C1. destruct (u_capture u); reflexivity. }
  rewrite hasPassed_success. change (t_status (caseof u5 t)) with (status_of u5 t).
  destruct (is_success (status_of u5 t)) eqn:Q.
  - exists u5, 0%Z. split; [reflexivity|]. split; [exact TR|]. split; [exact S5|]. split; [auto|]. split; [|exact OC4].
    split; [intros _|reflexivity]. destruct (status_of u5 t); try discriminate Q; reflexivity.
  - exists (set_result (-1) (u_failed u5) u5), (-1)%Z. split; [reflexivity|]. split; [exact TR|]. split; [exact S5|]. split; [auto|]. split; [|exact OC4].
    split; [discriminate|]. intro Z. change (status_of u5 t = SUCCESS) in Z. rewrite Z in Q. discriminate Q.
Qed.

Lemma perform_unknown : forall u name, lookup name (u_byName u) = None ->
  exists u', performTest E name u = (u', None) /\ history u u' [] /\ output u u' [].
Proof.
  intros u name L. unfold performTest. change (u_byName (init u)) with (u_byName u). rewrite L.
  destruct (init_fold (u_tests u) (u_world u)) as (A & B & C & D & F & _). eexists. split; [reflexivity|]. unfold history, output. rewrite !app_nil_r. auto.
Qed.
End Single.

(** ** Registration *)

Lemma lookup_add : forall n m t l, lookup n (l ++ [(m, t)]) = match lookup n l with Some x => Some x | None => if String.eqb n m then Some t else None end.
Proof. induction l as [|[k x] l IH]; cbn; [reflexivity|]. rewrite IH. now destruct (String.eqb n k). Qed.

Lemma register_tests : forall l u, u_tests (register l u) = u_tests u ++ map snd l.
Proof.
  induction l as [|[[co ca] t] l IH]; intro u; [cbn; now rewrite app_nil_r|]. cbn [register fold_left map snd]. fold (register l (addTestCase co ca t u)). rewrite IH.
  unfold addTestCase. cbn [u_tests set_tests in_world set_world]. now rewrite <- app_assoc.
Qed.

Lemma named : forall t co ca u, t_name (caseof (in_world (on_case t (with_names co ca)) u) t) = (co ++ "::" ++ ca)%string.
Proof. intros t co ca u. unfold caseof, in_world. cbn [u_world set_world]. onc. rewrite Nat.eqb_refl. reflexivity. Qed.

Lemma register_lookup : forall l u n, lookup n (u_byName (register l u)) = match lookup n (u_byName u) with Some t => Some t | None => first_named n l end.
Proof.
  induction l as [|[[co ca] t] l IH]; intros u n; [cbn; now destruct (lookup n (u_byName u))|].
  cbn [register fold_left first_named full_name snd]. fold (register l (addTestCase co ca t u)). rewrite IH.
  unfold addTestCase. cbv zeta. rewrite named. cbn [u_byName set_tests in_world set_world].
  set (m := (co ++ "::" ++ ca)%string). rewrite (String.eqb_sym m n).
  destruct (lookup m (u_byName u)) as [x|] eqn:M.
  - destruct (lookup n (u_byName u)) eqn:N; [reflexivity|]. destruct (String.eqb n m) eqn:Q; [|reflexivity]. apply String.eqb_eq in Q. congruence.
  - rewrite lookup_add. destruct (lookup n (u_byName u)); [reflexivity|]. destruct (String.eqb n m); reflexivity.
Qed.

Lemma register_names : forall l u, NoDup (map snd l) -> forall r, In r l -> name_of (register l u) (snd r) = full_name r /\ comp_of (register l u) (snd r) = fst (fst r).
Proof.
  assert (K : forall l u t, ~ In t (map snd l) -> caseof (register l u) t = caseof u t).
  { induction l as [|[[co ca] t0] l IH]; intros u t N; [reflexivity|]. cbn [register fold_left]. fold (register l (addTestCase co ca t0 u)).
    rewrite IH by (intro Q; apply N; right; exact Q). unfold addTestCase, caseof. cbn [u_world set_tests in_world set_world]. onc.
    destruct (t =? t0)%nat eqn:Q; [|reflexivity]. apply Nat.eqb_eq in Q. subst t0. exfalso. apply N. left. reflexivity. }
  induction l as [|[[co ca] t] l IH]; intros u ND r I; [destruct I|]. cbn [map snd] in ND. inversion ND as [|x y N1 N2]. subst.
  cbn [register fold_left]. fold (register l (addTestCase co ca t u)). destruct I as [<-|I]; [|now apply IH].
  unfold name_of, comp_of. cbn [snd fst full_name]. rewrite K by exact N1. unfold addTestCase, caseof. cbn [u_world set_tests in_world set_world]. onc.
  rewrite Nat.eqb_refl. split; reflexivity.
Qed.

(** ** Times *)

Lemma elapsed_day : forall x y, (x <= y < x + MSECS_IN_A_DAY)%Z -> elapsed (x mod MSECS_IN_A_DAY) (y mod MSECS_IN_A_DAY) = (y - x)%Z.
Proof.
  intros x y H. unfold elapsed, MSECS_IN_A_DAY in *. set (d := (60 * 60 * 24 * 1000)%Z) in *. assert (D : d = 86400000%Z) by reflexivity. clearbody d.
  destruct (Z.ltb_spec (y mod d) (x mod d)).
  - pose proof (Z.div_mod x d ltac:(lia)). pose proof (Z.div_mod y d ltac:(lia)). pose proof (Z.mod_pos_bound x d ltac:(lia)). pose proof (Z.mod_pos_bound y d ltac:(lia)). 
    assert (y / d = x / d + 1)%Z by nia. nia.
  - pose proof (Z.div_mod x d ltac:(lia)). pose proof (Z.div_mod y d ltac:(lia)). pose proof (Z.mod_pos_bound x d ltac:(lia)). pose proof (Z.mod_pos_bound y d ltac:(lia)).
    assert (y / d = x / d)%Z by nia. nia.
Qed.
Lemma elapsed_forward : forall x y, (x <= y)%Z -> elapsed x y = (y - x)%Z.
Proof. intros x y H. unfold elapsed. destruct (Z.ltb_spec y x); lia. Qed.

(** ** detectTestName *)

Lemma before_dot_spec : forall n r, has_char "." n = false -> (r = "" \/ exists x, r = String "." x) -> before_dot (n ++ r) = n.
Proof.
  induction n as [|c n IH]; intros r N R.
  - destruct R as [->|[x ->]]; reflexivity.
  - cbn [has_char] in N. apply orb_false_iff in N. destruct N as [N1 N2]. cbn [String.append before_dot]. rewrite Ascii.eqb_sym, N1. f_equal. now apply IH.
Qed.
Lemma base_name_app : forall b d, has_char "/" b = false -> base_name (d ++ String "/" b) = b.
Proof.
  intros b d H. assert (K : forall d, has_char "/" (d ++ String "/" b) = true).
  { induction d0 as [|c d0 IH]; cbn [String.append has_char]; [reflexivity|]. rewrite IH. apply orb_true_r. }
  induction d as [|c d IH]; cbn [String.append base_name]; [now rewrite H|]. now rewrite K.
Qed.
Lemma base_name_id : forall b, has_char "/" b = false -> base_name b = b.
Proof.
  intros [|c b] H; [reflexivity|]. cbn [has_char] in H. apply orb_false_iff in H. destruct H as [H1 H2]. cbn [base_name]. rewrite H2, Ascii.eqb_sym, H1. reflexivity.
Qed.

Lemma detect : forall dir n r u, (dir = "" \/ exists d, dir = (d ++ "/")%string) ->
  has_char "/" n = false -> has_char "/" r = false -> has_char "." n = false -> (r = "" \/ exists x, r = String "." x) ->
  detectTestName (dir ++ n ++ r) u = set_names n n u.
Proof.
  intros dir n r u D S1 S2 N R. unfold detectTestName. rewrite rfind_base.
  assert (S : has_char "/" (n ++ r) = false).
  { clear - S1 S2. induction n as [|c n IH]; [exact S2|]. cbn [String.append has_char] in *. apply orb_false_iff in S1. destruct S1 as [A B]. now rewrite A, IH. }
  assert (B : base_name (dir ++ n ++ r) = (n ++ r)%string).
  { destruct D as [->|[d ->]]; [apply base_name_id, S|]. replace ((d ++ "/") ++ n ++ r)%string with (d ++ String "/" (n ++ r))%string by (rewrite (str_app_assoc d "/" (n ++ r)); reflexivity). apply base_name_app, S. }
  rewrite B, before_dot_spec by assumption. reflexivity.
Qed.
