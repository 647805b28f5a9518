(** * What a test program shows on standard output: proofs. *)

From Coq Require Import ZArith String Ascii Bool List Arith Lia Permutation Sorted Znumtheory.
From Verif Require Import Base TextModel TextSpec FutModel FutSpec FutConsoleSpec FutTimesSpec FutProofs FutRun FutMore FutClose.
Import ListNotations.
Open Scope string_scope.
Open Scope list_scope.

(** ** Text *)

Lemma fill_spaces : forall n, fill n " " = spaces n.
Proof. induction n as [|n IH]; [reflexivity|]. cbn. now rewrite IH. Qed.
Lemma take_substring : forall n s, take n s = substring 0 n s.
Proof. induction n as [|n IH]; intros [|c s]; try reflexivity. cbn. now rewrite IH. Qed.

Lemma three_digits : forall z, (0 <= z < 1000)%Z -> padl 3 "0" (dec z) = (digit (z / 100) ++ digit (z mod 100 / 10) ++ digit (z mod 10))%string.
Proof.
  intros z H.
  assert (C : forallb (fun n => String.eqb (padl 3 "0" (dec (Z.of_nat n))) (digit (Z.of_nat n / 100) ++ digit (Z.of_nat n mod 100 / 10) ++ digit (Z.of_nat n mod 10))) (seq 0 1000) = true)
    by (vm_compute; reflexivity).
  rewrite forallb_forall in C. specialize (C (Z.to_nat z)). rewrite Z2Nat.id in C by lia.
  apply String.eqb_eq, C, in_seq. lia.
Qed.
Lemma mod_mod : forall z, ((z mod 1000) mod 100 = z mod 100 /\ (z mod 1000) mod 10 = z mod 10)%Z.
Proof. intro z. split; symmetry; apply Znumtheory.Zmod_div_mod; try lia; [exists 10%Z|exists 100%Z]; reflexivity. Qed.
Lemma in_seconds_eq : forall z, in_seconds z = (dec (z / 1000) ++ "." ++ padl 3 "0" (dec (z mod 1000)))%string.
Proof.
  intro z. unfold in_seconds. rewrite three_digits by (apply Z.mod_pos_bound; lia). destruct (mod_mod z) as [A B]. rewrite A, B. reflexivity.
Qed.
Lemma str_assoc : forall a b c : string, ((a ++ b) ++ c)%string = (a ++ b ++ c)%string.
Proof. induction a as [|x a IH]; intros b c; [reflexivity|]. cbn. now rewrite IH. Qed.

Lemma time_eq : forall z, (if (z <? 0)%Z then seconds6 z else seconds3 z) = time_text z.
Proof.
  intro z. unfold time_text. rewrite !in_seconds_eq. unfold seconds6, seconds3. destruct (z <? 0)%Z; rewrite ?str_assoc; reflexivity.
Qed.

Lemma line_eq : forall n name z r, ("[" ++ padl 3 " " (dec (Z.of_nat n)) ++ ": " ++ padr screenWidth " " (take screenWidth name)
        ++ padr 10 " " (if (z <? 0)%Z then seconds6 z else seconds3 z) ++ " " ++ padr 4 " " r ++ "]" ++ nl)%string = status_line n name z r.
Proof.
  intros n name z r. rewrite time_eq. unfold status_line, padl, padr, left_column, right_column, screenWidth. rewrite !fill_spaces, take_substring. reflexivity.
Qed.

Lemma begin_announced : forall v n name, begin_lines v n name = announced v n name.
Proof.
  intros v n name. unfold begin_lines, announced, at_least, when. destruct (3 <=? v)%nat; [|reflexivity]. rewrite <- line_eq. reflexivity.
Qed.

Lemma c_str_until : forall s, c_str s = until_nul s.
Proof. reflexivity. Qed.
Lemma empty_eqb : forall s, is_empty s = String.eqb s "".
Proof. intros [|c s]; reflexivity. Qed.

Lemma end_told : forall v n c, end_lines v n c =
  told v n (t_name c) (t_status c) (until_nul (t_outStr c)) (until_nul (t_errStr c)) (t_desc c, t_line c, t_file c) (elapsed (t_begin c) (t_end c)).
Proof.
  intros v n c. unfold end_lines, told. rewrite !empty_eqb, line_eq. cbv zeta. unfold capturedOut, capturedErr. rewrite (c_str_until (t_outStr c)), (c_str_until (t_errStr c)).
  unfold at_least, when, rule. change (0 <? v)%nat with (1 <=? v)%nat.
  set (o := until_nul (t_outStr c)). set (e := until_nul (t_errStr c)). clearbody o e.
  apply (f_equal2 (@app string)); [|apply (f_equal2 (@app string))].
  - destruct (t_status c); cbn [is_success negb]; (destruct (negb (String.eqb o "") && _); [f_equal; rewrite ?str_assoc; reflexivity|reflexivity]).
  - destruct (t_status c); cbn [is_success negb]; (destruct (negb (String.eqb e "") && _); [f_equal; rewrite ?str_assoc; reflexivity|reflexivity]).
  - destruct (t_status c); cbn [is_success]; rewrite ?andb_true_r, ?andb_false_r; try reflexivity;
      (destruct (1 <=? v)%nat eqn:V; [f_equal; rewrite ?str_assoc; reflexivity|]);
      (destruct (2 <=? v)%nat eqn:W; [apply Nat.leb_le in W; apply Nat.leb_gt in V; lia|reflexivity]).
Qed.

(** ** What the test prints *)

Lemma own_app : forall t a b, own t (a ++ b) = own t a ++ own t b.
Proof. intros. unfold own. apply flat_map_app. Qed.

Lemma own_exec1 : forall t s w, leads w = (Console, Console) -> w_console (fst (exec1 t s w)) = w_console w ++ own t [s].
Proof.
  intros t s w L. unfold leads in L. injection L as Lo Le.
  destruct s; cbn [exec1]; unfold print; rewrite ?Lo, ?Le; try (destruct ok); try (destruct r as [[?|]|]); try (destruct r); cbn; now rewrite ?app_nil_r.
Qed.
Lemma own_body : forall t l w, leads w = (Console, Console) -> w_console (fst (exec_body t l w)) = w_console w ++ own t (executed l).
Proof.
  induction l as [|s l IH]; intros w L; [cbn; now rewrite app_nil_r|]. cbn [exec_body executed].
  assert (L0 : leads (note (EvStmt t s) w) = (Console, Console)) by exact L.
  pose proof (own_exec1 t s _ L0) as O. pose proof (leads_exec1 t s (note (EvStmt t s) w)) as L1.
  assert (H : here t (w_out w) /\ here t (w_err w)) by (unfold leads in L; injection L as -> ->; unfold here; auto).
  destruct (exec1_did t s w (proj1 H) (proj2 H)) as [_ S1].
  destruct (exec1 t s (note (EvStmt t s) w)) as [w1 r]. cbn [fst snd] in *. rewrite L0 in L1. change (w_console (note (EvStmt t s) w)) with (w_console w) in O.
  change (s :: _) with ([s] ++ match raised s with Some _ => [] | None => if returns s then [] else executed l end).
  rewrite own_app. subst r. destruct (raised s) as [e|]; [cbn [fst]; rewrite O, app_nil_r; reflexivity|].
  destruct (returns s); [cbn [fst]; rewrite O, app_nil_r; reflexivity|]. rewrite IH by exact L1. rewrite O, <- app_assoc. reflexivity.
Qed.

Section Console.
Variable E : env.

Lemma own_run : forall t w, leads w = (Console, Console) -> w_console (run E t w) = w_console w ++ own t (steps (beh E t (t_runs (w_case w t)))).
Proof.
  intros t w L. unfold run. set (sc := beh E t (t_runs (w_case w t))). clearbody sc.
  match goal with |- context [exec_body t (sc_setup sc) ?x] => set (w1 := x) end.
  assert (L1 : leads w1 = (Console, Console)) by exact L. assert (K1 : w_console w1 = w_console w) by reflexivity. clearbody w1. rewrite <- K1. clear L K1 w.
  assert (H1 : here t (w_out w1) /\ here t (w_err w1)) by (unfold leads in L1; injection L1 as -> ->; unfold here; auto).
  pose proof (own_body t (sc_setup sc) w1 L1) as O2. pose proof (leads_body t (sc_setup sc) w1) as L2. destruct (exec_did t (sc_setup sc) w1 (proj1 H1) (proj2 H1)) as [_ S2].
  destruct (exec_body t (sc_setup sc) w1) as [w2 r2]. cbn [fst snd] in *. rewrite L1 in L2. subst r2.
  unfold steps, before_teardown, reaches_teardown.
  destruct (escapes (sc_setup sc)) as [e|].
  { rewrite !app_nil_r. unfold caught. onc. exact O2. }
  match goal with |- context [exec_body t (sc_test sc) ?x] => set (w3 := x) end.
  assert (L3 : leads w3 = (Console, Console)) by exact L2. assert (K3 : w_console w3 = w_console w2) by reflexivity. clearbody w3.
  assert (H3 : here t (w_out w3) /\ here t (w_err w3)) by (unfold leads in L3; injection L3 as -> ->; unfold here; auto).
  pose proof (own_body t (sc_test sc) w3 L3) as O4. pose proof (leads_body t (sc_test sc) w3) as L4. destruct (exec_did t (sc_test sc) w3 (proj1 H3) (proj2 H3)) as [_ S4].
  destruct (exec_body t (sc_test sc) w3) as [w4 r4]. cbn [fst snd] in *. rewrite L3 in L4. subst r4. rewrite K3, O2 in O4.
  destruct (escapes (sc_test sc)) as [e|].
  { rewrite !app_nil_r, own_app, app_assoc. unfold caught. onc. exact O4. }
  match goal with |- context [exec_body t (sc_teardown sc) ?x] => set (w5 := x) end.
  assert (Z : leads w5 = (Console, Console) /\ w_console w5 = w_console w4).
  { unfold w5. cbv zeta. destruct (is_none _); split; try reflexivity; exact L4. }
  destruct Z as [L5 K5]. clearbody w5.
  assert (H5 : here t (w_out w5) /\ here t (w_err w5)) by (unfold leads in L5; injection L5 as -> ->; unfold here; auto).
  pose proof (own_body t (sc_teardown sc) w5 L5) as O6. 
  destruct (exec_body t (sc_teardown sc) w5) as [w6 r6]. cbn [fst snd] in *. rewrite K5, O4 in O6.
  rewrite !own_app, !app_assoc. destruct r6; [exact O6|]. unfold caught. onc. exact O6.
Qed.

(** One test. *)
Lemma output_single : forall cap v n t c, tests_output E cap v n [(t, c)] =
  framework_says (begin_lines v n (t_name c)) ++ (if cap then [] else own t (steps (beh E t (pred (t_runs c))))) ++ framework_says (end_lines v n c).
Proof.
  intros. rewrite begin_announced, end_told. cbn [tests_output]. rewrite app_nil_r. reflexivity.
Qed.
Lemma finish_console : forall t n f u u' n' f', finish t n f u = (u', n', f') -> w_console (u_world u') = w_console (u_world u) /\ caseof u' t = caseof u t.
Proof.
  intros t n f u u' n' f' R. unfold finish in R. cbv zeta in R. destruct (hasPassed _ t); injection R as <- _ _; split; reflexivity.
Qed.
Lemma console_one : forall t u n f u' n' f', on_console u -> run_one E t (u, n, f) = (u', n', f') ->
  output u u' (tests_output E (u_capture u) (u_verbosity u) (S n) [(t, caseof u' t)]).
Proof.
  intros t u n f u' n' f' Hc R. destruct (run_one_one E t u n f Hc) as [ux [R2 O]]. rewrite R in R2. injection R2 as <- _ _.
  assert (RN := o_runs _ _ _ _ O). assert (NM := o_name _ _ _ _ O). clear O.
  destruct Hc as [Ho He]. rewrite run_one_unf, Ho, He in R.
  rewrite beginTest_eq in R by (split; assumption).
  rewrite output_single, RN, Nat.pred_succ. unfold name_of in NM. rewrite NM.
  set (bl := begin_lines (u_verbosity u) (S n) (t_name (caseof u t))) in *. clearbody bl.
  set (u1 := in_world (tc_begin (u_capture u) t) (says bl u)) in *.
  assert (C1 : caseof u1 t = with_status NONE (caseof u t)).
  { unfold u1, caseof, tc_begin, in_world. cbn. destruct (u_capture u); onc; rewrite Nat.eqb_refl; reflexivity. }
  assert (K1 : w_console (u_world u1) = w_console (u_world u) ++ framework_says bl).
  { unfold u1, tc_begin, in_world. cbn. destruct (u_capture u); reflexivity. }
  assert (D1 : w_out (u_world u1) = (if u_capture u then Capture t else Console) /\ w_err (u_world u1) = (if u_capture u then Capture t else Console)).
  { unfold u1, tc_begin, in_world. cbn. destruct (u_capture u); onc; auto. }
  assert (F1 : u_capture u1 = u_capture u /\ u_verbosity u1 = u_verbosity u) by (split; reflexivity).
  clearbody u1. destruct D1 as [Do1 De1]. destruct F1 as [F1 F1a].
  assert (K2 : w_console (u_world (in_world (run E t) u1)) = w_console (u_world u1) ++ (if u_capture u then [] else own t (steps (beh E t (t_runs (caseof u t)))))).
  { change (u_world (in_world (run E t) u1)) with (run E t (u_world u1)). destruct (u_capture u).
    - assert (H1 : here t (w_out (u_world u1)) /\ here t (w_err (u_world u1))) by (rewrite Do1, De1; unfold here; auto).
      destruct (r_console _ _ _ _ (run_ran E t (u_world u1) (proj1 H1) (proj2 H1))) as (L & Q & _ & N). rewrite Q, N; congruence.
    - rewrite own_run by (unfold leads; now rewrite Do1, De1). change (w_case (u_world u1) t) with (caseof u1 t). rewrite C1. reflexivity. }
  set (u2 := in_world (run E t) u1) in *.
  assert (D2 : u_capture u = false -> on_console u2).
  { intro Z. rewrite Z in *. pose proof (leads_run E t (u_world u1)) as L. unfold leads in L. rewrite Do1, De1 in L. injection L as A B. split; assumption. }
  assert (F2 : u_capture u2 = u_capture u /\ u_verbosity u2 = u_verbosity u) by (split; assumption).
  clearbody u2. destruct F2 as [F2 F2a].
  rewrite endTest_eq in R by (rewrite F2; exact D2).
  set (u3 := in_world (tc_end (u_capture u2) Console Console t) u2) in R. lazy zeta in R. rewrite F2a in R.
  assert (K3 : w_console (u_world u3) = w_console (u_world u2)).
  { unfold u3, tc_end, in_world. destruct (u_capture u2); reflexivity. }
  clearbody u3.
  remember (end_lines (u_verbosity u) (S n) (caseof u3 t)) as el eqn:EL.
  apply finish_console in R. destruct R as [K5 C5].
  change (w_console (u_world (says el u3))) with (w_console (u_world u3) ++ framework_says el) in K5. change (caseof (says el u3) t) with (caseof u3 t) in C5.
  unfold output. rewrite C5, <- EL, K5, K3, K2, K1, <- !app_assoc. reflexivity.
Qed.

Lemma tests_output_app : forall cap v a n b, tests_output E cap v n (a ++ b) = tests_output E cap v n a ++ tests_output E cap v (n + List.length a) b.
Proof.
  intros cap v. induction a as [|[t c] a IH]; intros n b; [cbn; now rewrite Nat.add_0_r|]. cbn [app tests_output List.length]. rewrite IH, <- !app_assoc.
  replace (S n + List.length a)%nat with (n + S (List.length a))%nat by lia. reflexivity.
Qed.

Lemma results_app : forall ts2 u u1 u2 T1 T2 rs1 rs2, many E ts2 u1 u2 T2 -> (forall v, name_of u1 v = name_of u v) ->
  results u u1 T1 rs1 -> results u1 u2 T2 rs2 -> results u u2 (T1 ++ T2) (rs1 ++ rs2).
Proof.
  intros ts2 u u1 u2 T1 T2 rs1 rs2 M N (A1 & A2 & A3) (B1 & B2 & B3). split; [rewrite map_app, verdicts_app, A1, B1; reflexivity|].
  split; [apply Forall_app; split; [exact A2|eapply Forall_impl; [|exact B2]; intros r H; now rewrite H, N]|].
  intro ND. rewrite map_app in ND. destruct (nodup_app_l _ _ _ ND) as (N1 & N2 & N3). apply Forall_app. split; [|apply B3; exact N2].
  specialize (A3 N1). rewrite Forall_forall in *. intros r I. rewrite (A3 r I). symmetry. apply (m_other _ _ _ _ _ M).
  intro J. apply (N3 (fst r)); [now apply in_map|].
  assert (Q : map fst rs2 = ts2).
  { rewrite <- (m_verdicts _ _ _ _ _ M), <- B1, map_map. reflexivity. }
  rewrite Q. exact J.
Qed.

Lemma console_fold : forall ts u n f, on_console u ->
  exists u' T rs, fold_left (fun s t => run_one E t s) ts (u, n, f) = (u', (n + List.length ts)%nat, (f + bad_count T)%Z) /\ many E ts u u' T
    /\ results u u' T rs /\ output u u' (tests_output E (u_capture u) (u_verbosity u) (S n) rs).
Proof.
  induction ts as [|t ts IH]; intros u n f H.
  - exists u, [], []. split; [cbn; f_equal; [f_equal; lia|]; unfold bad_count; cbn; lia|]. split; [now apply many_refl|]. split; [repeat split; constructor|].
    unfold output. cbn. now rewrite app_nil_r.
  - destruct (run_one_one E t u n f H) as [u1 [R1 O1]].
    destruct (one_many _ _ _ _ O1) as [T1 [M1 ET1]].
    destruct (IH u1 (S n) (if is_success (status_of u1 t) then f else (f + 1)%Z) (m_console _ _ _ _ _ M1)) as [u2 [T2 [rs [R2 [M2 [RS K2]]]]]].
    exists u2, (T1 ++ T2), ((t, caseof u1 t) :: rs). split; [|split; [apply (many_app E [t] ts u u1 u2 T1 T2 M1 M2)|split]].
    + assert (F1 : ((if is_success (status_of u1 t) then f else f + 1) + bad_count T2 = f + bad_count (T1 ++ T2))%Z).
      { rewrite bad_count_app. pose proof (m_failed _ _ _ _ _ M1) as F1. rewrite (o_failed _ _ _ _ O1) in F1. destruct (is_success (status_of u1 t)); lia. }
      rewrite fold_cons, R1, R2, F1. replace (n + List.length (t :: ts))%nat with (S n + List.length ts)%nat; [reflexivity|].
      cbn [List.length]. lia.
    + apply (results_app ts u u1 u2 T1 T2 [(t, caseof u1 t)] rs M2 (m_name _ _ _ _ _ M1)); [|exact RS].
      split; [rewrite ET1, verdicts_app, verdicts_events; reflexivity|]. split; [constructor; [exact (m_name _ _ _ _ _ M1 t)|constructor]|].
      intros _. repeat constructor.
    + pose proof (console_one _ _ _ _ _ _ _ H R1) as K1. unfold output in *. rewrite K2, K1, <- app_assoc.
      change ((t, caseof u1 t) :: rs) with ([(t, caseof u1 t)] ++ rs). rewrite tests_output_app.
      pose proof (m_conf _ _ _ _ _ M1) as CF. rewrite (conf_capture _ _ CF), (conf_verbosity _ _ CF). cbn [List.length]. rewrite Nat.add_1_r. reflexivity.
Qed.

Lemma console_comps : forall todo done u n, on_console u ->
  exists u' T cs rs, run_comps E todo done (u, n) = set_comps (done ++ cs) u' /\ many E (flat_map c_tests todo) u u' T /\ comps_ran todo cs T
    /\ results u u' T rs /\ output u u' (tests_output E (u_capture u) (u_verbosity u) (S n) rs).
Proof.
  induction todo as [|c todo IH]; intros done u n H.
  - exists u, [], [], []. cbn. rewrite app_nil_r. split; [reflexivity|]. split; [now apply many_refl|]. split; [constructor|]. split; [repeat split; constructor|].
    unfold output. cbn. now rewrite app_nil_r.
  - cbn [run_comps flat_map]. pose proof (many_tick E u H) as M0.
    destruct (console_fold (c_tests c) (in_world tick u) n (c_failures c) H) as [u1 [T1 [rs1 [R1 [M1 [RS1 K1]]]]]]. rewrite R1.
    pose proof (many_tick E u1 (m_console _ _ _ _ _ M1)) as M2.
    pose proof (many_app _ _ _ _ _ _ _ _ M0 (many_app _ _ _ _ _ _ _ _ M1 M2)) as M3. rewrite !app_nil_r in M3. cbn [app] in M3.
    destruct (IH (done ++ [mkComp (c_name c) (c_failures c + bad_count T1) (c_tests c) (clock E (w_tick (u_world u))) (clock E (w_tick (u_world u1)))])
                 (in_world tick u1) (n + List.length (c_tests c))%nat (m_console _ _ _ _ _ M3)) as [u2 [T2 [cs [rs2 [R2 [M4 [CR [RS2 K2]]]]]]]].
    exists u2, (T1 ++ T2), (mkComp (c_name c) (c_failures c + bad_count T1) (c_tests c) (clock E (w_tick (u_world u))) (clock E (w_tick (u_world u1))) :: cs), (rs1 ++ rs2).
    split; [rewrite R2, <- app_assoc; reflexivity|]. split; [exact (many_app _ _ _ _ _ _ _ _ M3 M4)|].
    split; [constructor; try reflexivity; [exact (m_verdicts _ _ _ _ _ M1)|exact CR]|].
    split; [apply (results_app (flat_map c_tests todo) u (in_world tick u1) u2 T1 T2 rs1 rs2 M4 (m_name _ _ _ _ _ M3)); [exact RS1|exact RS2]|].
    unfold output in *. rewrite tests_output_app.
    pose proof (m_conf _ _ _ _ _ M3) as CF. rewrite (conf_capture _ _ CF), (conf_verbosity _ _ CF) in K2.
    rewrite K2. change (w_console (u_world (in_world tick u1))) with (w_console (u_world u1)). rewrite K1, <- app_assoc.
    assert (Q : List.length rs1 = List.length (c_tests c)).
    { rewrite <- (m_verdicts _ _ _ _ _ M1), <- (proj1 RS1), !map_length. reflexivity. }
    rewrite Q. reflexivity.
Qed.

(** A whole run. *)
Lemma console_perform : forall u u' z, on_console u -> performUnitTests E u = (u', z) ->
  exists T rs, performed E u u' z T /\ results u u' T rs
  /\ output u u' (tests_output E (u_capture u) (u_verbosity u) 1 rs
                  ++ framework_says (last_lines E (u_verbosity u) z (not_passed u' (u_tests u))
                       (map (fun c => (c_name c, elapsed (c_begin c) (c_end c), (c_failures c =? 0)%Z)) (u_comps u')) (u_name u) (total_time u'))
                  ++ (if is_empty (u_xml u) || can_write E (u_xml u) then [] else [mkChunk Err Framework ("Cannot save XML report to " ++ u_xml u)])).
Proof.
  intros u u' z H P. pose proof (perform_facts E u H) as [T PF]. rewrite P in PF. cbn [fst snd] in PF.
  pose proof (prepared_ready u H) as R.
  destruct (console_comps (u_comps (prepared u)) [] (in_world tick (prepared u)) 0 (p_console _ _ R)) as (um & T' & cs & rs & Q & M & CR & RS & K).
  assert (FM : u' = save_report E (report E (set_lapse (clock E (w_tick (u_world (prepared u)))) (clock E (w_tick (u_world um))) (in_world tick (set_comps cs um))))
          /\ z = u_status u').
  { rewrite perform_unf in P. injection P as P1 P2. split; [|now rewrite <- P2, <- P1]. rewrite <- P1. unfold runAllTests. fold (prepared u). cbv zeta. rewrite Q. reflexivity. }
  destruct FM as [FM Zs]. set (ur := set_lapse _ _ _) in FM.
  assert (MC : on_console ur) by exact (m_console _ _ _ _ _ M). rewrite report_eq in FM by exact MC.
  assert (CF := m_conf _ _ _ _ _ M). pose proof (conf_rest _ _ CF) as (C1 & C2 & C3 & C4 & C5 & C6 & C7 & C8 & C9 & C10). cbn [in_world set_world u_tests u_xml u_capture u_verbosity u_name] in C1, C4, C6, C7, C9.
  assert (Ux : u_xml ur = u_xml u) by (transitivity (u_xml (prepared u)); [exact C4|exact (p_xml _ _ R)]).
  assert (Un : u_name ur = u_name u) by (transitivity (u_name (prepared u)); [exact C6|exact (proj2 (p_ids _ _ R))]).
  assert (Ut : u_tests ur = u_tests u) by (transitivity (u_tests (prepared u)); [exact C1|exact (p_tests _ _ R)]).
  destruct (p_opts _ _ R) as (Pc & _ & Pv).
  assert (Uv : u_verbosity ur = u_verbosity u) by (transitivity (u_verbosity (prepared u)); [exact C9|exact Pv]).
  assert (Kr : w_console (u_world ur) = w_console (u_world u) ++ tests_output E (u_capture u) (u_verbosity u) 1 rs).
  { unfold output in K. change (w_console (u_world ur)) with (w_console (u_world um)). rewrite K.
    change (u_capture (in_world tick (prepared u))) with (u_capture (prepared u)). change (u_verbosity (in_world tick (prepared u))) with (u_verbosity (prepared u)).
    change (w_console (u_world (in_world tick (prepared u)))) with (w_console (u_world (prepared u))).
    rewrite Pc, Pv, (p_out _ _ R). reflexivity. }
  assert (HT : history u u' T').
  { unfold history. transitivity (w_trace (u_world ur)).
    - rewrite FM. unfold save_report, saveToXML. destruct (is_empty _); [reflexivity|]. destruct (can_write E _); [reflexivity|]. unfold in_world, print. cbn [set_world u_world].
      change (w_err (u_world (says (report_lines E ur) ur))) with (w_err (u_world ur)). rewrite (proj2 MC). reflexivity.
    - change (w_trace (u_world ur)) with (w_trace (u_world um)). rewrite (m_trace _ _ _ _ _ M). change (w_trace (u_world (in_world tick (prepared u)))) with (w_trace (u_world (prepared u))).
      rewrite (p_trace _ _ R). reflexivity. }
  assert (T' = T). { pose proof (f_history _ _ _ _ _ PF) as HT2. unfold history in *. rewrite HT in HT2. now apply app_inv_head in HT2. } subst T'. clear HT.
  assert (SV : (forall v, caseof u' v = caseof ur v) /\ u_comps u' = u_comps ur /\ u_status u' = u_status ur /\ total_time u' = total_time ur
     /\ w_console (u_world u') = w_console (u_world ur) ++ framework_says (report_lines E ur)
          ++ (if is_empty (u_xml u) || can_write E (u_xml u) then [] else [mkChunk Err Framework ("Cannot save XML report to " ++ u_xml u)])).
  { rewrite FM. clear FM Kr. set (L := report_lines E ur). clearbody L. unfold save_report, saveToXML. change (u_xml (says L ur)) with (u_xml ur). rewrite Ux.
    destruct (is_empty (u_xml u)); cbn [orb]; [rewrite app_nil_r; repeat split; reflexivity|].
    destruct (can_write E (u_xml u)); [rewrite app_nil_r; repeat split; reflexivity|].
    unfold in_world, print. change (w_err (u_world (says L ur))) with (w_err (u_world ur)). rewrite (proj2 MC). repeat split.
    cbn [set_world u_world say w_console]. change (w_console (u_world (says L ur))) with (w_console (u_world ur) ++ framework_says L). rewrite <- app_assoc. reflexivity. }
  destruct SV as (SV1 & SV2 & SV3 & SV0 & SV4).
  exists T, rs. split; [exact PF|]. split.
  - destruct RS as (A & B & C). split; [exact A|]. split.
    + eapply Forall_impl; [|exact B]. intros r I. rewrite I. exact (ready_name _ _ (fst r) R).
    + intro ND. eapply Forall_impl; [|exact (C ND)]. intros r I. rewrite I, SV1. reflexivity.
  - unfold output. rewrite SV4, Kr, <- app_assoc. f_equal. f_equal. f_equal.
    rewrite Zs, SV3, SV2, SV0. unfold report_lines, last_lines, at_least. rewrite Uv, Ut. change (0 <? u_verbosity u)%nat with (1 <=? u_verbosity u)%nat.
    destruct (1 <=? u_verbosity u)%nat; [|reflexivity]. f_equal. f_equal; [destruct (u_status ur =? 0)%Z; [reflexivity|]|].
    + f_equal. unfold failed_names, not_passed. unfold name_of, status_of.
      erewrite map_ext; [|intro v; rewrite <- SV1; reflexivity]. f_equal. apply filter_ext. intro v. rewrite SV1. destruct (t_status _); reflexivity.
    + f_equal.
      * unfold component_lines. destruct (u_comps ur) as [|c1 [|c2 l]]; try reflexivity. change (1 <? List.length (c1 :: c2 :: l))%nat with true.
        cbn [map]. unfold comp_line, passed_or_not. f_equal; [destruct (c_failures c1 =? 0)%Z; reflexivity|]. f_equal; [destruct (c_failures c2 =? 0)%Z; reflexivity|].
        rewrite map_map. apply map_ext. intro c. destruct (c_failures c =? 0)%Z; reflexivity.
      * unfold last_line, passed_or_not. rewrite Un. destruct (u_status ur =? 0)%Z; reflexivity.
Qed.
End Console.

(** ** Components *)

Lemma comps_passed : forall comp cs cs' T, comps_ran cs cs' T -> sorted_comps comp cs -> (forall c, In c cs -> c_failures c = 0%Z) ->
  Forall (fun c => (c_failures c =? 0)%Z = all_passed comp (c_name c) (verdicts T)) cs'.
Proof.
  intros comp cs cs' T CR. induction CR as [|c c' cs cs' T T' N Te Fa V C IH]; intros S0 Z0; [constructor|].
  inversion S0 as [|c0 l0 S1 S2 S3]. subst c0 l0.
  assert (Q1 : all_passed comp (c_name c) (verdicts T') = true).
  { unfold all_passed. apply forallb_forall. intros [t s] I. apply orb_true_iff. left. apply negb_true_iff, String.eqb_neq. cbn [fst]. intro X.
    assert (J : In t (flat_map c_tests cs)).
    { clear - C I. induction C as [|d d' ds ds' U U' N1 T1 F1 V1 C IH]; [destruct I|]. rewrite verdicts_app in I. apply in_app_or in I. cbn [flat_map]. apply in_or_app.
      destruct I as [I|I]; [left; rewrite <- V1; exact (in_map fst _ _ I)|right; auto]. }
    apply in_flat_map in J. destruct J as [d [D1 D2]].
    assert (Y : comp t = c_name d).
    { clear - S3 D1 D2. induction S3 as [|e l A B S3 IH]; [destruct D1|]. destruct D1 as [->|D1]; [now apply B|now apply IH]. }
    specialize (S1 d D1). rewrite <- Y, X, scmp_refl in S1. discriminate. }
  assert (Q2 : forall d, In d cs -> all_passed comp (c_name d) (verdicts T) = true).
  { intros d D. unfold all_passed. apply forallb_forall. intros [t s] I. apply orb_true_iff. left. apply negb_true_iff, String.eqb_neq. cbn [fst]. intro X.
    assert (J : In t (c_tests c)) by (rewrite <- V; exact (in_map fst _ _ I)). specialize (S1 d D). rewrite <- X, (S2 t J), scmp_refl in S1. discriminate. }
  constructor.
  - rewrite N, verdicts_app. unfold all_passed in *. rewrite forallb_app, Q1, andb_true_r, Fa, (Z0 c (or_introl eq_refl)), Z.add_0_l.
    assert (W : forall t s, In (t, s) (verdicts T) -> comp t = c_name c).
    { intros t s I. apply S2. rewrite <- V. exact (in_map fst _ _ I). }
    unfold bad_count, len. clear - W. induction (verdicts T) as [|[t s] l IH]; [reflexivity|]. cbn [filter forallb fst snd].
    rewrite (W t s (or_introl eq_refl)), String.eqb_refl. cbn [negb orb]. specialize (IH (fun t s I => W t s (or_intror I))).
    destruct s; cbn [is_success negb andb]; try exact IH; cbn [List.length]; apply Z.eqb_neq; lia.
  - specialize (IH S3 (fun d I => Z0 d (or_intror I))). rewrite Forall_forall in *. intros d D. rewrite (IH d D).
    rewrite verdicts_app. unfold all_passed in *. rewrite forallb_app.
    destruct (cr_flat _ _ _ C) as [_ NN]. assert (I : In (c_name d) (map c_name cs)) by (rewrite <- NN; now apply in_map).
    apply in_map_iff in I. destruct I as (e & E1 & E2). rewrite <- E1, (Q2 e E2). reflexivity.
Qed.

Lemma grouped_named : forall comp sel l d, In d (grouped comp sel l) -> (exists t, In t sel /\ comp t = c_name d) \/ exists d', In d' l /\ c_name d' = c_name d.
Proof.
  intros comp. induction sel as [|t sel IH]; intros l d I; [right; exists d; auto|]. cbn [grouped fold_left] in I. fold (grouped comp sel) in I.
  destruct (IH _ _ I) as [(s & S1 & S2)|(d' & D1 & D2)]; [left; exists s; split; [now right|exact S2]|].
  destruct (add_names comp t l d' D1) as [A|(e & E1 & E2)]; [left; exists t; split; [now left|congruence]|right; exists e; split; [exact E1|congruence]].
Qed.

Lemma console_fresh : forall E u u' z, fresh u -> performUnitTests E u = (u', z) ->
  exists T rs comps, history u u' T /\ results u u' T rs /\ map fst comps = comp_times u' /\ components u (map fst (comp_times u'))
  /\ Forall (fun x => snd x = all_passed (comp_of u) (fst (fst x)) (verdicts T)) comps
  /\ output u u' (tests_output E (u_capture u) (u_verbosity u) 1 rs
                  ++ framework_says (last_lines E (u_verbosity u) z (not_passed u' (u_tests u)) comps (u_name u) (total_time u'))
                  ++ (if is_empty (u_xml u) || can_write E (u_xml u) then [] else [mkChunk Err Framework ("Cannot save XML report to " ++ u_xml u)])).
Proof.
  intros E u u' z F P. destruct (console_perform E u u' z (proj2 F) P) as (T & rs & PF & RS & K).
  eexists T, rs, _. split; [exact (f_history _ _ _ _ _ PF)|]. split; [exact RS|]. split; [|split; [|split; [|exact K]]].
  - rewrite map_map. reflexivity.
  - unfold comp_times. rewrite map_map. cbn [fst]. pose proof (f_comps _ _ _ _ _ PF) as CR. rewrite (proj1 F) in CR.
    assert (S0 : sorted_comps (comp_of u) (grouped (comp_of u) (selection u) [])) by (apply grouped_sorted; constructor).
    destruct (cr_flat _ _ _ CR) as [_ NN]. change (map (fun x => c_name x) (u_comps u')) with (map c_name (u_comps u')). rewrite NN.
    split.
    + clear - S0. induction S0 as [|c l A B S0 IH]; [constructor|]. cbn [map]. constructor; [exact IH|]. apply Forall_forall. intros n I.
      apply in_map_iff in I. destruct I as (d & <- & D). now apply A.
    + intro n. split.
      * intro I. apply in_map_iff in I. destruct I as (d & <- & D). destruct (grouped_named _ _ _ _ D) as [X|(d' & [] & _)]. exact X.
      * intros (t & I & <-).
        assert (J : In t (flat_map c_tests (grouped (comp_of u) (selection u) []))).
        { eapply Permutation_in; [symmetry; apply grouped_perm|exact I]. }
        apply in_flat_map in J. destruct J as [d [D1 D2]]. apply in_map_iff. exists d. split; [|exact D1]. symmetry.
        clear - S0 D1 D2. induction S0 as [|e l A B S0 IH]; [destruct D1|]. destruct D1 as [->|D1]; [now apply B|now apply IH].
  - pose proof (f_comps _ _ _ _ _ PF) as CR. rewrite (proj1 F) in CR.
    pose proof (comps_passed (comp_of u) _ _ _ CR) as X. rewrite Forall_map. apply X.
    + apply grouped_sorted. constructor.
    + apply grouped_zero. intros c [].
Qed.

(** ** Later runs *)

(** A component never forgets its failures. *)
Lemma add_keeps : forall n t l c, In c l -> exists c', In c' (add_to_comp n t l) /\ c_name c' = c_name c /\ c_failures c' = c_failures c.
Proof.
  induction l as [|d l IH]; intros c I; [destruct I|]. cbn [add_to_comp]. destruct (String.compare n (c_name d)).
  - destruct I as [->|I]; [eexists; split; [left; reflexivity|split; reflexivity]|exists c; split; [now right|auto]].
  - exists c. split; [now right|auto].
  - destruct I as [->|I]; [exists c; split; [now left|auto]|]. destruct (IH c I) as (c' & A & B). exists c'. split; [now right|exact B].
Qed.
Lemma grouped_keeps : forall comp sel l c, In c l -> exists c', In c' (grouped comp sel l) /\ c_name c' = c_name c /\ c_failures c' = c_failures c.
Proof.
  intros comp. induction sel as [|t sel IH]; intros l c I; [exists c; auto|].
  destruct (add_keeps (comp t) t l c I) as (c1 & A & B & C). destruct (IH _ c1 A) as (c2 & A2 & B2 & C2). exists c2. split; [exact A2|split; congruence].
Qed.
Lemma ran_keeps : forall cs cs' T, comps_ran cs cs' T -> forall c, In c cs -> exists c', In c' cs' /\ c_name c' = c_name c /\ (c_failures c <= c_failures c')%Z.
Proof.
  intros cs cs' T CR. induction CR as [|d d' cs cs' T T' N Te Fa V C IH]; intros c I; [destruct I|]. destruct I as [->|I].
  - exists d'. split; [now left|]. split; [exact N|]. rewrite Fa. unfold bad_count, len. lia.
  - destruct (IH c I) as (c' & A & B). exists c'. split; [now right|exact B].
Qed.

Lemma component_stays_failed : forall E E' u u1 z1 u2 z2 t, fresh u -> performUnitTests E u = (u1, z1) -> performUnitTests E' u1 = (u2, z2) ->
  (exists T s, history u u1 T /\ In (t, s) (verdicts T) /\ s <> SUCCESS) ->
  exists rs comps, map fst comps = comp_times u2 /\ In (comp_of u t, false) (map (fun x => (fst (fst x), snd x)) comps)
  /\ output u1 u2 (tests_output E' (u_capture u1) (u_verbosity u1) 1 rs
                   ++ framework_says (last_lines E' (u_verbosity u1) z2 (not_passed u2 (u_tests u1)) comps (u_name u1) (total_time u2))
                   ++ (if is_empty (u_xml u1) || can_write E' (u_xml u1) then [] else [mkChunk Err Framework ("Cannot save XML report to " ++ u_xml u1)])).
Proof.
  intros E E' u u1 z1 u2 z2 t F P1 P2 (T & s & HT & I & NS).
  destruct (console_perform E u u1 z1 (proj2 F) P1) as (T1 & rs1 & PF1 & RS1 & K1).
  assert (T = T1). { pose proof (f_history _ _ _ _ _ PF1) as H. unfold history in *. rewrite HT in H. now apply app_inv_head in H. } subst T1.
  assert (C1 : on_console u1) by exact (f_console _ _ _ _ _ PF1).
  destruct (console_perform E' u1 u2 z2 C1 P2) as (T2 & rs2 & PF2 & RS2 & K2).
  eexists rs2, _. split; [|split; [|exact K2]]; [rewrite map_map; reflexivity|]. rewrite map_map. cbn [fst snd].
  pose proof (f_comps _ _ _ _ _ PF1) as CR. rewrite (proj1 F) in CR.
  pose proof (comps_passed (comp_of u) _ _ _ CR) as X. specialize (X (grouped_sorted _ _ _ (sc_nil _)) (grouped_zero _ _ _ (fun c (H : In c []) => match H with end))).
  assert (J : In t (flat_map c_tests (u_comps u1))).
  { rewrite (proj1 (cr_flat _ _ _ CR)). pose proof (f_started _ _ _ _ _ PF1) as ST. rewrite (proj1 F) in ST. rewrite <- ST, <- (f_verdicts _ _ _ _ _ PF1). exact (in_map fst _ _ I). }
  apply in_flat_map in J. destruct J as [c [J1 J2]].
  assert (CN : comp_of u t = c_name c).
  { assert (S1 : sorted_comps (comp_of u) (u_comps u1)) by (eapply cr_sorted; [exact CR|apply grouped_sorted; constructor]).
    clear - S1 J1 J2. induction S1 as [|e l A B S1 IH]; [destruct J1|]. destruct J1 as [->|J1]; [now apply B|now apply IH]. }
  rewrite Forall_forall in X. specialize (X c J1).
  assert (FC : (c_failures c =? 0)%Z = false).
  { rewrite X. apply not_true_iff_false. unfold all_passed. rewrite forallb_forall. intro Y. specialize (Y (t, s) I). cbn [fst snd] in Y.
    rewrite CN, String.eqb_refl in Y. destruct s; try discriminate Y. contradiction. }
  assert (NN : (0 <= c_failures c)%Z).
  { destruct (f_comps _ _ _ _ _ PF1) as []; [destruct J1|]. clear - CR J1 F. 
    assert (Z0 : forall c, In c (grouped (comp_of u) (selection u) []) -> c_failures c = 0%Z) by (apply grouped_zero; intros ? []).
    clear F. revert Z0 J1. induction CR as [|d d' cs0 cs0' U U' N Te Fa V C IH]; intros Z0 J1; [destruct J1|]. destruct J1 as [->|J1].
    - rewrite Fa, (Z0 d (or_introl eq_refl)). unfold bad_count, len. lia.
    - apply IH; [intros e E2; apply Z0; now right|exact J1]. }
  destruct (grouped_keeps (comp_of u1) (selection u1) (u_comps u1) c J1) as (c1 & G1 & G2 & G3).
  destruct (ran_keeps _ _ _ (f_comps _ _ _ _ _ PF2) c1 G1) as (c2 & G4 & G5 & G6).
  apply in_map_iff. exists c2. split; [|exact G4]. f_equal; [congruence|]. apply Z.eqb_neq. apply Z.eqb_neq in FC. lia.
Qed.

(** ** Columns *)

Lemma str_length_app : forall a b, String.length (a ++ b) = (String.length a + String.length b)%nat.
Proof. induction a as [|c a IH]; intro b; [reflexivity|]. cbn. now rewrite IH. Qed.
Lemma spaces_length : forall n, String.length (spaces n) = n.
Proof. induction n as [|n IH]; [reflexivity|]. cbn. now rewrite IH. Qed.
Lemma left_length : forall w s, (String.length s <= w)%nat -> String.length (left_column w s) = w.
Proof. intros w s H. unfold left_column. rewrite str_length_app, spaces_length. lia. Qed.
Lemma right_length : forall w s, (String.length s <= w)%nat -> String.length (right_column w s) = w.
Proof. intros w s H. unfold right_column. rewrite str_length_app, spaces_length. lia. Qed.
Lemma sub_length : forall n s, (String.length (substring 0 n s) <= n)%nat.
Proof. induction n as [|n IH]; intros [|c s]; cbn; try lia. specialize (IH s). lia. Qed.

Fixpoint check_from (f : Z -> bool) (n : nat) (z : Z) : bool := match n with O => true | S n' => f z && check_from f n' (z + 1)%Z end.
Lemma check_from_spec : forall f n z, check_from f n z = true -> forall x, (z <= x < z + Z.of_nat n)%Z -> f x = true.
Proof.
  induction n as [|n IH]; intros z H x B; [lia|]. cbn [check_from] in H. apply andb_true_iff in H. destruct H as [H1 H2].
  destruct (Z.eq_dec x z) as [->|N]; [exact H1|]. apply (IH _ H2). lia.
Qed.
Definition short_dec (k : nat) (z : Z) : bool := (String.length (dec z) <=? k)%nat.
Lemma dec_len_5 : forall z, (0 <= z < 100000)%Z -> (String.length (dec z) <= 5)%nat.
Proof.
  intros z B. apply Nat.leb_le. change (short_dec 5 z = true). apply (check_from_spec (short_dec 5) (Z.to_nat 100000) 0); [vm_compute; reflexivity|lia].
Qed.
Lemma dec_len_3 : forall n, (n < 1000)%nat -> (String.length (dec (Z.of_nat n)) <= 3)%nat.
Proof.
  intros n B. apply Nat.leb_le. change (short_dec 3 (Z.of_nat n) = true). apply (check_from_spec (short_dec 3) 1000 0); [vm_compute; reflexivity|lia].
Qed.

(** The name, the time and the result are in the same columns in all lines. *)
Lemma status_columns : forall n name ms result, (n < 1000)%nat -> (0 <= ms < 100000000)%Z -> (String.length result <= 4)%nat ->
  exists a b c, status_line n name ms result = ("[" ++ a ++ ": " ++ b ++ c ++ " " ++ left_column 4 result ++ "]" ++ nl)%string
  /\ String.length a = 3%nat /\ String.length b = 50%nat /\ String.length c = 10%nat /\ String.length (left_column 4 result) = 4%nat.
Proof.
  intros n name ms result N M R. eexists _, _, _. split; [reflexivity|]. split; [apply right_length, dec_len_3, N|].
  split; [apply left_length, sub_length|]. split; [|now apply left_length]. apply left_length. unfold time_text.
  destruct (Z.ltb_spec ms 0); [lia|]. unfold in_seconds. rewrite !str_length_app. cbn [String.length digit].
  assert ((String.length (dec (ms / 1000)) <= 5)%nat); [|lia]. apply dec_len_5.
  split; [apply Z.div_pos; lia|apply Z.div_lt_upper_bound; lia].
Qed.

(** ** Text with NUL *)

Lemma nul_shorter : forall s, has_char "000" s = true -> (String.length (until_nul s) < String.length s)%nat.
Proof.
  induction s as [|c s IH]; intro H; [discriminate|]. cbn [until_nul]. cbn [has_char] in H. destruct (Ascii.eqb c "000") eqn:E; [cbn; lia|].
  rewrite Ascii.eqb_sym, E in H. cbn [orb] in H. cbn [String.length]. specialize (IH H). lia.
Qed.

Lemma console_one_test : forall E u u' z t, fresh u -> selection u = [t] -> performUnitTests E u = (u', z) ->
  exists comps, output u u' (tests_output E (u_capture u) (u_verbosity u) 1 [(t, caseof u' t)]
                  ++ framework_says (last_lines E (u_verbosity u) z (not_passed u' (u_tests u)) comps (u_name u) (total_time u'))
                  ++ (if is_empty (u_xml u) || can_write E (u_xml u) then [] else [mkChunk Err Framework ("Cannot save XML report to " ++ u_xml u)])).
Proof.
  intros E u u' z t F SE P. destruct (console_perform E u u' z (proj2 F) P) as (T & rs & PF & (R1 & R2 & R3) & K).
  eexists _. replace [(t, caseof u' t)] with rs; [exact K|].
  assert (M : map fst rs = [t]).
  { pose proof (f_verdicts _ _ _ _ _ PF) as V. pose proof (f_started _ _ _ _ _ PF) as ST. rewrite (proj1 F), SE in ST. rewrite <- R1, map_map in V. cbn [fst] in V. change (map (fun x : nat * tcase => fst x) rs) with (map fst rs) in V.
    rewrite V, ST. reflexivity. }
  destruct rs as [|[x c] [|y rs]]; try discriminate M. injection M as ->.
  assert (R4 := R3 (NoDup_cons t (fun H : In t [] => H) (NoDup_nil _))). inversion R4 as [|? ? R5 R6]. cbn [fst snd] in R5. now rewrite R5.
Qed.
