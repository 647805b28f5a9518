(** * The test framework: what is shown and reported, properties C81 and C109 (second part), C110, C111. *)

From Coq Require Import ZArith String Ascii Bool List Arith Lia SpecFloat.
From Verif Require Import TextModel FutModel FutSpec FutProofs FutRun FutClose FutConsoleSpec FutTimesSpec FutConsole FutReportSpec FutReport FutMacroModel FutMacroSpec FutMacro.
Import ListNotations.
Open Scope string_scope.
Open Scope list_scope.

(** ** C81: capturedOut() and capturedErr() *)

(** They give what the test wrote, up to the first NUL.  Missing: the rest, next. *)
Theorem C81_read_partial : forall E u t n f u' n' f', on_console u -> run_one E t (u, n, f) = (u', n', f') -> u_capture u = true ->
  let wrote k := written k (steps (beh E t (t_runs (caseof u t)))) in
  capturedOut (caseof u' t) = until_nul (t_outCap (caseof u t) ++ wrote Out) /\ capturedErr (caseof u' t) = until_nul (t_errCap (caseof u t) ++ wrote Err).
Proof.
  intros E u t n f u' n' f' C R K wrote. destruct (one_restores E u t n f u' n' f' C R) as (_ & _ & H). destruct (H K) as [A B].
  unfold capturedOut, capturedErr. rewrite !A, !B. split; apply c_str_until.
Qed.
Print Assumptions C81_read_partial.

(** Text with a NUL is cut there. *)
Theorem C81_nul_refuted : forall E u t n f u' n' f', on_console u -> run_one E t (u, n, f) = (u', n', f') -> u_capture u = true -> t_outCap (caseof u t) = "" ->
  let wrote := written Out (steps (beh E t (t_runs (caseof u t)))) in
  has_char "000" wrote = true -> (String.length (capturedOut (caseof u' t)) < String.length wrote)%nat.
Proof.
  intros E u t n f u' n' f' C R K X wrote N. destruct (C81_read_partial E u t n f u' n' f' C R K) as [A _]. rewrite A, X. exact (nul_shorter wrote N).
Qed.
Print Assumptions C81_nul_refuted.

Definition nul_writer (t : nat) (s : string) : env := mkEnv (fun v n => if (v =? t)%nat then mkScript [] [SOut s] [] else beh demo v n) (clock demo) (seconds demo) (can_write demo).
Example C81_nul_witness : let u' := fst (fst (run_one (nul_writer 0 ("ab" ++ String "000" "c")) 0 (demo_unit, 0%nat, 0%Z))) in
  capturedOut (caseof u' 0) = "ab" /\ capturedOut (caseof demo_done 0) = "hello" /\ has_char "000" ("ab" ++ String "000" "c") = true /\ t_outCap (caseof demo_unit 0) = "".
Proof. vm_compute. repeat split. Qed.

(** ** C110 *)

(** The first run of a program: for each test, in order, what FutConsoleSpec says, with the status,
    captured text, failure and times that the test has after its run; then the tests that did not
    pass, the components of the tests in order, each with its result, and the verdict.
    Missing: captured text after a NUL and the components in later runs, below. *)
Theorem C110_console_partial : forall E u u' z, fresh u -> performUnitTests E u = (u', z) ->
  exists T rs comps, history u u' T /\ results u u' T rs /\ map fst comps = comp_times u' /\ components u (map fst (comp_times u'))
  /\ Forall (fun x => snd x = all_passed (comp_of u) (fst (fst x)) (verdicts T)) comps
  /\ output u u' (tests_output E (u_capture u) (u_verbosity u) 1 rs
                  ++ framework_says (last_lines E (u_verbosity u) z (not_passed u' (u_tests u)) comps (u_name u) (total_time u'))
                  ++ (if is_empty (u_xml u) || can_write E (u_xml u) then [] else [mkChunk Err Framework ("Cannot save XML report to " ++ u_xml u)])).
Proof. exact console_fresh. Qed.
Print Assumptions C110_console_partial.

(** The name, the time and the result are in the same columns for all tests: up to 999 tests of less than
    100000 seconds. *)
Theorem C110_columns : forall n name ms result, (n < 1000)%nat -> (0 <= ms < 100000000)%Z -> (String.length result <= 4)%nat ->
  exists a b c, status_line n name ms result = ("[" ++ a ++ ": " ++ b ++ c ++ " " ++ left_column 4 result ++ "]" ++ nl)%string
  /\ String.length a = 3%nat /\ String.length b = 50%nat /\ String.length c = 10%nat /\ String.length (left_column 4 result) = 4%nat.
Proof. exact status_columns. Qed.
Print Assumptions C110_columns.

(** A component in which a test did not pass is shown as failed after every later run too, even if
    everything passes. *)
Theorem C110_component_refuted : forall E E' u u1 z1 u2 z2 t, fresh u -> performUnitTests E u = (u1, z1) -> performUnitTests E' u1 = (u2, z2) ->
  (exists T s, history u u1 T /\ In (t, s) (verdicts T) /\ s <> SUCCESS) ->
  exists rs comps, map fst comps = comp_times u2 /\ In (comp_of u t, false) (map (fun x => (fst (fst x), snd x)) comps)
  /\ output u1 u2 (tests_output E' (u_capture u1) (u_verbosity u1) 1 rs
                   ++ framework_says (last_lines E' (u_verbosity u1) z2 (not_passed u2 (u_tests u1)) comps (u_name u1) (total_time u2))
                   ++ (if is_empty (u_xml u1) || can_write E' (u_xml u1) then [] else [mkChunk Err Framework ("Cannot save XML report to " ++ u_xml u1)])).
Proof. exact component_stays_failed. Qed.
Print Assumptions C110_component_refuted.

(** Captured text that begins with a NUL is not shown at all, not even that there is some. *)
Theorem C110_nul_refuted : forall E u u' z t text, fresh u -> selection u = [t] -> performUnitTests E u = (u', z) -> u_capture u = true -> t_outCap (caseof u t) = "" ->
  written Out (steps (beh E t (t_runs (caseof u t)))) = String "000" text ->
  exists comps, let c := caseof u' t in
  output u u' (framework_says (announced (u_verbosity u) 1 (t_name c))
               ++ framework_says (told (u_verbosity u) 1 (t_name c) (t_status c) "" (until_nul (t_errStr c)) (record_of u' t) (elapsed (t_begin c) (t_end c)))
               ++ framework_says (last_lines E (u_verbosity u) z (not_passed u' (u_tests u)) comps (u_name u) (total_time u'))
               ++ (if is_empty (u_xml u) || can_write E (u_xml u) then [] else [mkChunk Err Framework ("Cannot save XML report to " ++ u_xml u)])).
Proof.
  intros E u u' z t text F S P K X W. destruct (console_one_test E u u' z t F S P) as (comps & H). exists comps. cbv zeta.
  destruct (test_result E u u' z t F) as [_ O]; [rewrite S; constructor; [intros []|constructor]|exact P|rewrite S; now left|]. destruct (O K) as [O1 _]. rewrite X, W in O1.
  cbn [tests_output] in H. rewrite K, O1 in H. cbn [append until_nul Ascii.eqb Bool.eqb] in H. rewrite app_nil_r in H. cbn [app] in H. rewrite <- app_assoc in H. exact H.
Qed.
Print Assumptions C110_nul_refuted.

(** Three tests of the example program; two tests, one with an exception, and the same again without
    it; a test that writes NUL and more. *)
Definition lines (u u' : unit_test) : list string := map ch_text (skipn (List.length (w_console (u_world u))) (w_console (u_world u'))).
Definition last_three (l : list string) : list string := skipn (List.length l - 3) l.
Definition harmless : env := mkEnv (fun _ _ => mkScript [] [] []) (clock demo) (seconds demo) (can_write demo).
Example C110_witness :
  let few := set_select [0; 1; 5]%nat demo_unit in let u3 := fst (performUnitTests demo few) in
  let two := set_select [0; 3]%nat demo_unit in let r1 := performUnitTests demo two in let r2 := performUnitTests harmless (fst r1) in
  let one := set_verbosity 5 (set_select [0%nat] demo_unit) in
  (firstn 6 (lines few u3) =
    [rule ++ "STDOUT Futex::signal" ++ rule ++ "up" ++ nl; rule ++ "STDERR Futex::signal" ++ rule ++ "down" ++ nl;
     rule ++ "Failure in case 1: Futex::signal at b.cpp: 5" ++ nl ++ "EXPECT_LT: 2 < 1 (Actually " ++ q "2" ++ ")" ++ nl;
     "[  2: Stack::push                                       0.001s     OK  ]" ++ nl;
     rule ++ "STDOUT Stack::throw" ++ rule ++ "on" ++ nl; rule ++ "Failure in case 3: Stack::throw at y.cpp: 3" ++ nl ++ "later" ++ nl]
  /\ last_three (lines few u3)
    = ["  Component Futex (elapsed 3s) FAILED " ++ nl; "  Component Stack (elapsed 5s) FAILED " ++ nl; "Unit Test  (elapsed 11s) FAILED " ++ nl]
  /\ snd r1 = -1 /\ snd r2 = 0 /\ (last_three (lines (fst r1) (fst r2))
    = ["  Component Log (elapsed 5s) FAILED " ++ nl; "  Component Stack (elapsed 5s) Passed" ++ nl; "Unit Test  (elapsed 13s) Passed" ++ nl])
  /\ lines one (fst (performUnitTests (nul_writer 0 (String "000" "text")) one))
    = ["[  1: Stack::push                                       -1.000000  GO  ]" ++ nl; "[  1: Stack::push                                       0.001s     OK  ]" ++ nl;
       "Unit Test  (elapsed 5s) Passed" ++ nl])%string%Z.
Proof. vm_compute. repeat split. Qed.

(** performTest shows the same for its test, as number 1, and nothing else. *)
Theorem C110_single : forall E u name t u' r, on_console u -> lookup name (u_byName u) = Some t -> In t (u_tests u) -> performTest E name u = (u', r) ->
  output u u' (tests_output E (u_capture u) (u_verbosity u) 1 [(t, caseof u' t)]).
Proof. exact console_single. Qed.
Print Assumptions C110_single.

Example C110_single_witness : lookup "Log::fail" (u_byName demo_unit) = Some 4%nat /\ In 4%nat (u_tests demo_unit)
  /\ lines demo_unit (fst (performTest demo "Log::fail" demo_unit))
     = [rule ++ "STDOUT Log::fail" ++ rule ++ "on" ++ nl; rule ++ "Failure in case 1: Log::fail at c.cpp: 9" ++ nl ++ "wrong" ++ nl]%string.
Proof. vm_compute. repeat split. auto 10. Qed.

(** ** C109: the file *)

(** The file, read as an XML document ([document]), has the elements and attributes that
    [report_elements] gives, for names and failures without special characters (for others see
    C76), if no test is selected twice.  Missing: later runs (C75_repeated_refuted). *)
Theorem C109_document_partial : forall E u u' z, fresh u -> NoDup (selection u) -> performUnitTests E u = (u', z) -> u_xml u <> "" -> can_write E (u_xml u) = true ->
  (forall p ms, plain (seconds E p ms) = true) -> plain (u_id u) = true -> plain (u_name u) = true ->
  (forall t, In t (selection u) -> plain (comp_of u t) = true /\ plain (t_case (caseof u t)) = true
                                   /\ let '(text, _, file) := record_of u' t in plain text = true /\ plain file = true) ->
  exists text, u_files u' = u_files u ++ [(u_xml u, text)] /\ components u (map fst (comp_times u'))
  /\ document text = Some (report_elements (seconds E 6) u' (selection u) (comp_times u') (total_time u')).
Proof. exact report_document. Qed.
Print Assumptions C109_document_partial.

Example C109_document_witness : let u := set_xml "report.xml" (set_select [0; 3; 4]%nat demo_unit) in let u' := fst (performUnitTests demo u) in
  map (fun f => document (snd f)) (u_files u') =
  [Some (element "testsuites" [("id", ""); ("name", ""); ("tests", "3"); ("failures", "2"); ("time", "10")]
    (element "testsuite" [("id", ".Log"); ("name", "Log"); ("tests", "2"); ("failures", "2"); ("time", "4")]
       (element "testcase" [("id", ".Log.setup"); ("name", "setup"); ("time", "1002")]
          (element "failure" [("message", "boom"); ("type", "EXCEMPTION")] [Chars (nl ++ "boom" ++ nl ++ "File: " ++ nl ++ "Line: 0" ++ nl)])
        ++ element "testcase" [("id", ".Log.fail"); ("name", "fail"); ("time", "1")]
          (element "failure" [("message", "wrong"); ("type", "FAIL")] [Chars (nl ++ "wrong" ++ nl ++ "File: c.cpp" ++ nl ++ "Line: 9" ++ nl)]))
     ++ element "testsuite" [("id", ".Stack"); ("name", "Stack"); ("tests", "1"); ("failures", "0"); ("time", "3")]
          (element "testcase" [("id", ".Stack.push"); ("name", "push"); ("time", "1")] []))%list)]%string
  /\ u_xml u <> "" /\ can_write demo (u_xml u) = true /\ NoDup (selection u)
  /\ forall t, In t (selection u) -> plain (comp_of u t) = true /\ plain (t_case (caseof u t)) = true /\ plain (t_desc (caseof u' t)) = true /\ plain (t_file (caseof u' t)) = true.
Proof.
  cbv zeta. repeat match goal with |- _ /\ _ => split end; try (vm_compute; reflexivity); try discriminate.
  - change (NoDup [0; 3; 4]%nat). repeat constructor; cbn; intuition discriminate.
  - intros t I. vm_compute in I. destruct I as [<-|[<-|[<-|[]]]]; vm_compute; repeat split.
Qed.

(** ** C111

    [lf]: which argument is evaluated first. *)

(** In a check that passes, each argument is evaluated once. *)
Theorem C111_passes : (forall S V W lf (cmp : V -> W -> bool) show f l d (a : expr S V) (b : expr S W) s s' x,
    check_logic lf cmp show f l d a b s = (SCheck true f l d x, s') -> exists v w, both_once a b s v w s' /\ cmp v w = true)
  /\ (forall S W wanted (truth : W -> bool) show f l d (b : expr S W) s s' x,
    check_truth wanted truth show f l d b s = (SCheck true f l d x, s') -> exists w, gives b s w s' /\ truth w = wanted).
Proof. split; [exact logic_passes|exact truth_passes]. Qed.
Print Assumptions C111_passes.

(** Arguments without effects: the check passes iff the comparison holds, the value shown is the one
    that was compared, ...  Missing: other arguments, below. *)
Theorem C111_pure_partial : (forall S V W lf (cmp : V -> W -> bool) show f l d (a : expr S V) (b : expr S W) s, pure a -> pure b ->
    exists v w, gives a s v s /\ gives b s w s
    /\ check_logic lf cmp show f l d a b s = (if cmp v w then SCheck true f l d "" else SCheck false f l d (show w), s))
  /\ (forall S W wanted (truth : W -> bool) show f l d (b : expr S W) s, pure b ->
    exists w, gives b s w s
    /\ check_truth wanted truth show f l d b s = (if Bool.eqb (truth w) wanted then SCheck true f l d "" else SCheck false f l d (show w), s)).
Proof. split; [exact logic_pure|exact truth_pure]. Qed.
Print Assumptions C111_pure_partial.

(** ... and it is in the report of the test, up to the first NUL. *)
Theorem C111_report_partial : forall E u u' z t, fresh u -> NoDup (selection u) -> performUnitTests E u = (u', z) -> In t (selection u) ->
  let sc := beh E t (t_runs (caseof u t)) in
  forall S V W lf (cmp : V -> W -> bool) show f l d (a : expr S V) (b : expr S W) s pre post v w, pure a -> pure b -> gives a s v s -> gives b s w s ->
  sc_test sc = pre ++ fst (check_logic lf cmp show f l d a b s) :: post -> escapes (sc_setup sc) = None -> Forall goes_on pre ->
  existsb meddles (steps sc) = false -> escapes (sc_teardown sc) = None -> (forall x, In x (executed (sc_teardown sc)) -> complaint x = None) ->
  cmp v w = false -> status_of u' t = FAIL /\ z = (-1)%Z /\ record_of u' t = (check_text d (until_nul (show w)), l, base_name f).
Proof. exact reported. Qed.
Print Assumptions C111_report_partial.

(** Whenever a check fails, the actual value is computed a second time, and the second value is shown, ... *)
Theorem C111_twice_refuted : (forall S V W lf (cmp : V -> W -> bool) show f l d (a : expr S V) (b : expr S W) s s' x,
    check_logic lf cmp show f l d a b s = (SCheck false f l d x, s') ->
    exists v w m w', both_once a b s v w m /\ cmp v w = false /\ gives b m w' s' /\ x = show w')
  /\ (forall S W wanted (truth : W -> bool) show f l d (b : expr S W) s s' x,
    check_truth wanted truth show f l d b s = (SCheck false f l d x, s') ->
    exists w m w', gives b s w m /\ truth w = negb wanted /\ gives b m w' s' /\ x = show w').
Proof. split; [exact logic_fails|exact truth_fails]. Qed.
Print Assumptions C111_twice_refuted.

(** ... so EXPECT_EQ(k, ++n) increments twice and shows n + 2; for k = n + 2 the value shown is the
    expected one, ... *)
Theorem C111_counter_refuted : forall lf f l d (k n : Z), (n + 1 <> k)%Z ->
  check_logic lf Z.eqb dec f l d (fun s => Value k s) next n = (SCheck false f l d (dec (n + 2)), n + 2)%Z.
Proof. exact counter_fails. Qed.
Print Assumptions C111_counter_refuted.

(** ... and if the second evaluation throws, the failed comparison is lost: the test ends with that
    exception. *)
Theorem C111_throw_refuted : forall S V W lf (cmp : V -> W -> bool) show f l d (a : expr S V) (b : expr S W) s v w m e m',
  both lf a b s = Value (v, w) m -> cmp v w = false -> b m = Thrown e m' -> check_logic lf cmp show f l d a b s = (SThrow e, m').
Proof. exact throws_again. Qed.
Print Assumptions C111_throw_refuted.

(** EXPECT_FLOAT_EQ does not show the actual value but 10000 times it. *)
Theorem C111_float_refuted : forall f l d k x y, (1 <= k <= 200000)%Z -> number x -> number y -> units x = 0%Z -> units y = (k * one_unit)%Z ->
  check_float true f l d x y = Some (SCheck false f l d (dec (10000 * k))).
Proof. exact float_shown. Qed.
Print Assumptions C111_float_refuted.

(** EXPECT_EQ(3, ++n) and EXPECT_LT(0, n) with n = 1; reading from an empty queue the second time;
    EXPECT_FLOAT_EQ(0.0, 1.0). *)
Definition pop : expr (list Z) Z := fun s => match s with [] => Thrown (Some "empty") s | x :: s' => Value x s' end.
Example C111_witness : forall f l d,
  check_logic true Z.eqb dec f l d (fun s => Value 3%Z s) next 1%Z = (SCheck false f l d "3", 3%Z)
  /\ check_logic true Z.ltb dec f l d (fun s => Value 0%Z s) (fun n => Value n n) 1%Z = (SCheck true f l d "", 1%Z)
  /\ pure (fun n : Z => Value n n)
  /\ check_logic false Z.eqb dec f l d (fun s => Value 3%Z s) pop [4%Z] = (SThrow (Some "empty"), [])
  /\ check_truth true (fun z => negb (z =? 0)%Z) dec f l d pop [0; 1]%Z = (SCheck false f l d "1", [])
  /\ check_float true f l d (S754_zero false) (S754_finite false 4503599627370496 (-52)) = Some (SCheck false f l d "10000").
Proof. intros. repeat split; try (vm_compute; reflexivity). exists (fun n => n). reflexivity. Qed.
