(** * The test framework: properties C67 to C84, C91 to C93.

    [beh E t n] is what test [t] does in its n-th run, for all of them arbitrary. *)

From Coq Require Import ZArith String Ascii Bool List Arith Lia SpecFloat Sorting.Permutation Sorting.Sorted.
From Verif Require Import Base TextModel TextSpec FutModel FutSpec FutProofs FutRun FutQuiet FutMore FutArgs FutClose FutFloat FutXml.
From Verif Require ItemSpec.
Import ListNotations.
Open Scope string_scope.
Open Scope list_scope.

(** The hypotheses common to most theorems, for the test program of FutClose. *)
Example demo_ready : fresh demo_unit /\ on_console demo_unit /\ NoDup (selection demo_unit) /\ selection demo_unit = [0; 1; 2; 3; 4; 5]%nat
  /\ map (status_of demo_done) [0; 1; 2; 3; 4; 5]%nat = [SUCCESS; FAIL; OUT_ON_ERROR_STREAM; ERROR; FAIL; FAIL].
Proof. repeat split; try reflexivity. vm_compute. repeat constructor; cbn; intuition discriminate. Qed.

(** ** C67 *)

(** The result follows from the verdicts of the tests that were run, whatever was run before, ... *)
Theorem C67_exit_status : forall E u u' z, on_console u -> performUnitTests E u = (u', z) ->
  exists T, history u u' T
    /\ ((forall t s, In (t, s) (verdicts T) -> s = SUCCESS) -> z = 0%Z)
    /\ ((exists t s, In (t, s) (verdicts T) /\ s <> SUCCESS) -> z = (-1)%Z)
    /\ (u_comps u = [] -> forall t, In t (selection u) <-> exists s, In (t, s) (verdicts T)).
Proof. exact exit_status. Qed.
Print Assumptions C67_exit_status.

(** ... and is what status() says afterwards. *)
Theorem C67_exit_final : forall E u u' z, fresh u -> NoDup (selection u) -> performUnitTests E u = (u', z) ->
  (z = 0%Z \/ z = (-1)%Z) /\ (z = 0%Z <-> forall t, In t (selection u) -> status_of u' t = SUCCESS).
Proof. exact exit_final. Qed.
Print Assumptions C67_exit_final.

Example C67_witness : snd (performUnitTests demo demo_unit) = (-1)%Z /\ snd (performUnitTests demo (set_select [0%nat] demo_unit)) = 0%Z.
Proof. split; vm_compute; reflexivity. Qed.

(** ** C68 *)

Theorem C68_runs_once : forall E u u' z, fresh u -> performUnitTests E u = (u', z) ->
  exists T, history u u' T
    /\ Permutation (started T) (selection u) /\ StronglySorted (comp_le u) (started T)
    /\ (forall n, in_comp u n (started T) = in_comp u n (selection u))
    /\ Forall (fun e => In (about e) (selection u)) T.
Proof. exact runs_once. Qed.
Print Assumptions C68_runs_once.

Example C68_witness : started (w_trace (u_world demo_done)) = [1; 3; 4; 0; 2; 5]%nat /\ map (comp_of demo_unit) [1; 3; 4; 0; 2; 5]%nat = ["Futex"; "Log"; "Log"; "Stack"; "Stack"; "Stack"].
Proof. split; vm_compute; reflexivity. Qed.

(** ** C69 *)

(** The verdict of a test that does not set its status by hand; as output on stderr counts what
    SetUp and the body wrote.  Missing: output of TearDown, next. *)
Theorem C69_verdict_partial : forall E u u' z t, fresh u -> NoDup (selection u) -> performUnitTests E u = (u', z) -> In t (selection u) ->
  let c := caseof u t in let sc := beh E t (t_runs c) in
  (existsb meddles (steps sc) = false ->
   status_of u' t = verdict sc (if u_capture u then (t_errCap c ++ written Err (before_teardown sc))%string else t_errCap c))
  /\ (u_capture u = true ->
      t_outStr (caseof u' t) = (t_outCap c ++ written Out (steps sc))%string
      /\ t_errStr (caseof u' t) = (t_errCap c ++ written Err (steps sc))%string).
Proof. exact test_result. Qed.
Print Assumptions C69_verdict_partial.

(** A failed check is never turned into success. *)
Theorem C69_failed_check : forall E u u' z t, fresh u -> NoDup (selection u) -> performUnitTests E u = (u', z) -> In t (selection u) ->
  let sc := beh E t (t_runs (caseof u t)) in
  forall s, In s (steps sc) -> fails s = true -> existsb meddles (steps sc) = false ->
  status_of u' t = (match thrown sc with Some _ => ERROR | None => FAIL end) /\ z = (-1)%Z.
Proof. exact failing_verdict. Qed.
Print Assumptions C69_failed_check.

(** What TearDown alone writes on stderr is captured, and the test is still a success. *)
Theorem C69_teardown_output_refuted : forall E u u' z t, fresh u -> NoDup (selection u) -> performUnitTests E u = (u', z) -> In t (selection u) ->
  let c := caseof u t in let sc := beh E t (t_runs c) in
  u_capture u = true -> t_errCap c = "" -> existsb meddles (steps sc) = false -> thrown sc = None -> existsb fails (steps sc) = false ->
  written Err (before_teardown sc) = "" -> written Err (steps sc) <> "" ->
  t_errStr (caseof u' t) <> "" /\ status_of u' t = SUCCESS.
Proof.
  intros E u u' z t F ND P I. pose proof (test_result E u u' z t F ND P I) as H. cbv zeta in *. intros C EC M TH FA W W2. destruct H as [H1 H2].
  rewrite (H1 M), (proj2 (H2 C)), C, EC, W. unfold verdict. rewrite TH, FA. split; [exact W2|reflexivity].
Qed.
Print Assumptions C69_teardown_output_refuted.

Definition noisy : env := mkEnv (fun _ _ => mkScript [] [] [SErr "x"]) (clock demo) (seconds demo) (can_write demo).
Example C69_witness : let sc := beh noisy 0 0 in
  existsb meddles (steps sc) = false /\ thrown sc = None /\ existsb fails (steps sc) = false /\ written Err (before_teardown sc) = "" /\ written Err (steps sc) = "x"
  /\ u_capture demo_unit = true /\ t_errCap (caseof demo_unit 0) = ""
  /\ status_of (fst (performUnitTests noisy demo_unit)) 0 = SUCCESS /\ t_errStr (caseof (fst (performUnitTests noisy demo_unit)) 0) = "x".
Proof. repeat split; vm_compute; reflexivity. Qed.
Example C69_demo : let sc := beh demo 1 0 in In (SCheck false "a/b.cpp" 5 "EXPECT_LT: 2 < 1" "2") (steps sc) /\ existsb meddles (steps sc) = false /\ thrown sc = None.
Proof. repeat split; vm_compute; tauto. Qed.

(** ** C70 *)

(** The -e option makes no difference to a run, ... *)
Theorem C70_option_e_refuted : forall E e u,
  performUnitTests E (set_errfail e u) = (set_errfail e (fst (performUnitTests E u)), snd (performUnitTests E u)).
Proof. exact option_e. Qed.
Print Assumptions C70_option_e_refuted.

(** ... and without it a test that writes on stderr fails. *)
Theorem C70_stderr_fails_refuted : forall E u u' z t, fresh u -> NoDup (selection u) -> performUnitTests E u = (u', z) -> In t (selection u) ->
  let sc := beh E t (t_runs (caseof u t)) in
  u_capture u = true -> existsb meddles (steps sc) = false -> thrown sc = None -> existsb fails (steps sc) = false ->
  written Err (before_teardown sc) <> "" -> z = (-1)%Z.
Proof. exact stderr_fails. Qed.
Print Assumptions C70_stderr_fails_refuted.

(** It does not if nothing is captured (-c). *)
Theorem C70_uncaptured_partial : forall E u u' z t, fresh u -> NoDup (selection u) -> performUnitTests E u = (u', z) -> In t (selection u) ->
  let sc := beh E t (t_runs (caseof u t)) in
  u_capture u = false -> t_errCap (caseof u t) = "" -> existsb meddles (steps sc) = false -> thrown sc = None -> existsb fails (steps sc) = false ->
  status_of u' t = SUCCESS.
Proof. exact stderr_uncaptured. Qed.
Print Assumptions C70_uncaptured_partial.

Example C70_witness : let sc := beh demo 2 0 in let u := set_select [2%nat] demo_unit in
  u_errfail u = false /\ u_capture u = true /\ existsb meddles (steps sc) = false /\ thrown sc = None /\ existsb fails (steps sc) = false
  /\ written Err (before_teardown sc) = "noise" /\ snd (performUnitTests demo u) = (-1)%Z
  /\ snd (performUnitTests demo (set_capture false u)) = 0%Z /\ t_errCap (caseof u 2) = "".
Proof. repeat split; vm_compute; reflexivity. Qed.

(** ** C71 *)

(** A run is judged on its own output if no earlier run of the test left anything on stderr.
    Missing: the other case, next. *)
Theorem C71_rerun_partial : forall E u t n f u' n' f', on_console u -> run_one E t (u, n, f) = (u', n', f') ->
  let sc := beh E t (t_runs (caseof u t)) in
  existsb meddles (steps sc) = false -> t_errCap (caseof u t) = "" ->
  status_of u' t = verdict sc (if u_capture u then written Err (before_teardown sc) else "").
Proof. exact rerun. Qed.
Print Assumptions C71_rerun_partial.

(** A test that once wrote on stderr never passes again. *)
Theorem C71_rerun_refuted : forall E u t n f u1 n1 f1 u2 n2 f2,
  on_console u -> run_one E t (u, n, f) = (u1, n1, f1) -> run_one E t (u1, n1, f1) = (u2, n2, f2) ->
  u_capture u = true ->
  written Err (steps (beh E t (t_runs (caseof u t)))) <> "" ->
  existsb meddles (steps (beh E t (S (t_runs (caseof u t))))) = false ->
  status_of u2 t <> SUCCESS.
Proof. exact rerun_stained. Qed.
Print Assumptions C71_rerun_refuted.

Example C71_witness : let '(u1, n1, f1) := run_one demo 2 (demo_unit, 0%nat, 0%Z) in let '(u2, _, _) := run_one demo 2 (u1, n1, f1) in
  written Err (steps (beh demo 2 0)) = "noise" /\ beh demo 2 1 = T0 /\ existsb meddles (steps T0) = false
  /\ status_of u1 2 = OUT_ON_ERROR_STREAM /\ status_of u2 2 = OUT_ON_ERROR_STREAM /\ verdict T0 (written Err (before_teardown T0)) = SUCCESS.
Proof. vm_compute. tauto. Qed.

(** ** C72 *)

(** Call number k + 1 runs every selected test k + 1 times. *)
Theorem C72_repeated_refuted : forall E k u u' z, fresh u -> performUnitTests E (calls E k u) = (u', z) ->
  exists T, history (calls E k u) u' T
    /\ forall t, count_occ Nat.eq_dec (started T) t = (S k * count_occ Nat.eq_dec (selection u) t)%nat.
Proof. exact repeated. Qed.
Print Assumptions C72_repeated_refuted.

(** The first one runs each of them once. *)
Theorem C72_first_partial : forall E u u' z, fresh u -> performUnitTests E u = (u', z) -> NoDup (selection u) ->
  exists T, history u u' T /\ forall t, In t (selection u) -> count_occ Nat.eq_dec (started T) t = 1%nat.
Proof.
  intros E u u' z F P ND. destruct (repeated E 0 u u' z F P) as (T & H & C). exists T. split; [exact H|]. intros t I. rewrite C.
  rewrite (proj1 (NoDup_count_occ' Nat.eq_dec (selection u)) ND t I). reflexivity.
Qed.
Print Assumptions C72_first_partial.

Example C72_witness : started (skipn (List.length (w_trace (u_world demo_done))) (w_trace (u_world (fst (performUnitTests demo demo_done)))))
  = [1; 1; 3; 4; 3; 4; 0; 2; 5; 0; 2; 5]%nat.
Proof. vm_compute. reflexivity. Qed.

(** ** C73 *)

(** When all tests are run, the list names exactly those that did not pass, in order of
    registration.  Missing: a selection by -t, next. *)
Theorem C73_failed_cases_partial : forall E u u' z, fresh u -> NoDup (u_tests u) -> u_select u = [] -> (0 < u_verbosity u)%nat -> performUnitTests E u = (u', z) ->
  exists L1 L2,
    output u u' (L1 ++ framework_says (failed_cases (map (name_of u) (filter (fun t => negb (is_success (status_of u' t))) (u_tests u)))) ++ L2)
    /\ Forall (fun c => String.prefix "  Component " (ch_text c) = true \/ String.prefix "Unit Test " (ch_text c) = true
                        \/ String.prefix "Cannot save" (ch_text c) = true) L2.
Proof. exact failed_report. Qed.
Print Assumptions C73_failed_cases_partial.

(** Otherwise it also names tests that were not run. *)
Theorem C73_not_run_refuted : forall E u u' z t, fresh u -> (0 < u_verbosity u)%nat -> performUnitTests E u = (u', z) -> z <> 0%Z ->
  In t (u_tests u) -> ~ In t (selection u) ->
  exists T L1 names L2, history u u' T /\ ~ In t (started T) /\ output u u' (L1 ++ framework_says (failed_cases names) ++ L2) /\ In (name_of u t) names.
Proof. exact failed_report_others. Qed.
Print Assumptions C73_not_run_refuted.

Example C73_witness : let u := set_select [1%nat] demo_unit in
  u_select demo_unit = [] /\ (0 < u_verbosity u)%nat /\ snd (performUnitTests demo u) = (-1)%Z /\ In 0%nat (u_tests u) /\ ~ In 0%nat (selection u)
  /\ existsb (fun c => String.eqb (ch_text c) "Stack::push") (w_console (u_world (fst (performUnitTests demo u)))) = true
  /\ started (w_trace (u_world (fst (performUnitTests demo u)))) = [1%nat].
Proof.
  cbv zeta. repeat split; try (vm_compute; reflexivity); [vm_compute; lia|vm_compute; left; reflexivity|intros [H|[]]; discriminate H].
Qed.

(** ** C74 *)

(** A higher verbosity prints everything a lower one prints, and the result is the same. *)
Theorem C74_louder : forall E u v v', on_console u -> (v <= v')%nat ->
  exists L L', output u (fst (performUnitTests E (set_verbosity v u))) L /\ output u (fst (performUnitTests E (set_verbosity v' u))) L'
    /\ sub L L' /\ snd (performUnitTests E (set_verbosity v u)) = snd (performUnitTests E (set_verbosity v' u)).
Proof. exact louder. Qed.
Print Assumptions C74_louder.

(** At verbosity 0 the framework prints nothing, except when the report cannot be saved. *)
Theorem C74_silent_partial : forall E u u' z, on_console u -> performUnitTests E u = (u', z) -> u_verbosity u = 0%nat ->
  exists L, output u u' (L ++ (if is_empty (u_xml u) || can_write E (u_xml u) then [] else [mkChunk Err Framework ("Cannot save XML report to " ++ u_xml u)]))
    /\ Forall (fun c => ch_origin c <> Framework) L.
Proof. exact silent. Qed.
Print Assumptions C74_silent_partial.

Example C74_witness : let run v x := w_console (u_world (fst (performUnitTests demo (set_xml x (set_verbosity v demo_unit))))) in
  run 0%nat "" = [] /\ run 0%nat "no.xml" = [mkChunk Err Framework "Cannot save XML report to no.xml"]
  /\ map (fun v => List.length (run v "")) [0; 1; 2; 3; 4; 5]%nat = [0; 24; 26; 32; 32; 33]%nat.
Proof. repeat split; vm_compute; reflexivity. Qed.

(** ** C75 *)

(** After the first run.  Missing: later ones, next. *)
Theorem C75_counts_partial : forall E u u' z, fresh u -> NoDup (selection u) -> performUnitTests E u = (u', z) ->
  totals (report_xml u') = Some (sum (map (fun x => fst (fst (fst x))) (suites (report_xml u'))), sum (map (fun x => snd (fst (fst x))) (suites (report_xml u'))))
  /\ forall n m c f, In (n, m, c, f) (suites (report_xml u')) -> n = c /\ m = f.
Proof. exact xml_counts. Qed.
Print Assumptions C75_counts_partial.

(** After k more calls the suites declare k + 1 times the number of tests at the top. *)
Theorem C75_repeated_refuted : forall E k u u' z, fresh u -> performUnitTests E (calls E k u) = (u', z) ->
  exists n f, totals (report_xml u') = Some (n, f) /\ n = len (selection u)
    /\ sum (map (fun x => fst (fst (fst x))) (suites (report_xml u'))) = ((Z.of_nat k + 1) * n)%Z.
Proof. exact xml_counts_repeated. Qed.
Print Assumptions C75_repeated_refuted.

Example C75_witness : totals (report_xml demo_done) = Some (6, 5)%Z /\ suites (report_xml demo_done) = [(1, 1, 1, 1); (2, 2, 2, 2); (3, 2, 3, 2)]%Z.
Proof. split; vm_compute; reflexivity. Qed.

(** ** C76 *)

(** The report is well formed when names and failure descriptions have no special characters.
    Missing: the others, next. *)
Theorem C76_plain_partial : forall E u u' z, on_console u -> performUnitTests E u = (u', z) -> u_xml u <> "" -> can_write E (u_xml u) = true ->
  (forall p ms, plain (seconds E p ms) = true) -> plain (u_id u') = true -> plain (u_name u') = true ->
  (forall c, In c (u_comps u') -> plain (c_name c) = true /\ forall t, In t (c_tests c) ->
     plain (t_case (caseof u' t)) = true /\ plain (t_desc (caseof u' t)) = true /\ plain (t_file (caseof u' t)) = true) ->
  exists text, u_files u' = u_files u ++ [(u_xml u, text)] /\ well_formed text.
Proof. exact plain_written. Qed.
Print Assumptions C76_plain_partial.

(** A description with < , as every failed EXPECT_LT and EXPECT_LE has, is written into an
    attribute value as it is, ... *)
Theorem C76_less_refuted : forall E u u' z pre a b ty file line post, on_console u -> performUnitTests E u = (u', z) -> u_xml u <> "" -> can_write E (u_xml u) = true ->
  (forall p ms, plain (seconds E p ms) = true) -> Forall plain_token pre -> plain a = true ->
  report_xml u' = pre ++ XFailure (a ++ String "<" b) ty file line :: post ->
  exists text, u_files u' = u_files u ++ [(u_xml u, text)] /\ ~ well_formed text
    /\ exists p r open, text = (p ++ String "<" r)%string /\ after p = Some (AttrValue open "failure" ["message"]).
Proof. exact less_written. Qed.
Print Assumptions C76_less_refuted.

(** ... and the quotes the framework itself puts around the actual value of any failed comparison
    end the attribute value. *)
Theorem C76_actual_refuted : forall E u u' z pre a c b ty file line post, on_console u -> performUnitTests E u = (u', z) -> u_xml u <> "" -> can_write E (u_xml u) = true ->
  (forall p ms, plain (seconds E p ms) = true) -> Forall plain_token pre -> plain a = true -> may_follow c = false ->
  report_xml u' = pre ++ XFailure (a ++ " (Actually " ++ String quote_char (String c b)) ty file line :: post ->
  exists text, u_files u' = u_files u ++ [(u_xml u, text)] /\ ~ well_formed text
    /\ exists p r open, text = (p ++ String c r)%string /\ after p = Some (AfterValue open "failure" ["message"]).
Proof. exact actual_written. Qed.
Print Assumptions C76_actual_refuted.

Example C76_witness :
  let run l E := fst (performUnitTests E (set_xml "report.xml" (set_select l demo_unit))) in
  let E2 := mkEnv (fun _ _ => mkScript [] [SCheck false "a.cpp" 7 "a == b" "2"] []) (clock demo) (seconds demo) (can_write demo) in
  can_write demo "report.xml" = true /\ (forall p ms, plain (seconds demo p ms) = true)
  /\ after (xml_file demo (report_xml (run [0; 2; 4]%nat demo))) = Some (Outside true)
  /\ forallb (fun c => plain (c_name c) && forallb (fun t => plain (t_case (caseof (run [0; 2; 4]%nat demo) t)) && plain (t_desc (caseof (run [0; 2; 4]%nat demo) t)))
       (c_tests c)) (u_comps (run [0; 2; 4]%nat demo)) = true
  /\ report_xml (run [1]%nat demo)
     = [XHead; XSuites "" "" 1 1 5; XSuite "" "Futex" 1 1 3; XCase "" "Futex" "signal" 1]
       ++ XFailure ("EXPECT_LT: 2 " ++ String "<" (" 1 (Actually " ++ q "2" ++ ")")) "FAIL" "b.cpp" 5 :: [XCaseEnd; XSuiteEnd; XSuitesEnd]
  /\ report_xml (run [0]%nat E2)
     = [XHead; XSuites "" "" 1 1 5; XSuite "" "Stack" 1 1 3; XCase "" "Stack" "push" 1]
       ++ XFailure ("a == b" ++ " (Actually " ++ String quote_char (String "2" (String quote_char ")"))) "FAIL" "a.cpp" 7 :: [XCaseEnd; XSuiteEnd; XSuitesEnd]
  /\ may_follow "2" = false.
Proof.
  split; [reflexivity|]. split; [intros; apply dec_plain|]. split; [vm_compute; reflexivity|]. split; [vm_compute; reflexivity|].
  split; [vm_compute; reflexivity|]. split; [vm_compute; reflexivity|]. reflexivity.
Qed.

(** ** C77 *)

(** Documented command lines are accepted and have the documented effect, ... *)
Theorem C77_accepts : forall os args u, command_line decimal_level os args -> Forall (valid (u_byName u)) os -> parseParams args u = ROk (effects os u) 0%Z.
Proof. intros os args u C. apply parse_accepts. now apply decimal_command_line. Qed.
Print Assumptions C77_accepts.

(** ... unknown options, missing arguments, unknown tests and bad levels, after any number of good
    options, give 1 and nothing is run. *)
Theorem C77_refuses : forall os args bad u, command_line decimal_level os args -> Forall (valid (u_byName u)) os -> refused (u_byName u) bad ->
  exists u', parseParams (args ++ bad) u = ROk u' 1%Z /\ history u u' [].
Proof. intros os args bad u C. apply parse_refuses. now apply decimal_command_line. Qed.
Print Assumptions C77_refuses.

(** Whatever is accepted is a documented command line, but for the text of the levels: blanks, a
    number and anything, or no number at all, for level 0. *)
Theorem C77_accepts_only_partial : forall args u u', parseParams args u = ROk u' 0%Z ->
  exists os, command_line lenient_level os args /\ Forall (valid (u_byName u)) os /\ u' = effects os u.
Proof. exact parse_only. Qed.
Print Assumptions C77_accepts_only_partial.

(** All those texts are accepted, ... *)
Theorem C77_level_refuted : forall s n u, lenient_level s n -> (n <= 5)%nat -> parseParams ["-v"; s] u = ROk (set_verbosity n u) 0%Z.
Proof.
  intros s n u L N. rewrite (parse_accepts [OLevel n] ["-v"; s] u); [reflexivity| |constructor; [exact N|constructor]].
  apply (cl_cons lenient_level (OLevel n) ["-v"; s] [] []); [now constructor|constructor].
Qed.
Print Assumptions C77_level_refuted.

(** ... and a blank one is read from an uninitialised variable. *)
Theorem C77_blank_level_refuted : forall os args s rest u, command_line lenient_level os args -> Forall (valid (u_byName u)) os -> ItemSpec.all_blanks s ->
  parseParams (args ++ "-v" :: s :: rest) u = RBad UB.
Proof. exact parse_blank. Qed.
Print Assumptions C77_blank_level_refuted.

(** So a program with the tests [l] and a documented command line captures the output unless -c is
    given, takes output on the error stream as a failure if -e is given, and has the last level given,
    or 2; the report and its names are the last ones given; the tests are those given with -t, in
    order. *)
Theorem C77_settings : forall l w os args, command_line decimal_level os args -> Forall (valid (u_byName (register l (unit0 w)))) os ->
  exists u, parseParams args (register l (unit0 w)) = ROk u 0%Z
  /\ (u_capture u = false <-> In ONoCapture os)
  /\ (u_errfail u = true <-> In OErrFail os)
  /\ u_verbosity u = last_of (fun o => match o with OQuiet => Some 0%nat | OLevel n => Some n | _ => None end) os 2%nat
  /\ u_xml u = last_of (fun o => match o with OXml f => Some f | _ => None end) os ""
  /\ u_name u = last_of (fun o => match o with OName n => Some n | _ => None end) os ""
  /\ u_id u = last_of (fun o => match o with OId i => Some i | _ => None end) os ""
  /\ map Some (u_select u) = map (fun n => first_named n l) (named_tests os).
Proof. exact program_settings. Qed.
Print Assumptions C77_settings.

Example C77_witness :
  parseParams ["-q"; "-v"; "3"; "-t"; "Log::fail"; "-x"; "r.xml"; "-c"] demo_unit
    = ROk (set_capture false (set_xml "r.xml" (set_select [4%nat] (set_verbosity 3 demo_unit)))) 0%Z
  /\ command_line decimal_level [OQuiet; OLevel 3; OTest "Log::fail"] (["-q"] ++ ["-v"; "3"] ++ ["-t"; "Log::fail"] ++ [])
  /\ Forall (valid (u_byName demo_unit)) [OQuiet; OLevel 3; OTest "Log::fail"]
  /\ refused (u_byName demo_unit) ["-z"; "x"] /\ refused (u_byName demo_unit) ["-t"; "Log::no"] /\ refused (u_byName demo_unit) ["-x"]
  /\ refused (u_byName demo_unit) ["-v"; "6"] /\ refused (u_byName demo_unit) ["-v"; "-1"]
  /\ parseParams ["-v"; "abc"] demo_unit = ROk (set_verbosity 0 demo_unit) 0%Z /\ parseParams ["-v"; " "] demo_unit = RBad UB /\ ItemSpec.all_blanks " ".
Proof.
  split; [vm_compute; reflexivity|]. split; [apply cl_cons; [constructor|]; apply cl_cons; [now constructor|]; apply cl_cons; constructor|].
  split; [repeat constructor; vm_compute; discriminate|].
  split; [apply rf_unknown; cbn; intuition discriminate|].
  split; [apply rf_test; vm_compute; reflexivity|].
  split; [apply rf_missing; cbn; tauto|].
  split; [apply (rf_level _ 6 []); lia|].
  split; [apply (rf_level _ (-1) []); lia|].
  split; [vm_compute; reflexivity|]. split; [vm_compute; reflexivity|]. repeat constructor.
Qed.

(** ** C78 *)

(** A FAIL that is executed makes the test fail; its message is on record if nothing fails later.
    Missing: it does not return, next. *)
Theorem C78_fail_partial : forall E u u' z t, fresh u -> NoDup (selection u) -> performUnitTests E u = (u', z) -> In t (selection u) ->
  let sc := beh E t (t_runs (caseof u t)) in
  forall a f l m b, steps sc = a ++ SFail f l m :: b -> existsb meddles (steps sc) = false ->
  (status_of u' t = FAIL \/ status_of u' t = ERROR) /\ z = (-1)%Z
  /\ ((forall x, In x b -> complaint x = None) -> thrown sc = None -> record_of u' t = (m, l, base_name f)).
Proof.
  intros E u u' z t F ND P I sc a f l m b S M.
  destruct (failing_verdict E u u' z t F ND P I (SFail f l m)) as [V Z]; [fold sc; rewrite S; apply in_or_app; right; left; reflexivity|reflexivity|exact M|].
  split; [destruct (thrown _) in V; auto|]. split; [exact Z|]. intros N TH. exact (recorded E u u' z t F ND P I a (SFail f l m) b _ S eq_refl N TH).
Qed.
Print Assumptions C78_fail_partial.

(** The step after FAIL is executed. *)
Theorem C78_returns_refuted : forall E u u' z t, fresh u -> NoDup (selection u) -> performUnitTests E u = (u', z) -> In t (selection u) ->
  let sc := beh E t (t_runs (caseof u t)) in
  forall pre f l m next post, sc_test sc = pre ++ SFail f l m :: next :: post ->
  escapes (sc_setup sc) = None -> Forall goes_on pre -> exists T, history u u' T /\ In (EvStmt t next) T.
Proof. exact fail_continues. Qed.
Print Assumptions C78_returns_refuted.

Example C78_witness : let sc := beh demo 4 0 in sc_test sc = [] ++ SFail "a/c.cpp" 9 "wrong" :: SOut "on" :: [] /\ escapes (sc_setup sc) = None
  /\ steps sc = [SCheck false "s.cpp" 1 "c" ""] ++ SFail "a/c.cpp" 9 "wrong" :: [SOut "on"] /\ existsb meddles (steps sc) = false /\ thrown sc = None
  /\ t_outStr (caseof demo_done 4) = "on" /\ record_of demo_done 4 = ("wrong", 9%Z, "c.cpp").
Proof. repeat split; vm_compute; reflexivity. Qed.

(** ** C79 *)

(** A comparison that fails in the body ends it: nothing after it is executed, ... *)
Theorem C79_stops : forall E u u' z t, fresh u -> NoDup (selection u) -> performUnitTests E u = (u', z) -> In t (selection u) ->
  let sc := beh E t (t_runs (caseof u t)) in
  forall pre f l d a post, sc_test sc = pre ++ SCheck false f l d a :: post -> escapes (sc_setup sc) = None -> Forall goes_on pre ->
  exists T T1 T2, history u u' T
    /\ T = T1 ++ (EvSetUp t :: map (EvStmt t) (executed (sc_setup sc)) ++ EvTest t :: map (EvStmt t) (pre ++ [SCheck false f l d a])
                  ++ EvTearDown t :: map (EvStmt t) (executed (sc_teardown sc))) ++ [EvDone t (status_of u' t)] ++ T2
    /\ Forall (fun e => about e <> t) (T1 ++ T2)
    /\ steps sc = executed (sc_setup sc) ++ (pre ++ [SCheck false f l d a]) ++ executed (sc_teardown sc).
Proof. exact check_stops. Qed.
Print Assumptions C79_stops.

(** ... the test fails, and the check is on record. *)
Theorem C79_fails_partial : forall E u u' z t, fresh u -> NoDup (selection u) -> performUnitTests E u = (u', z) -> In t (selection u) ->
  let sc := beh E t (t_runs (caseof u t)) in
  forall pre f l d a post, sc_test sc = pre ++ SCheck false f l d a :: post -> escapes (sc_setup sc) = None -> Forall goes_on pre ->
  existsb meddles (steps sc) = false -> escapes (sc_teardown sc) = None -> (forall x, In x (executed (sc_teardown sc)) -> complaint x = None) ->
  status_of u' t = FAIL /\ z = (-1)%Z /\ record_of u' t = (check_text d (until_nul a), l, base_name f).
Proof. exact check_fails. Qed.
Print Assumptions C79_fails_partial.

(** A check that holds changes nothing but the history of steps. *)
Theorem C79_passing : forall E E' t w, clock E' = clock E -> beh E' t (t_runs (w_case w t)) = no_passes (beh E t (t_runs (w_case w t))) ->
  let a := run E t w in let b := run E' t w in
  w_case a = w_case b /\ w_out a = w_out b /\ w_err a = w_err b /\ w_console a = w_console b /\ w_tick a = w_tick b.
Proof. exact passing_no_effect. Qed.
Print Assumptions C79_passing.

(** EXPECT_THROW, EXPECT_THROW_ANY and EXPECT_NO_THROW that fail do not end the body, ... *)
Theorem C79_throw_checks_refuted : forall E u u' z t, fresh u -> NoDup (selection u) -> performUnitTests E u = (u', z) -> In t (selection u) ->
  let sc := beh E t (t_runs (caseof u t)) in
  forall pre s next post, (exists f l ty, s = SExpectThrow TNothing f l ty) \/ (exists f l, s = SExpectAny None f l) \/ (exists e f l, s = SExpectNone (Some e) f l) ->
  sc_test sc = pre ++ s :: next :: post -> escapes (sc_setup sc) = None -> Forall goes_on pre ->
  fails s = true /\ exists T, history u u' T /\ In (EvStmt t next) T.
Proof.
  intros E u u' z t F ND P I sc pre s next post X S U G.
  assert (Q : goes_on s /\ fails s = true) by (destruct X as [(f & l & ty & ->)|[(f & l & ->)|([e|] & f & l & ->)]]; repeat split).
  split; [apply Q|]. exact (continues E u u' z t F ND P I pre s next post S U G (proj1 Q)).
Qed.
Print Assumptions C79_throw_checks_refuted.

(** ... the last failure is on record, not the first, ... *)
Theorem C79_last_refuted : forall E u u' z t, fresh u -> NoDup (selection u) -> performUnitTests E u = (u', z) -> In t (selection u) ->
  let sc := beh E t (t_runs (caseof u t)) in
  forall a s b c, steps sc = a ++ s :: b -> complaint s = Some c -> (forall x, In x b -> complaint x = None) -> thrown sc = None ->
  record_of u' t = c.
Proof. exact recorded. Qed.
Print Assumptions C79_last_refuted.

(** ... and after a failed check in SetUp the body is executed. *)
Theorem C79_setup_refuted : forall E u u' z t, fresh u -> NoDup (selection u) -> performUnitTests E u = (u', z) -> In t (selection u) ->
  let sc := beh E t (t_runs (caseof u t)) in
  forall pre f l d a post s body, sc_setup sc = pre ++ SCheck false f l d a :: post -> Forall goes_on pre -> sc_test sc = s :: body ->
  exists T, history u u' T /\ In (EvTest t) T /\ In (EvStmt t s) T.
Proof. exact setup_check. Qed.
Print Assumptions C79_setup_refuted.

Example C79_witness : let sc := beh demo 1 0 in let sc5 := beh demo 5 0 in let sc4 := beh demo 4 0 in
  sc_test sc = [SCheck true "a/b.cpp" 4 "EXPECT_EQ" ""] ++ SCheck false "a/b.cpp" 5 "EXPECT_LT: 2 < 1" "2" :: [SOut "not reached"]
  /\ escapes (sc_setup sc) = None /\ Forall goes_on [SCheck true "a/b.cpp" 4 "EXPECT_EQ" ""] /\ existsb meddles (steps sc) = false
  /\ escapes (sc_teardown sc) = None /\ executed (sc_teardown sc) = [SErr "down"]
  /\ status_of demo_done 1 = FAIL /\ record_of demo_done 1 = (("EXPECT_LT: 2 < 1 (Actually " ++ q "2" ++ ")")%string, 5%Z, "b.cpp")
  /\ sc_test sc5 = [] ++ SExpectThrow TNothing "x.cpp" 2 "int" :: SOut "on" :: [SCheck false "y.cpp" 3 "later" ""]
  /\ t_outStr (caseof demo_done 5) = "on" /\ record_of demo_done 5 = ("later", 3%Z, "y.cpp")
  /\ sc_setup sc4 = [] ++ SCheck false "s.cpp" 1 "c" "" :: [] /\ sc_test (no_passes sc) = [SCheck false "a/b.cpp" 5 "EXPECT_LT: 2 < 1" "2"; SOut "not reached"].
Proof. repeat split; try (vm_compute; reflexivity). repeat constructor. Qed.

(** ** C80 *)

(** [units x] is the value of x in units of 2^-1074, [one_unit] is the number 1.
    Accepted numbers differ by less than 1/10000, but for rounding (a relative error of 2^-53),
    unless both are below 2/10000: then by less than 2/10000. *)
Theorem C80_near_partial : forall x y, number x -> number y -> float_eq x y = Some true ->
  (2 ^ 53 * (10000 * Z.abs (units x - units y) - 2 * one_unit) < 10000 * (Z.abs (units x) + Z.abs (units y)))%Z
  /\ (2 * one_unit <= 10000 * Z.abs (units x) ->
      2 ^ 53 * (10000 * Z.abs (units x - units y) - one_unit) < 10000 * (Z.abs (units x) + Z.abs (units y)))%Z.
Proof. exact near. Qed.
Print Assumptions C80_near_partial.

(** A number is equal to itself, up to 2^62/10000; ... *)
Theorem C80_same_partial : forall x, number x -> (10000 * Z.abs (units x) <= 2 ^ 62 * one_unit)%Z -> float_eq x x = Some true.
Proof. exact same_accepted. Qed.
Print Assumptions C80_same_partial.

(** ... but next to every whole number there is one 2^-22 away that is rejected, ... *)
Theorem C80_close_refuted : forall k x y, (1 <= k <= 200000)%Z -> number x -> number y -> units x = (k * one_unit)%Z -> units y = (k * one_unit - 2 ^ 1052)%Z ->
  float_eq x y = Some false /\ (10000 * Z.abs (units x - units y) < one_unit)%Z.
Proof. exact close_rejected. Qed.
Print Assumptions C80_close_refuted.

(** ... numbers up to 9/100000 are accepted as equal, those of opposite sign with a difference of
    18/100000 too, ... *)
Theorem C80_small_refuted : forall x y, number x -> number y -> (100000 * Z.abs (units x) <= 9 * one_unit)%Z -> (100000 * Z.abs (units y) <= 9 * one_unit)%Z ->
  float_eq x y = Some true.
Proof. exact tiny_accepted. Qed.
Print Assumptions C80_small_refuted.

(** ... and EXPECT_FLOAT_EQ(x + 0.0, x) fails: the arguments are not put in parentheses. *)
Theorem C80_sum_refuted : forall x, number x -> (one_unit <= Z.abs (units x))%Z -> (10000 * Z.abs (units x) <= 2 ^ 62 * one_unit)%Z ->
  float_eq_sum x (S754_zero false) x = Some false.
Proof. exact sum_rejected. Qed.
Print Assumptions C80_sum_refuted.

(** 1 and 1 - 2^-22; 2^-14 (6.1/100000) and its opposite; 1.5 and 1.50006; 1 and 1.0002. *)
Example C80_witness :
  let one := S754_finite false 4503599627370496 (-52) in let less := S754_finite false 9007197107257344 (-53) in
  let small := S754_finite false 4503599627370496 (-66) in let opp := S754_finite true 4503599627370496 (-66) in
  let a := S754_finite false 6755399441055744 (-52) in let b := S754_finite false 6755669657033386 (-52) in let c := S754_finite false 4504500347295970 (-52) in
  Forall number [one; less; small; opp; a; b; c] /\ units one = (1 * one_unit)%Z /\ units less = (1 * one_unit - 2 ^ 1052)%Z
  /\ (100000 * Z.abs (units small) <= 9 * one_unit)%Z /\ (one_unit < 10000 * Z.abs (units small - units opp))%Z
  /\ float_eq a b = Some true /\ float_eq one c = Some false /\ (10000 * Z.abs (units one) <= 2 ^ 62 * one_unit)%Z
  /\ float_eq_sum one (S754_zero false) one = Some false.
Proof. cbv zeta. split; [repeat constructor|]. repeat match goal with |- _ /\ _ => split end; vm_compute; first [reflexivity|intro; discriminate]. Qed.

(** ** C81 *)

(** One test: its output is recorded for it and for nobody else, and the streams are restored. *)
Theorem C81_one_test : forall E u t n f u' n' f', on_console u -> run_one E t (u, n, f) = (u', n', f') ->
  on_console u' /\ (forall v, v <> t -> caseof u' v = caseof u v)
  /\ (u_capture u = true ->
      t_outStr (caseof u' t) = (t_outCap (caseof u t) ++ written Out (steps (beh E t (t_runs (caseof u t)))))%string
      /\ t_errStr (caseof u' t) = (t_errCap (caseof u t) ++ written Err (steps (beh E t (t_runs (caseof u t)))))%string).
Proof. exact one_restores. Qed.
Print Assumptions C81_one_test.

(** A whole run: the streams are restored, no captured text is on the console, and tests that
    were not run keep what they had. *)
Theorem C81_run : forall E u u' z, on_console u -> performUnitTests E u = (u', z) ->
  on_console u'
  /\ (exists L, output u u' L /\ (u_capture u = true -> Forall (fun c => ch_origin c = Framework) L)
      /\ Forall (fun c => ch_origin c = Framework \/ exists T t, history u u' T /\ In t (started T) /\ ch_origin c = Test t) L)
  /\ exists T, history u u' T /\ forall v, ~ In v (started T) -> t_outStr (caseof u' v) = t_outStr (caseof u v) /\ t_errStr (caseof u' v) = t_errStr (caseof u v).
Proof. exact attributed. Qed.
Print Assumptions C81_run.

(** The streams lead where they led before, wherever that was: stdout and stderr may each have been
    redirected already. *)
Theorem C81_restored : forall E u, (forall t n f u' n' f', run_one E t (u, n, f) = (u', n', f') -> dests u' = dests u)
  /\ (forall u' z, performUnitTests E u = (u', z) -> dests u' = dests u) /\ (forall name, dests (fst (performTest E name u)) = dests u).
Proof. intros E u. split; [|split]; [exact (dests_one E u)|exact (dests_perform E u)|intro n; exact (dests_single E n u)]. Qed.
Print Assumptions C81_restored.

Example C81_restored_witness : let u := in_world (set_dests Console (Capture 9)) demo_unit in
  dests u = (Console, Capture 9) /\ dests (fst (performUnitTests demo u)) = (Console, Capture 9).
Proof. split; vm_compute; reflexivity. Qed.

Example C81_witness : map (fun t => t_outStr (caseof demo_done t)) [0; 1; 2; 3; 4; 5]%nat = ["hello"; "up"; ""; ""; "on"; "on"]
  /\ map (fun t => t_errStr (caseof demo_done t)) [0; 1; 2; 3; 4; 5]%nat = [""; "down"; "noise"; ""; ""; ""].
Proof. split; vm_compute; reflexivity. Qed.

(** ** C82 *)

(** TearDown is executed unless SetUp or the body throws.  Missing: that case, next. *)
Theorem C82_teardown_partial : forall E u u' z t, fresh u -> NoDup (selection u) -> performUnitTests E u = (u', z) -> In t (selection u) ->
  let sc := beh E t (t_runs (caseof u t)) in
  exists T, history u u' T /\ In (EvSetUp t) T /\ (In (EvTearDown t) T <-> escapes (sc_setup sc) = None /\ escapes (sc_test sc) = None).
Proof. exact teardown_iff. Qed.
Print Assumptions C82_teardown_partial.

(** If the body throws, SetUp was executed and TearDown is not. *)
Theorem C82_exception_refuted : forall E u u' z t, fresh u -> NoDup (selection u) -> performUnitTests E u = (u', z) -> In t (selection u) ->
  let sc := beh E t (t_runs (caseof u t)) in
  escapes (sc_test sc) <> None -> exists T, history u u' T /\ In (EvSetUp t) T /\ ~ In (EvTearDown t) T.
Proof.
  intros E u u' z t F ND P I sc X. destruct (teardown_iff E u u' z t F ND P I) as (T & H & S & Q). exists T. split; [exact H|]. split; [exact S|].
  fold sc in Q. rewrite Q. intros [_ Y]. contradiction.
Qed.
Print Assumptions C82_exception_refuted.

Definition thrower : env := mkEnv (fun _ _ => mkScript [SOut "up"] [SThrow None] [SOut "down"]) (clock demo) (seconds demo) (can_write demo).
Example C82_witness : escapes (sc_test (beh thrower 0 0)) = Some None
  /\ w_trace (u_world (fst (performUnitTests thrower (set_select [0%nat] demo_unit)))) = [EvSetUp 0; EvStmt 0 (SOut "up"); EvTest 0; EvStmt 0 (SThrow None); EvDone 0 ERROR].
Proof. split; vm_compute; reflexivity. Qed.

(** ** C83 *)

(** Two readings of a clock that wraps at midnight, less than a day apart, ... *)
Theorem C83_midnight : forall x y, (x <= y < x + 86400000)%Z -> elapsed (x mod 86400000) (y mod 86400000) = (y - x)%Z.
Proof. exact elapsed_day. Qed.
Print Assumptions C83_midnight.
(** ... and of one that does not. *)
Theorem C83_forward : forall x y, (x <= y)%Z -> elapsed x y = (y - x)%Z.
Proof. exact elapsed_forward. Qed.
Print Assumptions C83_forward.

(** The two times of a test are readings during its run, unless SetUp throws.  Missing: that
    case, next. *)
Theorem C83_test_time_partial : forall E u u' z t, fresh u -> NoDup (selection u) -> performUnitTests E u = (u', z) -> In t (selection u) ->
  let sc := beh E t (t_runs (caseof u t)) in
  escapes (sc_setup sc) = None -> exists n m, (n < m <= n + 2)%nat /\ t_begin (caseof u' t) = clock E n /\ t_end (caseof u' t) = clock E m.
Proof. exact test_time. Qed.
Print Assumptions C83_test_time_partial.

(** If SetUp throws, the beginning is that of an earlier run, or 0. *)
Theorem C83_setup_throws_refuted : forall E u u' z t, fresh u -> NoDup (selection u) -> performUnitTests E u = (u', z) -> In t (selection u) ->
  let sc := beh E t (t_runs (caseof u t)) in
  forall e, escapes (sc_setup sc) = Some e -> exists n, t_begin (caseof u' t) = t_begin (caseof u t) /\ t_end (caseof u' t) = clock E n.
Proof. exact setup_time. Qed.
Print Assumptions C83_setup_throws_refuted.

Example C83_witness : let c t := caseof demo_done t in
  escapes (sc_setup (beh demo 1 0)) = None /\ elapsed (t_begin (c 1%nat)) (t_end (c 1%nat)) = 1%Z
  /\ escapes (sc_setup (beh demo 3 0)) = Some (Some "boom") /\ t_begin (c 3%nat) = 0%Z /\ elapsed (t_begin (c 3%nat)) (t_end (c 3%nat)) = 1006%Z
  /\ elapsed 86399990 10 = 20%Z.
Proof. repeat split; vm_compute; reflexivity. Qed.

(** ** C84 *)

Theorem C84_detect : forall dir n r u, (dir = "" \/ exists d, dir = (d ++ "/")%string) ->
  has_char "/" n = false -> has_char "/" r = false -> has_char "." n = false -> (r = "" \/ exists x, r = String "." x) ->
  detectTestName (dir ++ n ++ r) u = set_names n n u.
Proof. exact detect. Qed.
Print Assumptions C84_detect.

Example C84_witness : u_name (detectTestName "/usr/bin.d/stack_test.exe.old" demo_unit) = "stack_test" /\ u_id (detectTestName "fut" demo_unit) = "fut".
Proof. split; vm_compute; reflexivity. Qed.

(** ** C91 *)

(** main: a command line that is refused gives 1 and no test is run; ... *)
Theorem C91_refused : forall E exe os args bad u, command_line decimal_level os args -> Forall (valid (u_byName u)) os -> refused (u_byName u) bad ->
  exists u', main E (exe :: args ++ bad) u = ROk u' 1%Z /\ history u u' [].
Proof. intros E exe os args bad u C. apply main_refuses. now apply decimal_command_line. Qed.
Print Assumptions C91_refused.

(** ... one that is accepted gives 0 if all tests it selects pass, and -1 otherwise. *)
Theorem C91_accepted : forall E exe os args u, command_line decimal_level os args -> Forall (valid (u_byName u)) os -> fresh u ->
  let v := effects os (detectTestName exe u) in
  exists u' z T, main E (exe :: args) u = ROk u' z /\ history u u' T
    /\ (z = 0%Z \/ z = (-1)%Z) /\ (z = 0%Z <-> forall t s, In (t, s) (verdicts T) -> s = SUCCESS)
    /\ (forall t, In t (selection v) <-> exists s, In (t, s) (verdicts T)).
Proof. intros E exe os args u C. apply main_runs. now apply decimal_command_line. Qed.
Print Assumptions C91_accepted.

(** A program started with no arguments at all, not even its name, runs what is selected. *)
Theorem C91_no_arguments : forall E u, fresh u ->
  exists u' z T, main E [] u = ROk u' z /\ history u u' T
    /\ (z = 0%Z \/ z = (-1)%Z) /\ (z = 0%Z <-> forall t s, In (t, s) (verdicts T) -> s = SUCCESS)
    /\ (forall t, In t (selection u) <-> exists s, In (t, s) (verdicts T)).
Proof. exact main_bare. Qed.
Print Assumptions C91_no_arguments.

Example C91_witness : (exists u', main demo ["t/fut"; "-q"; "-t"; "Stack::push"] demo_unit = ROk u' 0%Z)
  /\ (exists u', main demo ["t/fut"; "-q"] demo_unit = ROk u' (-1)%Z) /\ (exists u', main demo ["t/fut"; "-q"; "-z"] demo_unit = ROk u' 1%Z).
Proof. repeat split; vm_compute; eexists; reflexivity. Qed.

(** ** C92 *)

(** performTest runs the test of that name, once, and nothing else, ... *)
Theorem C92_perform : forall E u name t, on_console u -> lookup name (u_byName u) = Some t -> In t (u_tests u) ->
  let sc := beh E t (t_runs (caseof u t)) in
  exists u' z, performTest E name u = (u', Some z)
  /\ history u u' (events t sc)
  /\ (existsb meddles (steps sc) = false ->
      status_of u' t = verdict sc (if u_capture u then (t_errCap (caseof u t) ++ written Err (before_teardown sc))%string else t_errCap (caseof u t)))
  /\ (z = 0%Z \/ z = (-1)%Z) /\ (z = 0%Z <-> status_of u' t = SUCCESS) /\ on_console u'.
Proof. exact perform_one. Qed.
Print Assumptions C92_perform.

(** ... and throws if there is none. *)
Theorem C92_unknown : forall E u name, lookup name (u_byName u) = None ->
  exists u', performTest E name u = (u', None) /\ history u u' [] /\ output u u' [].
Proof. exact perform_unknown. Qed.
Print Assumptions C92_unknown.

Example C92_witness : lookup "Log::fail" (u_byName demo_unit) = Some 4%nat /\ In 4%nat (u_tests demo_unit) /\ lookup "Log" (u_byName demo_unit) = None
  /\ snd (performTest demo "Log::fail" demo_unit) = Some (-1)%Z /\ snd (performTest demo "Stack::push" demo_unit) = Some 0%Z.
Proof. repeat split; vm_compute; tauto. Qed.

(** ** C93 *)

(** Tests are registered in order, under component::case; a name means the first test that got
    it. *)
Theorem C93_registered : forall l w n, let u := register l (unit0 w) in
  u_tests u = map snd l /\ lookup n (u_byName u) = first_named n l
  /\ (NoDup (map snd l) -> forall r, In r l -> name_of u (snd r) = full_name r /\ comp_of u (snd r) = fst (fst r)).
Proof.
  intros l w n. cbv zeta. split; [apply register_tests|]. split; [rewrite register_lookup; reflexivity|]. intro ND. apply register_names, ND.
Qed.
Print Assumptions C93_registered.

(** -t name selects that test. *)
Theorem C93_selects : forall l w n t, first_named n l = Some t -> parseParams ["-t"; n] (register l (unit0 w)) = ROk (set_select [t] (register l (unit0 w))) 0%Z.
Proof. exact selects_first. Qed.
Print Assumptions C93_selects.

Example C93_witness : let l := [("A", "x", 7%nat); ("B", "x", 8%nat); ("A", "x", 9%nat)] in first_named "A::x" l = Some 7%nat /\ NoDup (map snd l).
Proof. split; [reflexivity|]. cbn. repeat constructor; cbn; intuition discriminate. Qed.

(** ** C109 *)

(** The report of a first run has one test case for each test that was started, in that order, in
    the suite of its component, with a failure if the status of the test is not SUCCESS. *)
Theorem C109_report_partial : forall E u u' z, fresh u -> performUnitTests E u = (u', z) ->
  exists T, history u u' T /\ entries "" (report_xml u') =
    map (fun t => (comp_of u t, comp_of u t, t_case (caseof u t), reported_failure (status_of u' t) (record_of u' t))) (started T).
Proof. exact xml_entries. Qed.
Print Assumptions C109_report_partial.

(** If no test is selected twice, what it says of a test is what the test did.  Missing: tests
    selected twice, next, and later runs (C75_repeated_refuted). *)
Theorem C109_test_partial : forall E u u' z t, fresh u -> NoDup (selection u) -> performUnitTests E u = (u', z) -> In t (selection u) ->
  let c := caseof u t in let sc := beh E t (t_runs c) in existsb meddles (steps sc) = false ->
  In (comp_of u t, comp_of u t, t_case c,
      reported_failure (verdict sc (if u_capture u then (t_errCap c ++ written Err (before_teardown sc))%string else t_errCap c))
                       (on_record sc (record_of u t))) (entries "" (report_xml u')).
Proof. exact xml_entry. Qed.
Print Assumptions C109_test_partial.

(** A test selected twice gets two entries that say the same, whatever its two runs did, ... *)
Theorem C109_twice_refuted : forall E u u' z t, fresh u -> selection u = [t; t] -> performUnitTests E u = (u', z) ->
  exists e, entries "" (report_xml u') = [e; e].
Proof. exact xml_twice. Qed.
Print Assumptions C109_twice_refuted.

(** ... here one failure and one success. *)
Example C109_witness : let E := mkEnv (fun t k => if (k =? 0)%nat then beh demo 4 0 else beh demo 0 0) (clock demo) (seconds demo) (can_write demo) in
  let u := set_select [0; 0]%nat demo_unit in
  verdicts (w_trace (u_world (fst (performUnitTests E u)))) = [(0%nat, FAIL); (0%nat, SUCCESS)]
  /\ entries "" (report_xml (fst (performUnitTests E u))) = [("Stack", "Stack", "push", None); ("Stack", "Stack", "push", None)]
  /\ entries "" (report_xml demo_done) =
      [("Futex", "Futex", "signal", Some ("EXPECT_LT: 2 < 1 (Actually ""2"")", "FAIL", "b.cpp", 5%Z)); ("Log", "Log", "setup", Some ("boom", "EXCEMPTION", "", 0%Z));
       ("Log", "Log", "fail", Some ("wrong", "FAIL", "c.cpp", 9%Z)); ("Stack", "Stack", "push", None);
       ("Stack", "Stack", "pop", Some ("", "STREAM-ERROR", "", 0%Z)); ("Stack", "Stack", "throw", Some ("later", "FAIL", "y.cpp", 3%Z))].
Proof. repeat split; vm_compute; reflexivity. Qed.
