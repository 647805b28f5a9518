(** * Proofs about the XML report as a document. *)

From Coq Require Import ZArith String Ascii Bool List Arith Lia Sorting.Permutation Sorted.
From Verif Require Import TextModel TextFacts FutModel FutSpec FutProofs FutRun FutClose FutMore FutXml FutConsoleSpec FutTimesSpec FutConsole FutReportSpec.
Import ListNotations.
Open Scope string_scope.
Open Scope list_scope.

Lemma feeds_app : forall a b r, feeds r (a ++ b) = match feeds r a with Some r' => feeds r' b | None => None end.
Proof. induction a as [|c a IH]; intros b r; [reflexivity|]. cbn [append feeds]. destruct (feed r c); [apply IH|reflexivity]. Qed.
Lemma feeds_step : forall a b r r', feeds r a = Some r' -> feeds r (a ++ b) = feeds r' b.
Proof. intros a b r r' H. now rewrite feeds_app, H. Qed.

Lemma append_nil_r : forall s, (s ++ "")%string = s.
Proof. induction s as [|c s IH]; [reflexivity|]. cbn. now rewrite IH. Qed.

Lemma feeds_value : forall s o n l x at0 m, plain s = true ->
  feeds (mkReader (AttrValue o n l) x at0 m) s = Some (mkReader (AttrValue o n l) (x ++ s) at0 m).
Proof.
  induction s as [|c s IH]; intros o n l x at0 m H; [now rewrite append_nil_r|]. cbn [plain] in H. apply andb_true_iff in H. destruct H as [C H].
  destruct (plain_char_spec c C) as (L & A & B & Q & _). cbn [feeds]. unfold feed. cbn [rd_place read]. rewrite Q, A, B, L. cbn [orb negb rd_text rd_attrs rd_marks].
  replace (match l with [] => _ | _ => _ end) with (mkReader (AttrValue o n l) (x ++ String c "") at0 m) by (now destruct l). rewrite IH by exact H. now rewrite str_app_assoc.
Qed.
Lemma feeds_content : forall s o x m, plain s = true -> feeds (mkReader (Content o 0) x [] m) s = Some (mkReader (Content o 0) (x ++ s) [] m).
Proof.
  induction s as [|c s IH]; intros o x m H; [now rewrite append_nil_r|]. cbn [plain] in H. apply andb_true_iff in H. destruct H as [C H].
  destruct (plain_char_spec c C) as (L & A & B & _ & K). cbn [feeds]. unfold feed. cbn [rd_place read]. rewrite A, B, L, K. cbn [orb negb Nat.leb]. rewrite andb_false_r.
  cbn [rd_text rd_attrs rd_marks]. rewrite IH by exact H. now rewrite str_app_assoc.
Qed.
Lemma feeds_q : forall s o n a l x at0 m, plain s = true ->
  feeds (mkReader (AfterEq o n (a :: l)) x at0 m) (q s) = Some (mkReader (AfterValue o n (a :: l)) "" (at0 ++ [(a, s)]) m).
Proof.
  intros s o n a l x at0 m H. unfold q. rewrite !feeds_app.
  change (feeds (mkReader (AfterEq o n (a :: l)) x at0 m) (String (ascii_of_nat 34) "")) with (Some (mkReader (AttrValue o n (a :: l)) "" at0 m)). cbv iota beta.
  rewrite feeds_app, feeds_value by exact H. reflexivity.
Qed.

(** ** Pieces *)

Section Report.
Variable E : env.
Hypothesis SP : forall p z, plain (seconds E p z) = true.

Definition piece_marks (x : xml) : list mark :=
  match x with
  | XHead => []
  | XSuites id name n f ms => [Start "testsuites" [("id", id); ("name", name); ("tests", dec n); ("failures", dec f); ("time", seconds E 6 ms)]]
  | XSuite id name n f ms => [Start "testsuite" [("id", (id ++ "." ++ name)%string); ("name", name); ("tests", dec n); ("failures", dec f); ("time", seconds E 6 ms)]]
  | XCase id comp case ms => [Start "testcase" [("id", (id ++ "." ++ comp ++ "." ++ case)%string); ("name", case); ("time", seconds E 6 ms)]]
  | XFailure d ty file line => element "failure" [("message", d); ("type", ty)] [Chars (nl ++ d ++ nl ++ "File: " ++ file ++ nl ++ "Line: " ++ dec line ++ nl)%string]
  | XCaseEnd => [End "testcase"]
  | XSuiteEnd => [End "testsuite"]
  | XSuitesEnd => [End "testsuites"]
  end.

Ltac fixed t := let H := fresh in assert (H : t) by reflexivity; rewrite (feeds_step _ _ _ _ H); clear H.
Ltac plains := rewrite ?plain_app, ?dec_plain, ?SP; repeat (apply andb_true_intro; split); auto.
Ltac value := erewrite feeds_step by (apply feeds_q; plains); cbn [app].
Ltac content := erewrite feeds_step by (apply feeds_content; plains).

Lemma piece_feeds : forall x p p' b m, plain_token x -> piece x p = Some p' -> b = "" \/ b = nl ->
  exists b', (b' = "" \/ b' = nl) /\ feeds (mkReader p b [] m) (xml_text E x) = Some (mkReader p' b' [] (m ++ piece_marks x)).
Proof.
  intros x p p' b m T H B.
  destruct x as [|id name n f ms|id name n f ms|id comp case ms|d ty file line| | |]; cbn [piece] in H; try discriminate H; cbn [plain_token] in T; unfold xml_text.
  - destruct p as [[|]| | | | | | | | |]; try discriminate H. injection H as <-. destruct T as [T1 T2]. exists nl. split; [now right|].
    fixed (feeds (mkReader (Outside false) b [] m) "<testsuites id=" = Some (mkReader (AfterEq [] "testsuites" ["id"]) b [] m)). value.
    match goal with |- feeds (mkReader _ _ ?l _) _ = _ => fixed (feeds (mkReader (AfterValue [] "testsuites" ["id"]) "" l m) " name=" = Some (mkReader (AfterEq [] "testsuites" ["name"; "id"]) "" l m)) end. value.
    match goal with |- feeds (mkReader _ _ ?l _) _ = _ => fixed (feeds (mkReader (AfterValue [] "testsuites" ["name"; "id"]) "" l m) " tests=" = Some (mkReader (AfterEq [] "testsuites" ["tests"; "name"; "id"]) "" l m)) end. value.
    match goal with |- feeds (mkReader _ _ ?l _) _ = _ => fixed (feeds (mkReader (AfterValue [] "testsuites" ["tests"; "name"; "id"]) "" l m) " failures=" = Some (mkReader (AfterEq [] "testsuites" ["failures"; "tests"; "name"; "id"]) "" l m)) end. value.
    match goal with |- feeds (mkReader _ _ ?l _) _ = _ => fixed (feeds (mkReader (AfterValue [] "testsuites" ["failures"; "tests"; "name"; "id"]) "" l m) " time=" = Some (mkReader (AfterEq [] "testsuites" ["time"; "failures"; "tests"; "name"; "id"]) "" l m)) end. value.
    reflexivity.
  - destruct p as [|o k| | | | | | | |]; try discriminate H. injection H as <-. destruct T as [T1 T2]. exists nl. split; [now right|].
    assert (BB : feeds (mkReader (Content o k) b [] m) "<testsuite id=" = Some (mkReader (AfterEq o "testsuite" ["id"]) "" [] m)).
    { destruct B as [-> | ->]; cbn -[app]; now rewrite app_nil_r. }
    rewrite (feeds_step _ _ _ _ BB). clear BB. value.
    match goal with |- feeds (mkReader _ _ ?l _) _ = _ => fixed (feeds (mkReader (AfterValue o "testsuite" ["id"]) "" l m) " name=" = Some (mkReader (AfterEq o "testsuite" ["name"; "id"]) "" l m)) end. value.
    match goal with |- feeds (mkReader _ _ ?l _) _ = _ => fixed (feeds (mkReader (AfterValue o "testsuite" ["name"; "id"]) "" l m) " tests=" = Some (mkReader (AfterEq o "testsuite" ["tests"; "name"; "id"]) "" l m)) end. value.
    match goal with |- feeds (mkReader _ _ ?l _) _ = _ => fixed (feeds (mkReader (AfterValue o "testsuite" ["tests"; "name"; "id"]) "" l m) " failures=" = Some (mkReader (AfterEq o "testsuite" ["failures"; "tests"; "name"; "id"]) "" l m)) end. value.
    match goal with |- feeds (mkReader _ _ ?l _) _ = _ => fixed (feeds (mkReader (AfterValue o "testsuite" ["failures"; "tests"; "name"; "id"]) "" l m) " time=" = Some (mkReader (AfterEq o "testsuite" ["time"; "failures"; "tests"; "name"; "id"]) "" l m)) end. value.
    reflexivity.
  - destruct p as [|o k| | | | | | | |]; try discriminate H. injection H as <-. destruct T as (T1 & T2 & T3). exists nl. split; [now right|].
    assert (BB : feeds (mkReader (Content o k) b [] m) "<testcase id=" = Some (mkReader (AfterEq o "testcase" ["id"]) "" [] m)).
    { destruct B as [-> | ->]; cbn -[app]; now rewrite app_nil_r. }
    rewrite (feeds_step _ _ _ _ BB). clear BB. value.
    match goal with |- feeds (mkReader _ _ ?l _) _ = _ => fixed (feeds (mkReader (AfterValue o "testcase" ["id"]) "" l m) " name=" = Some (mkReader (AfterEq o "testcase" ["name"; "id"]) "" l m)) end. value.
    match goal with |- feeds (mkReader _ _ ?l _) _ = _ => fixed (feeds (mkReader (AfterValue o "testcase" ["name"; "id"]) "" l m) " time=" = Some (mkReader (AfterEq o "testcase" ["time"; "name"; "id"]) "" l m)) end. value.
    reflexivity.
  - destruct p as [|[|m0 o] k| | | | | | | |]; try discriminate H. injection H as <-. destruct T as (T1 & T2 & T3). exists nl. split; [now right|].
    assert (BB : feeds (mkReader (Content (m0 :: o) k) b [] m) "<failure message=" = Some (mkReader (AfterEq (m0 :: o) "failure" ["message"]) "" [] m)).
    { destruct B as [-> | ->]; cbn -[app]; now rewrite app_nil_r. }
    rewrite (feeds_step _ _ _ _ BB). clear BB. value.
    match goal with |- feeds (mkReader _ _ ?l _) _ = _ => fixed (feeds (mkReader (AfterValue (m0 :: o) "failure" ["message"]) "" l m) " type=" = Some (mkReader (AfterEq (m0 :: o) "failure" ["type"; "message"]) "" l m)) end. value.
    match goal with |- feeds (mkReader _ _ ?l _) _ = _ => fixed (feeds (mkReader (AfterValue (m0 :: o) "failure" ["type"; "message"]) "" l m) ">" = Some (mkReader (Content ("failure" :: m0 :: o) 0) "" [] (m ++ [Start "failure" l]))) end.
    content. content. content. content. content. content. content. content. content.
    set (big := (((((((((_ ++ _) ++ _) ++ _) ++ _) ++ _) ++ _) ++ _) ++ _) ++ _)%string).
    assert (BT : blank_text big = false).
    { assert (BA : forall a b, blank_text (a ++ b) = blank_text a && blank_text b) by (induction a as [|c a IH]; intro b0; [reflexivity|]; cbn [append blank_text]; now rewrite IH, andb_assoc).
      subst big. rewrite !BA. replace (blank_text "File: ") with false by reflexivity. rewrite !andb_false_r. reflexivity. }
    assert (BE : big = (nl ++ d ++ nl ++ "File: " ++ file ++ nl ++ "Line: " ++ dec line ++ nl)%string) by (subst big; rewrite !str_app_assoc; reflexivity).
clearbody big. cbn [piece_marks]. rewrite <- BE. clear BE.
    match goal with |- feeds (mkReader _ _ _ ?m1) _ = _ =>
      change (feeds (mkReader (TagStart ("failure" :: m0 :: o)) "" [] (m1 ++ if blank_text big then [] else [Chars big])) ("/failure>" ++ nl) =
              Some (mkReader (Content (m0 :: o) 0) nl [] (m ++ element "failure" [("message", d); ("type", ty)] [Chars big]))) end.
    rewrite BT. match goal with |- feeds (mkReader _ _ _ ?m1) _ = _ => set (m2 := m1) end.
    change (Some (mkReader (Content (m0 :: o) 0) nl [] (m2 ++ [End "failure"])) = Some (mkReader (Content (m0 :: o) 0) nl [] (m ++ element "failure" [("message", d); ("type", ty)] [Chars big]))).
    subst m2. unfold element. rewrite <- !app_assoc. reflexivity.
  - exists nl. split; [now right|]. destruct p as [|[|n [|m0 o]] k| | | | | | | |]; try discriminate H. destruct (String.eqb_spec "testcase" n) as [<-|]; [|discriminate H]. injection H as <-.
    destruct B as [-> | ->]; cbn -[app]; now rewrite app_nil_r.
  - exists nl. split; [now right|]. destruct p as [|[|n [|m0 o]] k| | | | | | | |]; try discriminate H. destruct (String.eqb_spec "testsuite" n) as [<-|]; [|discriminate H]. injection H as <-.
    destruct B as [-> | ->]; cbn -[app]; now rewrite app_nil_r.
  - exists "". split; [now left|]. destruct p as [|[|n [|m0 o]] k| | | | | | | |]; try discriminate H. destruct (String.eqb_spec "testsuites" n) as [<-|]; [|discriminate H]. injection H as <-.
    destruct B as [-> | ->]; cbn -[app]; now rewrite app_nil_r.
Qed.

Lemma pieces_feeds : forall l p p' b m, Forall plain_token l -> pieces l p = Some p' -> b = "" \/ b = nl ->
  exists b', (b' = "" \/ b' = nl) /\ feeds (mkReader p b [] m) (xml_file E l) = Some (mkReader p' b' [] (m ++ flat_map piece_marks l)).
Proof.
  induction l as [|x l IH]; intros p p' b m F H B; [injection H as <-; exists b; split; [exact B|]; cbn [flat_map]; now rewrite app_nil_r|]. inversion F; subst. cbn [pieces] in H.
  destruct (piece x p) as [p1|] eqn:P; [|discriminate H]. change (xml_file E (x :: l)) with (xml_text E x ++ xml_file E l)%string.
  destruct (piece_feeds x p p1 b m) as (b1 & B1 & Q); auto. rewrite (feeds_step _ _ _ _ Q).
  destruct (IH p1 p' b1 (m ++ piece_marks x)) as (b2 & B2 & Q2); auto. exists b2. split; [exact B2|]. rewrite Q2. cbn [flat_map]. now rewrite app_assoc.
Qed.

Lemma document_report : forall u, Forall plain_token (report_xml u) -> document (xml_file E (report_xml u)) = Some (flat_map piece_marks (report_xml u)).
Proof.
  intros u F. destruct (report_pieces u) as (l & R & P). rewrite R in F |- *. inversion F; subst.
  change (xml_file E (XHead :: l)) with ((declaration ++ nl) ++ xml_file E l)%string. unfold document. rewrite str_app_assoc, prefix_head, drop_head, feeds_app.
  change (feeds (mkReader (Outside false) "" [] []) nl) with (Some (mkReader (Outside false) "" [] [])). cbv iota beta.
  destruct (pieces_feeds l _ _ "" [] H2 P) as (b & _ & Q); [now left|]. rewrite Q. reflexivity.
Qed.

End Report.

(** ** The whole report *)

Lemma filter_all_true : forall {A} (f : A -> bool) l, (forall x, In x l -> f x = true) -> filter f l = l.
Proof. induction l as [|x l IH]; intro H; [reflexivity|]. cbn [filter]. rewrite (H x (or_introl eq_refl)). f_equal. apply IH. intros y I. apply H. now right. Qed.
Lemma Permutation_filter : forall {A} (f : A -> bool) l l', Permutation l l' -> Permutation (filter f l) (filter f l').
Proof.
  induction 1 as [|x l l' P IH|x y l|l l' l'' P IH P' IH']; cbn [filter]; [constructor| | |now transitivity (filter f l')].
  - destruct (f x); [now constructor|exact IH].
  - destruct (f x), (f y); try reflexivity. apply perm_swap.
Qed.

Lemma names_components : forall E u u' z T, fresh u -> performed E u u' z T -> components u (map c_name (u_comps u')).
Proof.
  intros E u u' z T F PF. pose proof (f_comps _ _ _ _ _ PF) as CR. rewrite (proj1 F) in CR.
  assert (S0 : sorted_comps (comp_of u) (grouped (comp_of u) (selection u) [])) by (apply grouped_sorted; constructor).
  destruct (cr_flat _ _ _ CR) as [_ NN]. rewrite NN. split.
  - clear - S0. induction S0 as [|c l A B S0 IH]; [constructor|]. cbn [map]. constructor; [exact IH|]. apply Forall_forall. intros n I.
    apply in_map_iff in I. destruct I as (d & <- & D). now apply A.
  - intro n. split.
    + intro I. apply in_map_iff in I. destruct I as (d & <- & D). destruct (grouped_named _ _ _ _ D) as [X|(d' & [] & _)]. exact X.
    + intros (t & I & <-).
      assert (J : In t (flat_map c_tests (grouped (comp_of u) (selection u) []))).
      { eapply Permutation_in; [symmetry; apply grouped_perm|exact I]. }
      apply in_flat_map in J. destruct J as [d [D1 D2]]. apply in_map_iff. exists d. split; [|exact D1]. symmetry.
      clear - S0 D1 D2. induction S0 as [|e l A B S0 IH]; [destruct D1|]. destruct D1 as [->|D1]; [now apply B|now apply IH].
Qed.

Lemma sorted_own : forall comp cs c, sorted_comps comp cs -> In c cs -> filter (fun t => String.eqb (comp t) (c_name c)) (flat_map c_tests cs) = c_tests c.
Proof.
  intros comp cs c S0. induction S0 as [|d l A B S0 IH]; intro I; [destruct I|]. cbn [flat_map]. rewrite filter_app. destruct I as [->|I].
  - replace (filter _ (c_tests c)) with (c_tests c).
    2:{ symmetry. apply filter_all_true. intros t J. rewrite (B t J). apply String.eqb_refl. }
    replace (filter _ (flat_map c_tests l)) with (@nil nat); [apply app_nil_r|]. symmetry. apply filter_none. intros t J. apply in_flat_map in J. destruct J as (e & J1 & J2).
    apply String.eqb_neq. intro X.
    assert (Y : comp t = c_name e).
    { clear - S0 J1 J2. induction S0 as [|f l A B S0 IH]; [destruct J1|]. destruct J1 as [->|J1]; [now apply B|now apply IH]. }
    specialize (A e J1). rewrite <- Y, X, scmp_refl in A. discriminate.
  - replace (filter _ (c_tests d)) with (@nil nat); [now apply IH|]. symmetry. apply filter_none. intros t J. apply String.eqb_neq. intro X.
    specialize (A c I). rewrite <- X, (B t J), scmp_refl in A. discriminate.
Qed.

Lemma case_marks : forall E u c t, flat_map (piece_marks E) (case_xml u c t) = case_element (seconds E 6) u (c_name c) t.
Proof.
  intros E u c t. unfold case_xml, case_element, failure_element, element, hasPassed, status_of, record_of. cbn [flat_map app piece_marks].
  destruct (u_errfail u), (t_status (caseof u t)); reflexivity.
Qed.
Lemma not_ok_eq : forall u l, not_ok u l = filter (fun t => negb (is_success (status_of u t))) l.
Proof. intros u l. unfold not_ok. apply filter_ext. intro t. now destruct (status_of u t). Qed.
Lemma suite_marks : forall E u sel c, c_tests c = in_comp u (c_name c) sel -> c_failures c = unpassed u (c_tests c) ->
  flat_map (piece_marks E) (suite_xml u c) = suite_element (seconds E 6) u sel (c_name c, elapsed (c_begin c) (c_end c)).
Proof.
  intros E u sel c T F. unfold suite_xml, suite_element, element, count. cbn [flat_map app piece_marks]. rewrite <- T. unfold len. rewrite F, not_ok_eq. unfold unpassed, len.
  f_equal. rewrite flat_map_app. f_equal. clear T F. induction (c_tests c) as [|t l IH]; [reflexivity|]. cbn [flat_map]. now rewrite flat_map_app, IH, case_marks.
Qed.

Lemma report_document : forall E u u' z, fresh u -> NoDup (selection u) -> performUnitTests E u = (u', z) -> u_xml u <> "" -> can_write E (u_xml u) = true ->
  (forall p ms, plain (seconds E p ms) = true) -> plain (u_id u) = true -> plain (u_name u) = true ->
  (forall t, In t (selection u) -> plain (comp_of u t) = true /\ plain (t_case (caseof u t)) = true
                                   /\ let '(text, _, file) := record_of u' t in plain text = true /\ plain file = true) ->
  exists text, u_files u' = u_files u ++ [(u_xml u, text)] /\ components u (map fst (comp_times u'))
  /\ document text = Some (report_elements (seconds E 6) u' (selection u) (comp_times u') (total_time u')).
Proof.
  intros E u u' z F ND P X W SP I N C. destruct (perform_pair E u u' z (proj2 F) P) as [T PF]. destruct (fresh_started E u u' z T F PF) as [PE _].
  assert (ND' : NoDup (started T)) by (eapply Permutation_NoDup; [symmetry; exact PE|exact ND]).
  pose proof (f_comps _ _ _ _ _ PF) as CR. rewrite (proj1 F) in CR.
  destruct (f_names _ _ _ _ _ PF) as (N1 & N2 & N3).
  assert (SC : sorted_comps (comp_of u) (u_comps u')) by (eapply cr_sorted; [exact CR|apply grouped_sorted; constructor]).
  destruct (cr_counts u' _ _ _ CR (f_final _ _ _ _ _ PF ND')) as [C1 C2]; [apply grouped_zero; intros c []|].
  assert (OWN : forall c, In c (u_comps u') -> c_tests c = in_comp u' (c_name c) (selection u)).
  { intros c J. rewrite <- (sorted_own _ _ c SC J), (proj1 (cr_flat _ _ _ CR)). unfold in_comp.
    rewrite (grouped_filter (comp_of u) (selection u) [] (c_name c) (sc_nil _)). cbn [flat_map filter app]. apply filter_ext. intro t. now rewrite (f_comp _ _ _ _ _ PF). }
  exists (xml_file E (report_xml u')). unfold comp_times, total_time.
  split; [exact (written_file E u u' z (proj2 F) P X W)|]. split.
  - rewrite map_map. exact (names_components E u u' z T F PF).
  - rewrite document_report.
    + f_equal. unfold report_xml, report_elements, element, count. cbn [flat_map app piece_marks]. f_equal.
      * rewrite (f_select _ _ _ _ _ PF), (f_failed _ _ _ _ _ PF). unfold len.
        assert (Q : bad_count T = Z.of_nat (List.length (not_ok u' (selection u)))); [|now rewrite Q].
        unfold bad_count. rewrite not_ok_eq, (bad_unpassed u' (verdicts T) (f_final _ _ _ _ _ PF ND')), (f_verdicts _ _ _ _ _ PF). unfold unpassed, len. f_equal.
        apply Permutation_length. apply Permutation_filter. exact PE.
      * rewrite flat_map_app. f_equal. revert OWN C2. generalize (u_comps u'). induction l as [|c l IH]; intros OWN C2; [reflexivity|]. cbn [flat_map map]. rewrite flat_map_app. f_equal.
        -- apply suite_marks; [apply OWN; now left|apply C2; now left].
        -- apply IH; intros d D; [apply OWN|apply C2]; now right.
    + exact SP.
    + apply plain_report; [rewrite N2; exact I|rewrite N3; exact N|]. intros c J.
      assert (TT : forall t, In t (c_tests c) -> In t (selection u) /\ comp_of u t = c_name c).
      { intros t K. rewrite (OWN c J) in K. apply filter_In in K. destruct K as [K1 K2]. apply String.eqb_eq in K2. rewrite (f_comp _ _ _ _ _ PF) in K2. split; assumption. }
      split.
      * assert (NE : exists t, In t (c_tests c)).
        { destruct (names_components E u u' z T F PF) as [_ NC]. destruct (proj1 (NC (c_name c)) (in_map c_name _ _ J)) as (t & K1 & K2). exists t. rewrite (OWN c J). apply filter_In. split; [exact K1|]. apply String.eqb_eq. rewrite (f_comp _ _ _ _ _ PF). exact K2. }
        destruct NE as [t K]. destruct (TT t K) as [K1 K2]. rewrite <- K2. apply C, K1.
      * intros t K. destruct (TT t K) as [K1 _]. destruct (C t K1) as (A1 & A2 & A3). rewrite (f_case _ _ _ _ _ PF). split; [exact A2|]. unfold record_of in A3. exact A3.
Qed.

(** ** performTest *)

Lemma console_single : forall E u name t u' r, on_console u -> lookup name (u_byName u) = Some t -> In t (u_tests u) -> performTest E name u = (u', r) ->
  output u u' (tests_output E (u_capture u) (u_verbosity u) 1 [(t, caseof u' t)]).
Proof.
  intros E u name t u' r [Ho He] L I P. unfold performTest in P. change (u_byName (init u)) with (u_byName u) in P. rewrite L in P.
  destruct (init_fold (u_tests u) (u_world u)) as (A & B & C & D & F & G & H & _). cbv zeta in A, B, C, D, F, G, H.
  set (u0 := init u) in P.
  change (fold_left (fun w t => on_case t (with_status NONE) w) (u_tests u) (u_world u)) with (u_world u0) in *.
  assert (OC0 : on_console u0) by (split; congruence).
  specialize (H t I). change (w_case (u_world u0) t) with (caseof u0 t) in H. change (w_case (u_world u) t) with (caseof u t) in H.
  assert (CF0 : u_capture u0 = u_capture u /\ u_verbosity u0 = u_verbosity u) by (split; reflexivity).
  assert (K0 : w_console (u_world u0) = w_console (u_world u)) by assumption.
  clearbody u0. destruct OC0 as [Ho0 He0]. destruct CF0 as [CF0 CV0].
  cbv zeta in P. rewrite Ho0, He0 in P. rewrite beginTest_eq in P by (split; assumption).
  assert (NM : t_name (caseof u0 t) = t_name (caseof u t)) by (rewrite H; reflexivity). rewrite NM, CV0 in P.
  rewrite output_single.
  set (bl := begin_lines (u_verbosity u) 1 (t_name (caseof u t))) in P. 
  set (u1 := in_world (tc_begin (u_capture u0) t) (says bl u0)) in P.
  assert (C1 : caseof u1 t = blank (caseof u t)).
  { unfold u1, caseof, tc_begin, in_world. cbn. change (w_case (u_world u0) t) with (caseof u0 t).
    destruct (u_capture u0); onc; rewrite Nat.eqb_refl; change (w_case (u_world u0) t) with (caseof u0 t); rewrite H; reflexivity. }
  assert (K1 : w_console (u_world u1) = w_console (u_world u) ++ framework_says bl).
  { rewrite <- K0. unfold u1, tc_begin, in_world. cbn. destruct (u_capture u0); reflexivity. }
  assert (D1 : w_out (u_world u1) = (if u_capture u then Capture t else Console) /\ w_err (u_world u1) = (if u_capture u then Capture t else Console)).
  { unfold u1, tc_begin, in_world. cbn. rewrite CF0. destruct (u_capture u); onc; auto. }
  assert (F1 : u_capture u1 = u_capture u /\ u_verbosity u1 = u_verbosity u) by (split; assumption).
  clearbody u1. destruct D1 as [Do1 De1]. destruct F1 as [F1 V1].
  set (u1' := in_world tick u1) in P.
  assert (X1 : caseof u1' t = blank (caseof u t) /\ w_console (u_world u1') = w_console (u_world u1) /\ w_out (u_world u1') = w_out (u_world u1) /\ w_err (u_world u1') = w_err (u_world u1) /\ u_capture u1' = u_capture u /\ u_verbosity u1' = u_verbosity u).
  { repeat split; assumption. }
  destruct X1 as (X1 & X2 & X3 & X4 & X5 & X6). generalize dependent (clock E (w_tick (u_world u1))). intros tk P. clearbody u1'. rewrite Do1 in X3. rewrite De1 in X4.
  assert (H1 : here t (w_out (u_world u1')) /\ here t (w_err (u_world u1'))) by (rewrite X3, X4; unfold here; destruct (u_capture u); auto).
  pose proof (run_ran E t (u_world u1') (proj1 H1) (proj2 H1)) as R.
  assert (K2 : w_console (u_world (in_world (run E t) u1')) = w_console (u_world u1') ++ (if u_capture u then [] else own t (steps (beh E t (t_runs (caseof u t)))))).
  { change (u_world (in_world (run E t) u1')) with (run E t (u_world u1')). destruct (u_capture u).
    - destruct (r_console _ _ _ _ R) as (Lc & Q & _ & N). rewrite Q, N; congruence.
    - rewrite own_run by (unfold leads; now rewrite X3, X4). change (w_case (u_world u1') t) with (caseof u1' t). rewrite X1. reflexivity. }
  assert (RR : t_runs (caseof (in_world (run E t) u1') t) = S (t_runs (caseof u t)) /\ t_name (caseof (in_world (run E t) u1') t) = t_name (caseof u t)).
  { change (caseof (in_world (run E t) u1') t) with (w_case (run E t (u_world u1')) t). rewrite (r_runs _ _ _ _ R), (r_name _ _ _ _ R). change (w_case (u_world u1') t) with (caseof u1' t). rewrite X1. split; reflexivity. }
  assert (D2 : u_capture u = false -> on_console (in_world (run E t) u1')).
  { intro Z. rewrite Z in *. pose proof (leads_run E t (u_world u1')) as Lr. unfold leads in Lr. rewrite X3, X4 in Lr. injection Lr as Q1 Q2. split; assumption. }
  set (u2 := in_world (run E t) u1') in *.
  assert (F2 : u_capture u2 = u_capture u /\ u_verbosity u2 = u_verbosity u) by (split; assumption).
  clearbody u2. destruct F2 as [F2 F2a]. clear R.
  set (u3 := set_lapse _ _ (in_world tick u2)) in P.
  assert (Y : u_capture u3 = u_capture u /\ u_verbosity u3 = u_verbosity u /\ w_console (u_world u3) = w_console (u_world u2) /\ caseof u3 t = caseof u2 t /\ (u_capture u = false -> on_console u3)).
  { repeat split; try assumption; apply D2; assumption. }
  clearbody u3. destruct Y as (Y1 & Y2 & Y3 & Y4 & Y5).
  rewrite endTest_eq in P by (rewrite Y1; exact Y5). cbv zeta in P.
  set (u4 := in_world (tc_end (u_capture u3) Console Console t) u3) in P. rewrite Y2 in P.
  assert (K4 : w_console (u_world u4) = w_console (u_world u3)).
  { unfold u4, tc_end, in_world. destruct (u_capture u3); reflexivity. }
  assert (N4 : t_runs (caseof u4 t) = t_runs (caseof u3 t) /\ t_name (caseof u4 t) = t_name (caseof u3 t)).
  { unfold u4, caseof, tc_end, in_world. destruct (u_capture u3); cbn; [onc; rewrite Nat.eqb_refl|]; split; reflexivity. }
  clearbody u4. destruct N4 as [N4 M4]. destruct RR as [R1 R2].
  remember (end_lines (u_verbosity u) 1 (caseof u4 t)) as el eqn:EL.
  assert (Q5 : w_console (u_world u') = w_console (u_world (says el u4)) /\ caseof u' t = caseof u4 t).
  { destruct (hasPassed (says el u4) t); injection P as <- _; split; reflexivity. }
  destruct Q5 as [K5 C5]. change (w_console (u_world (says el u4))) with (w_console (u_world u4) ++ framework_says el) in K5.
  unfold output. rewrite C5, <- EL, N4, M4, Y4, R1, R2, Nat.pred_succ, K5, K4, Y3, K2, X2, K1, <- !app_assoc. reflexivity.
Qed.
