(** * The XML report: is it well formed? *)

From Coq Require Import ZArith String Ascii Bool List Decimal DecimalString Arith Lia.
From Verif Require Import Base TextModel TextSpec TextFacts FutModel FutSpec FutProofs FutRun.
Import ListNotations.
Open Scope string_scope.
Open Scope list_scope.

Lemma reads_app : forall a b p, reads p (a ++ b) = match reads p a with Some p' => reads p' b | None => None end.
Proof. induction a as [|c a IH]; intros b p; [reflexivity|]. cbn [append reads]. destruct (read p c); [apply IH|reflexivity]. Qed.

Lemma reads_step : forall a b p p', reads p a = Some p' -> reads p (a ++ b) = reads p' b.
Proof. intros a b p p' H. now rewrite reads_app, H. Qed.

Lemma plain_app : forall a b, plain (a ++ b) = plain a && plain b.
Proof. induction a as [|c a IH]; intro b; [reflexivity|]. cbn [append plain]. now rewrite IH, andb_assoc. Qed.

Lemma plain_char_spec : forall c, plain_char c = true ->
  is_legal c = true /\ Ascii.eqb c "<" = false /\ Ascii.eqb c "&" = false /\ Ascii.eqb c quote_char = false /\ Ascii.eqb c "]" = false.
Proof.
  intros c H. unfold plain_char in H. apply andb_true_iff in H. destruct H as [L H]. apply negb_true_iff in H. cbn [existsb] in H.
  rewrite !orb_false_iff in H. tauto.
Qed.

Lemma reads_value : forall s o n l, plain s = true -> reads (AttrValue o n l) s = Some (AttrValue o n l).
Proof.
  induction s as [|c s IH]; intros o n l H; [reflexivity|]. cbn [plain] in H. apply andb_true_iff in H. destruct H as [C H].
  destruct (plain_char_spec c C) as (L & A & B & Q & _). cbn [reads read]. rewrite Q, A, B, L. cbn [orb negb]. now apply IH.
Qed.
Lemma reads_content : forall s o, plain s = true -> reads (Content o 0) s = Some (Content o 0).
Proof.
  induction s as [|c s IH]; intros o H; [reflexivity|]. cbn [plain] in H. apply andb_true_iff in H. destruct H as [C H].
  destruct (plain_char_spec c C) as (L & A & B & _ & K). cbn [reads read]. rewrite A, B, L, K. cbn [orb negb Nat.leb]. rewrite andb_false_r. now apply IH.
Qed.

(** A whole value in quotes. *)
Lemma reads_q : forall s o n l, plain s = true -> reads (AfterEq o n l) (q s) = Some (AfterValue o n l).
Proof. intros s o n l H. unfold q. rewrite !reads_app. change (reads (AfterEq o n l) (String (ascii_of_nat 34) "")) with (Some (AttrValue o n l)). cbv iota beta. rewrite reads_app, reads_value by exact H. reflexivity. Qed.

Lemma digits_plain : forall u, plain (NilEmpty.string_of_uint u) = true.
Proof. induction u; [reflexivity|..]; cbn [NilEmpty.string_of_uint plain]; rewrite IHu; reflexivity. Qed.
Lemma dec_plain : forall z, plain (dec z) = true.
Proof.
  intro z. unfold dec, NilZero.string_of_int. destruct (Z.to_int z) as [u|u]; unfold NilZero.string_of_uint; destruct u; try reflexivity.
  all: try (cbn [plain append]; rewrite ?digits_plain; reflexivity).
  all: exact (digits_plain _).
Qed.

(** ** Pieces *)

Definition piece (x : xml) (p : place) : option place :=
  match x, p with
  | XSuites _ _ _ _ _, Outside false => Some (Content ["testsuites"] 0)
  | XSuite _ _ _ _ _, Content o _ => Some (Content ("testsuite" :: o) 0)
  | XCase _ _ _ _, Content o _ => Some (Content ("testcase" :: o) 0)
  | XFailure _ _ _ _, Content (m :: o) _ => Some (Content (m :: o) 0)
  | XCaseEnd, Content (n :: m :: o) _ => if String.eqb "testcase" n then Some (Content (m :: o) 0) else None
  | XSuiteEnd, Content (n :: m :: o) _ => if String.eqb "testsuite" n then Some (Content (m :: o) 0) else None
  | XSuitesEnd, Content [n] _ => if String.eqb "testsuites" n then Some (Outside true) else None
  | _, _ => None
  end.
Fixpoint pieces (l : list xml) (p : place) : option place :=
  match l with [] => Some p | x :: l' => match piece x p with Some p' => pieces l' p' | None => None end end.

Lemma pieces_app : forall a b p, pieces (a ++ b) p = match pieces a p with Some p' => pieces b p' | None => None end.
Proof. induction a as [|x a IH]; intros b p; [reflexivity|]. change ((x :: a) ++ b)%list with (x :: (a ++ b))%list. cbn [pieces]. destruct (piece x p); [apply IH|reflexivity]. Qed.

Section Xml.
Variable E : env.
Hypothesis SP : forall p z, plain (seconds E p z) = true.

Ltac fixed t := let H := fresh in assert (H : t) by reflexivity; rewrite (reads_step _ _ _ _ H); clear H.
Ltac plains := rewrite ?plain_app, ?dec_plain, ?SP; repeat (apply andb_true_intro; split); auto.
Ltac value := erewrite reads_step by (apply reads_q; plains).
Ltac content := erewrite reads_step by (apply reads_content; plains).

Lemma piece_reads : forall x p p', plain_token x -> piece x p = Some p' -> reads p (xml_text E x) = Some p'.
Proof.
  intros x p p' T H.
  destruct x as [|id name n f ms|id name n f ms|id comp case ms|d ty file line| | |]; cbn [piece] in H; try discriminate H; cbn [plain_token] in T; unfold xml_text.
  - destruct p as [[|]| | | | | | | | |]; try discriminate H. injection H as <-. destruct T as [T1 T2].
    fixed (reads (Outside false) "<testsuites id=" = Some (AfterEq [] "testsuites" ["id"])). value.
    fixed (reads (AfterValue [] "testsuites" ["id"]) " name=" = Some (AfterEq [] "testsuites" ["name"; "id"])). value.
    fixed (reads (AfterValue [] "testsuites" ["name"; "id"]) " tests=" = Some (AfterEq [] "testsuites" ["tests"; "name"; "id"])). value.
    fixed (reads (AfterValue [] "testsuites" ["tests"; "name"; "id"]) " failures=" = Some (AfterEq [] "testsuites" ["failures"; "tests"; "name"; "id"])). value.
    fixed (reads (AfterValue [] "testsuites" ["failures"; "tests"; "name"; "id"]) " time=" = Some (AfterEq [] "testsuites" ["time"; "failures"; "tests"; "name"; "id"])). value.
    reflexivity.
  - destruct p as [|o k| | | | | | | |]; try discriminate H. injection H as <-. destruct T as [T1 T2].
    fixed (reads (Content o k) "<testsuite id=" = Some (AfterEq o "testsuite" ["id"])). value.
    fixed (reads (AfterValue o "testsuite" ["id"]) " name=" = Some (AfterEq o "testsuite" ["name"; "id"])). value.
    fixed (reads (AfterValue o "testsuite" ["name"; "id"]) " tests=" = Some (AfterEq o "testsuite" ["tests"; "name"; "id"])). value.
    fixed (reads (AfterValue o "testsuite" ["tests"; "name"; "id"]) " failures=" = Some (AfterEq o "testsuite" ["failures"; "tests"; "name"; "id"])). value.
    fixed (reads (AfterValue o "testsuite" ["failures"; "tests"; "name"; "id"]) " time=" = Some (AfterEq o "testsuite" ["time"; "failures"; "tests"; "name"; "id"])). value.
    reflexivity.
  - destruct p as [|o k| | | | | | | |]; try discriminate H. injection H as <-. destruct T as (T1 & T2 & T3).
    fixed (reads (Content o k) "<testcase id=" = Some (AfterEq o "testcase" ["id"])). value.
    fixed (reads (AfterValue o "testcase" ["id"]) " name=" = Some (AfterEq o "testcase" ["name"; "id"])). value.
    fixed (reads (AfterValue o "testcase" ["name"; "id"]) " time=" = Some (AfterEq o "testcase" ["time"; "name"; "id"])). value.
    reflexivity.
  - destruct p as [|[|m o] k| | | | | | | |]; try discriminate H. injection H as <-. destruct T as (T1 & T2 & T3).
    fixed (reads (Content (m :: o) k) "<failure message=" = Some (AfterEq (m :: o) "failure" ["message"])). value.
    fixed (reads (AfterValue (m :: o) "failure" ["message"]) " type=" = Some (AfterEq (m :: o) "failure" ["type"; "message"])). value.
    fixed (reads (AfterValue (m :: o) "failure" ["type"; "message"]) ">" = Some (Content ("failure" :: m :: o) 0)).
    fixed (reads (Content ("failure" :: m :: o) 0) nl = Some (Content ("failure" :: m :: o) 0)). content.
    fixed (reads (Content ("failure" :: m :: o) 0) nl = Some (Content ("failure" :: m :: o) 0)).
    fixed (reads (Content ("failure" :: m :: o) 0) "File: " = Some (Content ("failure" :: m :: o) 0)). content.
    fixed (reads (Content ("failure" :: m :: o) 0) nl = Some (Content ("failure" :: m :: o) 0)).
    fixed (reads (Content ("failure" :: m :: o) 0) "Line: " = Some (Content ("failure" :: m :: o) 0)). content.
    fixed (reads (Content ("failure" :: m :: o) 0) nl = Some (Content ("failure" :: m :: o) 0)).
    reflexivity.
  - destruct p as [|[|n [|m o]] k| | | | | | | |]; try discriminate H. destruct (String.eqb_spec "testcase" n) as [<-|]; [|discriminate H]. injection H as <-. reflexivity.
  - destruct p as [|[|n [|m o]] k| | | | | | | |]; try discriminate H. destruct (String.eqb_spec "testsuite" n) as [<-|]; [|discriminate H]. injection H as <-. reflexivity.
  - destruct p as [|[|n [|m o]] k| | | | | | | |]; try discriminate H. destruct (String.eqb_spec "testsuites" n) as [<-|]; [|discriminate H]. injection H as <-. reflexivity.
Qed.

Lemma pieces_reads : forall l p p', Forall plain_token l -> pieces l p = Some p' -> reads p (xml_file E l) = Some p'.
Proof.
  induction l as [|x l IH]; intros p p' F H; [exact H|]. inversion F; subst. cbn [pieces] in H.
  destruct (piece x p) as [p1|] eqn:P; [|discriminate H]. change (xml_file E (x :: l)) with (xml_text E x ++ xml_file E l)%string.
  rewrite (reads_step _ _ _ p1) by (now apply piece_reads). now apply IH.
Qed.

Lemma xml_file_app : forall a b, xml_file E (a ++ b) = (xml_file E a ++ xml_file E b)%string.
Proof.
  induction a as [|x a IH]; intro b; [reflexivity|]. change ((x :: a) ++ b) with (x :: (a ++ b)).
  change (xml_file E (x :: (a ++ b))) with (xml_text E x ++ xml_file E (a ++ b))%string. rewrite IH.
  change (xml_file E (x :: a)) with (xml_text E x ++ xml_file E a)%string. now rewrite str_app_assoc.
Qed.

(** ** The whole report *)

Lemma case_pieces : forall u comp t m o, pieces (case_xml u comp t) (Content (m :: o) 0) = Some (Content (m :: o) 0).
Proof. intros u comp t m o. unfold case_xml. destruct (hasPassed u t); reflexivity. Qed.
Lemma cases_pieces : forall u comp l m o, pieces (flat_map (case_xml u comp) l) (Content (m :: o) 0) = Some (Content (m :: o) 0).
Proof. induction l as [|t l IH]; intros m o; [reflexivity|]. cbn [flat_map]. rewrite pieces_app, case_pieces. apply IH. Qed.
Lemma suite_pieces : forall u comp m o, pieces (suite_xml u comp) (Content (m :: o) 0) = Some (Content (m :: o) 0).
Proof. intros u comp m o. unfold suite_xml. rewrite pieces_app.
  match goal with |- context [pieces [?x] ?p] => change (pieces [x] p) with (Some (Content ("testsuite" :: m :: o) 0)) end. cbv beta iota. rewrite pieces_app, cases_pieces. reflexivity. Qed.
Lemma suites_pieces : forall u l m o, pieces (flat_map (suite_xml u) l) (Content (m :: o) 0) = Some (Content (m :: o) 0).
Proof. induction l as [|t l IH]; intros m o; [reflexivity|]. cbn [flat_map]. rewrite pieces_app, suite_pieces. apply IH. Qed.
Lemma report_pieces : forall u, exists l, report_xml u = XHead :: l /\ pieces l (Outside false) = Some (Outside true).
Proof.
  intro u. eexists. split; [reflexivity|]. fold app. cbn [pieces piece]. rewrite pieces_app, suites_pieces. reflexivity.
Qed.

Lemma prefix_head : forall s, String.prefix declaration (declaration ++ s) = true.
Proof. intro s. generalize declaration. induction s0 as [|c d IH]; [now destruct s|]. cbn [append String.prefix]. now destruct (ascii_dec c c). Qed.
Lemma drop_head : forall d s, drop (String.length d) (d ++ s) = s.
Proof. induction d as [|c d IH]; intro s; [now destruct s|]. exact (IH s). Qed.
Lemma after_app_head : forall s, after (declaration ++ s) = reads (Outside false) s.
Proof. intro s. unfold after. now rewrite prefix_head, drop_head. Qed.
Lemma after_head : forall s, after (xml_text E XHead ++ s) = reads (Outside false) s.
Proof. intro s. change (xml_text E XHead) with (declaration ++ nl)%string. rewrite str_app_assoc, after_app_head. reflexivity. Qed.
Lemma after_app : forall a s p, after a = Some p -> after (a ++ s) = reads p s.
Proof.
  intros a s p A. destruct (String.prefix declaration a) eqn:P; [|unfold after in A; rewrite P in A; discriminate A].
  assert (K : exists r, a = (declaration ++ r)%string).
  { clear -P. revert P. generalize declaration. intro d. revert a. induction d as [|x d IH]; intros a P; [now exists a|].
    destruct a as [|y a]; [discriminate P|]. cbn [String.prefix] in P. destruct (ascii_dec x y) as [<-|]; [|discriminate P].
    destruct (IH a P) as [r ->]. now exists r. }
  destruct K as [r ->]. rewrite after_app_head in A. now rewrite str_app_assoc, after_app_head, reads_app, A.
Qed.

Lemma after_none : forall a c b p, after a = Some p -> read p c = None -> after (a ++ String c b) = None.
Proof. intros a c b p A R. rewrite (after_app _ _ _ A). cbn [reads]. now rewrite R. Qed.

Lemma well_formed_report : forall u, Forall plain_token (report_xml u) -> well_formed (xml_file E (report_xml u)).
Proof.
  intros u F. destruct (report_pieces u) as (l & R & P). rewrite R in F |- *. inversion F; subst.
  change (after (xml_text E XHead ++ xml_file E l) = Some (Outside true)). rewrite after_head. now apply pieces_reads.
Qed.

(** Up to the text of a failure. *)
Lemma in_failure : forall u pre a b ty file line post, Forall plain_token pre -> plain a = true ->
  report_xml u = pre ++ XFailure (a ++ b) ty file line :: post ->
  exists p r o, xml_file E (report_xml u) = (p ++ b ++ r)%string /\ after p = Some (AttrValue o "failure" ["message"]).
Proof.
  intros u pre a b ty file line post F PA R. destruct (report_pieces u) as (l & R' & P). rewrite R' in R.
  destruct pre as [|h pre]; [discriminate R|]. injection R as <- Rl. inversion F; subst. rewrite pieces_app in P.
  destruct (pieces pre (Outside false)) as [p1|] eqn:P1; [|discriminate P].
  cbn [pieces] in P. destruct (piece (XFailure (a ++ b) ty file line) p1) as [p2|] eqn:P2; [|discriminate P].
  cbn [piece] in P2. destruct p1 as [|[|m o] k| | | | | | | |]; try discriminate P2.
  rewrite R'. change (XHead :: pre ++ XFailure (a ++ b) ty file line :: post) with ((XHead :: pre) ++ XFailure (a ++ b) ty file line :: post).
  rewrite xml_file_app. change (xml_file E (XHead :: pre)) with (xml_text E XHead ++ xml_file E pre)%string.
  change (xml_file E (XFailure (a ++ b) ty file line :: post)) with (xml_text E (XFailure (a ++ b) ty file line) ++ xml_file E post)%string.
  assert (T : exists r, xml_text E (XFailure (a ++ b) ty file line) = ("<failure message=" ++ String quote_char "" ++ a ++ b ++ r)%string).
  { unfold xml_text. eexists. unfold q at 1. rewrite !str_app_assoc. reflexivity. }
  destruct T as [r ->].
  exists (xml_text E XHead ++ xml_file E pre ++ "<failure message=" ++ String quote_char "" ++ a)%string, (r ++ xml_file E post)%string, (m :: o).
  split; [now rewrite !str_app_assoc|]. rewrite after_head. rewrite (reads_step _ _ _ (Content (m :: o) k)) by (now apply pieces_reads).
  fixed (reads (Content (m :: o) k) "<failure message=" = Some (AfterEq (m :: o) "failure" ["message"])).
  fixed (reads (AfterEq (m :: o) "failure" ["message"]) (String quote_char "") = Some (AttrValue (m :: o) "failure" ["message"])).
  now apply reads_value.
Qed.

Lemma not_well_formed : forall a c b p, after a = Some p -> read p c = None -> ~ well_formed (a ++ String c b).
Proof. intros a c b p A R W. unfold well_formed in W. rewrite (after_none a c b p A R) in W. discriminate W. Qed.

Lemma less_breaks : forall u pre a b ty file line post, Forall plain_token pre -> plain a = true ->
  report_xml u = pre ++ XFailure (a ++ String "<" b) ty file line :: post ->
  exists p r o, xml_file E (report_xml u) = (p ++ String "<" r)%string /\ after p = Some (AttrValue o "failure" ["message"])
    /\ ~ well_formed (xml_file E (report_xml u)).
Proof.
  intros u pre a b ty file line post F PA R. destruct (in_failure _ _ _ _ _ _ _ _ F PA R) as (p & r & o & A & B).
  exists p, (b ++ r)%string, o. split; [exact A|]. split; [exact B|]. rewrite A. now apply (not_well_formed p "<"%char _ _ B).
Qed.

Lemma quote_breaks : forall u pre a c b ty file line post, Forall plain_token pre -> plain a = true -> may_follow c = false ->
  report_xml u = pre ++ XFailure (a ++ String quote_char (String c b)) ty file line :: post ->
  exists p r o, xml_file E (report_xml u) = (p ++ String c r)%string /\ after p = Some (AfterValue o "failure" ["message"])
    /\ ~ well_formed (xml_file E (report_xml u)).
Proof.
  intros u pre a c b ty file line post F PA N R. destruct (in_failure _ _ _ _ _ _ _ _ F PA R) as (p & r & o & A & B).
  exists (p ++ String quote_char "")%string, (b ++ r)%string, o. split; [now rewrite str_app_assoc|].
  assert (B' : after (p ++ String quote_char "") = Some (AfterValue o "failure" ["message"])) by now rewrite (after_app _ _ _ B).
  split; [exact B'|]. rewrite A. change (String quote_char (String c b) ++ r)%string with (String quote_char "" ++ String c (b ++ r))%string. rewrite <- str_app_assoc.
  apply (not_well_formed _ c _ _ B'). unfold may_follow in N. apply orb_false_iff in N. cbn [read]. now rewrite (proj1 N), (proj2 N).
Qed.
End Xml.

(** ** What performUnitTests writes *)

Section Written.
Variable E : env.

Lemma written_file : forall u u' z, on_console u -> performUnitTests E u = (u', z) -> u_xml u <> "" -> can_write E (u_xml u) = true ->
  u_files u' = u_files u ++ [(u_xml u, xml_file E (report_xml u'))].
Proof.
  intros u u' z O P X W. destruct (perform_pair E u u' z O P) as [T F]. rewrite (f_files _ _ _ _ _ F), W.
  destruct (u_xml u); [now elim X|reflexivity].
Qed.

Lemma plain_report : forall u, plain (u_id u) = true -> plain (u_name u) = true ->
  (forall c, In c (u_comps u) -> plain (c_name c) = true /\ forall t, In t (c_tests c) ->
     plain (t_case (caseof u t)) = true /\ plain (t_desc (caseof u t)) = true /\ plain (t_file (caseof u t)) = true) ->
  Forall plain_token (report_xml u).
Proof.
  intros u I N C. unfold report_xml. apply Forall_app. split; [repeat constructor; assumption|]. apply Forall_app. split; [|repeat constructor].
  apply Forall_flat_map. apply Forall_forall. intros c J. destruct (C c J) as [CN CT]. unfold suite_xml.
  apply Forall_app. split; [repeat constructor; assumption|]. apply Forall_app. split; [|repeat constructor].
  apply Forall_flat_map. apply Forall_forall. intros t K. destruct (CT t K) as (A & B & D). unfold case_xml.
  apply Forall_app. split; [repeat constructor; assumption|]. apply Forall_app. split; [|repeat constructor].
  destruct (hasPassed u t); repeat constructor; try assumption. destruct (t_status (caseof u t)); reflexivity.
Qed.

Lemma plain_written : forall u u' z, on_console u -> performUnitTests E u = (u', z) -> u_xml u <> "" -> can_write E (u_xml u) = true ->
  (forall p ms, plain (seconds E p ms) = true) -> plain (u_id u') = true -> plain (u_name u') = true ->
  (forall c, In c (u_comps u') -> plain (c_name c) = true /\ forall t, In t (c_tests c) ->
     plain (t_case (caseof u' t)) = true /\ plain (t_desc (caseof u' t)) = true /\ plain (t_file (caseof u' t)) = true) ->
  exists text, u_files u' = u_files u ++ [(u_xml u, text)] /\ well_formed text.
Proof.
  intros u u' z O P X W S I N C. eexists. split; [now apply (written_file u u' z)|]. apply well_formed_report; [exact S|]. now apply plain_report.
Qed.

Lemma less_written : forall u u' z pre a b ty file line post, on_console u -> performUnitTests E u = (u', z) -> u_xml u <> "" -> can_write E (u_xml u) = true ->
  (forall p ms, plain (seconds E p ms) = true) -> Forall plain_token pre -> plain a = true ->
  report_xml u' = pre ++ XFailure (a ++ String "<" b) ty file line :: post ->
  exists text, u_files u' = u_files u ++ [(u_xml u, text)] /\ ~ well_formed text
    /\ exists p r open, text = (p ++ String "<" r)%string /\ after p = Some (AttrValue open "failure" ["message"]).
Proof.
  intros u u' z pre a b ty file line post O P X W S F A R. eexists. split; [now apply (written_file u u' z)|].
  destruct (less_breaks E S _ _ _ _ _ _ _ _ F A R) as (p & r & o & K & L & M). split; [exact M|]. exists p, r, o. split; [exact K|exact L].
Qed.

Lemma actual_written : forall u u' z pre a c b ty file line post, on_console u -> performUnitTests E u = (u', z) -> u_xml u <> "" -> can_write E (u_xml u) = true ->
  (forall p ms, plain (seconds E p ms) = true) -> Forall plain_token pre -> plain a = true -> may_follow c = false ->
  report_xml u' = pre ++ XFailure (a ++ " (Actually " ++ String quote_char (String c b)) ty file line :: post ->
  exists text, u_files u' = u_files u ++ [(u_xml u, text)] /\ ~ well_formed text
    /\ exists p r open, text = (p ++ String c r)%string /\ after p = Some (AfterValue open "failure" ["message"]).
Proof.
  intros u u' z pre a c b ty file line post O P X W S F A N R. eexists. split; [now apply (written_file u u' z)|].
  assert (A' : plain (a ++ " (Actually ") = true) by now rewrite plain_app, A.
  rewrite <- str_app_assoc in R.
  destruct (quote_breaks E S _ _ _ _ _ _ _ _ _ F A' N R) as (p & r & o & K & L & M). split; [exact M|]. exists p, r, o. split; [exact K|exact L].
Qed.
End Written.
