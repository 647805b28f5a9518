(** * Proofs about whole runs of the test framework. *)

From Coq Require Import ZArith String Ascii Bool List Arith Lia Sorting.Permutation Sorting.Sorted.
From Verif Require Import Base TextModel TextSpec TextFacts FutModel FutSpec FutProofs.
Import ListNotations.
Open Scope string_scope.
Open Scope list_scope.

Section Run.
Variable E : env.

Lemma perform_pair : forall u u' z, on_console u -> performUnitTests E u = (u', z) -> exists T, performed E u u' z T.
Proof. intros u u' z H P. destruct (perform_facts E u H) as [T F]. rewrite P in F. exists T. exact F. Qed.

Lemma all_good_iff : forall T, all_good T = true <-> forall t s, In (t, s) (verdicts T) -> s = SUCCESS.
Proof.
  intro T. unfold all_good. rewrite forallb_forall. split.
  - intros H t s I. specialize (H _ I). cbn in H. destruct s; try discriminate H; reflexivity.
  - intros H [t s] I. rewrite (H t s I). reflexivity.
Qed.

Lemma fresh_started : forall u u' z T, fresh u -> performed E u u' z T ->
  Permutation (started T) (selection u) /\ StronglySorted (comp_le u) (started T)
  /\ (forall n, in_comp u n (started T) = in_comp u n (selection u)).
Proof.
  intros u u' z T [F1 _] P. rewrite (f_started _ _ _ _ _ P), F1.
  split; [exact (grouped_perm (comp_of u) (selection u) [])|].
  assert (S : sorted_comps (comp_of u) (grouped (comp_of u) (selection u) [])) by (apply grouped_sorted; constructor).
  split; [exact (sorted_order (comp_of u) _ S)|].
  intro n. exact (grouped_filter (comp_of u) (selection u) [] n (sc_nil _)).
Qed.

Lemma verdict_in : forall u u' z T t, performed E u u' z T -> (In t (started T) <-> exists s, In (t, s) (verdicts T)).
Proof.
  intros u u' z T t P. rewrite <- (f_verdicts _ _ _ _ _ P). rewrite in_map_iff. split.
  - intros [[t' s] [<- I]]. exists s. exact I.
  - intros [s I]. exists (t, s). auto.
Qed.

Lemma fresh_in : forall u u' z T t, fresh u -> performed E u u' z T -> (In t (started T) <-> In t (selection u)).
Proof.
  intros u u' z T t F P. destruct (fresh_started u u' z T F P) as [H _]. split; apply Permutation_in; [exact H|now symmetry].
Qed.

(** C67 *)
Lemma exit_status : forall u u' z, on_console u -> performUnitTests E u = (u', z) ->
  exists T, history u u' T
    /\ ((forall t s, In (t, s) (verdicts T) -> s = SUCCESS) -> z = 0%Z)
    /\ ((exists t s, In (t, s) (verdicts T) /\ s <> SUCCESS) -> z = (-1)%Z)
    /\ (u_comps u = [] -> forall t, In t (selection u) <-> exists s, In (t, s) (verdicts T)).
Proof.
  intros u u' z H P. destruct (perform_pair u u' z H P) as [T F]. exists T. split; [exact (f_history _ _ _ _ _ F)|].
  rewrite (f_result _ _ _ _ _ F). split; [|split].
  - intro G. apply all_good_iff in G. now rewrite G.
  - intros (t & s & I & N). destruct (all_good T) eqn:G; [|reflexivity]. exfalso. apply N. apply (proj1 (all_good_iff T) G t s I).
  - intros C t. rewrite <- (verdict_in _ _ _ _ t F). symmetry. apply (fresh_in _ _ _ _ t (conj C H) F).
Qed.

Lemma exit_final : forall u u' z, fresh u -> NoDup (selection u) -> performUnitTests E u = (u', z) ->
  (z = 0%Z \/ z = (-1)%Z) /\ (z = 0%Z <-> forall t, In t (selection u) -> status_of u' t = SUCCESS).
Proof.
  intros u u' z F ND P. destruct (perform_pair u u' z (proj2 F) P) as [T PF].
  destruct (fresh_started u u' z T F PF) as [PE _].
  assert (ND' : NoDup (started T)) by (eapply Permutation_NoDup; [symmetry; exact PE|exact ND]).
  rewrite (f_result _ _ _ _ _ PF).
  split; [destruct (all_good T); auto|]. split.
  - intros Z t I. destruct (all_good T) eqn:G; [|discriminate Z]. rewrite all_good_iff in G.
    apply (fresh_in _ _ _ _ t F PF) in I. apply (verdict_in _ _ _ _ t PF) in I. destruct I as [s I].
    rewrite (f_final _ _ _ _ _ PF ND' t s I). exact (G t s I).
  - intro G. destruct (all_good T) eqn:A; [reflexivity|]. exfalso.
    assert (A' : all_good T = true).
    { apply all_good_iff. intros t s I. rewrite <- (f_final _ _ _ _ _ PF ND' t s I). apply G.
      apply (fresh_in _ _ _ _ t F PF). apply (verdict_in _ _ _ _ t PF). exists s. exact I. }
    congruence.
Qed.

(** C68 *)
Lemma runs_once : forall u u' z, fresh u -> performUnitTests E u = (u', z) ->
  exists T, history u u' T
    /\ Permutation (started T) (selection u) /\ StronglySorted (comp_le u) (started T)
    /\ (forall n, in_comp u n (started T) = in_comp u n (selection u))
    /\ Forall (fun e => In (about e) (selection u)) T.
Proof.
  intros u u' z F P. destruct (perform_pair u u' z (proj2 F) P) as [T PF]. exists T.
  destruct (fresh_started u u' z T F PF) as [A [B C]]. split; [exact (f_history _ _ _ _ _ PF)|].
  split; [exact A|]. split; [exact B|]. split; [exact C|].
  eapply Forall_impl; [|exact (f_about _ _ _ _ _ PF)]. intros e I. now apply (fresh_in _ _ _ _ _ F PF).
Qed.

(** C69, C81 *)
Lemma test_result : forall u u' z t, fresh u -> NoDup (selection u) -> performUnitTests E u = (u', z) -> In t (selection u) ->
  let c := caseof u t in
  let sc := beh E t (t_runs c) in
  (existsb meddles (steps sc) = false ->
   status_of u' t = verdict sc (if u_capture u then (t_errCap c ++ written Err (before_teardown sc))%string else t_errCap c))
  /\ (u_capture u = true ->
      t_outStr (caseof u' t) = (t_outCap c ++ written Out (steps sc))%string
      /\ t_errStr (caseof u' t) = (t_errCap c ++ written Err (steps sc))%string).
Proof.
  intros u u' z t F ND P I. cbv zeta. destruct (perform_pair u u' z (proj2 F) P) as [T PF].
  destruct (fresh_started u u' z T F PF) as [PE _].
  assert (ND' : NoDup (started T)) by (eapply Permutation_NoDup; [symmetry; exact PE|exact ND]).
  apply (fresh_in _ _ _ _ t F PF) in I.
  destruct (f_one _ _ _ _ _ PF ND' t I) as (a & b & O & A & B & C & W). destruct O.
  assert (R : t_runs (caseof a t) = t_runs (caseof u t) /\ t_errCap (caseof a t) = t_errCap (caseof u t) /\ t_outCap (caseof a t) = t_outCap (caseof u t)).
  { destruct A as [A|A]; rewrite A; auto. }
  destruct R as [R1 [R2 R3]]. rewrite R1 in *. rewrite R2 in *. rewrite R3 in *. rewrite C in *.
  split.
  - intro M. unfold status_of. rewrite B. exact (o_status M).
  - intro K. rewrite B, o_outStr, o_errStr, K, o_outCap, o_errCap, K. auto.
Qed.

(** C70: the option makes no difference. *)
Section ErrFail.
Variable b : bool.
Let ef := set_errfail b.

Lemma beginTest_ef : forall n t u, beginTest n t (ef u) = ef (beginTest n t u).
Proof. intros n t u. unfold beginTest. change (u_verbosity (ef u)) with (u_verbosity u). destruct (3 <=? u_verbosity u)%nat; reflexivity. Qed.

Lemma tell_ef : forall s u, tell s (ef u) = ef (tell s u).
Proof. reflexivity. Qed.

Lemma if_ef : forall (c : bool) x y, (if c then ef x else ef y) = ef (if c then x else y).
Proof. intros [] x y; reflexivity. Qed.

Lemma endTest_ef : forall o e n t u, endTest o e n t (ef u) = ef (endTest o e n t u).
Proof.
  intros o e n t u. unfold endTest. rewrite !hasPassed_success.
  change (in_world (tc_end (u_capture (ef u)) o e t) (ef u)) with (ef (in_world (tc_end (u_capture u) o e t) u)).
  set (u1 := in_world (tc_end (u_capture u) o e t) u).
  change (caseof (ef u1) t) with (caseof u1 t). change (u_verbosity (ef u1)) with (u_verbosity u1).
  set (c := caseof u1 t). set (v := u_verbosity u1). clearbody u1.
  rewrite !tell_ef, !if_ef.
  set (u2 := if negb (is_empty (capturedOut c)) && _ then tell _ u1 else u1).
  change (caseof (ef u2) t) with (caseof u2 t). clearbody u2. rewrite !tell_ef, !if_ef.
  set (u3 := if negb (is_empty (capturedErr c)) && _ then tell _ u2 else u2).
  change (caseof (ef u3) t) with (caseof u3 t). clearbody u3. unfold writeTestName. rewrite !tell_ef, !if_ef. reflexivity.
Qed.

Lemma hasPassed_ef : forall u t, hasPassed (ef u) t = hasPassed u t.
Proof. intros u t. rewrite !hasPassed_success. reflexivity. Qed.

Definition ef3 (s : unit_test * nat * Z) : unit_test * nat * Z := let '(u, n, f) := s in (ef u, n, f).
Lemma run_one_unf : forall t u n f,
  run_one E t (u, n, f) = finish t (S n) f (endTest (w_out (u_world u)) (w_err (u_world u)) (S n) t (in_world (run E t) (beginTest (S n) t u))).
Proof. reflexivity. Qed.
Lemma in_world_ef : forall g u, in_world g (ef u) = ef (in_world g u).
Proof. reflexivity. Qed.
Lemma finish_ef : forall t n f u, finish t n f (ef u) = ef3 (finish t n f u).
Proof.
  intros t n f u. unfold finish. cbv zeta. change (caseof (ef u) t) with (caseof u t). rewrite in_world_ef, hasPassed_ef.
  destruct (hasPassed _ t); reflexivity.
Qed.
Lemma run_one_ef : forall t s, run_one E t (ef3 s) = ef3 (run_one E t s).
Proof.
  intros t [[u n] f]. cbn [ef3]. rewrite !run_one_unf, beginTest_ef, in_world_ef, endTest_ef, finish_ef. reflexivity.
Qed.
Lemma fold_one_ef : forall ts s, fold_left (fun s t => run_one E t s) ts (ef3 s) = ef3 (fold_left (fun s t => run_one E t s) ts s).
Proof. induction ts as [|t ts IH]; intro s; [reflexivity|]. rewrite !fold_cons, run_one_ef. apply IH. Qed.

Lemma run_comps_ef : forall todo done u n, run_comps E todo done (ef u, n) = ef (run_comps E todo done (u, n)).
Proof.
  induction todo as [|c todo IH]; intros done u n; [reflexivity|]. cbn [run_comps].
  change (in_world tick (ef u), n, c_failures c) with (ef3 (in_world tick u, n, c_failures c)). rewrite fold_one_ef.
  destruct (fold_left _ (c_tests c) (in_world tick u, n, c_failures c)) as [[u1 n1] f1]. cbn [ef3].
  change (in_world tick (ef u1)) with (ef (in_world tick u1)). apply IH.
Qed.

Lemma failed_list_ef : forall u l f, failed_list (ef u) f l = failed_list u f l.
Proof.
  induction l as [|t l IH]; intro f; [reflexivity|]. cbn [failed_list]. rewrite hasPassed_ef, !IH. reflexivity.
Qed.
Lemma fold_tell_ef : forall (A : Type) (g : A -> string) l u, fold_left (fun u x => tell (g x) u) l (ef u) = ef (fold_left (fun u x => tell (g x) u) l u).
Proof. induction l as [|x l IH]; intro u; [reflexivity|]. cbn [fold_left]. rewrite tell_ef. apply IH. Qed.

Lemma report_ef : forall u, report E (ef u) = ef (report E u).
Proof.
  intro u. unfold report. change (u_verbosity (ef u)) with (u_verbosity u). destruct (0 <? u_verbosity u)%nat; [|reflexivity].
  change (u_status (ef u)) with (u_status u). change (u_tests (ef u)) with (u_tests u).
  rewrite failed_list_ef. destruct (failed_list u true (u_tests u)) as [r first].
  rewrite (fold_tell_ef _ (fun s => s)), tell_ef, !if_ef.
  set (u1 := if (u_status u =? 0)%Z then u else _). change (u_comps (ef u1)) with (u_comps u1). clearbody u1.
  rewrite (fold_tell_ef _ (fun c => _)), if_ef.
  set (u2 := if (1 <? List.length (u_comps u1))%nat then _ else u1). clearbody u2. reflexivity.
Qed.

Lemma report_xml_ef : forall u, report_xml (ef u) = report_xml u.
Proof. intro u. apply report_xml_ext; reflexivity. Qed.
Lemma saveToXML_ef : forall u, saveToXML E (ef u) = ef (saveToXML E u).
Proof.
  intro u. unfold saveToXML. rewrite report_xml_ef. change (u_xml (ef u)) with (u_xml u). destruct (can_write E (u_xml u)); reflexivity.
Qed.

Lemma select_all_ef : forall u, select_all (ef u) = ef (select_all u).
Proof. intro u. unfold select_all. change (u_select (ef u)) with (u_select u). destruct (u_select u); reflexivity. Qed.
Lemma init_ef : forall u, init (ef u) = ef (init u).
Proof. reflexivity. Qed.
Lemma group_ef : forall u, group (ef u) = ef (group u).
Proof. reflexivity. Qed.
Lemma set_lapse_ef : forall x y u, set_lapse x y (ef u) = ef (set_lapse x y u).
Proof. reflexivity. Qed.
Lemma tick_ef : forall u, w_tick (u_world (ef u)) = w_tick (u_world u).
Proof. reflexivity. Qed.
Lemma comps_ef : forall u, u_comps (ef u) = u_comps u.
Proof. reflexivity. Qed.
Lemma runAll_ef : forall u, runAllTests E (ef u) = ef (runAllTests E u).
Proof.
  intro u. unfold runAllTests. cbv zeta. rewrite group_ef. set (g := group u). clearbody g.
  rewrite in_world_ef, comps_ef, run_comps_ef, tick_ef. set (r := run_comps E _ _ _). clearbody r. rewrite in_world_ef, !tick_ef, set_lapse_ef. reflexivity.
Qed.
Lemma save_report_ef : forall u, save_report E (ef u) = ef (save_report E u).
Proof. intro u. unfold save_report. change (u_xml (ef u)) with (u_xml u). destruct (is_empty (u_xml u)); [reflexivity|]. apply saveToXML_ef. Qed.
Lemma status_ef : forall u, u_status (ef u) = u_status u.
Proof. reflexivity. Qed.
Lemma perform_unf : forall u, performUnitTests E u = (save_report E (report E (runAllTests E (select_all (init u)))), u_status (save_report E (report E (runAllTests E (select_all (init u)))))).
Proof. reflexivity. Qed.

Lemma option_e : forall u, performUnitTests E (ef u) = (ef (fst (performUnitTests E u)), snd (performUnitTests E u)).
Proof.
  intro u. rewrite !perform_unf, init_ef, select_all_ef, runAll_ef, report_ef, save_report_ef, status_ef. cbn [fst snd]. reflexivity.
Qed.
End ErrFail.

Lemma stderr_fails : forall u u' z t, fresh u -> NoDup (selection u) -> performUnitTests E u = (u', z) -> In t (selection u) ->
  let sc := beh E t (t_runs (caseof u t)) in
  u_capture u = true -> existsb meddles (steps sc) = false -> thrown sc = None -> existsb fails (steps sc) = false ->
  written Err (before_teardown sc) <> "" -> z = (-1)%Z.
Proof.
  intros u u' z t F ND P I. cbv zeta. intros K M TH FA W.
  destruct (test_result u u' z t F ND P I) as [S _]. specialize (S M). rewrite K in S.
  destruct (exit_final u u' z F ND P) as [[Z|Z] G]; [|exact Z]. exfalso.
  assert (Q := proj1 G Z t I). rewrite Q in S. unfold verdict in S. rewrite TH, FA in S.
  destruct (t_errCap (caseof u t) ++ written Err (before_teardown (beh E t (t_runs (caseof u t)))))%string eqn:X; [|discriminate S].
  apply W. destruct (t_errCap (caseof u t)); [exact X|discriminate X].
Qed.

Lemma stderr_uncaptured : forall u u' z t, fresh u -> NoDup (selection u) -> performUnitTests E u = (u', z) -> In t (selection u) ->
  let sc := beh E t (t_runs (caseof u t)) in
  u_capture u = false -> t_errCap (caseof u t) = "" -> existsb meddles (steps sc) = false -> thrown sc = None -> existsb fails (steps sc) = false ->
  status_of u' t = SUCCESS.
Proof.
  intros u u' z t F ND P I. cbv zeta. intros K N M TH FA.
  destruct (test_result u u' z t F ND P I) as [S _]. rewrite (S M), K, N. unfold verdict. now rewrite TH, FA.
Qed.

(** C71 *)
Lemma rerun : forall u t n f u' n' f', on_console u -> run_one E t (u, n, f) = (u', n', f') ->
  let sc := beh E t (t_runs (caseof u t)) in
  existsb meddles (steps sc) = false -> t_errCap (caseof u t) = "" ->
  status_of u' t = verdict sc (if u_capture u then written Err (before_teardown sc) else "").
Proof.
  intros u t n f u' n' f' H R. cbv zeta. intros M N. destruct (run_one_one E t u n f H) as [v [R' O]]. rewrite R in R'. injection R' as -> _ _.
  destruct O. rewrite (o_status M), N. destruct (u_capture u); reflexivity.
Qed.

Lemma rerun_stained : forall u t n f u1 n1 f1 u2 n2 f2, on_console u -> run_one E t (u, n, f) = (u1, n1, f1) -> run_one E t (u1, n1, f1) = (u2, n2, f2) ->
  u_capture u = true ->
  written Err (steps (beh E t (t_runs (caseof u t)))) <> "" ->
  existsb meddles (steps (beh E t (S (t_runs (caseof u t))))) = false ->
  status_of u2 t <> SUCCESS.
Proof.
  intros u t n f u1 n1 f1 u2 n2 f2 H R1 R2 K W M.
  destruct (run_one_one E t u n f H) as [v [R1' O1]]. rewrite R1 in R1'. injection R1' as -> _ _.
  pose proof (o_console _ _ _ _ O1) as H1.
  destruct (run_one_one E t v n1 f1 H1) as [w [R2' O2]]. rewrite R2 in R2'. injection R2' as -> _ _.
  destruct O1, O2. rewrite o_runs in *. rewrite (conf_capture _ _ o_conf), K in *. rewrite (o_status0 M), o_errCap.
  set (e1 := t_errCap (caseof u t)). unfold verdict. destruct (thrown _); [discriminate|]. destruct (existsb fails _); [discriminate|].
  destruct ((e1 ++ _) ++ _)%string eqn:X; [|discriminate]. exfalso. apply W.
  destruct e1; [|discriminate X]. cbn [append] in X. match type of X with (?a ++ _)%string = _ => destruct a; [reflexivity|discriminate X] end.
Qed.

(** C72 *)
Lemma cr_flat : forall cs cs' T, comps_ran cs cs' T -> flat_map c_tests cs' = flat_map c_tests cs /\ map c_name cs' = map c_name cs.
Proof. induction 1 as [|c c' cs cs' T T' N Te Fa V C [I1 I2]]; [auto|]. cbn. rewrite N, Te, I1, I2. auto. Qed.
Lemma cr_sorted : forall comp cs cs' T, comps_ran cs cs' T -> sorted_comps comp cs -> sorted_comps comp cs'.
Proof.
  induction 1 as [|c c' cs cs' T T' N Te Fa V C IH]; intro S; [constructor|]. inversion S as [|c0 l0 S1 S2 S3]. subst. constructor.
  - intros d Hd. rewrite N. destruct (cr_flat _ _ _ C) as [_ Q].
    assert (I : In (c_name d) (map c_name cs)) by (rewrite <- Q; now apply in_map). apply in_map_iff in I. destruct I as [d' [Q1 Q2]]. rewrite <- Q1. auto.
  - intros t Ht. rewrite N. apply S2. now rewrite <- Te.
  - auto.
Qed.

Lemma sorted_ext : forall comp comp' cs, (forall t, comp t = comp' t) -> sorted_comps comp cs -> sorted_comps comp' cs.
Proof. intros comp comp' cs H S. induction S; constructor; auto. intros t Ht. rewrite <- H. auto. Qed.

Fixpoint copies (k : nat) (l : list nat) : list nat := match k with O => [] | S k' => copies k' l ++ l end.

Lemma selection_again : forall u u' z T, performed E u u' z T -> selection u' = selection u.
Proof.
  intros u u' z T P. unfold selection at 1. rewrite (f_select _ _ _ _ _ P), (f_tests _ _ _ _ _ P).
  destruct (selection u) eqn:Q; [|reflexivity]. unfold selection in Q. destruct (u_select u); [exact Q|discriminate Q].
Qed.

Lemma calls_inv : forall k u, fresh u ->
  let v := calls E k u in
  on_console v /\ selection v = selection u /\ (forall t, comp_of v t = comp_of u t) /\ sorted_comps (comp_of u) (u_comps v)
  /\ Permutation (flat_map c_tests (u_comps v)) (copies k (selection u)) /\ (forall t, name_of v t = name_of u t) /\ u_tests v = u_tests u.
Proof.
  induction k as [|k IH]; intros u F; cbv zeta.
  - cbn [calls copies]. destruct F as [F1 F2]. rewrite F1. repeat split; auto; try apply F2. constructor.
  - destruct (IH u F) as (A & B & C & D & G & N & TT). cbn [calls]. set (v := calls E k u) in *.
    destruct (perform_facts E v A) as [T P]. set (v' := fst (performUnitTests E v)) in *.
    pose proof (f_comps _ _ _ _ _ P) as CR. rewrite B in CR.
    assert (SG : sorted_comps (comp_of u) (grouped (comp_of v) (selection u) (u_comps v))).
    { apply (sorted_ext (comp_of v)); [exact C|]. apply grouped_sorted. apply (sorted_ext (comp_of u)); [intro t; now rewrite C|exact D]. }
    split; [exact (f_console _ _ _ _ _ P)|]. split; [rewrite (selection_again _ _ _ _ P); exact B|].
    split; [intro t; now rewrite (f_comp _ _ _ _ _ P)|]. split; [exact (cr_sorted _ _ _ _ CR SG)|].
    split; [|split; [intro t; now rewrite (f_name _ _ _ _ _ P)|rewrite (f_tests _ _ _ _ _ P); exact TT]].
    rewrite (proj1 (cr_flat _ _ _ CR)), grouped_perm. cbn [copies]. now apply Permutation_app_tail.
Qed.

Lemma count_copies : forall k l t, count_occ Nat.eq_dec (copies k l) t = (k * count_occ Nat.eq_dec l t)%nat.
Proof. induction k as [|k IH]; intros l t; [reflexivity|]. cbn [copies]. rewrite count_occ_app, IH. lia. Qed.

Lemma repeated : forall k u u' z, fresh u -> performUnitTests E (calls E k u) = (u', z) ->
  exists T, history (calls E k u) u' T
    /\ forall t, count_occ Nat.eq_dec (started T) t = (S k * count_occ Nat.eq_dec (selection u) t)%nat.
Proof.
  intros k u u' z F P. destruct (calls_inv k u F) as (A & B & C & D & G & _).
  destruct (perform_pair _ u' z A P) as [T PF]. exists T. split; [exact (f_history _ _ _ _ _ PF)|]. intro t.
  rewrite (f_started _ _ _ _ _ PF), B.
  assert (Q : Permutation (flat_map c_tests (grouped (comp_of (calls E k u)) (selection u) (u_comps (calls E k u)))) (copies (S k) (selection u))).
  { rewrite grouped_perm. cbn [copies]. now apply Permutation_app_tail. }
  rewrite (proj1 (Permutation_count_occ Nat.eq_dec _ _) Q t). apply count_copies.
Qed.

(** C73 *)
Lemma failed_names_ext : forall u u' l, (forall v, caseof u v = caseof u' v) -> failed_names u l = failed_names u' l.
Proof.
  intros u u' l H. unfold failed_names, name_of, status_of.
  rewrite (filter_ext (fun t => negb (is_success (t_status (caseof u t)))) (fun t => negb (is_success (t_status (caseof u' t))))) by (intro t; now rewrite H).
  apply map_ext. intro t. now rewrite H.
Qed.

Lemma prefix_app : forall a b, String.prefix a (a ++ b) = true.
Proof. induction a as [|c a IH]; intro b; [destruct b; reflexivity|]. cbn. destruct (ascii_dec c c); [apply IH|contradiction]. Qed.

Lemma failed_shown : forall u u' z T, performed E u u' z T -> (0 < u_verbosity u)%nat ->
  exists L1 L2,
    output u u' (L1 ++ framework_says (if (z =? 0)%Z then [] else failed_cases (failed_names u' (u_tests u))) ++ L2)
    /\ Forall (fun c => String.prefix "  Component " (ch_text c) = true \/ String.prefix "Unit Test " (ch_text c) = true
                        \/ String.prefix "Cannot save" (ch_text c) = true) L2.
Proof.
  intros u u' z T P V. destruct (f_output _ _ _ _ _ P) as (L1 & L2 & ur & O & C & S & VV & TT & CC & NN & _ & _ & _ & X).
  exists L1, (framework_says ((if (1 <? List.length (u_comps ur))%nat then map (comp_line E) (u_comps ur) else []) ++ [last_line E ur]) ++ L2).
  split.
  - unfold report_lines in O. rewrite VV in O. apply Nat.ltb_lt in V. rewrite V, S, TT in O.
    rewrite (failed_names_ext _ _ (u_tests u) C) in O. unfold framework_says in *. rewrite map_app in O. rewrite <- !app_assoc in O. exact O.
  - apply Forall_app. split.
    + unfold framework_says. apply Forall_forall. intros c I. apply in_map_iff in I. destruct I as [x [<- I]]. cbn [ch_text].
      apply in_app_or in I. destruct I as [I|[<-|[]]].
      * left. destruct (1 <? List.length (u_comps ur))%nat; [|destruct I]. apply in_map_iff in I. destruct I as [k [<- _]]. apply prefix_app.
      * right. left. apply prefix_app.
    + subst L2. destruct (is_empty (u_xml u) || can_write E (u_xml u)); [constructor|]. constructor; [|constructor]. right. right. exact (prefix_app "Cannot save" (" XML report to " ++ u_xml u)).
Qed.

Lemma failed_report : forall u u' z, fresh u -> NoDup (u_tests u) -> u_select u = [] -> (0 < u_verbosity u)%nat -> performUnitTests E u = (u', z) ->
  exists L1 L2,
    output u u' (L1 ++ framework_says (failed_cases (map (name_of u) (filter (fun t => negb (is_success (status_of u' t))) (u_tests u)))) ++ L2)
    /\ Forall (fun c => String.prefix "  Component " (ch_text c) = true \/ String.prefix "Unit Test " (ch_text c) = true
                        \/ String.prefix "Cannot save" (ch_text c) = true) L2.
Proof.
  intros u u' z F ND S V P. destruct (perform_pair u u' z (proj2 F) P) as [T PF]. destruct (failed_shown u u' z T PF V) as (L1 & L2 & O & X).
  exists L1, L2. split; [|exact X]. unfold failed_names in O.
  rewrite (map_ext _ _ (f_name _ _ _ _ _ PF)) in O.
  destruct (z =? 0)%Z eqn:Z; [|exact O]. apply Z.eqb_eq in Z.
  assert (SL : selection u = u_tests u) by (unfold selection; now rewrite S).
  rewrite <- SL in ND. destruct (exit_final u u' z F ND P) as [_ G]. rewrite SL in G.
  rewrite filter_none; [exact O|]. intros t I. rewrite (proj1 G Z t I). reflexivity.
Qed.

Lemma failed_report_others : forall u u' z t, fresh u -> (0 < u_verbosity u)%nat -> performUnitTests E u = (u', z) -> z <> 0%Z ->
  In t (u_tests u) -> ~ In t (selection u) ->
  exists T L1 names L2, history u u' T /\ ~ In t (started T) /\ output u u' (L1 ++ framework_says (failed_cases names) ++ L2) /\ In (name_of u t) names.
Proof.
  intros u u' z t F V P Z I N. destruct (perform_pair u u' z (proj2 F) P) as [T PF]. destruct (failed_shown u u' z T PF V) as (L1 & L2 & O & X).
  exists T, L1, (failed_names u' (u_tests u)), L2. apply Z.eqb_neq in Z. rewrite Z in O.
  assert (N' : ~ In t (started T)) by (intro Q; apply N; now apply (fresh_in _ _ _ _ _ F PF)).
  split; [exact (f_history _ _ _ _ _ PF)|]. split; [exact N'|]. split; [exact O|].
  unfold failed_names. rewrite <- (f_name _ _ _ _ _ PF). apply in_map. apply filter_In. split; [exact I|].
  unfold status_of. rewrite (f_unrun _ _ _ _ _ PF t N' I). reflexivity.
Qed.

(** C75 *)
Lemma tally_case : forall u comp t l, tally (case_xml u comp t ++ l) =
  let '(r, c, f) := tally l in (r, c + 1, if is_success (status_of u t) then f else f + 1)%Z.
Proof.
  intros u comp t l. unfold case_xml. rewrite hasPassed_success. fold (status_of u t).
  destruct (is_success (status_of u t)); cbn; destruct (tally l) as [[r c] f]; reflexivity.
Qed.
Definition unpassed (u : unit_test) (l : list nat) : Z := len (filter (fun t => negb (is_success (status_of u t))) l).
Lemma tally_cases : forall u comp ts l, tally (flat_map (case_xml u comp) ts ++ l) =
  let '(r, c, f) := tally l in (r, c + len ts, f + unpassed u ts)%Z.
Proof.
  induction ts as [|t ts IH]; intro l.
  - cbn. destruct (tally l) as [[r c] f]. rewrite !Z.add_0_r. reflexivity.
  - cbn [flat_map]. rewrite <- app_assoc, tally_case, IH. destruct (tally l) as [[r c] f]. unfold unpassed, len. cbn [filter List.length].
    destruct (is_success (status_of u t)); cbn [negb List.length]; (apply f_equal2; [apply f_equal2; [reflexivity|]|]); lia.
Qed.
Lemma tally_suite : forall u comp l, tally (suite_xml u comp ++ l) =
  let '(r, _, _) := tally l in ((len (c_tests comp), c_failures comp, len (c_tests comp), unpassed u (c_tests comp)) :: r, 0, 0)%Z.
Proof.
  intros u comp l. unfold suite_xml. rewrite <- !app_assoc. cbn [app]. cbn [tally].
  rewrite tally_cases. cbn [tally app]. destruct (tally l) as [[r c] f]. rewrite !Z.add_0_l. reflexivity.
Qed.
Lemma suites_eq : forall u, suites (report_xml u) = map (fun c => (len (c_tests c), c_failures c, len (c_tests c), unpassed u (c_tests c))) (u_comps u).
Proof.
  intro u. unfold suites, report_xml. cbn [app tally].
  assert (G : forall cs, fst (fst (tally (flat_map (suite_xml u) cs ++ [XSuitesEnd]))) = map (fun c => (len (c_tests c), c_failures c, len (c_tests c), unpassed u (c_tests c))) cs).
  { induction cs as [|c cs IH]; [reflexivity|]. cbn [flat_map map]. rewrite <- app_assoc, tally_suite. 
    destruct (tally (flat_map (suite_xml u) cs ++ [XSuitesEnd])) as [[r a] f]. cbn in *. now rewrite IH. }
  rewrite <- G. destruct (tally (flat_map (suite_xml u) (u_comps u) ++ [XSuitesEnd])) as [[r a] f]. reflexivity.
Qed.
Lemma totals_eq : forall u, totals (report_xml u) = Some (len (u_select u), u_failed u).
Proof. reflexivity. Qed.

Lemma sum_tests : forall cs, sum (map (fun c => len (c_tests c)) cs) = len (flat_map c_tests cs).
Proof. induction cs as [|c cs IH]; [reflexivity|]. unfold sum, len in *. cbn [map fold_right flat_map]. rewrite IH, app_length. lia. Qed.

Lemma bad_unpassed : forall u V, (forall t s, In (t, s) V -> status_of u t = s) ->
  len (filter (fun p : nat * stat => negb (is_success (snd p))) V) = unpassed u (map fst V).
Proof.
  intro u. induction V as [|[t s] V IH]; intro H; [reflexivity|]. unfold unpassed, len in *. cbn [filter map fst snd].
  rewrite (H t s (or_introl eq_refl)). assert (IH' := IH (fun t s I => H t s (or_intror I))).
  destruct (is_success s); cbn [negb List.length]; lia.
Qed.

Lemma cr_counts : forall u cs cs' T, comps_ran cs cs' T -> (forall t s, In (t, s) (verdicts T) -> status_of u t = s) ->
  (forall c, In c cs -> c_failures c = 0%Z) ->
  sum (map c_failures cs') = bad_count T /\ forall c, In c cs' -> c_failures c = unpassed u (c_tests c).
Proof.
  induction 1 as [|c c' cs cs' T T' N Te Fa V C IH]; intros H Z.
  - split; [reflexivity|]. intros c [].
  - destruct IH as [I1 I2].
    + intros t s I. apply H. rewrite verdicts_app. apply in_or_app. auto.
    + intros d Hd. apply Z. right. exact Hd.
    + rewrite (Z c (or_introl eq_refl)), Z.add_0_l in Fa.
      split; [rewrite bad_count_app; cbn; rewrite <- I1, Fa; reflexivity|]. intros d [<-|Hd]; [|auto].
      rewrite Te, Fa, <- V. unfold bad_count. apply bad_unpassed. intros t s I. apply H. rewrite verdicts_app. apply in_or_app. auto.
Qed.

Lemma add_zero : forall n t l, (forall c, In c l -> c_failures c = 0%Z) -> forall c, In c (add_to_comp n t l) -> c_failures c = 0%Z.
Proof.
  induction l as [|d l IH]; intros H c I; cbn [add_to_comp] in I.
  - destruct I as [<-|[]]. reflexivity.
  - destruct (String.compare n (c_name d)).
    + destruct I as [<-|I]; [cbn|]; apply H; [left; reflexivity|right; exact I].
    + destruct I as [<-|I]; [reflexivity|]. apply H. exact I.
    + destruct I as [<-|I]; [apply H; left; reflexivity|]. apply IH; [|exact I]. intros x Hx. apply H. right. exact Hx.
Qed.
Lemma grouped_zero : forall comp sel l, (forall c, In c l -> c_failures c = 0%Z) -> forall c, In c (grouped comp sel l) -> c_failures c = 0%Z.
Proof. induction sel as [|t sel IH]; intros l H; [exact H|]. apply IH. now apply add_zero. Qed.

Lemma xml_counts : forall u u' z, fresh u -> NoDup (selection u) -> performUnitTests E u = (u', z) ->
  totals (report_xml u') = Some (sum (map (fun x => fst (fst (fst x))) (suites (report_xml u'))), sum (map (fun x => snd (fst (fst x))) (suites (report_xml u'))))
  /\ forall n m c f, In (n, m, c, f) (suites (report_xml u')) -> n = c /\ m = f.
Proof.
  intros u u' z F ND P. destruct (perform_pair u u' z (proj2 F) P) as [T PF]. destruct (fresh_started _ _ _ _ F PF) as [PE _].
  assert (ND' : NoDup (started T)) by (eapply Permutation_NoDup; [symmetry; exact PE|exact ND]).
  pose proof (f_comps _ _ _ _ _ PF) as CR.
  destruct (cr_counts u' _ _ _ CR (f_final _ _ _ _ _ PF ND')) as [C1 C2].
  { apply grouped_zero. rewrite (proj1 F). intros c []. }
  rewrite totals_eq, suites_eq, !map_map. cbn [fst snd]. split.
  - f_equal. f_equal.
    + change (map (fun x => len (c_tests x)) (u_comps u')) with (map (fun c => len (c_tests c)) (u_comps u')). rewrite sum_tests, (proj1 (cr_flat _ _ _ CR)), <- (f_started _ _ _ _ _ PF), (f_select _ _ _ _ _ PF).
      unfold len. now rewrite (Permutation_length PE).
    + rewrite (f_failed _ _ _ _ _ PF). symmetry. exact C1.
  - intros n m c f I. apply in_map_iff in I. destruct I as [k [Q I]]. injection Q as <- <- <- <-. split; [reflexivity|]. apply C2, I.
Qed.

Lemma copies_length : forall k l, len (copies k l) = (Z.of_nat k * len l)%Z.
Proof. induction k as [|k IH]; intro l; [reflexivity|]. unfold len in *. cbn [copies]. rewrite app_length, Nat2Z.inj_add, IH. lia. Qed.

Lemma xml_counts_repeated : forall k u u' z, fresh u -> performUnitTests E (calls E k u) = (u', z) ->
  exists n f, totals (report_xml u') = Some (n, f) /\ n = len (selection u)
    /\ sum (map (fun x => fst (fst (fst x))) (suites (report_xml u'))) = ((Z.of_nat k + 1) * n)%Z.
Proof.
  intros k u u' z F P. destruct (calls_inv k u F) as (A & B & C & D & G & _). destruct (perform_pair _ u' z A P) as [T PF].
  exists (len (u_select u')), (u_failed u'). split; [reflexivity|]. rewrite (f_select _ _ _ _ _ PF), B. split; [reflexivity|].
  rewrite suites_eq, map_map. cbn [fst]. rewrite sum_tests, (proj1 (cr_flat _ _ _ (f_comps _ _ _ _ _ PF))), B.
  assert (Q : Permutation (flat_map c_tests (grouped (comp_of (calls E k u)) (selection u) (u_comps (calls E k u)))) (copies (S k) (selection u))).
  { rewrite grouped_perm. cbn [copies]. now apply Permutation_app_tail. }
  unfold len at 1. rewrite (Permutation_length Q). change (Z.of_nat (List.length (copies (S k) (selection u)))) with (len (copies (S k) (selection u))). rewrite copies_length. f_equal. lia.
Qed.

End Run.
