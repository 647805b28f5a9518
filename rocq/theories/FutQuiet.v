(** * The effect of the verbosity level. *)

From Coq Require Import ZArith String Ascii Bool List Arith Lia.
From Verif Require Import Base TextModel TextSpec TextFacts FutModel FutSpec FutProofs FutRun.
Import ListNotations.
Open Scope string_scope.
Open Scope list_scope.

Lemma sub_refl : forall (A : Type) (l : list A), sub l l.
Proof. induction l; constructor; assumption. Qed.
Lemma sub_app : forall (A : Type) (a b c d : list A), sub a b -> sub c d -> sub (a ++ c) (b ++ d).
Proof.
  intros A a b c d H K. induction H as [l|x a b H IH|x a b H IH]; cbn.
  - induction l as [|x l IH]; [exact K|]. cbn. now apply sub_skip.
  - now apply sub_skip.
  - now apply sub_take.
Qed.
Lemma sub_map : forall (A B : Type) (f : A -> B) a b, sub a b -> sub (map f a) (map f b).
Proof. intros A B f a b H. induction H; cbn; constructor; assumption. Qed.

Section Worlds.
Variable K0 : list chunk.

(** Two worlds that differ in what has been printed after [K0] only. *)
Record simw (w w' : world) : Prop := mkSimw {
  s_case : w_case w = w_case w';
  s_out : w_out w = w_out w';
  s_err : w_err w = w_err w';
  s_tick : w_tick w = w_tick w';
  s_trace : w_trace w = w_trace w';
  s_console : exists D D', w_console w = K0 ++ D /\ w_console w' = K0 ++ D' /\ sub D D'
}.

Lemma sim_on_case : forall t f w w', simw w w' -> simw (on_case t f w) (on_case t f w').
Proof. intros t f [] [] []. cbn in *. subst. constructor; cbn; auto. Qed.
Lemma sim_note : forall e w w', simw w w' -> simw (note e w) (note e w').
Proof. intros e [] [] []. cbn in *. subst. constructor; cbn; auto. Qed.
Lemma sim_tick : forall w w', simw w w' -> simw (tick w) (tick w').
Proof. intros [] [] []. cbn in *. subst. constructor; cbn; auto. Qed.
Lemma sim_dests : forall o e w w', simw w w' -> simw (set_dests o e w) (set_dests o e w').
Proof. intros o e [] [] []. cbn in *. subst. constructor; cbn; auto. Qed.
Lemma sim_say : forall c w w', simw w w' -> simw (say c w) (say c w').
Proof. intros c [] [] []. cbn in *. subst. constructor; cbn; auto. destruct s_console0 as (D & D' & -> & -> & S).
  exists (D ++ [c]), (D' ++ [c]). rewrite !app_assoc. split; [reflexivity|]. split; [reflexivity|]. apply sub_app; [assumption|apply sub_refl]. Qed.
Lemma sim_print : forall st o s w w', simw w w' -> simw (print st o s w) (print st o s w').
Proof.
  intros st o s w w' H. unfold print. rewrite <- (s_out _ _ H), <- (s_err _ _ H).
  destruct (match st with Out => w_out w | Err => w_err w end); [now apply sim_say|now apply sim_on_case].
Qed.

Lemma sim_exec1 : forall t s w w', simw w w' -> simw (fst (exec1 t s w)) (fst (exec1 t s w')) /\ snd (exec1 t s w) = snd (exec1 t s w').
Proof.
  intros t s w w' H. destruct s; cbn [exec1]; try (destruct ok); try (destruct r as [| |]); try (destruct r as [[|]|]); try (destruct r);
    cbn [fst snd]; (split; [|reflexivity]); unfold checkFail, fail; try exact H; try (apply sim_on_case; exact H); try (apply sim_print; exact H).
Qed.

Lemma sim_exec : forall t l w w', simw w w' -> simw (fst (exec_body t l w)) (fst (exec_body t l w')) /\ snd (exec_body t l w) = snd (exec_body t l w').
Proof.
  induction l as [|s l IH]; intros w w' H; [split; [exact H|reflexivity]|]. cbn [exec_body].
  destruct (sim_exec1 t s _ _ (sim_note (EvStmt t s) _ _ H)) as [A B].
  destruct (exec1 t s (note (EvStmt t s) w)) as [w1 r1], (exec1 t s (note (EvStmt t s) w')) as [w2 r2]. cbn [fst snd] in A, B. subst r2.
  destruct r1; [split; [exact A|reflexivity]|]. now apply IH.
Qed.

Section Quiet.
Variable E : env.

Lemma sim_markBegin : forall t w w', simw w w' -> simw (markBegin E t w) (markBegin E t w').
Proof. intros t w w' H. unfold markBegin. rewrite (s_tick _ _ H). now apply sim_on_case, sim_tick. Qed.
Lemma sim_markEnd : forall t w w', simw w w' -> simw (markEnd E t w) (markEnd E t w').
Proof. intros t w w' H. unfold markEnd. rewrite (s_tick _ _ H). now apply sim_on_case, sim_tick. Qed.
Lemma sim_caught : forall t e w w', simw w w' -> simw (caught E t e w) (caught E t e w').
Proof. intros t e w w' H. unfold caught. now apply sim_on_case, sim_markEnd. Qed.

Lemma sim_run : forall t w w', simw w w' -> simw (run E t w) (run E t w').
Proof.
  intros t w w' H. unfold run. rewrite <- (s_case _ _ H). set (sc := beh E t (t_runs (w_case w t))). clearbody sc.
  assert (H0 := sim_note (EvSetUp t) _ _ (sim_on_case t (fun c => with_runs (S (t_runs c)) (with_status NONE c)) _ _ H)).
  destruct (sim_exec t (sc_setup sc) _ _ H0) as [A B].
  destruct (exec_body t (sc_setup sc) _) as [w1 r1], (exec_body t (sc_setup sc) (note (EvSetUp t) (on_case t _ w'))) as [w2 r2]. cbn [fst snd] in A, B. subst r2.
  destruct r1; [|now apply sim_caught].
  assert (H1 := sim_note (EvTest t) _ _ (sim_markBegin t _ _ A)).
  destruct (sim_exec t (sc_test sc) _ _ H1) as [A1 B1].
  destruct (exec_body t (sc_test sc) (note (EvTest t) (markBegin E t w1))) as [w3 r3], (exec_body t (sc_test sc) (note (EvTest t) (markBegin E t w2))) as [w4 r4].
  cbn [fst snd] in A1, B1. subst r4.
  destruct r3; [|now apply sim_caught].
  assert (H2 := sim_markEnd t _ _ A1). cbv zeta. rewrite <- (s_case _ _ H2).
  set (w5 := markEnd E t w3) in *. set (w6 := markEnd E t w4) in *. clearbody w5 w6.
  set (w7 := if is_none (t_status (w_case w5 t)) then on_case t _ w5 else w5).
  set (w8 := if is_none (t_status (w_case w5 t)) then on_case t _ w6 else w6).
  assert (H3 : simw w7 w8) by (unfold w7, w8; destruct (is_none (t_status (w_case w5 t))); [now apply sim_on_case|exact H2]).
  clearbody w7 w8. 
  destruct (sim_exec t (sc_teardown sc) _ _ (sim_note (EvTearDown t) _ _ H3)) as [A2 B2].
  destruct (exec_body t (sc_teardown sc) (note (EvTearDown t) w7)) as [w9 r9], (exec_body t (sc_teardown sc) (note (EvTearDown t) w8)) as [w10 r10].
  cbn [fst snd] in A2, B2. subst r10. destruct r9; [exact A2|now apply sim_caught].
Qed.

Definition rest (u : unit_test) :=
  (u_tests u, u_byName u, u_comps u, u_select u, (u_xml u, u_id u, u_name u), (u_status u, u_failed u), (u_capture u, u_errfail u), (u_begin u, u_end u, u_files u)).
Record simu (u u' : unit_test) : Prop := mkSimu {
  s_world : simw (u_world u) (u_world u');
  s_rest : rest u = rest u';
  s_verb : (u_verbosity u <= u_verbosity u')%nat
}.

Lemma sim_in_world : forall f f' u u', (simw (u_world u) (u_world u') -> simw (f (u_world u)) (f' (u_world u'))) -> simu u u' -> simu (in_world f u) (in_world f' u').
Proof. intros f f' u u' H []. constructor; [apply H; assumption| |assumption]. exact s_rest0. Qed.

Lemma sim_says : forall L L' u u', sub L L' -> simu u u' -> simu (says L u) (says L' u').
Proof.
  intros L L' u u' S H. unfold says. apply sim_in_world; [|exact H]. intro K. destruct K. constructor; cbn; auto. destruct s_console0 as (D & D' & -> & -> & S').
  exists (D ++ framework_says L), (D' ++ framework_says L'). rewrite !app_assoc. split; [reflexivity|]. split; [reflexivity|].
  apply sub_app; [assumption|]. unfold framework_says. now apply sub_map.
Qed.

Lemma begin_lines_sub : forall v v' n name, (v <= v')%nat -> sub (begin_lines v n name) (begin_lines v' n name).
Proof.
  intros v v' n name H. unfold begin_lines. destruct (3 <=? v)%nat eqn:A; [|constructor].
  apply Nat.leb_le in A. assert (B : (3 <=? v')%nat = true) by (apply Nat.leb_le; lia). rewrite B. apply sub_refl.
Qed.

Lemma leb_le_trans : forall n v v', (v <= v')%nat -> (n <=? v)%nat = true -> (n <=? v')%nat = true.
Proof. intros n v v' H A. apply Nat.leb_le in A. apply Nat.leb_le. lia. Qed.

Lemma end_lines_sub : forall v v' n c, (v <= v')%nat -> sub (end_lines v n c) (end_lines v' n c).
Proof.
  intros v v' n c H. unfold end_lines.
  assert (M : forall k, (k <=? v)%nat = true -> (k <=? v')%nat = true) by (intro k; now apply leb_le_trans).
  set (passed := is_success (t_status c)).
  assert (B : forall k (x : bool), ((k <=? v)%nat || (0 <? v)%nat && x) = true -> ((k <=? v')%nat || (0 <? v')%nat && x) = true).
  { intros k x Q. apply orb_true_iff in Q. apply orb_true_iff. destruct Q as [Q|Q]; [left; now apply M|right].
    apply andb_true_iff in Q. apply andb_true_iff. destruct Q as [Q1 Q2]. split; [unfold Nat.ltb in *; now apply M|exact Q2]. }
  apply sub_app; [|apply sub_app].
  - destruct (negb (is_empty (capturedOut c))); cbn [andb]; [|constructor].
    destruct ((5 <=? v)%nat || (0 <? v)%nat && negb passed) eqn:Q; [|constructor]. rewrite (B _ _ Q). apply sub_refl.
  - destruct (negb (is_empty (capturedErr c))); cbn [andb]; [|constructor].
    destruct ((4 <=? v)%nat || (0 <? v)%nat && negb passed) eqn:Q; [|constructor]. rewrite (B _ _ Q). apply sub_refl.
  - change (0 <? v)%nat with (1 <=? v)%nat. change (0 <? v')%nat with (1 <=? v')%nat.
    destruct (t_status c); cbn [andb]; rewrite ?andb_false_r, ?andb_true_r.
    + destruct (2 <=? v)%nat eqn:Q; [|constructor]. rewrite (M _ Q). apply sub_refl.
    + destruct (2 <=? v)%nat eqn:Q; [|constructor]. rewrite (M _ Q). apply sub_refl.
    + destruct (1 <=? v)%nat eqn:Q; [rewrite (M _ Q); apply sub_refl|]. destruct (2 <=? v)%nat eqn:Q2; [|constructor].
      apply Nat.leb_le in Q2. apply Nat.leb_gt in Q. lia.
    + destruct (1 <=? v)%nat eqn:Q; [rewrite (M _ Q); apply sub_refl|]. destruct (2 <=? v)%nat eqn:Q2; [|constructor].
      apply Nat.leb_le in Q2. apply Nat.leb_gt in Q. lia.
    + destruct (2 <=? v)%nat eqn:Q; [|constructor]. rewrite (M _ Q). apply sub_refl.
Qed.

Lemma simu_case : forall u u' t, simu u u' -> caseof u t = caseof u' t.
Proof. intros u u' t H. unfold caseof. now rewrite (s_case _ _ (s_world _ _ H)). Qed.
Lemma simu_on_console : forall u u', simu u u' -> on_console u -> on_console u'.
Proof. intros u u' H [A B]. destruct (s_world _ _ H). split; congruence. Qed.
Lemma simu_capture : forall u u', simu u u' -> u_capture u = u_capture u'.
Proof. intros u u' [_ R _]. unfold rest in R. congruence. Qed.

Definition sim3 (s s' : unit_test * nat * Z) : Prop :=
  let '(u, n, f) := s in let '(u', n', f') := s' in simu u u' /\ n = n' /\ f = f' /\ on_console u.

Lemma sim_begin : forall n t u u', simu u u' -> on_console u -> simu (beginTest n t u) (beginTest n t u').
Proof.
  intros n t u u' H C. rewrite !beginTest_eq by (try exact C; exact (simu_on_console _ _ H C)).
  rewrite <- (simu_capture _ _ H), <- (simu_case _ _ t H).
  apply sim_in_world; [|apply sim_says; [apply begin_lines_sub, (s_verb _ _ H)|exact H]].
  intro K. unfold tc_begin. apply sim_on_case. destruct (u_capture u); [now apply sim_dests|exact K].
Qed.

Lemma sim_end : forall n t u u', simu u u' -> (u_capture u = false -> on_console u) -> simu (endTest Console Console n t u) (endTest Console Console n t u').
Proof.
  intros n t u u' H C. rewrite !endTest_eq; [|intro Q; apply (simu_on_console _ _ H), C; rewrite (simu_capture _ _ H); exact Q|exact C].
  cbv zeta. rewrite <- (simu_capture _ _ H).
  assert (S : simu (in_world (tc_end (u_capture u) Console Console t) u) (in_world (tc_end (u_capture u) Console Console t) u')).
  { apply sim_in_world; [|exact H]. intro K. unfold tc_end. destruct (u_capture u); [|exact K]. now apply sim_on_case, sim_dests. }
  rewrite <- (simu_case _ _ t S). apply sim_says; [apply end_lines_sub, (s_verb _ _ H)|exact S].
Qed.

Lemma sim_finish : forall t n f u u', simu u u' -> 
  let '(v, a, b) := finish t n f u in let '(v', a', b') := finish t n f u' in simu v v' /\ a = a' /\ b = b'.
Proof.
  intros t n f u u' H. unfold finish. cbv zeta. rewrite <- (simu_case _ _ t H).
  set (v := in_world _ u). set (v' := in_world _ u').
  assert (S : simu v v') by (apply sim_in_world; [intro K; now apply sim_note|exact H]). clearbody v v'.
  rewrite !hasPassed_success, <- (simu_case _ _ t S). destruct (is_success (t_status (caseof v t))); [auto|]. split; [|auto].
  destruct S. constructor; cbn; auto. unfold rest in *. cbn in *. congruence.
Qed.

Lemma run_one_unf' : forall t u n f,
  run_one E t (u, n, f) = finish t (S n) f (endTest (w_out (u_world u)) (w_err (u_world u)) (S n) t (in_world (run E t) (beginTest (S n) t u))).
Proof. reflexivity. Qed.

Lemma sim_run_one : forall t s s', sim3 s s' -> sim3 (run_one E t s) (run_one E t s').
Proof.
  intros t [[u n] f] [[u' n'] f'] (H & <- & <- & C). 
  pose proof (run_one_one E t u n f C) as (v & R & O).
  assert (S : let '(v, a, b) := run_one E t (u, n, f) in let '(v', a', b') := run_one E t (u', n, f) in simu v v' /\ a = a' /\ b = b').
  { rewrite !run_one_unf'. destruct C as [C1 C2]. destruct (simu_on_console _ _ H (conj C1 C2)) as [C3 C4]. rewrite C1, C2, C3, C4.
    apply sim_finish. apply sim_end.
    - apply sim_in_world; [intro K; now apply sim_run|]. apply sim_begin; [exact H|split; assumption].
    - change (u_capture (in_world (run E t) (beginTest (S n) t u))) with (u_capture (beginTest (S n) t u)).
      rewrite beginTest_eq by (split; assumption). cbn [u_capture]. intro Q. change (u_capture u = false) in Q.
      set (w0 := u_world (in_world (tc_begin (u_capture u) t) (says (begin_lines (u_verbosity u) (S n) (t_name (caseof u t))) u))).
      assert (W : w_out w0 = Console /\ w_err w0 = Console).
      { unfold w0, in_world, tc_begin. cbn. rewrite Q. onc. auto. }
      destruct W as [W1 W2].
      assert (RR : ran t (beh E t (t_runs (w_case w0 t))) w0 (run E t w0)) by (apply run_ran; left; assumption).
      split; [change (w_out (run E t w0) = Console); rewrite (r_out _ _ _ _ RR)|change (w_err (run E t w0) = Console); rewrite (r_err _ _ _ _ RR)]; assumption. }
  rewrite R in S |- *. destruct (run_one E t (u', n, f)) as [[v' a'] b']. cbn [sim3]. destruct S as (S1 & S2 & S3).
  split; [exact S1|]. split; [exact S2|]. split; [exact S3|]. exact (o_console _ _ _ _ O).
Qed.

Lemma sim_fold : forall ts s s', sim3 s s' -> sim3 (fold_left (fun s t => run_one E t s) ts s) (fold_left (fun s t => run_one E t s) ts s').
Proof.
  induction ts as [|t ts IH]; intros s s' H; [exact H|]. rewrite !fold_cons. apply IH. now apply sim_run_one.
Qed.

Lemma sim_run_comps : forall todo done u u' n, simu u u' -> on_console u -> 
  simu (run_comps E todo done (u, n)) (run_comps E todo done (u', n)) /\ on_console (run_comps E todo done (u, n)).
Proof.
  induction todo as [|c todo IH]; intros done u u' n H C.
  - cbn [run_comps]. split; [|exact C]. destruct H. constructor; cbn; auto. unfold rest in *. cbn. congruence.
  - cbn [run_comps].
    assert (S : sim3 (in_world tick u, n, c_failures c) (in_world tick u', n, c_failures c)).
    { split; [apply sim_in_world; [intro K; now apply sim_tick|exact H]|]. split; [reflexivity|]. split; [reflexivity|]. exact C. }
    apply (sim_fold (c_tests c)) in S.
    destruct (fold_left _ (c_tests c) (in_world tick u, n, c_failures c)) as [[u1 n1] f1].
    destruct (fold_left _ (c_tests c) (in_world tick u', n, c_failures c)) as [[u2 n2] f2].
    destruct S as (S1 & <- & <- & C1).
    rewrite <- (s_tick _ _ (s_world _ _ H)), <- (s_tick _ _ (s_world _ _ S1)).
    apply IH; [|exact C1]. apply sim_in_world; [intro K; now apply sim_tick|exact S1].
Qed.

Lemma sim_init : forall u u', simu u u' -> simu (init u) (init u').
Proof.
  intros u u' H. unfold init. assert (T : u_tests u = u_tests u') by (destruct H; unfold rest in *; congruence). rewrite T.
  apply sim_in_world.
  - change (simw (u_world u) (u_world u') ->
            simw (fold_left (fun w t => on_case t (with_status NONE) w) (u_tests u') (u_world u))
                 (fold_left (fun w t => on_case t (with_status NONE) w) (u_tests u') (u_world u'))).
    generalize (u_tests u') as l. generalize (u_world u) as w, (u_world u') as w'. intros w w' l. revert w w'.
    induction l as [|t l IH]; intros w w' K; [exact K|]. cbn. apply IH. now apply sim_on_case.
  - destruct H. constructor; cbn; auto. unfold rest in *. cbn. congruence.
Qed.
Lemma sim_select_all : forall u u', simu u u' -> simu (select_all u) (select_all u').
Proof.
  intros u u' H. unfold select_all. assert (T : u_tests u = u_tests u' /\ u_select u = u_select u') by (destruct H; unfold rest in *; split; congruence).
  destruct T as [T1 T2]. rewrite <- T2, <- T1. destruct (u_select u); [|exact H]. destruct H. constructor; cbn; auto. unfold rest in *. cbn. congruence.
Qed.
Lemma sim_group : forall u u', simu u u' -> simu (group u) (group u').
Proof.
  intros u u' H. unfold group. assert (T : u_comps u = u_comps u' /\ u_select u = u_select u') by (destruct H; unfold rest in *; split; congruence).
  destruct T as [T1 T2]. rewrite <- T2, <- T1.
  rewrite (fold_ext _ _ (fun l t => add_to_comp (t_comp (caseof u' t)) t l) (fun l t => add_to_comp (t_comp (caseof u t)) t l)) by (intros a b; now rewrite (simu_case _ _ b H)).
  set (cs := fold_left _ (u_select u) (u_comps u)). clearbody cs.
  destruct H. constructor; cbn; auto. unfold rest in *. cbn. congruence.
Qed.
Lemma sim_runAll : forall u u', simu u u' -> on_console u -> simu (runAllTests E u) (runAllTests E u') /\ on_console (runAllTests E u).
Proof.
  intros u u' H C. unfold runAllTests. cbv zeta. assert (G := sim_group _ _ H). assert (C' : on_console (group u)) by exact C.
  set (g := group u) in *. set (g' := group u') in *. clearbody g g'.
  assert (K : u_comps g = u_comps g') by (destruct G; unfold rest in *; congruence). rewrite <- K.
  destruct (sim_run_comps (u_comps g) [] (in_world tick g) (in_world tick g') 0) as [A B].
  { apply sim_in_world; [intro X; now apply sim_tick|exact G]. } { exact C'. }
  set (r := run_comps E (u_comps g) [] (in_world tick g, 0)) in *. set (r' := run_comps E (u_comps g) [] (in_world tick g', 0)) in *. clearbody r r'.
  rewrite <- (s_tick _ _ (s_world _ _ G)), <- (s_tick _ _ (s_world _ _ A)).
  split; [|exact B]. destruct A as [A1 A2 A3]. constructor; cbn.
  - now apply sim_tick.
  - unfold rest in *. cbn. congruence.
  - exact A3.
Qed.

Lemma report_lines_sub : forall u u', simu u u' -> sub (report_lines E u) (report_lines E u').
Proof.
  intros u u' H. unfold report_lines. destruct (0 <? u_verbosity u)%nat eqn:V; [|constructor].
  assert (V' : (0 <? u_verbosity u')%nat = true).
  { apply Nat.ltb_lt in V. apply Nat.ltb_lt. pose proof (s_verb _ _ H). lia. }
  rewrite V'.
  assert (T : u_status u = u_status u' /\ u_tests u = u_tests u' /\ u_comps u = u_comps u' /\ u_name u = u_name u' /\ u_begin u = u_begin u' /\ u_end u = u_end u').
  { destruct H. unfold rest in *. repeat split; congruence. }
  destruct T as (T1 & T2 & T3 & T4 & T5 & T6). unfold last_line. rewrite <- T1, <- T2, <- T3, <- T4, <- T5, <- T6.
  rewrite (failed_names_ext u u' (u_tests u) (fun v => simu_case _ _ v H)). apply sub_refl.
Qed.

Lemma sim_report : forall u u', simu u u' -> on_console u -> simu (report E u) (report E u') /\ on_console (report E u).
Proof.
  intros u u' H C. rewrite !report_eq by (try exact C; exact (simu_on_console _ _ H C)). split; [|exact C].
  apply sim_says; [now apply report_lines_sub|exact H].
Qed.

Lemma sim_save : forall u u', simu u u' -> simu (save_report E u) (save_report E u').
Proof.
  intros u u' H. unfold save_report, saveToXML.
  assert (T : u_xml u = u_xml u') by (destruct H; unfold rest in *; congruence).
  rewrite <- T. destruct (is_empty (u_xml u)); [exact H|].
  assert (X : report_xml u = report_xml u').
  { apply report_xml_ext; [intro v; exact (simu_case _ _ v H)|..]; destruct H; unfold rest in *; congruence. }
  rewrite <- X. destruct (can_write E (u_xml u)).
  - destruct H. constructor; cbn; auto. unfold rest in *. cbn. congruence.
  - apply sim_in_world; [|exact H]. intro K. now apply sim_print.
Qed.

Lemma sim_perform : forall u u', simu u u' -> on_console u -> simu (fst (performUnitTests E u)) (fst (performUnitTests E u')) /\ snd (performUnitTests E u) = snd (performUnitTests E u').
Proof.
  intros u u' H C. rewrite !perform_unf. cbn [fst snd].
  assert (H1 := sim_select_all _ _ (sim_init _ _ H)).
  assert (C1 : on_console (select_all (init u))).
  { unfold select_all. destruct (init_fold (u_tests u) (u_world u)) as (A & B & _).
    assert (Q : on_console (init u)) by (split; [change (w_out (fold_left (fun w t => on_case t (with_status NONE) w) (u_tests u) (u_world u)) = Console); rewrite A; apply C
                                            |change (w_err (fold_left (fun w t => on_case t (with_status NONE) w) (u_tests u) (u_world u)) = Console); rewrite B; apply C]).
    destruct (u_select (init u)); exact Q. }
  set (a := select_all (init u)) in *. set (a' := select_all (init u')) in *. clearbody a a'.
  destruct (sim_runAll _ _ H1 C1) as [H2 C2]. set (b := runAllTests E a) in *. set (b' := runAllTests E a') in *. clearbody b b'.
  destruct (sim_report _ _ H2 C2) as [H3 _]. set (c := report E b) in *. set (c' := report E b') in *. clearbody c c'.
  assert (H4 := sim_save _ _ H3). split; [exact H4|]. destruct H4. unfold rest in *. congruence.
Qed.

End Quiet.
End Worlds.

(** C74 *)
Lemma louder : forall E u v v', on_console u -> (v <= v')%nat ->
  exists L L', output u (fst (performUnitTests E (set_verbosity v u))) L /\ output u (fst (performUnitTests E (set_verbosity v' u))) L'
    /\ sub L L' /\ snd (performUnitTests E (set_verbosity v u)) = snd (performUnitTests E (set_verbosity v' u)).
Proof.
  intros E u v v' C H. set (K := w_console (u_world u)).
  assert (S0 : simu K (set_verbosity v u) (set_verbosity v' u)).
  { constructor; [constructor; try reflexivity|reflexivity|exact H]. exists [], []. rewrite app_nil_r. repeat split; constructor. }
  destruct (sim_perform K E _ _ S0 C) as [S1 S2]. destruct (s_console _ _ _ (s_world _ _ _ S1)) as (L & L' & A & B & S).
  exists L, L'. auto.
Qed.
