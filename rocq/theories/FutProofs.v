(** * Proofs about the test framework. *)

From Coq Require Import ZArith String Ascii Bool List Arith Lia Sorting.Permutation Sorting.Sorted.
From Verif Require Import Base TextModel TextSpec TextFacts FutModel FutSpec.
Import ListNotations.
Open Scope string_scope.
Open Scope list_scope.

(** ** The steps of a test *)

Definition here (t : nat) (d : dest) : Prop := d = Console \/ d = Capture t.
Definition gets (d : dest) (s0 s : string) : string := match d with Console => s0 | Capture _ => (s0 ++ s)%string end.
Definition judged (l : list stmt) (s : stat) : stat := if existsb fails l then FAIL else s.

(** What executing the steps [l] of test [t] does. *)
Record did (t : nat) (w w' : world) (l : list stmt) : Prop := mkDid {
  d_out : w_out w' = w_out w;
  d_err : w_err w' = w_err w;
  d_other : forall v, v <> t -> w_case w' v = w_case w v;
  d_trace : w_trace w' = w_trace w ++ map (EvStmt t) l;
  d_tick : w_tick w' = w_tick w;
  d_comp : t_comp (w_case w' t) = t_comp (w_case w t);
  d_case : t_case (w_case w' t) = t_case (w_case w t);
  d_name : t_name (w_case w' t) = t_name (w_case w t);
  d_runs : t_runs (w_case w' t) = t_runs (w_case w t);
  d_begin : t_begin (w_case w' t) = t_begin (w_case w t);
  d_end : t_end (w_case w' t) = t_end (w_case w t);
  d_outStr : t_outStr (w_case w' t) = t_outStr (w_case w t);
  d_errStr : t_errStr (w_case w' t) = t_errStr (w_case w t);
  d_outCap : t_outCap (w_case w' t) = gets (w_out w) (t_outCap (w_case w t)) (written Out l);
  d_errCap : t_errCap (w_case w' t) = gets (w_err w) (t_errCap (w_case w t)) (written Err l);
  d_status : existsb meddles l = false -> t_status (w_case w' t) = judged l (t_status (w_case w t));
  d_console : exists L, w_console w' = w_console w ++ L /\ Forall (fun c => ch_origin c = Test t) L
                        /\ (w_out w <> Console -> w_err w <> Console -> L = [])
}.

Lemma written_app : forall st l l', written st (l ++ l') = (written st l ++ written st l')%string.
Proof.
  induction l as [|s l IH]; intro l'; [reflexivity|]. cbn [app written]. rewrite IH.
  destruct s; try reflexivity; destruct st; try reflexivity; rewrite str_app_assoc; reflexivity.
Qed.

Lemma did_refl : forall t w, did t w w [].
Proof.
  intros t w. constructor; try reflexivity; try (symmetry; apply app_nil_r).
  - unfold gets. destruct (w_out w); [reflexivity|]. cbn [written]. now rewrite str_app_nil_r.
  - unfold gets. destruct (w_err w); [reflexivity|]. cbn [written]. now rewrite str_app_nil_r.
  - exists []. rewrite app_nil_r. auto.
Qed.

Lemma existsb_app_f : forall (A : Type) (f : A -> bool) l l', existsb f (l ++ l') = false -> existsb f l = false /\ existsb f l' = false.
Proof. intros A f l l' H. rewrite existsb_app in H. now apply orb_false_iff in H. Qed.

Lemma did_trans : forall t w w1 w2 l1 l2, did t w w1 l1 -> did t w1 w2 l2 -> did t w w2 (l1 ++ l2).
Proof.
  intros t w w1 w2 l1 l2 [] [].
  constructor; try congruence.
  - intros v Hv. rewrite d_other1, d_other0; auto.
  - rewrite d_trace1, d_trace0, map_app, app_assoc. reflexivity.
  - rewrite d_outCap1, d_out0, d_outCap0, written_app. unfold gets. destruct (w_out w); [reflexivity|]. now rewrite str_app_assoc.
  - rewrite d_errCap1, d_err0, d_errCap0, written_app. unfold gets. destruct (w_err w); [reflexivity|]. now rewrite str_app_assoc.
  - intro H. apply existsb_app_f in H. destruct H as [H1 H2]. rewrite d_status1, d_status0 by assumption.
    unfold judged. rewrite existsb_app. destruct (existsb fails l1), (existsb fails l2); reflexivity.
  - destruct d_console0 as [L0 [A0 [B0 C0]]], d_console1 as [L1 [A1 [B1 C1]]]. exists (L0 ++ L1).
    rewrite A1, A0, app_assoc. split; [reflexivity|]. split; [now apply Forall_app|].
    intros Ho He. rewrite C0, C1 by congruence. reflexivity.
Qed.

Lemma here_cases : forall t w, here t (w_out w) -> here t (w_err w) -> here t (w_out w) /\ here t (w_err w).
Proof. auto. Qed.

Ltac onc := cbn [on_case set_case w_case w_out w_err w_console w_tick w_trace note tick say set_dests
                 with_status with_caps with_strs with_fail with_begin with_end with_names with_runs
                 t_comp t_case t_name t_status t_outCap t_errCap t_outStr t_errStr t_desc t_line t_file t_begin t_end t_runs].

Lemma print_did : forall t st x w s,
  here t (w_out w) -> here t (w_err w) ->
  (st = Out /\ s = SOut x \/ st = Err /\ s = SErr x) ->
  did t w (print st (Test t) x (note (EvStmt t s) w)) [s].
Proof.
  intros t st x w s Ho He Hs. unfold print.
  destruct Hs as [[-> ->]|[-> ->]]; onc.
  - destruct Ho as [Ho|Ho]; rewrite Ho.
    + constructor; onc; try reflexivity; rewrite ?Ho.
      * reflexivity.
      * unfold gets. destruct (w_err w); [reflexivity|]. cbn [written]. now rewrite str_app_nil_r.
      * eexists [_]. split; [reflexivity|]. split; [repeat constructor|]. congruence.
    + constructor; onc; rewrite ?Nat.eqb_refl; try reflexivity; rewrite ?Ho.
      * intros v Hv. apply Nat.eqb_neq in Hv. now rewrite Hv.
      * onc. cbn [gets written]. now rewrite str_app_nil_r.
      * onc. unfold gets. destruct (w_err w); [reflexivity|]. cbn [written]. now rewrite str_app_nil_r.
      * exists []. rewrite app_nil_r. auto.
  - destruct He as [He|He]; rewrite He.
    + constructor; onc; try reflexivity; rewrite ?He.
      * unfold gets. destruct (w_out w); [reflexivity|]. cbn [written]. now rewrite str_app_nil_r.
      * reflexivity.
      * eexists [_]. split; [reflexivity|]. split; [repeat constructor|]. congruence.
    + constructor; onc; rewrite ?Nat.eqb_refl; try reflexivity; rewrite ?He.
      * intros v Hv. apply Nat.eqb_neq in Hv. now rewrite Hv.
      * onc. unfold gets. destruct (w_out w); [reflexivity|]. cbn [written]. now rewrite str_app_nil_r.
      * onc. cbn [gets written]. now rewrite str_app_nil_r.
      * exists []. rewrite app_nil_r. auto.
Qed.

(** Steps that touch at most the status and the description of the failure. *)
Lemma quiet_did : forall t w f s,
  written Out [s] = "" -> written Err [s] = "" ->
  (forall c, t_comp (f c) = t_comp c /\ t_case (f c) = t_case c /\ t_name (f c) = t_name c /\ t_runs (f c) = t_runs c
             /\ t_begin (f c) = t_begin c /\ t_end (f c) = t_end c /\ t_outStr (f c) = t_outStr c /\ t_errStr (f c) = t_errStr c
             /\ t_outCap (f c) = t_outCap c /\ t_errCap (f c) = t_errCap c
             /\ (meddles s = false -> t_status (f c) = if fails s then FAIL else t_status c)) ->
  did t w (on_case t f (note (EvStmt t s) w)) [s].
Proof.
  intros t w f s Wo We H. specialize (H (w_case w t)).
  destruct H as (A & B & C & D & F & G & I & J & K & L & M).
  constructor; onc; rewrite ?Nat.eqb_refl; try assumption; try reflexivity.
  - intros v Hv. apply Nat.eqb_neq in Hv. now rewrite Hv.
  - rewrite K, Wo. unfold gets. destruct (w_out w); [reflexivity|]. now rewrite str_app_nil_r.
  - rewrite L, We. unfold gets. destruct (w_err w); [reflexivity|]. now rewrite str_app_nil_r.
  - unfold judged. cbn [existsb]. rewrite !orb_false_r. intro N. rewrite (M N). now destruct (fails s).
  - exists []. rewrite app_nil_r. auto.
Qed.

Lemma noted_did : forall t w s,
  written Out [s] = "" -> written Err [s] = "" -> (meddles s = false -> fails s = false) ->
  did t w (note (EvStmt t s) w) [s].
Proof.
  intros t w s Wo We H.
  constructor; onc; try reflexivity.
  - rewrite Wo. unfold gets. destruct (w_out w); [reflexivity|]. now rewrite str_app_nil_r.
  - rewrite We. unfold gets. destruct (w_err w); [reflexivity|]. now rewrite str_app_nil_r.
  - unfold judged. cbn [existsb]. rewrite !orb_false_r. intro N. now rewrite (H N).
  - exists []. rewrite app_nil_r. auto.
Qed.

Lemma exec1_did : forall t s w,
  here t (w_out w) -> here t (w_err w) ->
  did t w (fst (exec1 t s (note (EvStmt t s) w))) [s]
  /\ snd (exec1 t s (note (EvStmt t s) w)) =
     match raised s with Some e => Some (Thrown e) | None => if returns s then Some Returned else None end.
Proof.
  intros t s w Ho He.
  assert (Q : forall f l d a, written Out [s] = "" -> written Err [s] = "" -> fails s = true ->
                did t w (checkFail t f l d a (note (EvStmt t s) w)) [s]).
  { intros f l d a Wo We Hf. unfold checkFail. apply quiet_did; [assumption|assumption|].
    intro c. onc. rewrite Hf. repeat split; reflexivity. }
  destruct s; cbn [exec1 fst snd raised returns].
  - split; [apply print_did; auto|reflexivity].
  - split; [apply print_did; auto|reflexivity].
  - destruct ok; cbn [fst snd]; (split; [|reflexivity]); [apply noted_did; auto|apply Q; reflexivity].
  - split; [apply Q; reflexivity|reflexivity].
  - destruct r; cbn [fst snd]; (split; [|reflexivity]); [apply Q; reflexivity| |]; apply noted_did; auto.
  - destruct r; cbn [fst snd]; (split; [|reflexivity]); [apply noted_did; auto|apply Q; reflexivity].
  - destruct r as [[what|]|]; cbn [fst snd]; (split; [|reflexivity]); [apply Q; reflexivity..|apply noted_did; auto].
  - split; [|reflexivity]. unfold FutModel.fail. apply quiet_did; [reflexivity..|]. intro c. onc. repeat split; reflexivity.
  - split; [|reflexivity]. apply quiet_did; [reflexivity..|]. intro c. onc. repeat split; try reflexivity. intro H. discriminate H.
  - split; [|reflexivity]. apply noted_did; auto.
  - split; [|reflexivity]. apply noted_did; auto.
Qed.

Lemma exec_did : forall t l w,
  here t (w_out w) -> here t (w_err w) ->
  did t w (fst (exec_body t l w)) (executed l)
  /\ snd (exec_body t l w) = match escapes l with Some e => Thrown e | None => Returned end.
Proof.
  induction l as [|s l IH]; intros w Ho He.
  - split; [apply did_refl|reflexivity].
  - cbn [exec_body executed escapes]. destruct (exec1_did t s w Ho He) as [D S].
    destruct (exec1 t s (note (EvStmt t s) w)) as [w1 r]. cbn [fst snd] in D, S. subst r.
    destruct (raised s) as [e|]; [split; [exact D|reflexivity]|].
    destruct (returns s); [split; [exact D|reflexivity]|].
    pose proof (d_out _ _ _ _ D) as E1. pose proof (d_err _ _ _ _ D) as E2.
    rewrite <- E1 in Ho. rewrite <- E2 in He. destruct (IH w1 Ho He) as [D2 S2].
    split; [|exact S2]. apply (did_trans t w w1 _ [s] _ D D2).
Qed.

(** ** A run of a test *)

Record ran (t : nat) (sc : script) (w w' : world) : Prop := mkRan {
  r_out : w_out w' = w_out w;
  r_err : w_err w' = w_err w;
  r_other : forall v, v <> t -> w_case w' v = w_case w v;
  r_trace : w_trace w' = w_trace w ++ events t sc;
  r_comp : t_comp (w_case w' t) = t_comp (w_case w t);
  r_case : t_case (w_case w' t) = t_case (w_case w t);
  r_name : t_name (w_case w' t) = t_name (w_case w t);
  r_runs : t_runs (w_case w' t) = S (t_runs (w_case w t));
  r_outStr : t_outStr (w_case w' t) = t_outStr (w_case w t);
  r_errStr : t_errStr (w_case w' t) = t_errStr (w_case w t);
  r_outCap : t_outCap (w_case w' t) = gets (w_out w) (t_outCap (w_case w t)) (written Out (steps sc));
  r_errCap : t_errCap (w_case w' t) = gets (w_err w) (t_errCap (w_case w t)) (written Err (steps sc));
  r_status : existsb meddles (steps sc) = false ->
             t_status (w_case w' t) = verdict sc (gets (w_err w) (t_errCap (w_case w t)) (written Err (before_teardown sc)));
  r_console : exists L, w_console w' = w_console w ++ L /\ Forall (fun c => ch_origin c = Test t) L
                        /\ (w_out w <> Console -> w_err w <> Console -> L = [])
}.

(** Changes that a run makes besides the steps: the verdict, the times, the notes. *)
Record near (t : nat) (w w' : world) (T : list event) : Prop := mkNear {
  n_out : w_out w' = w_out w;
  n_err : w_err w' = w_err w;
  n_other : forall v, v <> t -> w_case w' v = w_case w v;
  n_trace : w_trace w' = w_trace w ++ T;
  n_comp : t_comp (w_case w' t) = t_comp (w_case w t);
  n_case : t_case (w_case w' t) = t_case (w_case w t);
  n_name : t_name (w_case w' t) = t_name (w_case w t);
  n_outStr : t_outStr (w_case w' t) = t_outStr (w_case w t);
  n_errStr : t_errStr (w_case w' t) = t_errStr (w_case w t);
  n_console : exists L, w_console w' = w_console w ++ L /\ Forall (fun c => ch_origin c = Test t) L
                        /\ (w_out w <> Console -> w_err w <> Console -> L = [])
}.

Lemma near_trans : forall t w w1 w2 T1 T2, near t w w1 T1 -> near t w1 w2 T2 -> near t w w2 (T1 ++ T2).
Proof.
  intros t w w1 w2 T1 T2 [] []. constructor; try congruence.
  - intros v Hv. rewrite n_other1, n_other0; auto.
  - rewrite n_trace1, n_trace0, app_assoc. reflexivity.
  - destruct n_console0 as [L0 [A0 [B0 C0]]], n_console1 as [L1 [A1 [B1 C1]]]. exists (L0 ++ L1).
    rewrite A1, A0, app_assoc. split; [reflexivity|]. split; [now apply Forall_app|].
    intros Ho He. rewrite C0, C1 by congruence. reflexivity.
Qed.
Lemma did_near : forall t w w' l, did t w w' l -> near t w w' (map (EvStmt t) l).
Proof. intros t w w' l []. constructor; assumption. Qed.
Lemma note_near : forall t e w, near t w (note e w) [e].
Proof. intros t e w. constructor; try reflexivity. exists []. onc. rewrite app_nil_r. auto. Qed.
Lemma tweak_near : forall t f w w',
  w' = on_case t f w \/ w' = on_case t f (tick w) ->
  (forall c, t_comp (f c) = t_comp c /\ t_case (f c) = t_case c /\ t_name (f c) = t_name c
             /\ t_outStr (f c) = t_outStr c /\ t_errStr (f c) = t_errStr c) ->
  near t w w' [].
Proof.
  intros t f w w' Hw Hf. specialize (Hf (w_case w t)). destruct Hf as (A & B & C & D & F).
  destruct Hw as [-> | ->]; (constructor; onc; rewrite ?Nat.eqb_refl, ?app_nil_r; try assumption; try reflexivity;
    [intros v Hv; apply Nat.eqb_neq in Hv; now rewrite Hv|exists []; rewrite app_nil_r; auto]).
Qed.

Section Run.
Variable E : env.

(** The part of a case that decides the verdict. *)
Definition vis (c : tcase) : nat * string * string * stat := (t_runs c, t_outCap c, t_errCap c, t_status c).

Lemma markBegin_near : forall t w, near t w (markBegin E t w) [].
Proof. intros t w. eapply tweak_near; [right; reflexivity|]. intro c. onc. auto. Qed.
Lemma markEnd_near : forall t w, near t w (markEnd E t w) [].
Proof. intros t w. eapply tweak_near; [right; reflexivity|]. intro c. onc. auto. Qed.
Lemma caught_near : forall t e w, near t w (caught E t e w) [].
Proof.
  intros t e w. change (@nil event) with (@nil event ++ []). eapply near_trans; [apply markEnd_near|].
  unfold caught. eapply tweak_near; [left; reflexivity|]. intro c. onc. auto.
Qed.
Lemma vis_markBegin : forall t w, vis (w_case (markBegin E t w) t) = vis (w_case w t).
Proof. intros t w. unfold vis, markBegin. onc. rewrite Nat.eqb_refl. reflexivity. Qed.
Lemma vis_markEnd : forall t w, vis (w_case (markEnd E t w) t) = vis (w_case w t).
Proof. intros t w. unfold vis, markEnd. onc. rewrite Nat.eqb_refl. reflexivity. Qed.
Lemma vis_caught : forall t e w, vis (w_case (caught E t e w) t) = let '(a, b, c, _) := vis (w_case w t) in (a, b, c, ERROR).
Proof. intros t e w. unfold vis, caught, markEnd. onc. rewrite !Nat.eqb_refl. reflexivity. Qed.

Lemma vis_did : forall t w w' l, did t w w' l ->
  t_runs (w_case w' t) = t_runs (w_case w t)
  /\ t_outCap (w_case w' t) = gets (w_out w) (t_outCap (w_case w t)) (written Out l)
  /\ t_errCap (w_case w' t) = gets (w_err w) (t_errCap (w_case w t)) (written Err l)
  /\ (existsb meddles l = false -> t_status (w_case w' t) = judged l (t_status (w_case w t))).
Proof. intros t w w' l []. auto. Qed.

Lemma gets_gets : forall d s a b, gets d (gets d s a) b = gets d s (a ++ b)%string.
Proof. intros [|] s a b; cbn; [reflexivity|]. now rewrite str_app_assoc. Qed.

Lemma here_near : forall t w w' T, near t w w' T -> here t (w_out w) -> here t (w_err w) -> here t (w_out w') /\ here t (w_err w').
Proof. intros t w w' T [] Ho He. rewrite n_out0, n_err0. auto. Qed.

Lemma vis_eq : forall c a b d s, vis c = (a, b, d, s) -> t_runs c = a /\ t_outCap c = b /\ t_errCap c = d /\ t_status c = s.
Proof. intros c a b d s H. unfold vis in H. injection H. auto. Qed.

Lemma ran_near : forall t sc w w',
  near t w w' (events t sc) ->
  t_runs (w_case w' t) = S (t_runs (w_case w t)) ->
  t_outCap (w_case w' t) = gets (w_out w) (t_outCap (w_case w t)) (written Out (steps sc)) ->
  t_errCap (w_case w' t) = gets (w_err w) (t_errCap (w_case w t)) (written Err (steps sc)) ->
  (existsb meddles (steps sc) = false ->
             t_status (w_case w' t) = verdict sc (gets (w_err w) (t_errCap (w_case w t)) (written Err (before_teardown sc)))) ->
  ran t sc w w'.
Proof. intros t sc w w' [] H1 H2 H3 H4. constructor; assumption. Qed.

Lemma run_ran : forall t w,
  here t (w_out w) -> here t (w_err w) ->
  ran t (beh E t (t_runs (w_case w t))) w (run E t w).
Proof.
  intros t w Ho He. unfold run. set (sc := beh E t (t_runs (w_case w t))).
  set (w0 := on_case t (fun c => with_runs (S (t_runs c)) (with_status NONE c)) w).
  assert (N0 : near t w w0 []) by (eapply tweak_near; [left; reflexivity|]; intro c; onc; auto).
  assert (V0 : vis (w_case w0 t) = (S (t_runs (w_case w t)), t_outCap (w_case w t), t_errCap (w_case w t), NONE))
    by (unfold vis, w0; onc; rewrite Nat.eqb_refl; reflexivity).
  assert (N1 : near t w (note (EvSetUp t) w0) [EvSetUp t]) by (apply (near_trans t w w0 _ [] _ N0), note_near).
  assert (V1 : vis (w_case (note (EvSetUp t) w0) t) = vis (w_case w0 t)) by reflexivity.
  set (w1 := note (EvSetUp t) w0) in *. rewrite V0 in V1. clearbody w1. clear N0 V0 w0.
  destruct (here_near _ _ _ _ N1 Ho He) as [Ho1 He1].
  destruct (exec_did t (sc_setup sc) w1 Ho1 He1) as [D2 S2].
  destruct (exec_body t (sc_setup sc) w1) as [w2 r2]. cbn [fst snd] in D2, S2. subst r2.
  pose proof (near_trans _ _ _ _ _ _ N1 (did_near _ _ _ _ D2)) as N2.
  destruct (vis_did _ _ _ _ D2) as (R2 & O2 & X2 & T2).
  apply vis_eq in V1. destruct V1 as (V1a & V1b & V1c & V1d). rewrite V1a in R2. rewrite V1b in O2. rewrite V1c in X2. rewrite V1d in T2.
  rewrite (n_out _ _ _ _ N1) in O2. rewrite (n_err _ _ _ _ N1) in X2.
  unfold verdict, before_teardown, steps, before_teardown, thrown, reaches_teardown.
  destruct (escapes (sc_setup sc)) as [e|] eqn:ES.
  - pose proof (near_trans _ _ _ _ _ _ N2 (caught_near t e w2)) as N3.
    pose proof (vis_caught t e w2) as V3. unfold vis at 2 in V3. apply vis_eq in V3. destruct V3 as (V3a & V3b & V3c & V3d).
    apply ran_near.
    + replace (events t sc) with (([EvSetUp t] ++ map (EvStmt t) (executed (sc_setup sc))) ++ []); [exact N3|].
      unfold events. rewrite ES. reflexivity.
    + congruence.
    + unfold steps, before_teardown, reaches_teardown. rewrite ES, !app_nil_r. congruence.
    + unfold steps, before_teardown, reaches_teardown. rewrite ES, !app_nil_r. congruence.
    + intros _. unfold verdict, thrown. rewrite ES. exact V3d.
  - pose proof (near_trans _ _ _ _ _ _ N2 (near_trans _ _ _ _ _ _ (markBegin_near t w2) (note_near t (EvTest t) _))) as N3.
    pose proof (vis_markBegin t w2) as V3. change (vis (w_case (note (EvTest t) (markBegin E t w2)) t) = vis (w_case w2 t)) in V3.
    set (w3 := note (EvTest t) (markBegin E t w2)) in *. clearbody w3.
    unfold vis at 2 in V3. apply vis_eq in V3. destruct V3 as (V3a & V3b & V3c & V3d).
    destruct (here_near _ _ _ _ N3 Ho He) as [Ho3 He3].
    destruct (exec_did t (sc_test sc) w3 Ho3 He3) as [D4 S4].
    destruct (exec_body t (sc_test sc) w3) as [w4 r4]. cbn [fst snd] in D4, S4. subst r4.
    pose proof (near_trans _ _ _ _ _ _ N3 (did_near _ _ _ _ D4)) as N4.
    destruct (vis_did _ _ _ _ D4) as (R4 & O4 & X4 & T4).
    rewrite V3a, R2 in R4. rewrite V3b, O2, (n_out _ _ _ _ N3), gets_gets, <- written_app in O4.
    rewrite V3c, X2, (n_err _ _ _ _ N3), gets_gets, <- written_app in X4. rewrite V3d in T4.
    destruct (escapes (sc_test sc)) as [e|] eqn:ET.
    + pose proof (near_trans _ _ _ _ _ _ N4 (caught_near t e w4)) as N5.
      pose proof (vis_caught t e w4) as V5. unfold vis at 2 in V5. apply vis_eq in V5. destruct V5 as (V5a & V5b & V5c & V5d).
      apply ran_near.
      * replace (events t sc) with (((([EvSetUp t] ++ map (EvStmt t) (executed (sc_setup sc))) ++ [] ++ [EvTest t]) ++ map (EvStmt t) (executed (sc_test sc))) ++ []); [exact N5|].
        unfold events. rewrite ES, ET. rewrite <- !app_assoc. reflexivity.
      * congruence.
      * unfold steps, before_teardown, reaches_teardown. rewrite ES, ET, !app_nil_r. congruence.
      * unfold steps, before_teardown, reaches_teardown. rewrite ES, ET, !app_nil_r. congruence.
      * intros _. unfold verdict, thrown. rewrite ES, ET. exact V5d.
    + pose proof (near_trans _ _ _ _ _ _ N4 (markEnd_near t w4)) as N5.
      pose proof (vis_markEnd t w4) as V5. unfold vis at 2 in V5. apply vis_eq in V5. destruct V5 as (V5a & V5b & V5c & V5d).
      set (w5 := markEnd E t w4) in *. clearbody w5.
      set (w6 := if is_none (t_status (w_case w5 t)) then _ else w5).
      assert (N6 : near t w5 w6 []).
      { unfold w6. destruct (is_none (t_status (w_case w5 t))).
        - eapply tweak_near; [left; reflexivity|]; intro c; onc; auto.
        - constructor; try reflexivity; [now rewrite app_nil_r|]. exists []. rewrite app_nil_r. auto. }
      assert (V6 : vis (w_case w6 t) = (t_runs (w_case w5 t), t_outCap (w_case w5 t), t_errCap (w_case w5 t),
                     if is_none (t_status (w_case w5 t)) then (if is_empty (t_errCap (w_case w5 t)) then SUCCESS else OUT_ON_ERROR_STREAM) else t_status (w_case w5 t))).
      { unfold w6, vis. destruct (is_none (t_status (w_case w5 t))); [|reflexivity]. onc. rewrite Nat.eqb_refl. reflexivity. }
      clearbody w6.
      apply vis_eq in V6. destruct V6 as (V6a & V6b & V6c & V6d).
      pose proof (near_trans _ _ _ _ _ _ N5 (near_trans _ _ _ _ _ _ N6 (note_near t (EvTearDown t) w6))) as N7.
      assert (V7 : vis (w_case (note (EvTearDown t) w6) t) = vis (w_case w6 t)) by reflexivity.
      set (w7 := note (EvTearDown t) w6) in *. clearbody w7.
      unfold vis at 2 in V7. apply vis_eq in V7. destruct V7 as (V7a & V7b & V7c & V7d).
      destruct (here_near _ _ _ _ N7 Ho He) as [Ho7 He7].
      destruct (exec_did t (sc_teardown sc) w7 Ho7 He7) as [D8 S8].
      destruct (exec_body t (sc_teardown sc) w7) as [w8 r8]. cbn [fst snd] in D8, S8. subst r8.
      pose proof (near_trans _ _ _ _ _ _ N7 (did_near _ _ _ _ D8)) as N8.
      destruct (vis_did _ _ _ _ D8) as (R8 & O8 & X8 & T8).
      assert (HS : steps sc = (executed (sc_setup sc) ++ executed (sc_test sc)) ++ executed (sc_teardown sc)).
      { unfold steps, before_teardown, reaches_teardown. rewrite ES, ET. reflexivity. }
      assert (HE : events t sc = ((((([EvSetUp t] ++ map (EvStmt t) (executed (sc_setup sc))) ++ [] ++ [EvTest t]) ++ map (EvStmt t) (executed (sc_test sc))) ++ []) ++ [] ++ [EvTearDown t]) ++ map (EvStmt t) (executed (sc_teardown sc))).
      { unfold events. rewrite ES, ET. cbn [app]. rewrite <- !app_assoc. reflexivity. }
      assert (HO : t_outCap (w_case w8 t) = gets (w_out w) (t_outCap (w_case w t)) (written Out (steps sc))).
      { rewrite O8, (n_out _ _ _ _ N7), V7b, V6b, V5b, O4, gets_gets, <- written_app, HS. reflexivity. }
      assert (HX : t_errCap (w_case w8 t) = gets (w_err w) (t_errCap (w_case w t)) (written Err (steps sc))).
      { rewrite X8, (n_err _ _ _ _ N7), V7c, V6c, V5c, X4, gets_gets, <- written_app, HS. reflexivity. }
      destruct (escapes (sc_teardown sc)) as [e|] eqn:ED.
      * pose proof (near_trans _ _ _ _ _ _ N8 (caught_near t e w8)) as N9.
        pose proof (vis_caught t e w8) as V9. unfold vis at 2 in V9. apply vis_eq in V9. destruct V9 as (V9a & V9b & V9c & V9d).
        apply ran_near.
        -- rewrite HE, <- (app_nil_r (_ ++ map (EvStmt t) (executed (sc_teardown sc)))). exact N9.
        -- congruence.
        -- congruence.
        -- congruence.
        -- intros _. unfold verdict, thrown. rewrite ES, ET, ED. exact V9d.
      * apply ran_near.
        -- rewrite HE. exact N8.
        -- congruence.
        -- exact HO.
        -- exact HX.
        -- rewrite HS. intro M. apply existsb_app_f in M. destruct M as [M M3]. apply existsb_app_f in M. destruct M as [M1 M2].
           rewrite (T8 M3), V7d, V6d, V5d, (T4 M2), (T2 M1), V5c, X4.
           unfold verdict, thrown. rewrite ES, ET, ED, HS. unfold before_teardown. rewrite ES.
           rewrite existsb_app, existsb_app. unfold judged.
           destruct (existsb fails (executed (sc_setup sc))), (existsb fails (executed (sc_test sc))), (existsb fails (executed (sc_teardown sc))); try reflexivity.
           cbn [is_none orb]. unfold is_empty. match goal with |- context [gets ?a ?b ?c] => destruct (gets a b c) end; reflexivity.
Qed.
End Run.

(** ** One test of a program *)

Definition says (L : list string) (u : unit_test) : unit_test :=
  in_world (fun w => mkW (w_case w) (w_out w) (w_err w) (w_console w ++ framework_says L) (w_tick w) (w_trace w)) u.

Lemma says_nil : forall u, says [] u = u.
Proof. intros [[] ? ? ? ? ? ? ? ? ? ? ? ? ? ? ?]. unfold says, in_world, set_world. cbn. now rewrite app_nil_r. Qed.
Lemma says_app : forall L L' u, says L' (says L u) = says (L ++ L') u.
Proof.
  intros L L' u. unfold says, in_world, set_world, framework_says. cbn. rewrite map_app, app_assoc. reflexivity.
Qed.
Lemma tell_says : forall s u, on_console u -> tell s u = says [s] u.
Proof. intros s u [Ho He]. unfold tell, says, in_world, print, say. rewrite Ho. reflexivity. Qed.
Lemma says_on_console : forall L u, on_console u -> on_console (says L u).
Proof. intros L u H. exact H. Qed.

Definition begin_lines (v count : nat) (name : string) : list string :=
  if (3 <=? v)%nat then
    [("[" ++ padl 3 " " (dec (Z.of_nat count)) ++ ": " ++ padr screenWidth " " (take screenWidth name)
        ++ padr 10 " " (seconds6 (-1000)) ++ " " ++ padr 4 " " "GO" ++ "]" ++ nl)%string]
  else [].

Definition end_lines (v count : nat) (c : tcase) : list string :=
  let passed := is_success (t_status c) in
  (if negb (is_empty (capturedOut c)) && ((5 <=? v)%nat || ((0 <? v)%nat && negb passed))
   then [(nl ++ line70 ++ nl ++ "STDOUT " ++ t_name c ++ nl ++ line70 ++ nl ++ capturedOut c ++ nl)%string] else [])
  ++ (if negb (is_empty (capturedErr c)) && ((4 <=? v)%nat || ((0 <? v)%nat && negb passed))
      then [(nl ++ line70 ++ nl ++ "STDERR " ++ t_name c ++ nl ++ line70 ++ nl ++ capturedErr c ++ nl)%string] else [])
  ++ (if (0 <? v)%nat && match t_status c with ERROR => true | _ => false end
      then [(nl ++ line70 ++ nl ++ "Uncaught error in Case " ++ dec (Z.of_nat count) ++ ": " ++ t_name c ++ nl ++ t_desc c ++ nl)%string]
      else if (1 <=? v)%nat && match t_status c with FAIL => true | _ => false end
      then [(nl ++ line70 ++ nl ++ "Failure in case " ++ dec (Z.of_nat count) ++ ": " ++ t_name c ++ " at " ++ t_file c ++ ": " ++ dec (t_line c) ++ nl ++ t_desc c ++ nl)%string]
      else if (2 <=? v)%nat
      then [("[" ++ padl 3 " " (dec (Z.of_nat count)) ++ ": " ++ padr screenWidth " " (take screenWidth (t_name c))
             ++ padr 10 " " (let z := elapsed (t_begin c) (t_end c) in if (z <? 0)%Z then seconds6 z else seconds3 z) ++ " "
             ++ padr 4 " " (if passed then "OK" else "FAIL") ++ "]" ++ nl)%string]
      else []).

Lemma hasPassed_success : forall u t, hasPassed u t = is_success (t_status (caseof u t)).
Proof. intros u t. unfold hasPassed. destruct (t_status (caseof u t)), (u_errfail u); reflexivity. Qed.

Section One.
Variable E : env.

Lemma beginTest_eq : forall count t u, on_console u ->
  beginTest count t u = in_world (tc_begin (u_capture u) t) (says (begin_lines (u_verbosity u) count (t_name (caseof u t))) u).
Proof.
  intros count t u H. unfold beginTest, begin_lines, writeTestName. destruct (3 <=? u_verbosity u)%nat.
  - rewrite tell_says by exact H. reflexivity.
  - rewrite says_nil. reflexivity.
Qed.

Lemma tc_end_on_console : forall cap t u, (cap = false -> on_console u) -> on_console (in_world (tc_end cap Console Console t) u).
Proof. intros [|] t u H; [split; reflexivity|exact (H eq_refl)]. Qed.

Lemma endTest_eq : forall count t u, (u_capture u = false -> on_console u) ->
  endTest Console Console count t u =
  let u1 := in_world (tc_end (u_capture u) Console Console t) u in
  says (end_lines (u_verbosity u) count (caseof u1 t)) u1.
Proof.
  intros count t u H. unfold endTest. cbv zeta. pose proof (tc_end_on_console (u_capture u) t u H) as H1.
  change (u_verbosity (in_world (tc_end (u_capture u) Console Console t) u)) with (u_verbosity u).
  set (u1 := in_world (tc_end (u_capture u) Console Console t) u) in *. clearbody u1.
  unfold end_lines. rewrite !hasPassed_success.
  set (c := caseof u1 t).
  set (A := if negb (is_empty (capturedOut c)) && _ then [_] else []).
  set (u2 := if negb (is_empty (capturedOut c)) && _ then tell _ u1 else u1).
  assert (H2 : u2 = says A u1).
  { unfold u2, A. destruct (negb (is_empty (capturedOut c)) && _); [apply tell_says; exact H1|now rewrite says_nil]. }
  clearbody u2. subst u2. change (caseof (says A u1) t) with c. clearbody A.
  set (B := if negb (is_empty (capturedErr c)) && _ then [_] else []).
  set (u2 := if negb (is_empty (capturedErr c)) && _ then tell _ (says A u1) else says A u1).
  assert (H2 : u2 = says (A ++ B) u1).
  { unfold u2, B. destruct (negb (is_empty (capturedErr c)) && _); [rewrite tell_says by exact H1; apply says_app|now rewrite app_nil_r]. }
  clearbody u2. subst u2. clearbody B.
  rewrite app_assoc.
  assert (H2 : on_console (says (A ++ B) u1)) by exact H1.
  destruct ((0 <? u_verbosity u)%nat && _); [rewrite tell_says by exact H2; apply says_app|].
  destruct ((1 <=? u_verbosity u)%nat && _); [rewrite tell_says by exact H2; apply says_app|].
  destruct (2 <=? u_verbosity u)%nat; [|now rewrite app_nil_r].
  unfold writeTestName. rewrite tell_says by exact H2. apply says_app.
Qed.

Definition conf (u : unit_test) :=
  (u_tests u, u_byName u, u_select u, (u_xml u, u_id u, u_name u), (u_capture u, u_errfail u, u_verbosity u), u_files u).

(** What running one test does to the program. *)
(** What init does to a case does not matter for anything but its status. *)
Definition blank (c : tcase) : tcase := with_status NONE c.

Record one (t : nat) (u u' : unit_test) : Prop := mkOne {
  o_conf : conf u' = conf u;
  o_console : on_console u';
  o_other : forall v, v <> t -> caseof u' v = caseof u v;
  o_trace : history u u' (events t (beh E t (t_runs (caseof u t))) ++ [EvDone t (status_of u' t)]);
  o_comp : comp_of u' t = comp_of u t;
  o_case : t_case (caseof u' t) = t_case (caseof u t);
  o_name : name_of u' t = name_of u t;
  o_runs : t_runs (caseof u' t) = S (t_runs (caseof u t));
  o_outCap : t_outCap (caseof u' t) = if u_capture u then (t_outCap (caseof u t) ++ written Out (steps (beh E t (t_runs (caseof u t)))))%string else t_outCap (caseof u t);
  o_errCap : t_errCap (caseof u' t) = if u_capture u then (t_errCap (caseof u t) ++ written Err (steps (beh E t (t_runs (caseof u t)))))%string else t_errCap (caseof u t);
  o_outStr : t_outStr (caseof u' t) = if u_capture u then t_outCap (caseof u' t) else t_outStr (caseof u t);
  o_errStr : t_errStr (caseof u' t) = if u_capture u then t_errCap (caseof u' t) else t_errStr (caseof u t);
  o_status : let sc := beh E t (t_runs (caseof u t)) in
             existsb meddles (steps sc) = false ->
             status_of u' t = verdict sc (if u_capture u then (t_errCap (caseof u t) ++ written Err (before_teardown sc))%string else t_errCap (caseof u t));
  o_output : exists L, output u u' L
               /\ Forall (fun c => ch_origin c = Framework \/ ch_origin c = Test t) L
               /\ (u_capture u = true -> Forall (fun c => ch_origin c = Framework) L)
               /\ (u_verbosity u = 0%nat -> Forall (fun c => ch_origin c = Test t) L);
  o_result : u_status u' = (if is_success (status_of u' t) then u_status u else -1)%Z;
  o_failed : u_failed u' = (if is_success (status_of u' t) then u_failed u else u_failed u + 1)%Z;
  o_run : exists w, w_case w t = blank (caseof u t) /\ here t (w_out w) /\ here t (w_err w)
            /\ caseof u' t = (let c := w_case (run E t w) t in if u_capture u then with_strs (t_outCap c) (t_errCap c) c else c)
}.

Lemma end_lines_silent : forall count c, end_lines 0 count c = [].
Proof. intros count c. unfold end_lines. cbn [Nat.leb Nat.ltb andb orb]. rewrite !andb_false_r. reflexivity. Qed.
Lemma says_framework : forall L, Forall (fun c => ch_origin c = Framework) (framework_says L).
Proof. intro L. unfold framework_says. apply Forall_forall. intros c H. apply in_map_iff in H. destruct H as [x [<- _]]. reflexivity. Qed.

Lemma run_one_one : forall t u n f,
  on_console u ->
  exists u', run_one E t (u, n, f) = (u', S n, if is_success (status_of u' t) then f else (f + 1)%Z) /\ one t u u'.
Proof.
  intros t u n f Hc. destruct Hc as [Ho He]. unfold run_one, finish. rewrite Ho, He. cbv beta iota zeta.
  rewrite beginTest_eq by (split; assumption).
  set (bl := begin_lines (u_verbosity u) (S n) (t_name (caseof u t))).
  assert (HB : u_verbosity u = 0%nat -> bl = []) by (intro V; unfold bl, begin_lines; rewrite V; reflexivity).
  clearbody bl.
  set (u1 := in_world (tc_begin (u_capture u) t) (says bl u)).
  assert (C1 : caseof u1 t = with_status NONE (caseof u t)).
  { unfold u1, caseof, tc_begin, in_world. cbn. destruct (u_capture u); onc; rewrite Nat.eqb_refl; reflexivity. }
  assert (X1 : forall v, v <> t -> caseof u1 v = caseof u v).
  { intros v Hv. apply Nat.eqb_neq in Hv. unfold u1, caseof, tc_begin, in_world. cbn. destruct (u_capture u); onc; rewrite Hv; reflexivity. }
  assert (T1 : w_trace (u_world u1) = w_trace (u_world u)).
  { unfold u1, tc_begin, in_world. cbn. destruct (u_capture u); reflexivity. }
  assert (K1 : w_console (u_world u1) = w_console (u_world u) ++ framework_says bl).
  { unfold u1, tc_begin, in_world. cbn. destruct (u_capture u); reflexivity. }
  assert (D1 : w_out (u_world u1) = (if u_capture u then Capture t else Console) /\ w_err (u_world u1) = (if u_capture u then Capture t else Console)).
  { unfold u1, tc_begin, in_world. cbn. destruct (u_capture u); onc; auto. }
  assert (F1 : conf u1 = conf u /\ u_status u1 = u_status u /\ u_failed u1 = u_failed u) by (repeat split; reflexivity).
  clearbody u1. destruct D1 as [Do1 De1]. destruct F1 as [F1 [F1a F1b]].
  assert (H1 : here t (w_out (u_world u1)) /\ here t (w_err (u_world u1))).
  { rewrite Do1, De1. unfold here. destruct (u_capture u); auto. }
  destruct H1 as [Ho1 He1].
  pose proof (run_ran E t (u_world u1) Ho1 He1) as R.
  change (w_case (u_world u1) t) with (caseof u1 t) in R.
  assert (RR : t_runs (caseof u1 t) = t_runs (caseof u t)) by (rewrite C1; reflexivity). rewrite RR in R.
  set (sc := beh E t (t_runs (caseof u t))) in *.
  set (u2 := in_world (run E t) u1).
  assert (RUN : exists w, w_case w t = blank (caseof u t) /\ here t (w_out w) /\ here t (w_err w) /\ caseof u2 t = w_case (run E t w) t)
    by (exists (u_world u1); split; [exact C1|]; split; [exact Ho1|]; split; [exact He1|]; reflexivity).
  change (run E t (u_world u1)) with (u_world u2) in R.
  assert (F2 : conf u2 = conf u1 /\ u_status u2 = u_status u1 /\ u_failed u2 = u_failed u1) by (repeat split; reflexivity).
  clearbody u2. destruct F2 as [F2 [F2a F2b]]. rewrite F1 in F2. rewrite F1a in F2a. rewrite F1b in F2b.
  assert (CAP : u_capture u2 = u_capture u) by (unfold conf in F2; congruence).
  assert (VER : u_verbosity u2 = u_verbosity u) by (unfold conf in F2; congruence).
  destruct R.
  rewrite endTest_eq by (intro H; rewrite CAP in H; split; rewrite ?r_out0, ?r_err0, ?Do1, ?De1, H; reflexivity).
  cbv zeta. rewrite CAP, VER.
  set (u3 := in_world (tc_end (u_capture u) Console Console t) u2).
  assert (C3 : caseof u3 t = if u_capture u then with_strs (t_outCap (caseof u2 t)) (t_errCap (caseof u2 t)) (caseof u2 t) else caseof u2 t).
  { unfold u3, tc_end, caseof, in_world. destruct (u_capture u); cbn; [onc; rewrite Nat.eqb_refl|]; reflexivity. }
  assert (X3 : forall v, v <> t -> caseof u3 v = caseof u2 v).
  { intros v Hv. apply Nat.eqb_neq in Hv. unfold u3, tc_end, caseof, in_world. destruct (u_capture u); cbn; [onc; rewrite Hv|]; reflexivity. }
  assert (T3 : w_trace (u_world u3) = w_trace (u_world u2)).
  { unfold u3, tc_end, in_world. destruct (u_capture u); reflexivity. }
  assert (K3 : w_console (u_world u3) = w_console (u_world u2)).
  { unfold u3, tc_end, in_world. destruct (u_capture u); reflexivity. }
  assert (D3 : on_console u3).
  { apply tc_end_on_console. intro H. split; rewrite ?r_out0, ?r_err0, ?Do1, ?De1, H; reflexivity. }
  assert (F3 : conf u3 = conf u2 /\ u_status u3 = u_status u2 /\ u_failed u3 = u_failed u2) by (repeat split; reflexivity).
  clearbody u3. destruct F3 as [F3 [F3a F3b]]. rewrite F2 in F3. rewrite F2a in F3a. rewrite F2b in F3b.
  set (el := end_lines (u_verbosity u) (S n) (caseof u3 t)).
  assert (HL : u_verbosity u = 0%nat -> el = []) by (intro V; unfold el; rewrite V; apply end_lines_silent).
  clearbody el.
  set (u4 := in_world (note (EvDone t (t_status (caseof (says el u3) t)))) (says el u3)).
  assert (C4 : forall v, caseof u4 v = caseof u3 v) by reflexivity.
  assert (T4 : w_trace (u_world u4) = w_trace (u_world u3) ++ [EvDone t (t_status (caseof u3 t))]) by reflexivity.
  assert (K4 : w_console (u_world u4) = w_console (u_world u3) ++ framework_says el) by reflexivity.
  assert (D4 : on_console u4) by exact D3.
  assert (F4 : conf u4 = conf u3 /\ u_status u4 = u_status u3 /\ u_failed u4 = u_failed u3) by (repeat split; reflexivity).
  clearbody u4. destruct F4 as [F4 [F4a F4b]]. rewrite F3 in F4. rewrite F3a in F4a. rewrite F3b in F4b.
  rewrite hasPassed_success, C4.
  set (ok := is_success (t_status (caseof u3 t))).
  exists (if ok then u4 else set_result (-1) (u_failed u4 + 1) u4).
  assert (CF : forall v, caseof (if ok then u4 else set_result (-1) (u_failed u4 + 1) u4) v = caseof u3 v).
  { intro v. destruct ok; exact (C4 v). }
  assert (TF : w_trace (u_world (if ok then u4 else set_result (-1) (u_failed u4 + 1) u4)) = w_trace (u_world u4)) by (destruct ok; reflexivity).
  assert (KF : w_console (u_world (if ok then u4 else set_result (-1) (u_failed u4 + 1) u4)) = w_console (u_world u4)) by (destruct ok; reflexivity).
  split.
  - unfold status_of. rewrite CF. fold ok. destruct ok; reflexivity.
  - change (w_case (u_world u2) t) with (caseof u2 t) in *.
    change (w_case (u_world u1) t) with (caseof u1 t) in *. rewrite C1 in *.
    assert (C3' : forall (A : Type) (g : tcase -> A), (forall a b c, g (with_strs a b c) = g c) -> g (caseof u3 t) = g (caseof u2 t)).
    { intros A g Hg. rewrite C3. destruct (u_capture u); [apply Hg|reflexivity]. }
    constructor.
    + destruct ok; [exact F4|]. unfold conf. cbn. exact F4.
    + destruct ok; exact D4.
    + intros v Hv. rewrite CF, X3 by exact Hv. rewrite (r_other0 v Hv : caseof u2 v = caseof u1 v). exact (X1 v Hv).
    + unfold history. rewrite TF, T4, T3, r_trace0, T1, app_assoc. unfold status_of. rewrite CF. reflexivity.
    + unfold comp_of. rewrite CF, (C3' _ t_comp) by reflexivity. exact r_comp0.
    + rewrite CF, (C3' _ t_case) by reflexivity. exact r_case0.
    + unfold name_of. rewrite CF, (C3' _ t_name) by reflexivity. exact r_name0.
    + rewrite CF, (C3' _ t_runs) by reflexivity. exact r_runs0.
    + rewrite CF, (C3' _ t_outCap), r_outCap0, Do1 by reflexivity. destruct (u_capture u); reflexivity.
    + rewrite CF, (C3' _ t_errCap), r_errCap0, De1 by reflexivity. destruct (u_capture u); reflexivity.
    + rewrite CF, C3. destruct (u_capture u); [reflexivity|]. exact r_outStr0.
    + rewrite CF, C3. destruct (u_capture u); [reflexivity|]. exact r_errStr0.
    + cbv zeta. intro M. unfold status_of. rewrite CF, (C3' _ t_status), (r_status0 M), De1 by reflexivity. destruct (u_capture u); reflexivity.
    + destruct r_console0 as [L [L1 [L2 L3]]]. exists (framework_says bl ++ L ++ framework_says el).
      split; [unfold output; rewrite KF, K4, K3, L1, K1, <- !app_assoc; reflexivity|].
      split; [|split].
      * apply Forall_app. split; [|apply Forall_app; split].
        -- eapply Forall_impl; [|apply says_framework]. auto.
        -- eapply Forall_impl; [|exact L2]. auto.
        -- eapply Forall_impl; [|apply says_framework]. auto.
      * intro Hcap. rewrite Hcap in *. rewrite L3 by congruence. apply Forall_app. split; [|cbn]; apply says_framework.
      * intro V. rewrite (HB V), (HL V). cbn. rewrite app_nil_r. exact L2.
    + unfold status_of. rewrite CF. fold ok. destruct ok; [exact F4a|reflexivity].
    + unfold status_of. rewrite CF. fold ok. destruct ok; [exact F4b|]. cbn. now rewrite F4b.
    + destruct RUN as (w & W1 & W2 & W3 & W4). exists w. split; [exact W1|]. split; [exact W2|]. split; [exact W3|].
      rewrite CF, C3, W4. cbv zeta. destruct (u_capture u); reflexivity.
Qed.

End One.

(** ** Many tests *)

(** How many verdicts are not success. *)
Definition bad_count (T : list event) : Z := len (filter (fun p => negb (is_success (snd p))) (verdicts T)).
Definition all_good (T : list event) : bool := forallb (fun p => is_success (snd p)) (verdicts T).

Lemma started_app : forall T T', started (T ++ T') = started T ++ started T'.
Proof. induction T as [|e T IH]; intro T'; [reflexivity|]. cbn [app started]. destruct e; cbn; now rewrite ?IH. Qed.
Lemma verdicts_app : forall T T', verdicts (T ++ T') = verdicts T ++ verdicts T'.
Proof. induction T as [|e T IH]; intro T'; [reflexivity|]. cbn [app verdicts]. destruct e; cbn; now rewrite ?IH. Qed.
Lemma started_stmts : forall t l, started (map (EvStmt t) l) = [].
Proof. induction l; [reflexivity|]. exact IHl. Qed.
Lemma verdicts_stmts : forall t l, verdicts (map (EvStmt t) l) = [].
Proof. induction l; [reflexivity|]. exact IHl. Qed.
Lemma started_events : forall t sc, started (events t sc) = [t].
Proof.
  intros t sc. unfold events. cbn [started]. rewrite started_app, started_stmts. cbn [app].
  destruct (escapes (sc_setup sc)); [reflexivity|]. cbn [started]. rewrite started_app, started_stmts. cbn [app].
  destruct (escapes (sc_test sc)); [reflexivity|]. cbn [started]. now rewrite started_stmts.
Qed.
Lemma verdicts_events : forall t sc, verdicts (events t sc) = [].
Proof.
  intros t sc. unfold events. cbn [verdicts]. rewrite verdicts_app, verdicts_stmts. cbn [app].
  destruct (escapes (sc_setup sc)); [reflexivity|]. cbn [verdicts]. rewrite verdicts_app, verdicts_stmts. cbn [app].
  destruct (escapes (sc_test sc)); [reflexivity|]. cbn [verdicts]. now rewrite verdicts_stmts.
Qed.
Lemma about_stmts : forall t l, Forall (fun e => about e = t) (map (EvStmt t) l).
Proof. intros t l. apply Forall_forall. intros e H. apply in_map_iff in H. destruct H as [x [<- _]]. reflexivity. Qed.
Lemma about_events : forall t sc, Forall (fun e => about e = t) (events t sc).
Proof.
  intros t sc. unfold events. constructor; [reflexivity|]. apply Forall_app. split; [apply about_stmts|].
  destruct (escapes (sc_setup sc)); [constructor|]. constructor; [reflexivity|]. apply Forall_app. split; [apply about_stmts|].
  destruct (escapes (sc_test sc)); [constructor|]. constructor; [reflexivity|]. apply about_stmts.
Qed.
Lemma bad_count_app : forall T T', bad_count (T ++ T') = (bad_count T + bad_count T')%Z.
Proof. intros T T'. unfold bad_count, len. rewrite verdicts_app, filter_app, app_length. lia. Qed.
Lemma all_good_app : forall T T', all_good (T ++ T') = all_good T && all_good T'.
Proof. intros T T'. unfold all_good. now rewrite verdicts_app, forallb_app. Qed.

Section Many.
Variable E : env.

(** The history contains exactly one run of test [t]. *)
Definition within (t : nat) (a b : unit_test) (T : list event) : Prop :=
  exists T1 T2, T = T1 ++ events t (beh E t (t_runs (caseof a t))) ++ [EvDone t (status_of b t)] ++ T2
    /\ Forall (fun e => about e <> t) (T1 ++ T2).

Record many (ts : list nat) (u u' : unit_test) (T : list event) : Prop := mkMany {
  m_conf : conf u' = conf u;
  m_console : on_console u';
  m_other : forall v, ~ In v ts -> caseof u' v = caseof u v;
  m_trace : history u u' T;
  m_started : started T = ts;
  m_verdicts : map fst (verdicts T) = ts;
  m_about : Forall (fun e => In (about e) ts) T;
  m_comp : forall v, comp_of u' v = comp_of u v;
  m_case : forall v, t_case (caseof u' v) = t_case (caseof u v);
  m_name : forall v, name_of u' v = name_of u v;
  m_result : u_status u' = (if all_good T then u_status u else -1)%Z;
  m_failed : u_failed u' = (u_failed u + bad_count T)%Z;
  m_final : NoDup ts -> forall t s, In (t, s) (verdicts T) -> status_of u' t = s;
  m_output : exists L, output u u' L
               /\ Forall (fun c => ch_origin c = Framework \/ exists t, In t ts /\ ch_origin c = Test t) L
               /\ (u_capture u = true -> Forall (fun c => ch_origin c = Framework) L)
               /\ (u_verbosity u = 0%nat -> Forall (fun c => ch_origin c <> Framework) L);
  m_one : NoDup ts -> forall t, In t ts ->
          exists a b, one E t a b /\ caseof a t = caseof u t /\ caseof u' t = caseof b t /\ u_capture a = u_capture u /\ within t a b T
}.

Lemma conf_capture : forall u u', conf u' = conf u -> u_capture u' = u_capture u.
Proof. unfold conf. congruence. Qed.
Lemma conf_verbosity : forall u u', conf u' = conf u -> u_verbosity u' = u_verbosity u.
Proof. unfold conf. congruence. Qed.

Lemma nodup_app_l : forall (A : Type) (l l' : list A), NoDup (l ++ l') -> NoDup l /\ NoDup l' /\ (forall x, In x l -> ~ In x l').
Proof.
  induction l as [|a l IH]; intros l' H; cbn [app] in H.
  - repeat split; [constructor|exact H|]. intros x [].
  - inversion H as [|x y H1 H2 H3]. subst. destruct (IH l' H2) as [I1 [I2 I3]].
    split; [constructor; [intro Q; apply H1, in_or_app; auto|exact I1]|]. split; [exact I2|].
    intros x [<-|Hx]; [intro Q; apply H1, in_or_app; auto|now apply I3].
Qed.

Lemma many_app : forall ts1 ts2 u u1 u2 T1 T2, many ts1 u u1 T1 -> many ts2 u1 u2 T2 -> many (ts1 ++ ts2) u u2 (T1 ++ T2).
Proof.
  intros ts1 ts2 u u1 u2 T1 T2 [] M2. pose proof (m_verdicts _ _ _ _ M2) as MV2. destruct M2. constructor.
  - congruence.
  - assumption.
  - intros v Hv. rewrite m_other1, m_other0; [reflexivity| |]; intro H; apply Hv, in_or_app; auto.
  - unfold history in *. now rewrite m_trace1, m_trace0, app_assoc.
  - rewrite started_app. congruence.
  - rewrite verdicts_app, map_app. congruence.
  - apply Forall_app. split; [eapply Forall_impl; [|exact m_about0]|eapply Forall_impl; [|exact m_about1]]; intros e H; apply in_or_app; auto.
  - intro v. now rewrite m_comp1, m_comp0.
  - intro v. now rewrite m_case1, m_case0.
  - intro v. now rewrite m_name1, m_name0.
  - rewrite m_result1, m_result0, all_good_app. destruct (all_good T1), (all_good T2); reflexivity.
  - rewrite m_failed1, m_failed0, bad_count_app. lia.
  - intros ND t s H. destruct (nodup_app_l _ _ _ ND) as [N1 [N2 N3]]. rewrite verdicts_app in H. apply in_app_or in H. destruct H as [H|H].
    + unfold status_of. rewrite m_other1; [apply m_final0; assumption|].
      apply N3. rewrite <- m_verdicts0. apply (in_map fst) in H. exact H.
    + apply m_final1; assumption.
  - destruct m_output0 as [L0 [A0 [B0 [C0 D0]]]], m_output1 as [L1 [A1 [B1 [C1 D1]]]]. exists (L0 ++ L1).
    rewrite (conf_capture _ _ m_conf0) in C1. rewrite (conf_verbosity _ _ m_conf0) in D1.
    split; [unfold output in *; now rewrite A1, A0, app_assoc|]. split; [|split].
    + apply Forall_app. split; [eapply Forall_impl; [|exact B0]|eapply Forall_impl; [|exact B1]];
        intros c [H|[t [H1 H2]]]; auto; right; exists t; split; auto; apply in_or_app; auto.
    + intro H. apply Forall_app. auto.
    + intro H. apply Forall_app. auto.
  - intros ND t H. destruct (nodup_app_l _ _ _ ND) as [N1 [N2 N3]]. apply in_app_or in H. destruct H as [H|H].
    + destruct (m_one0 N1 t H) as (a & b & O & A & B & C & W). exists a, b. split; [exact O|]. split; [exact A|]. split; [|split; [exact C|]].
      * rewrite m_other1; [exact B|]. now apply N3.
      * destruct W as (X1 & X2 & -> & X3). exists X1, (X2 ++ T2). split; [rewrite <- !app_assoc; reflexivity|].
        rewrite app_assoc. apply Forall_app. split; [exact X3|]. eapply Forall_impl; [|exact m_about1]. intros e He Q. cbn beta in He. rewrite Q in He. exact (N3 t H He).
    + destruct (m_one1 N2 t H) as (a & b & O & A & B & C & W). exists a, b. split; [exact O|].
      split; [rewrite A; apply m_other0; intro Q; exact (N3 t Q H)|]. split; [exact B|]. split; [rewrite C; now apply conf_capture|].
      destruct W as (X1 & X2 & -> & X3). exists (T1 ++ X1), X2. split; [rewrite <- !app_assoc; reflexivity|].
      rewrite <- app_assoc. apply Forall_app. split; [|exact X3]. eapply Forall_impl; [|exact m_about0]. intros e He Q. cbn beta in He. rewrite Q in He. exact (N3 t He H).
Qed.

(** A change that leaves everything alone but the clock. *)
Lemma many_tick : forall u, on_console u -> many [] u (in_world tick u) [].
Proof.
  intros u H. constructor; try reflexivity.
  - exact H.
  - unfold history. cbn. now rewrite app_nil_r.
  - constructor.
  - unfold bad_count. cbn. lia.
  - intros _ t s [].
  - exists []. unfold output. cbn. rewrite app_nil_r. repeat split; constructor.
  - intros _ t [].
Qed.
Lemma many_refl : forall u, on_console u -> many [] u u [].
Proof.
  intros u H. constructor; try reflexivity.
  - exact H.
  - unfold history. cbn. now rewrite app_nil_r.
  - constructor.
  - unfold bad_count. cbn. lia.
  - intros _ t s [].
  - exists []. unfold output. cbn. rewrite app_nil_r. repeat split; constructor.
  - intros _ t [].
Qed.

Lemma one_many : forall t u u', one E t u u' -> exists T, many [t] u u' T /\ T = events t (beh E t (t_runs (caseof u t))) ++ [EvDone t (status_of u' t)].
Proof.
  intros t u u' O. pose proof O as O'. destruct O. eexists. split; [|reflexivity]. set (sc := beh E t (t_runs (caseof u t))) in *.
  assert (VE : verdicts (events t sc ++ [EvDone t (status_of u' t)]) = [(t, status_of u' t)]) by (rewrite verdicts_app, verdicts_events; reflexivity).
  constructor.
  - assumption.
  - assumption.
  - intros v Hv. apply o_other0. intro H. apply Hv. left. auto.
  - assumption.
  - rewrite started_app, started_events. reflexivity.
  - rewrite VE. reflexivity.
  - apply Forall_app. split; [|repeat constructor]. eapply Forall_impl; [|apply about_events]. intros e <-. left. reflexivity.
  - intro v. destruct (Nat.eq_dec v t) as [->|N]; [assumption|]. unfold comp_of. now rewrite o_other0.
  - intro v. destruct (Nat.eq_dec v t) as [->|N]; [assumption|]. now rewrite o_other0.
  - intro v. destruct (Nat.eq_dec v t) as [->|N]; [assumption|]. unfold name_of. now rewrite o_other0.
  - unfold all_good. rewrite VE. cbn. rewrite andb_true_r. assumption.
  - unfold bad_count. rewrite VE. cbn. rewrite o_failed0. destruct (is_success (status_of u' t)); cbn; lia.
  - intros _ t' s H. rewrite VE in H. destruct H as [H|[]]. injection H as <- <-. reflexivity.
  - destruct o_output0 as [L [A [B [C D]]]]. exists L. split; [exact A|]. split; [|split; [exact C|]].
    + eapply Forall_impl; [|exact B]. intros c [H|H]; [left; exact H|right; exists t; split; [left; reflexivity|exact H]].
    + intro V. eapply Forall_impl; [|exact (D V)]. intros c H. cbn in H. rewrite H. discriminate.
  - intros _ t' [<-|[]]. exists u, u'. split; [exact O'|]. split; [reflexivity|]. split; [reflexivity|]. split; [reflexivity|].
    exists [], []. split; [reflexivity|constructor].
Qed.

Lemma fold_cons : forall (A B : Type) (g : B -> A -> A) (b : B) l (a : A),
  fold_left (fun s t => g t s) (b :: l) a = fold_left (fun s t => g t s) l (g b a).
Proof. reflexivity. Qed.

Lemma fold_many : forall ts u n f, on_console u ->
  exists u' T, fold_left (fun s t => run_one E t s) ts (u, n, f) = (u', (n + List.length ts)%nat, (f + bad_count T)%Z) /\ many ts u u' T.
Proof.
  induction ts as [|t ts IH]; intros u n f H.
  - exists u, []. split; [|now apply many_refl]. cbn. f_equal; [f_equal; lia|]. unfold bad_count. cbn. lia.
  - destruct (run_one_one E t u n f H) as [u1 [R1 O1]].
    destruct (one_many _ _ _ O1) as [T1 [M1 _]].
    destruct (IH u1 (S n) (if is_success (status_of u1 t) then f else (f + 1)%Z) (m_console _ _ _ _ M1)) as [u2 [T2 [R2 M2]]].
    exists u2, (T1 ++ T2). split; [|apply (many_app [t] ts u u1 u2 T1 T2 M1 M2)].
    assert (F1 : ((if is_success (status_of u1 t) then f else f + 1) + bad_count T2 = f + bad_count (T1 ++ T2))%Z).
    { rewrite bad_count_app. pose proof (m_failed _ _ _ _ M1) as F1. rewrite (o_failed _ _ _ _ O1) in F1. destruct (is_success (status_of u1 t)); lia. }
    rewrite fold_cons, R1, R2, F1. replace (n + List.length (t :: ts))%nat with (S n + List.length ts)%nat; [reflexivity|].
    cbn [List.length]. lia.
Qed.

Inductive comps_ran : list component -> list component -> list event -> Prop :=
| cr_nil : comps_ran [] [] []
| cr_cons : forall c c' cs cs' T T',
    c_name c' = c_name c -> c_tests c' = c_tests c -> c_failures c' = (c_failures c + bad_count T)%Z ->
    map fst (verdicts T) = c_tests c ->
    comps_ran cs cs' T' -> comps_ran (c :: cs) (c' :: cs') (T ++ T').

Lemma run_comps_many : forall todo done u n, on_console u ->
  exists u' T cs, run_comps E todo done (u, n) = set_comps (done ++ cs) u' /\ many (flat_map c_tests todo) u u' T /\ comps_ran todo cs T.
Proof.
  induction todo as [|c todo IH]; intros done u n H.
  - exists u, [], []. cbn. rewrite app_nil_r. split; [reflexivity|]. split; [now apply many_refl|constructor].
  - cbn [run_comps flat_map]. pose proof (many_tick u H) as M0.
    destruct (fold_many (c_tests c) (in_world tick u) n (c_failures c) H) as [u1 [T1 [R1 M1]]]. rewrite R1.
    pose proof (many_tick u1 (m_console _ _ _ _ M1)) as M2.
    pose proof (many_app _ _ _ _ _ _ _ M0 (many_app _ _ _ _ _ _ _ M1 M2)) as M3. rewrite !app_nil_r in M3. cbn [app] in M3.
    destruct (IH (done ++ [mkComp (c_name c) (c_failures c + bad_count T1) (c_tests c) (clock E (w_tick (u_world u))) (clock E (w_tick (u_world u1)))])
                 (in_world tick u1) (n + List.length (c_tests c))%nat (m_console _ _ _ _ M3)) as [u2 [T2 [cs [R2 [M4 CR]]]]].
    exists u2, (T1 ++ T2), (mkComp (c_name c) (c_failures c + bad_count T1) (c_tests c) (clock E (w_tick (u_world u))) (clock E (w_tick (u_world u1))) :: cs).
    split; [rewrite R2, <- app_assoc; reflexivity|]. split; [exact (many_app _ _ _ _ _ _ _ M3 M4)|].
    constructor; try reflexivity; [exact (m_verdicts _ _ _ _ M1)|exact CR].
Qed.

End Many.

(** ** Components *)

Lemma acmp_lt_trans : forall a b c, Ascii.compare a b = Lt -> Ascii.compare b c = Lt -> Ascii.compare a c = Lt.
Proof. unfold Ascii.compare. intros a b c H1 H2. apply N.compare_lt_iff in H1. apply N.compare_lt_iff in H2. apply N.compare_lt_iff. exact (N.lt_trans _ _ _ H1 H2). Qed.
Lemma acmp_eq : forall a b, Ascii.compare a b = Eq -> a = b.
Proof. unfold Ascii.compare. intros a b H. apply N.compare_eq_iff in H. rewrite <- (ascii_N_embedding a), <- (ascii_N_embedding b), H. reflexivity. Qed.
Lemma acmp_refl : forall a, Ascii.compare a a = Eq.
Proof. unfold Ascii.compare. intro a. apply N.compare_refl. Qed.

Lemma scmp_refl : forall a, String.compare a a = Eq.
Proof. induction a as [|x a IH]; [reflexivity|]. cbn [String.compare]. now rewrite acmp_refl. Qed.
Lemma scmp_eq : forall a b, String.compare a b = Eq -> a = b.
Proof.
  induction a as [|x a IH]; intros [|y b] H; try discriminate H; [reflexivity|].
  cbn [String.compare] in H. destruct (Ascii.compare x y) eqn:C; try discriminate H. apply acmp_eq in C. subst. f_equal. auto.
Qed.
Lemma scmp_lt_trans : forall a b c, String.compare a b = Lt -> String.compare b c = Lt -> String.compare a c = Lt.
Proof.
  induction a as [|x a IH]; intros [|y b] [|z c] H1 H2; try discriminate; try reflexivity.
  cbn [String.compare] in *. destruct (Ascii.compare x y) eqn:C1; try discriminate H1.
  - apply acmp_eq in C1. subst y. destruct (Ascii.compare x z); try discriminate H2; [|reflexivity]. eauto.
  - destruct (Ascii.compare y z) eqn:C2; try discriminate H2.
    + apply acmp_eq in C2. subst z. now rewrite C1.
    + now rewrite (acmp_lt_trans _ _ _ C1 C2).
Qed.
Lemma scmp_gt : forall a b, String.compare a b = Gt -> String.compare b a = Lt.
Proof. intros a b H. rewrite String.compare_antisym. now rewrite H. Qed.

Section Group.
Variable comp : nat -> string.

(** Sorted by name, and every test is where it belongs. *)
Inductive sorted_comps : list component -> Prop :=
| sc_nil : sorted_comps []
| sc_cons : forall c l,
    (forall d, In d l -> String.compare (c_name c) (c_name d) = Lt) ->
    (forall t, In t (c_tests c) -> comp t = c_name c) -> sorted_comps l -> sorted_comps (c :: l).

Lemma add_names : forall t l d, In d (add_to_comp (comp t) t l) -> c_name d = comp t \/ exists d', In d' l /\ c_name d' = c_name d.
Proof.
  induction l as [|c l IH]; intros d H; cbn [add_to_comp] in H.
  - destruct H as [<-|[]]. left. reflexivity.
  - destruct (String.compare (comp t) (c_name c)) eqn:C.
    + destruct H as [<-|H]; right; [exists c|exists d]; split; auto; [left; reflexivity|right; exact H].
    + destruct H as [<-|H]; [left; reflexivity|]. right. exists d. auto.
    + destruct H as [<-|H]; [right; exists c; split; [left|]; reflexivity|]. destruct (IH d H) as [Q|[d' [Q1 Q2]]]; auto.
      right. exists d'. split; [right|]; assumption.
Qed.

Lemma add_sorted : forall t l, sorted_comps l -> sorted_comps (add_to_comp (comp t) t l).
Proof.
  induction l as [|c l IH]; intro S; cbn [add_to_comp].
  - constructor; [intros d []| |constructor]. intros x [<-|[]]. reflexivity.
  - inversion S as [|c0 l0 S1 S2 S3]. subst. destruct (String.compare (comp t) (c_name c)) eqn:C.
    + constructor; cbn; auto. intros x H. apply in_app_or in H. destruct H as [H|[<-|[]]]; [auto|]. now apply scmp_eq.
    + constructor; cbn.
      * intros d [<-|H]; [exact C|]. eapply scmp_lt_trans; [exact C|auto].
      * intros x [<-|[]]. reflexivity.
      * exact S.
    + constructor.
      * intros d H. destruct (add_names t l d H) as [Q|[d' [Q1 Q2]]]; [rewrite Q; now apply scmp_gt|rewrite <- Q2; auto].
      * exact S2.
      * now apply IH.
Qed.

Lemma filter_none : forall (A : Type) (f : A -> bool) l, (forall x, In x l -> f x = false) -> filter f l = [].
Proof.
  induction l as [|x l IH]; intro H; [reflexivity|]. cbn [filter]. rewrite (H x (or_introl eq_refl)). apply IH. intros y Hy. apply H. right. exact Hy.
Qed.

Lemma tests_above : forall n l t, sorted_comps l -> (forall d, In d l -> String.compare n (c_name d) = Lt) -> In t (flat_map c_tests l) -> String.eqb (comp t) n = false.
Proof.
  induction l as [|c l IH]; intros t S H I; [destruct I|]. inversion S as [|c0 l0 S1 S2 S3]. subst. cbn [flat_map] in I. apply in_app_or in I. destruct I as [I|I].
  - rewrite (S2 t I). apply String.eqb_neq. intro Q. specialize (H c (or_introl eq_refl)). rewrite Q, scmp_refl in H. discriminate H.
  - apply IH; auto. intros d Hd. apply H. right. exact Hd.
Qed.

Lemma add_filter : forall n t l, sorted_comps l ->
  filter (fun x => String.eqb (comp x) n) (flat_map c_tests (add_to_comp (comp t) t l))
  = filter (fun x => String.eqb (comp x) n) (flat_map c_tests l) ++ filter (fun x => String.eqb (comp x) n) [t].
Proof.
  induction l as [|c l IH]; intro S; cbn [add_to_comp].
  - reflexivity.
  - inversion S as [|c0 l0 S1 S2 S3]. subst. destruct (String.compare (comp t) (c_name c)) eqn:C; cbn [flat_map c_tests].
    + apply scmp_eq in C. rewrite !filter_app, <- !app_assoc. f_equal. cbn [filter].
      destruct (String.eqb (comp t) n) eqn:Q; [|now rewrite app_nil_r].
      apply String.eqb_eq in Q.
      assert (F : filter (fun x => String.eqb (comp x) n) (flat_map c_tests l) = []).
      { apply filter_none. intros x Hx. apply (tests_above n l x S3); [|exact Hx]. rewrite <- Q, C. exact S1. }
      rewrite F. reflexivity.
    + rewrite !filter_app. cbn [filter]. destruct (String.eqb (comp t) n) eqn:Q; [|now rewrite app_nil_r]. apply String.eqb_eq in Q.
      assert (F : filter (fun x => String.eqb (comp x) n) (flat_map c_tests (c :: l)) = []).
      { apply filter_none. intros x Hx. apply (tests_above n (c :: l) x S); [|exact Hx]. rewrite <- Q. intros d [<-|Hd]; [exact C|].
        eapply scmp_lt_trans; [exact C|auto]. }
      cbn [flat_map] in F. rewrite filter_app in F. rewrite F. reflexivity.
    + rewrite !filter_app, IH, <- app_assoc by exact S3. reflexivity.
Qed.

Lemma add_perm : forall n t l, Permutation (flat_map c_tests (add_to_comp n t l)) (flat_map c_tests l ++ [t]).
Proof.
  induction l as [|c l IH]; cbn [add_to_comp].
  - reflexivity.
  - destruct (String.compare n (c_name c)); cbn [flat_map c_tests].
    + rewrite <- !app_assoc. apply Permutation_app_head. apply Permutation_app_comm.
    + apply Permutation_cons_append.
    + rewrite <- app_assoc. apply Permutation_app_head. exact IH.
Qed.

Definition grouped (sel : list nat) (l : list component) : list component := fold_left (fun l t => add_to_comp (comp t) t l) sel l.

Lemma grouped_sorted : forall sel l, sorted_comps l -> sorted_comps (grouped sel l).
Proof. induction sel as [|t sel IH]; intros l S; [exact S|]. cbn. apply IH. now apply add_sorted. Qed.
Lemma grouped_filter : forall sel l n, sorted_comps l ->
  filter (fun x => String.eqb (comp x) n) (flat_map c_tests (grouped sel l))
  = filter (fun x => String.eqb (comp x) n) (flat_map c_tests l) ++ filter (fun x => String.eqb (comp x) n) sel.
Proof.
  induction sel as [|t sel IH]; intros l n S; [cbn; now rewrite app_nil_r|].
  change (grouped (t :: sel) l) with (grouped sel (add_to_comp (comp t) t l)).
  rewrite IH by now apply add_sorted. rewrite add_filter, <- app_assoc by exact S. f_equal. change (t :: sel) with ([t] ++ sel). now rewrite filter_app.
Qed.
Lemma grouped_perm : forall sel l, Permutation (flat_map c_tests (grouped sel l)) (flat_map c_tests l ++ sel).
Proof.
  induction sel as [|t sel IH]; intro l; [cbn; now rewrite app_nil_r|].
  change (grouped (t :: sel) l) with (grouped sel (add_to_comp (comp t) t l)).
  rewrite IH, (add_perm (comp t) t l), <- app_assoc. reflexivity.
Qed.

Lemma sorted_order : forall l, sorted_comps l -> StronglySorted (fun a b => String.compare (comp a) (comp b) <> Gt) (flat_map c_tests l).
Proof.
  induction l as [|c l IH]; intro S; [constructor|]. inversion S as [|c0 l0 S1 S2 S3]. subst. cbn [flat_map]. specialize (IH S3).
  assert (A : forall x y, In x (c_tests c) -> In y (flat_map c_tests l) -> String.compare (comp x) (comp y) <> Gt).
  { intros x y Hx Hy. apply in_flat_map in Hy. destruct Hy as [d [Hd Hy]]. rewrite (S2 x Hx).
    assert (comp y = c_name d) as ->.
    { clear - S3 Hd Hy. induction S3 as [|c l A B S IH]; [destruct Hd|]. destruct Hd as [<-|Hd]; auto. }
    rewrite (S1 d Hd). discriminate. }
  revert A S2. generalize (c_tests c) as ts. clear S S1. intros ts A S2. induction ts as [|t ts IHt]; [exact IH|].
  cbn [app]. constructor.
  - apply IHt; intros; [apply A|apply S2]; auto; right; assumption.
  - apply Forall_forall. intros y Hy. apply in_app_or in Hy. destruct Hy as [Hy|Hy].
    + rewrite (S2 t (or_introl eq_refl)), (S2 y (or_intror Hy)), scmp_refl. discriminate.
    + apply A; [left; reflexivity|exact Hy].
Qed.
End Group.

(** ** A whole run *)

Lemma blank_blank : forall c, blank (blank c) = blank c.
Proof. reflexivity. Qed.

Lemma init_fold : forall l w, 
  let w' := fold_left (fun w t => on_case t (with_status NONE) w) l w in
  w_out w' = w_out w /\ w_err w' = w_err w /\ w_console w' = w_console w /\ w_tick w' = w_tick w /\ w_trace w' = w_trace w
  /\ (forall v, w_case w' v = w_case w v \/ w_case w' v = blank (w_case w v)) /\ (forall v, In v l -> w_case w' v = blank (w_case w v))
  /\ (forall v, ~ In v l -> w_case w' v = w_case w v).
Proof.
  induction l as [|t l IH]; intro w; [cbn; repeat split; auto; intros v []|].
  cbn [fold_left]. destruct (IH (on_case t (with_status NONE) w)) as (A & B & C & D & F & G & H & I).
  cbv zeta. rewrite A, B, C, D, F. repeat split.
  - intro v. destruct (G v) as [Q|Q]; rewrite Q; onc; (destruct (v =? t)%nat eqn:X; [apply Nat.eqb_eq in X; subst v; right; reflexivity|auto]).
  - intros v Hv. destruct (G v) as [Q|Q].
    + destruct (Nat.eq_dec v t) as [->|N]; [rewrite Q; onc; rewrite Nat.eqb_refl; reflexivity|].
      destruct Hv as [<-|Hv]; [contradiction|]. rewrite (H v Hv). onc. apply Nat.eqb_neq in N. now rewrite N.
    + rewrite Q. onc. destruct (v =? t)%nat eqn:X; [apply Nat.eqb_eq in X; subst v|]; reflexivity.
  - intros v Hv. rewrite I by (intro Q; apply Hv; right; exact Q). onc. destruct (v =? t)%nat eqn:X; [|reflexivity].
    apply Nat.eqb_eq in X. subst v. exfalso. apply Hv. left. reflexivity.
Qed.

Definition prepared (u : unit_test) : unit_test :=
  group (select_all (init u)).

Record ready (u p : unit_test) : Prop := mkReady {
  p_console : on_console p;
  p_comps : u_comps p = grouped (comp_of u) (selection u) (u_comps u);
  p_select : u_select p = selection u;
  p_tests : u_tests p = u_tests u;
  p_byName : u_byName p = u_byName u;
  p_xml : u_xml p = u_xml u;
  p_ids : u_id p = u_id u /\ u_name p = u_name u;
  p_opts : u_capture p = u_capture u /\ u_errfail p = u_errfail u /\ u_verbosity p = u_verbosity u;
  p_files : u_files p = u_files u;
  p_status : u_status p = 0%Z;
  p_failed : u_failed p = 0%Z;
  p_out : w_console (u_world p) = w_console (u_world u);
  p_trace : w_trace (u_world p) = w_trace (u_world u);
  p_tick : w_tick (u_world p) = w_tick (u_world u);
  p_case : forall v, caseof p v = caseof u v \/ caseof p v = blank (caseof u v);
  p_blank : forall v, In v (u_tests u) -> caseof p v = blank (caseof u v);
  p_same : forall v, ~ In v (u_tests u) -> caseof p v = caseof u v
}.

Lemma fold_ext : forall (A B : Type) (f g : A -> B -> A) l a, (forall a b, f a b = g a b) -> fold_left f l a = fold_left g l a.
Proof. intros A B f g l. induction l as [|b l IH]; intros a H; [reflexivity|]. cbn. rewrite H. now apply IH. Qed.

Lemma prepared_ready : forall u, on_console u -> ready u (prepared u).
Proof.
  intros u [Ho He]. unfold prepared. 
  destruct (init_fold (u_tests u) (u_world u)) as (A & B & C & D & F & G & H & I).
  set (w' := fold_left (fun w t => on_case t (with_status NONE) w) (u_tests u) (u_world u)) in *.
  set (u0 := init u).
  assert (W0 : u_world u0 = w') by reflexivity.
  set (u1 := select_all u0).
  assert (W1 : u_world u1 = w') by (unfold u1, select_all; destruct (u_select u0); exact W0).
  assert (F1 : forall (A : Type) (g : unit_test -> A), (forall l x, g (set_select l x) = g x) -> g u1 = g u0).
  { intros X g Hg. unfold u1, select_all. destruct (u_select u0); [apply Hg|reflexivity]. }
  assert (S1 : u_select u1 = selection u).
  { unfold u1, select_all, selection. change (u_select u0) with (u_select u). destruct (u_select u) eqn:Q; [reflexivity|]. exact Q. }
  assert (K1 : u_comps u1 = u_comps u) by (unfold u1, select_all; destruct (u_select u0); reflexivity).
  assert (CO : forall v, comp_of u1 v = comp_of u v).
  { intro v. unfold comp_of, caseof. rewrite W1. destruct (G v) as [Q|Q]; rewrite Q; reflexivity. }
  constructor.
  - split; cbn; rewrite W1; congruence.
  - unfold group. cbn [u_comps set_comps]. rewrite S1, K1. unfold grouped. apply fold_ext. intros a b. 
    change (t_comp (caseof u1 b)) with (comp_of u1 b). now rewrite CO.
  - exact S1.
  - exact (F1 _ u_tests (fun _ _ => eq_refl)).
  - exact (F1 _ u_byName (fun _ _ => eq_refl)).
  - exact (F1 _ u_xml (fun _ _ => eq_refl)).
  - split; [exact (F1 _ u_id (fun _ _ => eq_refl))|exact (F1 _ u_name (fun _ _ => eq_refl))].
  - repeat split; [exact (F1 _ u_capture (fun _ _ => eq_refl))|exact (F1 _ u_errfail (fun _ _ => eq_refl))|exact (F1 _ u_verbosity (fun _ _ => eq_refl))].
  - exact (F1 _ u_files (fun _ _ => eq_refl)).
  - exact (F1 _ u_status (fun _ _ => eq_refl)).
  - exact (F1 _ u_failed (fun _ _ => eq_refl)).
  - unfold group. cbn. now rewrite W1.
  - unfold group. cbn. now rewrite W1.
  - unfold group. cbn. now rewrite W1.
  - intro v. unfold caseof, group. cbn. rewrite W1. apply G.
  - intros v Hv. unfold caseof, group. cbn. rewrite W1. now apply H.
  - intros v Hv. unfold caseof, group. cbn. rewrite W1. now apply I.
Qed.

Lemma ready_comp : forall u p v, ready u p -> comp_of p v = comp_of u v.
Proof. intros u p v R. unfold comp_of. destruct (p_case _ _ R v) as [Q|Q]; rewrite Q; reflexivity. Qed.
Lemma ready_name : forall u p v, ready u p -> name_of p v = name_of u v.
Proof. intros u p v R. unfold name_of. destruct (p_case _ _ R v) as [Q|Q]; rewrite Q; reflexivity. Qed.
Lemma ready_tcase : forall u p v, ready u p -> t_case (caseof p v) = t_case (caseof u v).
Proof. intros u p v R. destruct (p_case _ _ R v) as [Q|Q]; rewrite Q; reflexivity. Qed.

(** The names of the tests that have not passed. *)
Definition failed_names (u : unit_test) (l : list nat) : list string :=
  map (name_of u) (filter (fun t => negb (is_success (status_of u t))) l).

Lemma failed_list_eq : forall u l,
  failed_list u false l = (flat_map (fun m => [", "; m]) (failed_names u l), false)
  /\ failed_list u true l = match failed_names u l with
                            | [] => ([], true)
                            | n :: ns => ((nl ++ line70 ++ nl ++ "Failed cases: ")%string :: n :: flat_map (fun m => [", "; m]) ns, false)
                            end.
Proof.
  intro u. induction l as [|t l [IH1 IH2]]; [split; reflexivity|]. unfold failed_names in *.
  cbn [failed_list filter]. rewrite hasPassed_success. fold (status_of u t). destruct (is_success (status_of u t)); cbn [negb].
  - split; assumption.
  - rewrite IH1. split; reflexivity.
Qed.

Section Perform.
Variable E : env.

Definition comp_line (c : component) : string :=
  ("  Component " ++ c_name c ++ " (elapsed " ++ seconds E 3 (elapsed (c_begin c) (c_end c)) ++ "s) "
   ++ (if (c_failures c =? 0)%Z then "Passed" ++ nl else "FAILED " ++ nl))%string.
Definition last_line (u : unit_test) : string :=
  ("Unit Test " ++ u_name u ++ " (elapsed " ++ seconds E 4 (elapsed (u_begin u) (u_end u)) ++ "s) "
   ++ (if (u_status u =? 0)%Z then "Passed" ++ nl else "FAILED " ++ nl))%string.
Definition report_lines (u : unit_test) : list string :=
  if (0 <? u_verbosity u)%nat then
    (if (u_status u =? 0)%Z then [] else failed_cases (failed_names u (u_tests u)))
    ++ (if (1 <? List.length (u_comps u))%nat then map comp_line (u_comps u) else [])
    ++ [last_line u]
  else [].

Lemma fold_tell : forall (A : Type) (f : A -> string) L u, on_console u -> fold_left (fun u x => tell (f x) u) L u = says (map f L) u.
Proof.
  intros A f. induction L as [|s L IH]; intros u H; [now rewrite says_nil|]. cbn [fold_left map]. rewrite tell_says by exact H.
  rewrite IH by exact H. rewrite says_app. reflexivity.
Qed.

Lemma report_eq : forall u, on_console u -> report E u = says (report_lines u) u.
Proof.
  intros u H. unfold report, report_lines. destruct (0 <? u_verbosity u)%nat; [|now rewrite says_nil].
  set (A := if (u_status u =? 0)%Z then [] else _).
  set (u1 := if (u_status u =? 0)%Z then u else _).
  assert (H1 : u1 = says A u).
  { unfold u1, A. destruct (u_status u =? 0)%Z; [now rewrite says_nil|].
    destruct (failed_list_eq u (u_tests u)) as [_ F]. rewrite F. destruct (failed_names u (u_tests u)) as [|n ns].
    - cbn [failed_cases]. rewrite says_nil. reflexivity.
    - rewrite (fold_tell _ (fun s => s)) by exact H. rewrite map_id, tell_says by exact H. rewrite says_app. f_equal. }
  clearbody u1. subst u1. clearbody A.
  change (u_comps (says A u)) with (u_comps u).
  set (B := if (1 <? List.length (u_comps u))%nat then map comp_line (u_comps u) else []).
  set (u1 := if (1 <? List.length (u_comps u))%nat then _ else _).
  assert (H1 : u1 = says (A ++ B) u).
  { unfold u1, B. destruct (1 <? List.length (u_comps u))%nat; [|now rewrite app_nil_r].
    rewrite (fold_tell _ comp_line) by exact H. apply says_app. }
  clearbody u1. subst u1. clearbody B.
  rewrite tell_says by exact H. rewrite says_app, <- app_assoc. reflexivity.
Qed.

(** The state after the tests have run, before the report. *)
Lemma runAll_many : forall u0, on_console u0 ->
  exists um T cs b e,
    run_comps E (u_comps u0) [] (in_world tick u0, 0%nat) = set_comps cs um
    /\ many E (flat_map c_tests (u_comps u0)) u0 um T /\ comps_ran (u_comps u0) cs T
    /\ (forall x, x = set_comps cs um -> set_lapse b e (in_world tick x) = set_lapse (clock E (w_tick (u_world u0))) (clock E (w_tick (u_world x))) (in_world tick x)).
Proof.
  intros u0 H. destruct (run_comps_many E (u_comps u0) [] (in_world tick u0) 0 H) as [um [T [cs [R [M C]]]]].
  exists um, T, cs, (clock E (w_tick (u_world u0))), (clock E (w_tick (u_world um))). split; [exact R|].
  split; [exact (many_app E [] _ _ _ _ [] T (many_tick E u0 H) M)|]. split; [exact C|]. intros x ->. reflexivity.
Qed.

Lemma perform_form : forall u, on_console u ->
  exists um T cs b e,
    let p := prepared u in
    let ur := set_lapse b e (in_world tick (set_comps cs um)) in
    let us := says (report_lines ur) ur in
    many E (flat_map c_tests (u_comps p)) p um T /\ comps_ran (u_comps p) cs T
    /\ fst (performUnitTests E u) = (if is_empty (u_xml u) then us else saveToXML E us)
    /\ snd (performUnitTests E u) = u_status um.
Proof.
  intros u H. pose proof (prepared_ready u H) as R. destruct (runAll_many (prepared u) (p_console _ _ R)) as [um [T [cs [b [e [Q [M [C Z]]]]]]]].
  exists um, T, cs, b, e. cbv zeta. split; [exact M|]. split; [exact C|].
  unfold performUnitTests. cbv zeta.
  assert (RA : runAllTests E (select_all (init u))
               = set_lapse b e (in_world tick (set_comps cs um))).
  { unfold runAllTests. fold (prepared u). rewrite Q. rewrite (Z _ eq_refl). reflexivity. }
  rewrite RA. clear RA Z.
  assert (MC := m_console _ _ _ _ _ M).
  rewrite report_eq by exact MC. unfold save_report.
  assert (XM : u_xml (set_lapse b e (in_world tick (set_comps cs um))) = u_xml u).
  { cbn. pose proof (m_conf _ _ _ _ _ M) as CF. transitivity (u_xml (prepared u)); [unfold conf in CF; congruence|apply (p_xml _ _ R)]. }
  change (u_xml (says (report_lines (set_lapse b e (in_world tick (set_comps cs um)))) (set_lapse b e (in_world tick (set_comps cs um)))))
    with (u_xml (set_lapse b e (in_world tick (set_comps cs um)))). rewrite XM.
  cbn [fst snd]. split; [reflexivity|].
  destruct (is_empty (u_xml u)); [reflexivity|]. unfold saveToXML. destruct (can_write E _); reflexivity.
Qed.


Record performed (u u' : unit_test) (z : Z) (T : list event) : Prop := mkPerformed {
  f_history : history u u' T;
  f_started : started T = flat_map c_tests (grouped (comp_of u) (selection u) (u_comps u));
  f_verdicts : map fst (verdicts T) = started T;
  f_about : Forall (fun e => In (about e) (started T)) T;
  f_result : z = if all_good T then 0%Z else (-1)%Z;
  f_status : u_status u' = z;
  f_failed : u_failed u' = bad_count T;
  f_final : NoDup (started T) -> forall t s, In (t, s) (verdicts T) -> status_of u' t = s;
  f_other : forall v, ~ In v (started T) -> caseof u' v = caseof u v \/ caseof u' v = blank (caseof u v);
  f_unrun : forall v, ~ In v (started T) -> In v (u_tests u) -> caseof u' v = blank (caseof u v);
  f_comp : forall v, comp_of u' v = comp_of u v;
  f_case : forall v, t_case (caseof u' v) = t_case (caseof u v);
  f_name : forall v, name_of u' v = name_of u v;
  f_select : u_select u' = selection u;
  f_tests : u_tests u' = u_tests u;
  f_byName : u_byName u' = u_byName u;
  f_opts : u_capture u' = u_capture u /\ u_errfail u' = u_errfail u /\ u_verbosity u' = u_verbosity u;
  f_names : u_xml u' = u_xml u /\ u_id u' = u_id u /\ u_name u' = u_name u;
  f_comps : comps_ran (grouped (comp_of u) (selection u) (u_comps u)) (u_comps u') T;
  f_console : on_console u';
  f_one : NoDup (started T) -> forall t, In t (started T) ->
          exists a b, one E t a b /\ (caseof a t = caseof u t \/ caseof a t = blank (caseof u t)) /\ caseof u' t = caseof b t /\ u_capture a = u_capture u /\ within E t a b T;
  f_output : exists L1 L2 ur, output u u' (L1 ++ framework_says (report_lines ur) ++ L2)
               /\ (forall v, caseof ur v = caseof u' v) /\ u_status ur = z /\ u_verbosity ur = u_verbosity u /\ u_tests ur = u_tests u
               /\ u_comps ur = u_comps u' /\ u_name ur = u_name u
               /\ Forall (fun c => ch_origin c = Framework \/ exists t, In t (started T) /\ ch_origin c = Test t) L1
               /\ (u_capture u = true -> Forall (fun c => ch_origin c = Framework) L1)
               /\ (u_verbosity u = 0%nat -> Forall (fun c => ch_origin c <> Framework) L1)
               /\ L2 = if is_empty (u_xml u) || can_write E (u_xml u) then [] else [mkChunk Err Framework ("Cannot save XML report to " ++ u_xml u)];
  f_files : u_files u' = u_files u ++ if negb (is_empty (u_xml u)) && can_write E (u_xml u) then [(u_xml u, xml_file E (report_xml u'))] else []
}.

Lemma conf_rest : forall u u', conf u' = conf u ->
  u_tests u' = u_tests u /\ u_byName u' = u_byName u /\ u_select u' = u_select u /\ u_xml u' = u_xml u /\ u_id u' = u_id u /\ u_name u' = u_name u
  /\ u_capture u' = u_capture u /\ u_errfail u' = u_errfail u /\ u_verbosity u' = u_verbosity u /\ u_files u' = u_files u.
Proof. unfold conf. intros u u' H. repeat split; congruence. Qed.

Lemma report_xml_ext : forall u u',
  (forall v, caseof u v = caseof u' v) -> u_id u = u_id u' -> u_name u = u_name u' -> u_select u = u_select u' -> u_failed u = u_failed u' ->
  u_begin u = u_begin u' -> u_end u = u_end u' -> u_comps u = u_comps u' -> report_xml u = report_xml u'.
Proof.
  intros u u' C I N S F B G K. unfold report_xml. rewrite I, N, S, F, B, G, K. f_equal. f_equal.
  apply flat_map_ext. intro c. unfold suite_xml. rewrite I. f_equal. f_equal. apply flat_map_ext. intro t. unfold case_xml.
  rewrite !hasPassed_success, I, C. reflexivity.
Qed.

Lemma perform_facts : forall u, on_console u -> exists T, performed u (fst (performUnitTests E u)) (snd (performUnitTests E u)) T.
Proof.
  intros u H. pose proof (prepared_ready u H) as R. destruct (perform_form u H) as (um & T & cs & b & e & M & C & P1 & P2).
  exists T. rewrite P1, P2. set (ur := set_lapse b e (in_world tick (set_comps cs um))) in *.
  set (us := says (report_lines ur) ur) in *.
  set (u' := if is_empty (u_xml u) then us else saveToXML E us).
  assert (G : forall (A : Type) (g : unit_test -> A), (forall c x, g (in_world (say c) x) = g x) -> (forall c x, g (add_file c x) = g x) -> on_console um -> g u' = g us).
  { intros A g G1 G2 HC. unfold u'. destruct (is_empty (u_xml u)); [reflexivity|]. unfold saveToXML. destruct (can_write E (u_xml us)); [apply G2|].
    unfold in_world, print. change (w_err (u_world us)) with (w_err (u_world um)). rewrite (proj2 HC). apply G1. }
  destruct M. 
  destruct (conf_rest _ _ m_conf0) as (Q1 & Q2 & Q3 & Q4 & Q5 & Q6 & Q7 & Q8 & Q9 & Q10).
  assert (GC : forall v, caseof u' v = caseof um v).
  { intro v. transitivity (caseof us v); [apply (G _ (fun x => caseof x v)); auto|reflexivity]. }
  assert (GS : forall (A : Type) (g : unit_test -> A), (forall c x, g (in_world (say c) x) = g x) -> (forall c x, g (add_file c x) = g x) -> g u' = g us) by (intros; apply G; auto).
  assert (ST : started T = flat_map c_tests (grouped (comp_of u) (selection u) (u_comps u))) by (rewrite m_started0, (p_comps _ _ R); reflexivity).
  assert (ST2 : flat_map c_tests (u_comps (prepared u)) = started T) by congruence.
  rewrite ST2 in *.
  constructor.
  - unfold history. rewrite (GS _ (fun x => w_trace (u_world x))) by auto. change (w_trace (u_world us)) with (w_trace (u_world um)).
    rewrite m_trace0. now rewrite (p_trace _ _ R).
  - exact ST.
  - exact m_verdicts0.
  - exact m_about0.
  - rewrite m_result0, (p_status _ _ R). reflexivity.
  - rewrite (GS _ u_status) by auto. reflexivity.
  - rewrite (GS _ u_failed) by auto. change (u_failed us) with (u_failed um). rewrite m_failed0, (p_failed _ _ R). reflexivity.
  - intros ND t s Hs. unfold status_of. rewrite GC. now apply m_final0.
  - intros v Hv. rewrite GC, m_other0 by exact Hv. apply (p_case _ _ R).
  - intros v Hv Ht. rewrite GC, m_other0 by exact Hv. apply (p_blank _ _ R), Ht.
  - intro v. unfold comp_of at 1. rewrite GC. rewrite <- (ready_comp _ _ v R). apply m_comp0.
  - intro v. rewrite GC, <- (ready_tcase _ _ v R). apply m_case0.
  - intro v. unfold name_of at 1. rewrite GC. rewrite <- (ready_name _ _ v R). apply m_name0.
  - rewrite (GS _ u_select) by auto. change (u_select us) with (u_select um). rewrite Q3. apply (p_select _ _ R).
  - rewrite (GS _ u_tests) by auto. change (u_tests us) with (u_tests um). rewrite Q1. apply (p_tests _ _ R).
  - rewrite (GS _ u_byName) by auto. change (u_byName us) with (u_byName um). rewrite Q2. apply (p_byName _ _ R).
  - destruct (p_opts _ _ R) as (O1 & O2 & O3).
    rewrite (GS _ u_capture), (GS _ u_errfail), (GS _ u_verbosity) by auto.
    change (u_capture us) with (u_capture um). change (u_errfail us) with (u_errfail um). change (u_verbosity us) with (u_verbosity um).
    rewrite Q7, Q8, Q9. auto.
  - destruct (p_ids _ _ R) as (O1 & O2).
    rewrite (GS _ u_xml), (GS _ u_id), (GS _ u_name) by auto.
    change (u_xml us) with (u_xml um). change (u_id us) with (u_id um). change (u_name us) with (u_name um).
    rewrite Q4, Q5, Q6, (p_xml _ _ R). auto.
  - rewrite (GS _ u_comps) by auto. change (u_comps us) with cs. rewrite (p_comps _ _ R) in C. exact C.
  - unfold on_console. rewrite (GS _ (fun x => w_out (u_world x))), (GS _ (fun x => w_err (u_world x))) by auto. exact m_console0.
  - intros ND t Ht. destruct (m_one0 ND t Ht) as (x & y & O & A & B & D & W). exists x, y. split; [exact O|].
    split; [rewrite A; apply (p_case _ _ R)|]. split; [rewrite GC; exact B|]. split; [rewrite D; apply (p_opts _ _ R)|exact W].
  - destruct m_output0 as (L & L1 & L2 & L3 & L4). destruct (p_opts _ _ R) as (O1 & O2 & O3). rewrite O1 in L3. rewrite O3 in L4.
    exists L, (if is_empty (u_xml u) || can_write E (u_xml u) then [] else [mkChunk Err Framework ("Cannot save XML report to " ++ u_xml u)]), ur.
    assert (XU : u_xml us = u_xml u) by (change (u_xml us) with (u_xml um); rewrite Q4; apply (p_xml _ _ R)).
    repeat split; auto.
    + unfold output, u'. unfold output in L1. rewrite (p_out _ _ R) in L1.
      assert (OS : w_console (u_world us) = w_console (u_world u) ++ L ++ framework_says (report_lines ur)).
      { change (w_console (u_world us)) with (w_console (u_world um) ++ framework_says (report_lines ur)). rewrite L1, <- app_assoc. reflexivity. }
      destruct (is_empty (u_xml u)); cbn [orb]; [rewrite app_nil_r; exact OS|].
      unfold saveToXML. rewrite XU. destruct (can_write E (u_xml u)).
      * rewrite app_nil_r. exact OS.
      * unfold in_world, print. change (w_err (u_world us)) with (w_err (u_world um)). rewrite (proj2 m_console0).
        cbn [u_world set_world w_console say]. rewrite OS, <- !app_assoc. reflexivity.
    + intro v. symmetry. exact (GC v).
    + change (u_verbosity um = u_verbosity u). rewrite Q9. exact O3.
    + change (u_tests um = u_tests u). rewrite Q1. apply (p_tests _ _ R).
    + rewrite (GS _ u_comps) by auto. reflexivity.
    + change (u_name um = u_name u). rewrite Q6. apply (p_ids _ _ R).
  - assert (XU : u_xml us = u_xml u) by (change (u_xml us) with (u_xml um); rewrite Q4; apply (p_xml _ _ R)).
    assert (RX : report_xml us = report_xml u').
    { apply report_xml_ext; [intro v; symmetry; exact (GC v)|..]; symmetry; apply GS; auto. }
    rewrite <- RX. unfold u'. destruct (is_empty (u_xml u)); cbn [negb andb].
    + rewrite app_nil_r. change (u_files us) with (u_files um). rewrite Q10. apply (p_files _ _ R).
    + unfold saveToXML. rewrite XU. destruct (can_write E (u_xml u)).
      * cbn [u_files add_file]. change (u_files us) with (u_files um). rewrite Q10, (p_files _ _ R). reflexivity.
      * rewrite app_nil_r. change (u_files um = u_files u). rewrite Q10. apply (p_files _ _ R).
Qed.

End Perform.
