(** * Proofs about the times that a test program reports. *)

From Coq Require Import ZArith String Bool List Arith Lia Permutation.
From Verif Require Import TextModel FutModel FutSpec FutProofs FutRun FutMore FutClose FutConsoleSpec FutConsole FutReportSpec FutReport FutTimesSpec.
Import ListNotations.

Section Times.
Variable E : env.

(** Readings of the clock in one test. *)
Definition reads (sc : script) : nat :=
  match escapes (sc_setup sc) with
  | Some _ => 1
  | None => match escapes (sc_test sc), escapes (sc_teardown sc) with None, Some _ => 3 | _, _ => 2 end
  end%nat.

Lemma run_tick : forall t w, here t (w_out w) -> here t (w_err w) -> w_tick (run E t w) = (w_tick w + reads (beh E t (t_runs (w_case w t))))%nat.
Proof.
  intros t w Ho He. unfold run, reads. set (sc := beh E t (t_runs (w_case w t))). clearbody sc.
  match goal with |- context [exec_body t (sc_setup sc) ?x] => set (w1 := x) end.
  assert (H1 : here t (w_out w1) /\ here t (w_err w1) /\ w_tick w1 = w_tick w) by (repeat split; assumption). clearbody w1.
  destruct H1 as (Ho1 & He1 & K1). rewrite <- K1. clear K1 Ho He w.
  destruct (exec_did t (sc_setup sc) w1 Ho1 He1) as [D1 S1]. destruct (exec_body t (sc_setup sc) w1) as [w2 r2]. cbn [fst snd] in *. subst r2.
  pose proof (d_tick _ _ _ _ D1) as T1.
  destruct (escapes (sc_setup sc)) as [e|].
  { rewrite caught_tick. lia. }
  match goal with |- context [exec_body t (sc_test sc) ?x] => set (w3 := x) end.
  assert (H3 : here t (w_out w3) /\ here t (w_err w3) /\ w_tick w3 = S (w_tick w2)).
  { unfold w3. rewrite <- (d_out _ _ _ _ D1) in Ho1. rewrite <- (d_err _ _ _ _ D1) in He1. repeat split; assumption. }
  destruct H3 as (Ho3 & He3 & T3). clearbody w3.
  destruct (exec_did t (sc_test sc) w3 Ho3 He3) as [D3 S3]. destruct (exec_body t (sc_test sc) w3) as [w4 r4]. cbn [fst snd] in *. subst r4.
  pose proof (d_tick _ _ _ _ D3) as T4.
  destruct (escapes (sc_test sc)) as [e|].
  { rewrite caught_tick. lia. }
  cbv zeta. match goal with |- context [exec_body t (sc_teardown sc) ?x] => set (w5 := x) end.
  assert (H5 : here t (w_out w5) /\ here t (w_err w5) /\ w_tick w5 = S (w_tick w4)).
  { rewrite <- (d_out _ _ _ _ D3) in Ho3. rewrite <- (d_err _ _ _ _ D3) in He3. unfold w5. destruct (is_none _); repeat split; assumption. }
  destruct H5 as (Ho5 & He5 & T5). clearbody w5.
  destruct (exec_did t (sc_teardown sc) w5 Ho5 He5) as [D5 S5]. destruct (exec_body t (sc_teardown sc) w5) as [w6 r6]. cbn [fst snd] in *. subst r6.
  pose proof (d_tick _ _ _ _ D5) as T6.
  destruct (escapes (sc_teardown sc)) as [e|]; [rewrite caught_tick|]; lia.
Qed.

(** The times of a test, given the first reading in it. *)
Definition timed (k : nat) (sc : script) (b : Z) (x : Z * Z) : Prop :=
  match escapes (sc_setup sc) with
  | Some _ => x = (b, clock E k)
  | None => x = (clock E k, clock E (k + pred (reads sc))%nat)
  end.

Lemma finish_tick : forall t n f u u' n' f', finish t n f u = (u', n', f') -> w_tick (u_world u') = w_tick (u_world u) /\ caseof u' t = caseof u t.
Proof.
  intros t n f u u' n' f' R. unfold finish in R. cbv zeta in R. destruct (hasPassed _ t); injection R as <- _ _; split; reflexivity.
Qed.

Lemma timed_one : forall t u n f u' n' f', on_console u -> run_one E t (u, n, f) = (u', n', f') ->
  let sc := beh E t (t_runs (caseof u t)) in let k := w_tick (u_world u) in
  w_tick (u_world u') = (k + reads sc)%nat /\ timed k sc (t_begin (caseof u t)) (times (caseof u' t)).
Proof.
  intros t u n f u' n' f' Hc R. cbv zeta. pose proof Hc as [Ho He]. rewrite run_one_unf, Ho, He in R.
  rewrite beginTest_eq in R by (split; assumption).
  set (bl := begin_lines (u_verbosity u) (S n) (t_name (caseof u t))) in *. clearbody bl.
  set (u1 := in_world (tc_begin (u_capture u) t) (says bl u)) in *.
  assert (C1 : caseof u1 t = with_status NONE (caseof u t)).
  { unfold u1, caseof, tc_begin, in_world. cbn. destruct (u_capture u); onc; rewrite Nat.eqb_refl; reflexivity. }
  assert (K1 : w_tick (u_world u1) = w_tick (u_world u)).
  { unfold u1, tc_begin, in_world. cbn. destruct (u_capture u); reflexivity. }
  assert (D1 : w_out (u_world u1) = (if u_capture u then Capture t else Console) /\ w_err (u_world u1) = (if u_capture u then Capture t else Console)).
  { unfold u1, tc_begin, in_world. cbn. destruct (u_capture u); onc; auto. }
  assert (F1 : u_capture u1 = u_capture u /\ u_verbosity u1 = u_verbosity u) by (split; reflexivity).
  clearbody u1. destruct D1 as [Do1 De1]. destruct F1 as [F1 F1a].
  assert (H1 : here t (w_out (u_world u1)) /\ here t (w_err (u_world u1))) by (rewrite Do1, De1; unfold here; destruct (u_capture u); auto).
  pose proof (run_tick t (u_world u1) (proj1 H1) (proj2 H1)) as T2. destruct (run_rec E t (u_world u1) (proj1 H1) (proj2 H1)) as [_ R2]. cbv zeta in R2.
  change (w_case (u_world u1) t) with (caseof u1 t) in T2, R2. rewrite C1, K1 in T2, R2. 
  change (t_runs (with_status NONE (caseof u t))) with (t_runs (caseof u t)) in T2, R2. change (t_begin (with_status NONE (caseof u t))) with (t_begin (caseof u t)) in R2.
  change (run E t (u_world u1)) with (u_world (in_world (run E t) u1)) in T2, R2.
  assert (D2 : u_capture u = false -> on_console (in_world (run E t) u1)).
  { intro Z. rewrite Z in *. pose proof (leads_run E t (u_world u1)) as L. unfold leads in L. rewrite Do1, De1 in L. injection L as A B. split; assumption. }
  set (u2 := in_world (run E t) u1) in *.
  assert (F2 : u_capture u2 = u_capture u /\ u_verbosity u2 = u_verbosity u) by (split; assumption).
  clearbody u2. destruct F2 as [F2 F2a].
  rewrite endTest_eq in R by (rewrite F2; exact D2).
  set (u3 := in_world (tc_end (u_capture u2) Console Console t) u2) in R. lazy zeta in R.
  assert (K3 : w_tick (u_world u3) = w_tick (u_world u2) /\ times (caseof u3 t) = times (caseof u2 t)).
  { unfold u3, caseof, tc_end, in_world, times. destruct (u_capture u2); cbn; [onc; rewrite Nat.eqb_refl|]; split; reflexivity. }
  clearbody u3. destruct K3 as [K3 X3].
  set (el := end_lines _ _ _) in R. clearbody el.
  apply finish_tick in R. destruct R as [K5 C5].
  change (w_tick (u_world (says el u3))) with (w_tick (u_world u3)) in K5. change (caseof (says el u3) t) with (caseof u3 t) in C5.
  rewrite K5, C5, K3, X3. split; [exact T2|]. clear T2. set (sc := beh E t (t_runs (caseof u t))) in *. clearbody sc.
  unfold timed, reads. change (w_case (u_world u2) t) with (caseof u2 t) in R2.
  destruct (escapes (sc_setup sc)); [exact R2|]. destruct (escapes (sc_test sc)), (escapes (sc_teardown sc)); exact R2.
Qed.

(** Tests one after the other: [r], [b]: runs and beginnings before, [x]: times after. *)
Inductive tlaps (r : nat -> nat) (b : nat -> Z) (x : nat -> Z * Z) : nat -> list nat -> nat -> Prop :=
| tl_nil : forall k, tlaps r b x k [] k
| tl_cons : forall k t ts m, timed k (beh E t (r t)) (b t) (x t) -> tlaps r b x (k + reads (beh E t (r t))) ts m -> tlaps r b x k (t :: ts) m.
Definition runs_of (u : unit_test) (t : nat) : nat := t_runs (caseof u t).
Definition begin_of (u : unit_test) (t : nat) : Z := t_begin (caseof u t).
Definition times_of (u : unit_test) (t : nat) : Z * Z := times (caseof u t).
Definition laps (u u' : unit_test) : nat -> list nat -> nat -> Prop := tlaps (runs_of u) (begin_of u) (times_of u').

Definition alike (u u' v v' : unit_test) (t : nat) : Prop := runs_of v t = runs_of u t /\ begin_of v t = begin_of u t /\ times_of v' t = times_of u' t.
Lemma case_alike : forall u u' v v' t, caseof v t = caseof u t -> caseof v' t = caseof u' t -> alike u u' v v' t.
Proof. intros u u' v v' t A B. unfold alike, runs_of, begin_of, times_of. now rewrite A, B. Qed.
Lemma laps_ext : forall u u' v v' k ts m, (forall t, In t ts -> alike u u' v v' t) -> laps u u' k ts m -> laps v v' k ts m.
Proof.
  intros u u' v v' k ts m H L. induction L as [k|k t ts m T L IH]; [constructor|].
  destruct (H t (or_introl eq_refl)) as (Q1 & Q2 & Q3). constructor; rewrite Q1; [rewrite Q2, Q3; exact T|]. apply IH. intros y I. apply H. now right.
Qed.

Lemma reads_pos : forall sc, (1 <= reads sc)%nat.
Proof. intro sc. unfold reads. destruct (escapes (sc_setup sc)), (escapes (sc_test sc)), (escapes (sc_teardown sc)); lia. Qed.
Lemma laps_le : forall u u' k ts m, laps u u' k ts m -> (k <= m)%nat.
Proof. intros u u' k ts m L. induction L as [|k t ts m T L IH]; lia. Qed.

Lemma timed_fold : forall ts u n f, on_console u ->
  exists u' T, fold_left (fun s t => run_one E t s) ts (u, n, f) = (u', (n + List.length ts)%nat, (f + bad_count T)%Z) /\ many E ts u u' T
    /\ (w_tick (u_world u) <= w_tick (u_world u'))%nat
    /\ (NoDup ts -> laps u u' (w_tick (u_world u)) ts (w_tick (u_world u'))).
Proof.
  induction ts as [|t ts IH]; intros u n f H.
  - exists u, []. split; [cbn; f_equal; [f_equal; lia|]; unfold bad_count; cbn; lia|]. split; [now apply many_refl|]. split; [reflexivity|]. intros _. constructor.
  - destruct (run_one_one E t u n f H) as [u1 [R1 O1]].
    destruct (one_many _ _ _ _ O1) as [T1 [M1 ET1]].
    destruct (IH u1 (S n) (if is_success (status_of u1 t) then f else (f + 1)%Z) (m_console _ _ _ _ _ M1)) as [u2 [T2 [R2 [M2 [K2 L2]]]]].
    pose proof (timed_one _ _ _ _ _ _ _ H R1) as [K1 X1]. cbv zeta in K1, X1.
    exists u2, (T1 ++ T2). split; [|split; [apply (many_app E [t] ts u u1 u2 T1 T2 M1 M2)|split]].
    + assert (F1 : ((if is_success (status_of u1 t) then f else f + 1) + bad_count T2 = f + bad_count (T1 ++ T2))%Z).
      { rewrite bad_count_app. pose proof (m_failed _ _ _ _ _ M1) as F1. rewrite (o_failed _ _ _ _ O1) in F1. destruct (is_success (status_of u1 t)); lia. }
      rewrite fold_cons, R1, R2, F1. replace (n + List.length (t :: ts))%nat with (S n + List.length ts)%nat; [reflexivity|].
      cbn [List.length]. lia.
    + lia.
    + intro ND. inversion ND as [|? ? N1 N2]. subst. specialize (L2 N2). constructor.
      * unfold times_of. rewrite (m_other _ _ _ _ _ M2 t N1). exact X1.
      * change (beh E t (runs_of u t)) with (beh E t (t_runs (caseof u t))). rewrite <- K1. eapply laps_ext; [|exact L2].
        intros y I. apply case_alike; [|reflexivity]. symmetry. apply (m_other _ _ _ _ _ M1). intros [->|[]]. exact (N1 I).
Qed.

(** The same for components. *)
Inductive claps (u u' : unit_test) : nat -> list component -> nat -> Prop :=
| cl_nil : forall k, claps u u' k [] k
| cl_cons : forall k c cs m n, c_begin c = clock E k -> c_end c = clock E m -> (S k <= m)%nat -> (NoDup (c_tests c) -> laps u u' (S k) (c_tests c) m) ->
    claps u u' (S m) cs n -> claps u u' k (c :: cs) n.
(** Without the tests. *)
Inductive clap : nat -> list component -> nat -> Prop :=
| cp_nil : forall k, clap k [] k
| cp_cons : forall k c cs m n, c_begin c = clock E k -> c_end c = clock E m -> (S k <= m)%nat -> clap (S m) cs n -> clap k (c :: cs) n.

Lemma claps_ext : forall u u' v v' k cs m, (forall t, In t (flat_map c_tests cs) -> alike u u' v v' t) -> claps u u' k cs m -> claps v v' k cs m.
Proof.
  intros u u' v v' k cs m H L. induction L as [k|k c cs m n B F K T L IH]; [constructor|]. cbn [flat_map] in H.
  econstructor; [exact B|exact F|exact K| |].
  - intro ND. eapply laps_ext; [|exact (T ND)]. intros t I. apply H, in_or_app. now left.
  - apply IH. intros t I. apply H, in_or_app. now right.
Qed.

Lemma timed_comps : forall todo done u n, on_console u ->
  exists u' T cs, run_comps E todo done (u, n) = set_comps (done ++ cs) u' /\ many E (flat_map c_tests todo) u u' T /\ comps_ran todo cs T
    /\ clap (w_tick (u_world u)) cs (w_tick (u_world u'))
    /\ (NoDup (flat_map c_tests todo) -> claps u u' (w_tick (u_world u)) cs (w_tick (u_world u'))).
Proof.
  induction todo as [|c todo IH]; intros done u n H.
  - exists u, [], []. cbn. rewrite app_nil_r. split; [reflexivity|]. split; [now apply many_refl|]. split; [constructor|]. split; [constructor|]. intros _. constructor.
  - cbn [run_comps flat_map]. pose proof (many_tick E u H) as M0.
    destruct (timed_fold (c_tests c) (in_world tick u) n (c_failures c) H) as [u1 [T1 [R1 [M1 [K1 L1]]]]]. rewrite R1.
    pose proof (many_tick E u1 (m_console _ _ _ _ _ M1)) as M2.
    pose proof (many_app _ _ _ _ _ _ _ _ M0 (many_app _ _ _ _ _ _ _ _ M1 M2)) as M3. rewrite !app_nil_r in M3. cbn [app] in M3.
    destruct (IH (done ++ [mkComp (c_name c) (c_failures c + bad_count T1) (c_tests c) (clock E (w_tick (u_world u))) (clock E (w_tick (u_world u1)))])
                 (in_world tick u1) (n + List.length (c_tests c))%nat (m_console _ _ _ _ _ M3)) as [u2 [T2 [cs [R2 [M4 [CR [K2 L2]]]]]]].
    exists u2, (T1 ++ T2), (mkComp (c_name c) (c_failures c + bad_count T1) (c_tests c) (clock E (w_tick (u_world u))) (clock E (w_tick (u_world u1))) :: cs).
    split; [rewrite R2, <- app_assoc; reflexivity|]. split; [exact (many_app _ _ _ _ _ _ _ _ M3 M4)|].
    split; [constructor; try reflexivity; [exact (m_verdicts _ _ _ _ _ M1)|exact CR]|].
    split; [econstructor; [reflexivity|reflexivity|exact K1|exact K2]|].
    intro ND. destruct (nodup_app_l _ _ _ ND) as (N1 & N2 & N3).
    econstructor; [reflexivity|reflexivity|exact K1| |].
    + cbn [c_tests]. intros _. eapply laps_ext; [|exact (L1 N1)]. intros t I. apply case_alike; [reflexivity|]. apply (m_other _ _ _ _ _ M4). exact (N3 t I).
    + eapply claps_ext; [|exact (L2 N2)]. intros t I. apply case_alike; [|reflexivity]. symmetry. apply (m_other _ _ _ _ _ M3). intro J. apply (N3 t J).
      destruct (cr_flat _ _ _ CR) as [FL _]. rewrite <- FL. exact I.
Qed.

(** A whole run. *)
Lemma timed_perform : forall u u' z, on_console u -> performUnitTests E u = (u', z) ->
  let k := w_tick (u_world u) in exists T m, performed E u u' z T /\ w_tick (u_world u') = S m /\ u_begin u' = clock E k /\ u_end u' = clock E m /\ clap (S k) (u_comps u') m
  /\ (NoDup (started T) -> claps u u' (S k) (u_comps u') m).
Proof.
  intros u u' z H P. cbv zeta. pose proof (perform_facts E u H) as [T PF]. rewrite P in PF. cbn [fst snd] in PF.
  pose proof (prepared_ready u H) as R.
  destruct (timed_comps (u_comps (prepared u)) [] (in_world tick (prepared u)) 0 (p_console _ _ R)) as (um & T' & cs & Q & M & CR & K & L).
  exists T, (w_tick (u_world um)).
  assert (FM : u' = save_report E (report E (set_lapse (clock E (w_tick (u_world (prepared u)))) (clock E (w_tick (u_world um))) (in_world tick (set_comps cs um))))).
  { rewrite perform_unf in P. injection P as P1 _. rewrite <- P1. unfold runAllTests. fold (prepared u). cbv zeta. rewrite Q. reflexivity. }
  set (ur := set_lapse _ _ _) in FM.
  assert (MC : on_console ur) by exact (m_console _ _ _ _ _ M). rewrite report_eq in FM by exact MC.
  assert (SV : (forall v, caseof u' v = caseof um v) /\ u_comps u' = cs /\ u_begin u' = clock E (w_tick (u_world (prepared u))) /\ u_end u' = clock E (w_tick (u_world um))
     /\ w_tick (u_world u') = S (w_tick (u_world um)) /\ w_trace (u_world u') = w_trace (u_world um)).
  { rewrite FM. clear FM. set (LL := report_lines E ur). clearbody LL. unfold save_report, saveToXML. change (u_xml (says LL ur)) with (u_xml ur).
    destruct (is_empty (u_xml ur)); [repeat split; reflexivity|].
    destruct (can_write E (u_xml ur)); [repeat split; reflexivity|].
    unfold in_world, print. change (w_err (u_world (says LL ur))) with (w_err (u_world ur)). rewrite (proj2 MC). repeat split. }
  destruct SV as (SV1 & SV2 & SV3 & SV4 & SV5 & SV6).
  assert (KP : w_tick (u_world (prepared u)) = w_tick (u_world u)) by exact (p_tick _ _ R).
  split; [exact PF|]. split; [exact SV5|]. rewrite <- KP. split; [exact SV3|]. split; [exact SV4|]. rewrite SV2. split; [exact K|].
  intro ND. assert (ND' : NoDup (flat_map c_tests (u_comps (prepared u)))).
  { rewrite <- (m_started _ _ _ _ _ M). replace T' with T; [exact ND|].
    pose proof (f_history _ _ _ _ _ PF) as HT. unfold history in HT. rewrite SV6, (m_trace _ _ _ _ _ M) in HT.
    change (w_trace (u_world (in_world tick (prepared u)))) with (w_trace (u_world (prepared u))) in HT. rewrite (p_trace _ _ R) in HT. now apply app_inv_head in HT. }
  eapply claps_ext; [|exact (L ND')]. intros t I. unfold alike, runs_of, begin_of, times_of. rewrite SV1.
  change (caseof (in_world tick (prepared u)) t) with (caseof (prepared u) t). destruct (p_case _ _ R t) as [->| ->]; repeat split.
Qed.

(** ** Sums *)

Section Clock.
Variables (x : nat -> Z) (a z : nat).
Hypothesis steady : forall i j, (i <= j)%nat -> (x i <= x j)%Z.
Hypothesis lap : forall i j, (a <= i)%nat -> (i <= j)%nat -> (j <= z)%nat -> elapsed (clock E i) (clock E j) = (x j - x i)%Z.

Lemma clap_le : forall k cs m, clap k cs m -> (k <= m)%nat.
Proof. intros k cs m L. induction L; lia. Qed.
Lemma clap_sum : forall k cs m, clap k cs m -> (a <= k)%nat -> (m <= z)%nat -> (sum (map (fun c => elapsed (c_begin c) (c_end c)) cs) <= x m - x k)%Z.
Proof.
  intros k cs m L. induction L as [k|k c cs m n B F K L IH]; intros A Z; [cbn; lia|]. cbn [map sum]. pose proof (clap_le _ _ _ L). rewrite B, F, lap by lia.
  pose proof (steady m (S m) (le_S _ _ (le_n _))). specialize (IH ltac:(lia) Z). lia.
Qed.

Lemma laps_sum : forall u u' k ts m, laps u u' k ts m -> (a <= k)%nat -> (m <= S z)%nat -> (forall t, In t ts -> escapes (sc_setup (beh E t (runs_of u t))) = None) ->
  (sum (map (time_of_test u') ts) <= x m - x k)%Z /\ forall t, In t ts -> (0 <= time_of_test u' t)%Z.
Proof.
  intros u u' k ts m L. induction L as [k|k t ts m T L IH]; intros A Z N; [split; [cbn; lia|intros t []]|].
  pose proof (laps_le u u' _ _ _ L) as LE. pose proof (reads_pos (beh E t (runs_of u t))) as RP.
  unfold timed in T. rewrite (N t (or_introl eq_refl)) in T. unfold times_of, times in T. injection T as T1 T2.
  destruct (IH ltac:(lia) Z (fun y I => N y (or_intror I))) as [S1 S2].
  assert (Q : time_of_test u' t = (x (k + pred (reads (beh E t (runs_of u t))))%nat - x k)%Z) by (unfold time_of_test; rewrite T1, T2; apply lap; lia).
  pose proof (steady (k + pred (reads (beh E t (runs_of u t)))) (k + reads (beh E t (runs_of u t))) ltac:(lia)).
  pose proof (steady k (k + pred (reads (beh E t (runs_of u t)))) ltac:(lia)).
  split; [cbn [map sum]; rewrite Q; lia|]. intros y [<-|I]; [lia|apply S2, I].
Qed.
End Clock.

Lemma keeps_lap : forall x u u', keeps_time E x u u' -> forall i j, (first_reading u <= i)%nat -> (i <= j)%nat -> (j <= last_reading u')%nat ->
  elapsed (clock E i) (clock E j) = (x j - x i)%Z.
Proof.
  intros x u u' [S [C|[C D]]] i j A B Z; rewrite !C.
  - apply elapsed_forward, S, B.
  - apply elapsed_day. pose proof (S _ _ A). pose proof (S _ _ Z). pose proof (S _ _ B). change MSECS_IN_A_DAY with 86400000%Z. lia.
Qed.

Lemma claps_comp : forall u u' k cs m c, claps u u' k cs m -> In c cs -> exists i j, (k <= i)%nat /\ (j < m)%nat /\ (S i <= j)%nat /\ c_begin c = clock E i /\ c_end c = clock E j
  /\ (NoDup (c_tests c) -> laps u u' (S i) (c_tests c) j).
Proof.
  assert (LE : forall u u' k cs m, claps u u' k cs m -> (k <= m)%nat) by (intros u u' k cs m L; induction L; lia).
  intros u u' k cs m c L. induction L as [k|k d cs m n B F K T L IH]; intro I; [destruct I|]. destruct I as [->|I].
  - exists k, m. pose proof (LE _ _ _ _ _ L). repeat split; auto.
  - destruct (IH I) as (i & j & X & Y). exists i, j. split; [lia|exact Y].
Qed.

(** The whole run and its components. *)
Lemma total_sum : forall x u u' z, on_console u -> performUnitTests E u = (u', z) -> keeps_time E x u u' ->
  total_time u' = (x (last_reading u') - x (first_reading u))%Z /\ (sum (map snd (comp_times u')) <= total_time u')%Z.
Proof.
  intros x u u' z H P KT. pose proof (timed_perform u u' z H P) as (T & m & PF & K & B & F & C & _). cbv zeta in *.
  assert (Q : last_reading u' = m) by (unfold last_reading; now rewrite K).
  assert (TT : total_time u' = (x (last_reading u') - x (first_reading u))%Z).
  { unfold total_time. rewrite B, F. fold (first_reading u). rewrite <- Q. apply (keeps_lap x u u' KT); try lia. rewrite Q. pose proof (clap_le _ _ _ C). unfold first_reading. lia. }
  split; [exact TT|]. rewrite TT. unfold comp_times. rewrite map_map. cbn [snd].
  pose proof (clap_sum x (first_reading u) (last_reading u') (proj1 KT) (keeps_lap x u u' KT) _ _ _ C) as SM. rewrite Q in *.
  pose proof (proj1 KT (first_reading u) (S (first_reading u)) (le_S _ _ (le_n _))). unfold first_reading in *. specialize (SM ltac:(lia) ltac:(lia)). lia.
Qed.

Lemma nodup_flat : forall (l : list component) c, NoDup (flat_map c_tests l) -> In c l -> NoDup (c_tests c).
Proof.
  induction l as [|d l IH]; intros c ND I; [destruct I|]. cbn [flat_map] in ND. destruct (nodup_app_l _ _ _ ND) as (N1 & N2 & _). destruct I as [->|I]; [exact N1|now apply IH].
Qed.

Lemma component_sum : forall x u u' z n ms, fresh u -> NoDup (selection u) -> performUnitTests E u = (u', z) -> keeps_time E x u u' ->
  In (n, ms) (comp_times u') -> (forall t, In t (in_comp u n (selection u)) -> escapes (sc_setup (beh E t (t_runs (caseof u t)))) = None) ->
  (sum (map (time_of_test u') (in_comp u n (selection u))) <= ms)%Z /\ forall t, In t (in_comp u n (selection u)) -> (0 <= time_of_test u' t)%Z.
Proof.
  intros x u u' z n ms F ND P KT I N. pose proof (timed_perform u u' z (proj2 F) P) as (T & m & PF & K & B & Fi & C & CL). cbv zeta in *.
  destruct (fresh_started E u u' z T F PF) as [PE _].
  assert (ND' : NoDup (started T)) by (eapply Permutation_NoDup; [symmetry; exact PE|exact ND]). specialize (CL ND').
  unfold comp_times in I. apply in_map_iff in I. destruct I as (c & Q & I). injection Q as <- <-.
  pose proof (f_comps _ _ _ _ _ PF) as CR. rewrite (proj1 F) in CR.
  assert (SC : sorted_comps (comp_of u) (u_comps u')) by (eapply cr_sorted; [exact CR|apply grouped_sorted; constructor]).
  assert (OWN : c_tests c = in_comp u (c_name c) (selection u)).
  { rewrite <- (sorted_own _ _ c SC I), (proj1 (cr_flat _ _ _ CR)). unfold in_comp.
    rewrite (grouped_filter (comp_of u) (selection u) [] (c_name c) (sc_nil _)). cbn [flat_map filter app]. reflexivity. }
  destruct (claps_comp _ _ _ _ _ c CL I) as (i & j & K1 & K2 & K3 & K4 & K5 & L).
  assert (NC : NoDup (c_tests c)).
  { rewrite OWN. unfold in_comp. apply NoDup_filter, ND. }
  specialize (L NC). rewrite OWN in L.
  assert (QL : last_reading u' = m) by (unfold last_reading; now rewrite K).
  destruct (laps_sum x (first_reading u) (last_reading u') (proj1 KT) (keeps_lap x u u' KT) u u' _ _ _ L) as [S1 S2].
  - unfold first_reading. lia.
  - lia.
  - exact N.
  - split; [|exact S2]. rewrite K4, K5. rewrite (keeps_lap x u u' KT) by (unfold first_reading; lia).
    pose proof (proj1 KT i (S i) ltac:(lia)). lia.
Qed.

(** ** SetUp throws *)

Lemma laps_in : forall u u' k ts m t, laps u u' k ts m -> In t ts -> exists i, (k <= i < m)%nat /\ timed i (beh E t (runs_of u t)) (begin_of u t) (times_of u' t).
Proof.
  intros u u' k ts m t L. induction L as [k|k y ts m T L IH]; intro I; [destruct I|]. pose proof (laps_le u u' _ _ _ L). pose proof (reads_pos (beh E y (runs_of u y))). destruct I as [->|I].
  - exists k. split; [lia|exact T].
  - destruct (IH I) as (i & K & Q). exists i. split; [lia|exact Q].
Qed.
Lemma late_setup : forall x u u' z t e, fresh u -> NoDup (selection u) -> performUnitTests E u = (u', z) -> (forall i j, (i <= j)%nat -> (x i <= x j)%Z) -> (forall k, clock E k = x k) ->
  In t (selection u) -> escapes (sc_setup (beh E t (t_runs (caseof u t)))) = Some e -> t_begin (caseof u t) = 0%Z -> (total_time u' < x (first_reading u))%Z ->
  (total_time u' < time_of_test u' t)%Z.
Proof.
  intros x u u' z t e F ND P SX CX I ES B0 LT.
  assert (KT : keeps_time E x u u') by (split; [exact SX|left; exact CX]).
  pose proof (timed_perform u u' z (proj2 F) P) as (T & m & PF & K & B & Fi & C & CL). cbv zeta in *.
  destruct (fresh_started E u u' z T F PF) as [PE _].
  assert (ND' : NoDup (started T)) by (eapply Permutation_NoDup; [symmetry; exact PE|exact ND]). specialize (CL ND').
  assert (I' : In t (flat_map c_tests (u_comps u'))).
  { pose proof (f_started _ _ _ _ _ PF) as ST. rewrite (proj1 (cr_flat _ _ _ (f_comps _ _ _ _ _ PF))), <- ST. eapply Permutation_in; [symmetry; exact PE|exact I]. }
  assert (NF : NoDup (flat_map c_tests (u_comps u'))).
  { pose proof (f_started _ _ _ _ _ PF) as ST. rewrite (proj1 (cr_flat _ _ _ (f_comps _ _ _ _ _ PF))), <- ST. exact ND'. }
  apply in_flat_map in I'. destruct I' as (c & I1 & I2).
  destruct (claps_comp _ _ _ _ _ c CL I1) as (i & j & K1 & K2 & K3 & K4 & K5 & L). specialize (L (nodup_flat _ _ NF I1)).
  destruct (laps_in _ _ _ _ _ t L I2) as (n & N & TT). unfold timed in TT. change (runs_of u t) with (t_runs (caseof u t)) in TT. rewrite ES in TT.
  unfold times_of, times, begin_of in TT. rewrite B0 in TT. injection TT as T1 T2. unfold time_of_test. rewrite T1, T2, CX.
  pose proof (SX (first_reading u) n ltac:(unfold first_reading; lia)). 
  destruct (total_sum x u u' z (proj2 F) P KT) as [Q _].
  pose proof (SX (first_reading u) (last_reading u') ltac:(unfold first_reading, last_reading; rewrite K; cbn [pred]; pose proof (clap_le _ _ _ C); lia)).
  rewrite elapsed_forward by lia. lia.
Qed.

(** ** performTest *)

Lemma timed_single : forall u name t u' r, on_console u -> lookup name (u_byName u) = Some t -> In t (u_tests u) -> performTest E name u = (u', r) ->
  let sc := beh E t (t_runs (caseof u t)) in let k := w_tick (u_world u) in
  w_tick (u_world u') = (k + reads sc + 2)%nat /\ u_begin u' = clock E k /\ u_end u' = clock E (k + reads sc + 1)%nat /\ timed (S k) sc (t_begin (caseof u t)) (times (caseof u' t)).
Proof.
  intros u name t u' r [Ho He] L I P. unfold performTest in P. change (u_byName (init u)) with (u_byName u) in P. rewrite L in P.
  destruct (init_fold (u_tests u) (u_world u)) as (A & B & C & D & F & G & H & _). cbv zeta in A, B, C, D, F, G, H.
  set (u0 := init u) in P.
  change (fold_left (fun w t => on_case t (with_status NONE) w) (u_tests u) (u_world u)) with (u_world u0) in *.
  assert (OC0 : on_console u0) by (split; congruence).
  specialize (H t I). change (w_case (u_world u0) t) with (caseof u0 t) in H. change (w_case (u_world u) t) with (caseof u t) in H.
  assert (CF0 : u_capture u0 = u_capture u /\ u_verbosity u0 = u_verbosity u) by (split; reflexivity).
  assert (K0 : w_tick (u_world u0) = w_tick (u_world u)) by assumption.
  clearbody u0. destruct OC0 as [Ho0 He0]. destruct CF0 as [CF0 CV0].
  cbv zeta in P. rewrite Ho0, He0 in P. rewrite beginTest_eq in P by (split; assumption).
  set (bl := begin_lines _ 1 _) in P. clearbody bl.
  set (u1 := in_world (tc_begin (u_capture u0) t) (says bl u0)) in P.
  assert (C1 : caseof u1 t = blank (caseof u t)).
  { unfold u1, caseof, tc_begin, in_world. cbn. change (w_case (u_world u0) t) with (caseof u0 t).
    destruct (u_capture u0); onc; rewrite Nat.eqb_refl; change (w_case (u_world u0) t) with (caseof u0 t); rewrite H; reflexivity. }
  assert (K1 : w_tick (u_world u1) = w_tick (u_world u)).
  { rewrite <- K0. unfold u1, tc_begin, in_world. cbn. destruct (u_capture u0); reflexivity. }
  assert (D1 : w_out (u_world u1) = (if u_capture u then Capture t else Console) /\ w_err (u_world u1) = (if u_capture u then Capture t else Console)).
  { unfold u1, tc_begin, in_world. cbn. rewrite CF0. destruct (u_capture u); onc; auto. }
  assert (F1 : u_capture u1 = u_capture u) by assumption.
  clearbody u1. destruct D1 as [Do1 De1]. rewrite K1 in P.
  set (u1' := in_world tick u1) in P.
  assert (X1 : caseof u1' t = blank (caseof u t) /\ w_tick (u_world u1') = S (w_tick (u_world u)) /\ w_out (u_world u1') = w_out (u_world u1) /\ w_err (u_world u1') = w_err (u_world u1) /\ u_capture u1' = u_capture u).
  { unfold u1'. repeat split; try assumption. cbn. now rewrite K1. }
  destruct X1 as (X1 & X2 & X3 & X4 & X5). clearbody u1'. rewrite Do1 in X3. rewrite De1 in X4.
  assert (H1 : here t (w_out (u_world u1')) /\ here t (w_err (u_world u1'))) by (rewrite X3, X4; unfold here; destruct (u_capture u); auto).
  pose proof (run_tick t (u_world u1') (proj1 H1) (proj2 H1)) as T2. destruct (run_rec E t (u_world u1') (proj1 H1) (proj2 H1)) as [_ R2]. cbv zeta in R2.
  change (w_case (u_world u1') t) with (caseof u1' t) in T2, R2. rewrite X1, X2 in T2, R2.
  change (t_runs (blank (caseof u t))) with (t_runs (caseof u t)) in T2, R2. change (t_begin (blank (caseof u t))) with (t_begin (caseof u t)) in R2.
  change (run E t (u_world u1')) with (u_world (in_world (run E t) u1')) in T2, R2.
  assert (D2 : u_capture u = false -> on_console (in_world (run E t) u1')).
  { intro Z. rewrite Z in *. pose proof (leads_run E t (u_world u1')) as Lr. unfold leads in Lr. rewrite X3, X4 in Lr. injection Lr as Q1 Q2. split; assumption. }
  set (u2 := in_world (run E t) u1') in *.
  assert (F2 : u_capture u2 = u_capture u) by assumption.
  clearbody u2. rewrite T2 in P.
  set (sc := beh E t (t_runs (caseof u t))) in *. clearbody sc.
  set (u3 := set_lapse _ _ (in_world tick u2)) in P.
  assert (Y : u_capture u3 = u_capture u /\ w_tick (u_world u3) = S (w_tick (u_world u2)) /\ u_begin u3 = clock E (w_tick (u_world u)) /\ u_end u3 = clock E (S (w_tick (u_world u)) + reads sc)%nat
             /\ caseof u3 t = caseof u2 t /\ (u_capture u = false -> on_console u3)).
  { repeat split; try assumption; apply D2; assumption. }
  clearbody u3. destruct Y as (Y1 & Y2 & Y3 & Y4 & Y5 & Y6).
  rewrite endTest_eq in P by (rewrite Y1; exact Y6). cbv zeta in P.
  set (u4 := in_world (tc_end (u_capture u3) Console Console t) u3) in P.
  assert (K4 : w_tick (u_world u4) = w_tick (u_world u3) /\ times (caseof u4 t) = times (caseof u3 t) /\ u_begin u4 = u_begin u3 /\ u_end u4 = u_end u3).
  { unfold u4, caseof, tc_end, in_world, times. destruct (u_capture u3); cbn; [onc; rewrite Nat.eqb_refl|]; repeat split. }
  clearbody u4. destruct K4 as (K4 & N4 & B4 & E4).
  set (el := end_lines _ 1 _) in P. clearbody el.
  assert (Q5 : w_tick (u_world u') = w_tick (u_world u4) /\ caseof u' t = caseof u4 t /\ u_begin u' = u_begin u4 /\ u_end u' = u_end u4).
  { destruct (hasPassed (says el u4) t); injection P as <- _; repeat split. }
  destruct Q5 as (K5 & C5 & B5 & E5). cbv zeta. rewrite K5, C5, B5, E5, N4, Y5, B4, E4, Y3, Y4, K4, Y2, T2.
  split; [lia|]. split; [reflexivity|]. split; [f_equal; lia|].
  change (w_case (u_world u2) t) with (caseof u2 t) in R2. unfold timed, reads in *.
  destruct (escapes (sc_setup sc)); [exact R2|]. destruct (escapes (sc_test sc)), (escapes (sc_teardown sc)); exact R2.
Qed.
Lemma single_sum : forall x u name t u' r, on_console u -> lookup name (u_byName u) = Some t -> In t (u_tests u) -> performTest E name u = (u', r) -> keeps_time E x u u' ->
  total_time u' = (x (last_reading u') - x (first_reading u))%Z
  /\ (escapes (sc_setup (beh E t (t_runs (caseof u t)))) = None -> (0 <= time_of_test u' t <= total_time u')%Z).
Proof.
  intros x u name t u' r H L I P KT. destruct (timed_single u name t u' r H L I P) as (K & B & F & T). cbv zeta in *.
  set (sc := beh E t (t_runs (caseof u t))) in *. pose proof (reads_pos sc) as RP.
  assert (Q : last_reading u' = (w_tick (u_world u) + reads sc + 1)%nat) by (unfold last_reading; rewrite K; lia).
  pose proof (keeps_lap x u u' KT) as KL. rewrite Q in KL. unfold first_reading in *.
  assert (TT : total_time u' = (x (last_reading u') - x (w_tick (u_world u)))%Z) by (unfold total_time; rewrite B, F, Q; apply KL; lia).
  split; [exact TT|]. intro N. unfold timed in T. rewrite N in T. unfold times in T. injection T as T1 T2. unfold time_of_test. rewrite T1, T2, KL by lia.
  rewrite TT, Q. destruct KT as [SX _]. 
  pose proof (SX (S (w_tick (u_world u))) (S (w_tick (u_world u) + pred (reads sc))) ltac:(lia)).
  pose proof (SX (w_tick (u_world u)) (S (w_tick (u_world u))) ltac:(lia)).
  pose proof (SX (S (w_tick (u_world u) + pred (reads sc))) (w_tick (u_world u) + reads sc + 1)%nat ltac:(lia)). lia.
Qed.
End Times.
