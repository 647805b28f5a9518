(** * The times that a test program reports: property C112. *)

From Coq Require Import ZArith String Bool List Arith Lia.
From Verif Require Import TextModel FutModel FutSpec FutProofs FutRun FutMore FutClose FutConsoleSpec FutReportSpec FutTimesSpec FutTimes.
Import ListNotations.
Open Scope string_scope.
Open Scope list_scope.

(** C109 and C110 say that these times are the ones in the report and on the console. *)

(** The time of a run is the time between the first and the last reading of the clock, and the
    components together take no more, whatever the tests do; ... *)
Theorem C112_total : forall E x u u' z, on_console u -> performUnitTests E u = (u', z) -> keeps_time E x u u' ->
  total_time u' = (x (last_reading u') - x (first_reading u))%Z /\ (sum (map snd (comp_times u')) <= total_time u')%Z.
Proof. exact total_sum. Qed.
Print Assumptions C112_total.

(** ... the tests of a component together take no more than the component.  Missing: tests whose SetUp
    throws, next. *)
Theorem C112_component_partial : forall E x u u' z n ms, fresh u -> NoDup (selection u) -> performUnitTests E u = (u', z) -> keeps_time E x u u' ->
  In (n, ms) (comp_times u') -> (forall t, In t (in_comp u n (selection u)) -> escapes (sc_setup (beh E t (t_runs (caseof u t)))) = None) ->
  (sum (map (time_of_test u') (in_comp u n (selection u))) <= ms)%Z /\ forall t, In t (in_comp u n (selection u)) -> (0 <= time_of_test u' t)%Z.
Proof. exact component_sum. Qed.
Print Assumptions C112_component_partial.

(** A test whose SetUp throws in its first run is said to have taken longer than the whole run, if
    that is shorter than the time on the clock when it began (since midnight, or 1970). *)
Theorem C112_setup_refuted : forall E x u u' z t e, fresh u -> NoDup (selection u) -> performUnitTests E u = (u', z) ->
  (forall i j, (i <= j)%nat -> (x i <= x j)%Z) -> (forall k, clock E k = x k) ->
  In t (selection u) -> escapes (sc_setup (beh E t (t_runs (caseof u t)))) = Some e -> t_begin (caseof u t) = 0%Z -> (total_time u' < x (first_reading u))%Z ->
  (total_time u' < time_of_test u' t)%Z.
Proof. exact late_setup. Qed.
Print Assumptions C112_setup_refuted.

(** performTest. *)
Theorem C112_single : forall E x u name t u' r, on_console u -> lookup name (u_byName u) = Some t -> In t (u_tests u) -> performTest E name u = (u', r) -> keeps_time E x u u' ->
  total_time u' = (x (last_reading u') - x (first_reading u))%Z
  /\ (escapes (sc_setup (beh E t (t_runs (caseof u t)))) = None -> (0 <= time_of_test u' t <= total_time u')%Z).
Proof. exact single_sum. Qed.
Print Assumptions C112_single.

(** Tests 0, 1 and 4 of the example program, 7 ms per reading, over midnight; test 3 alone. *)
Definition late (k : nat) : Z := (86400000 - 30 + 7 * Z.of_nat k)%Z.
Definition ticking (f : nat -> Z) : env := mkEnv (beh demo) f (seconds demo) (can_write demo).
Example C112_witness : 
  let E := ticking (fun k => late k mod 86400000)%Z in let u := set_select [0; 1; 4]%nat demo_unit in let u' := fst (performUnitTests E u) in
  (comp_times u', total_time u', map (time_of_test u') [0; 1; 4]%nat, u_begin u', u_end u') = ([("Futex", 21); ("Log", 21); ("Stack", 21)], 91, [7; 7; 7], 86400000 - 30, 61)%Z
  /\ (forall i j, (i <= j)%nat -> (late i <= late j)%Z) /\ (late (last_reading u') - late (first_reading u) < 86400000)%Z
  /\ (forall t, In t [0; 1; 4]%nat -> escapes (sc_setup (beh E t 0)) = None)
  /\ let E := ticking late in let u := set_select [3]%nat demo_unit in let u' := fst (performUnitTests E u) in
     escapes (sc_setup (beh E 3 0)) = Some (Some "boom") /\ total_time u' = 28%Z /\ time_of_test u' 3 = (86400000 - 16)%Z /\ (total_time u' < late (first_reading u))%Z.
Proof.
  cbv zeta. split; [vm_compute; reflexivity|]. split; [unfold late; intros; lia|]. split; [vm_compute; reflexivity|].
  split; [intros t [<-|[<-|[<-|[]]]]; vm_compute; reflexivity|]. repeat split; vm_compute; reflexivity.
Qed.
