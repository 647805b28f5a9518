(** * What the log system writes on standard output: property C103.

    C103 in full: the log system itself writes nothing on standard output.  False of the code:
    a debugging line was left in. *)

From Coq Require Import ZArith String Bool List Arith.
From Verif Require Import Base LogModel LogSpec LogOut LogProps.
From Verif Require TextModel.
Import ListNotations.
Open Scope string_scope.
Open Scope list_scope.

(** Whenever a message with a category is handed to a listener with a category filter, a line
    about it has just been written on standard output. *)
Theorem C103_silent_refuted : forall (RE : Type) compile rmatch sn g (ls : nat -> @listener RE) progs w t1 l m t2,
  reaches compile rmatch sn g ls progs w (t1 ++ EvDeliver l m :: t2) ->
  m_cat m <> "" -> l_category (settings compile l t1 (ls l)) <> "" ->
  exists before, stdout_of t1 =
    (before ++ "Category filtering: " ++ m_cat m ++ " vs. " ++ l_category (settings compile l t1 (ls l)) ++ ": 1" ++ TextModel.nl)%string.
Proof. exact @stdout_delivery. Qed.
Print Assumptions C103_silent_refuted.

(** Nothing is written if no message has a category, or no listener has a category filter. *)
Theorem C103_silent_partial : forall (RE : Type) compile rmatch sn g (ls : nat -> @listener RE) progs w tr,
  reaches compile rmatch sn g ls progs w tr ->
  (forall m, In m (begun tr) -> m_cat m = "") \/
  ((forall l, l_category (ls l) = "") /\ forall l re, In (EvSet l (CCategory l re)) tr -> re = "") ->
  stdout_of tr = "".
Proof. exact @silent. Qed.
Print Assumptions C103_silent_partial.

(** What each test of a category writes, with the settings in force at that moment. *)
Theorem C103_each_test : forall (RE : Type) compile rmatch sn g (ls : nat -> @listener RE) progs w t1 l m out t2,
  reaches compile rmatch sn g ls progs w (t1 ++ EvCheck l m out :: t2) ->
  let L := settings compile l t1 (ls l) in
  (m_cat m = "" \/ l_category L = "" -> out = "") /\
  (m_cat m <> "" -> l_category L <> "" -> out =
    ("Category filtering: " ++ m_cat m ++ " vs. " ++ l_category L ++ ": " ++ (if rmatch (m_cat m) (l_regex L) then "1" else "0") ++ TextModel.nl)%string).
Proof.
  intros RE compile rmatch sn g ls progs w t1 l m out t2 H. cbn zeta. rewrite (check_line _ _ _ _ _ _ _ _ _ _ _ _ H).
  unfold checkCategory_out. split.
  - intros [->| ->]; [reflexivity|]. destruct (String.eqb (m_cat m) ""); reflexivity.
  - intros A B. apply String.eqb_neq in A, B. rewrite A, B. reflexivity.
Qed.
Print Assumptions C103_each_test.

(** Listener 1 admits "net": [hello] reaches it; [bye], at level DEBUG, is refused before its category is
    looked at, and with level TRACE because of its category. *)
Example C103_witness : exists w tr, demo true false demo_listeners [[CAdd 1; CLog hello; CLog bye; CSetLevel 1 TRACE; CLog bye]] w tr /\
  delivered_to 1 tr = [hello] /\
  stdout_of tr = ("Category filtering: net vs. net: 1" ++ TextModel.nl ++ "Category filtering: gui vs. net: 0" ++ TextModel.nl)%string.
Proof. demo_run (cl 0 5 ++ lg 10 ++ cl 0 4 ++ lg 8 ++ cl 0 5 ++ lg 9). split; reflexivity. Qed.
