(** * What a test program shows on standard output. *)

From Coq Require Import ZArith String Ascii Bool List Arith Sorted.
From Verif Require Import TextModel FutModel FutSpec.
Import ListNotations.
Open Scope string_scope.
Open Scope list_scope.

(** ** Columns *)

Fixpoint spaces (n : nat) : string := match n with O => "" | S n' => " " ++ spaces n' end.
Definition left_column (w : nat) (s : string) : string := (s ++ spaces (w - String.length s))%string.
Definition right_column (w : nat) (s : string) : string := (spaces (w - String.length s) ++ s)%string.

Definition digit (z : Z) : string := String (ascii_of_nat (48 + Z.to_nat z)) "".
(** A number of milliseconds in seconds, with three decimals. *)
Definition in_seconds (ms : Z) : string :=
  (dec (ms / 1000) ++ "." ++ digit (ms mod 1000 / 100) ++ digit (ms mod 100 / 10) ++ digit (ms mod 10))%string.
(** The time of a test; the code shows a negative time with six decimals and without a unit. *)
Definition time_text (ms : Z) : string :=
  if (ms <? 0)%Z then ("-" ++ in_seconds (- ms) ++ "000")%string else (in_seconds ms ++ "s")%string.

(** The line about the test with number [n]. *)
Definition status_line (n : nat) (name : string) (ms : Z) (result : string) : string :=
  ("[" ++ right_column 3 (dec (Z.of_nat n)) ++ ": " ++ left_column 50 (substring 0 50 name) ++ left_column 10 (time_text ms)
   ++ " " ++ left_column 4 result ++ "]" ++ nl)%string.

(** ** What is said about a test *)

Definition when (b : bool) (s : string) : list string := if b then [s] else [].
Definition at_least (v n : nat) : bool := (n <=? v)%nat.

(** Before it. *)
Definition announced (v n : nat) (name : string) : list string := when (at_least v 3) (status_line n name (-1000) "GO").

(** After it: captured output from verbosity 4 (stderr) and 5 (stdout) on, and for tests that did
    not succeed always; then the failure, or else the status. *)
Definition told (v n : nat) (name : string) (s : stat) (out err : string) (r : string * Z * string) (ms : Z) : list string :=
  let ok := match s with SUCCESS => true | _ => false end in
  let '(text, line, file) := r in
  when (negb (String.eqb out "") && (at_least v 5 || (at_least v 1 && negb ok))) (rule ++ "STDOUT " ++ name ++ rule ++ out ++ nl)%string
  ++ when (negb (String.eqb err "") && (at_least v 4 || (at_least v 1 && negb ok))) (rule ++ "STDERR " ++ name ++ rule ++ err ++ nl)%string
  ++ match s with
     | ERROR => when (at_least v 1) (rule ++ "Uncaught error in Case " ++ dec (Z.of_nat n) ++ ": " ++ name ++ nl ++ text ++ nl)%string
     | FAIL => when (at_least v 1) (rule ++ "Failure in case " ++ dec (Z.of_nat n) ++ ": " ++ name ++ " at " ++ file ++ ": " ++ dec line ++ nl ++ text ++ nl)%string
     | _ => when (at_least v 2) (status_line n name ms (if ok then "OK" else "FAIL"))
     end.

(** What a test prints itself. *)
Definition own (t : nat) (l : list stmt) : list chunk :=
  flat_map (fun s => match s with SOut x => [mkChunk Out (Test t) x] | SErr x => [mkChunk Err (Test t) x] | _ => [] end) l.

(** The output for the tests [rs], each with what is known of it after its run; [n]: the number
    of the first one.  The run was the (t_runs - 1)-th. *)
Fixpoint tests_output (E : env) (capture : bool) (v n : nat) (rs : list (nat * tcase)) : list chunk :=
  match rs with
  | [] => []
  | (t, c) :: rs' =>
      framework_says (announced v n (t_name c))
      ++ (if capture then [] else own t (steps (beh E t (pred (t_runs c)))))
      ++ framework_says (told v n (t_name c) (t_status c) (until_nul (t_outStr c)) (until_nul (t_errStr c)) (t_desc c, t_line c, t_file c) (elapsed (t_begin c) (t_end c)))
      ++ tests_output E capture v (S n) rs'
  end.

(** [rs]: what is known of each test after its run. *)
Definition results (u u' : unit_test) (T : list event) (rs : list (nat * tcase)) : Prop :=
  map (fun r => (fst r, t_status (snd r))) rs = verdicts T
  /\ Forall (fun r => t_name (snd r) = name_of u (fst r)) rs
  /\ (NoDup (map fst rs) -> Forall (fun r => snd r = caseof u' (fst r)) rs).

(** ** The end *)

Definition passed_or_not (b : bool) : string := ((if b then "Passed" else "FAILED ") ++ nl)%string.
(** The components, each with its time and result; they are listed if there is more than one. *)
Definition component_lines (E : env) (l : list (string * Z * bool)) : list string :=
  match l with
  | _ :: _ :: _ => map (fun x => let '(n, ms, ok) := x in ("  Component " ++ n ++ " (elapsed " ++ seconds E 3 ms ++ "s) " ++ passed_or_not ok)%string) l
  | _ => []
  end.
Definition last_lines (E : env) (v : nat) (status : Z) (failed : list string) (comps : list (string * Z * bool)) (name : string) (ms : Z) : list string :=
  if at_least v 1 then
    (if (status =? 0)%Z then [] else failed_cases failed) ++ component_lines E comps
    ++ [("Unit Test " ++ name ++ " (elapsed " ++ seconds E 4 ms ++ "s) " ++ passed_or_not (status =? 0)%Z)%string]
  else [].

(** All verdicts about tests of component [n] are success. *)
Definition all_passed (comp : nat -> string) (n : string) (l : list (nat * stat)) : bool :=
  forallb (fun r => negb (String.eqb (comp (fst r)) n) || match snd r with SUCCESS => true | _ => false end) l.

(** These are the components of the tests to be run, in lexicographic order. *)
Definition components (u : unit_test) (l : list string) : Prop :=
  StronglySorted (fun a b => String.compare a b = Lt) l /\ forall n, In n l <-> exists t, In t (selection u) /\ comp_of u t = n.

(** The names of the tests in the list of failed cases. *)
Definition not_passed (u : unit_test) (l : list nat) : list string :=
  map (name_of u) (filter (fun t => match status_of u t with SUCCESS => false | _ => true end) l).
