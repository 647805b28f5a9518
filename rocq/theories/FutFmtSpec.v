(** * Specification: what the framework should report, whatever tests do to std::cout. *)

From Coq Require Import ZArith String Bool List Arith.
From Verif Require Import Base TextModel StreamModel FutModel FutFmtModel.
Import ListNotations.
Open Scope string_scope.
Open Scope list_scope.

(** Texts on a stream in its default state. *)
Definition reported (l : list ins) : string := fst (emit l os0).

(** All of the texts. *)
Definition lines_text (L : list string) : string := fold_right (fun a b => (a ++ b)%string) "" L.

(** What the framework says before and after each test, [count] tests having been run before. *)
Fixpoint expected_reports (v count : nat) (l : list test) : list (string * string) :=
  match l with
  | [] => []
  | (c, _) :: l' => (reported (begin_ins v (S count) c), reported (end_ins v (S count) c)) :: expected_reports v (S count) l'
  end.

(** What it said. *)
Definition framework_part (r : string * string * string) : string * string := (fst (fst r), snd r).

(** std::cout shows numbers in plain decimal: no other base, no plus sign, no width pending. *)
Definition plain_format (o : ostate) : Prop :=
  fm_base (o_fmt o) = BDec /\ fm_showpos (o_fmt o) = false /\ fm_width (o_fmt o) = 0%nat.
(** ... and is usable; while output is captured an error does no harm. *)
Definition plain_state (capture : bool) (o : ostate) : Prop := plain_format o /\ (capture = false -> o_bad o = false).

(** A test that leaves std::cout so if it finds it so. *)
Definition leaves_plain (capture : bool) (x : test) : Prop :=
  forall o, plain_format o -> o_bad o = false -> plain_state capture (snd (emit (snd x) o)).
