(** * The reports of the test framework on std::cout, insertion by insertion
    (src/fut/unittest.cpp, src/fut/testcase.cpp).

    FutModel.v has the text of the reports on a stream in its default format; here are the
    insertions, on std::cout in any state.  A test inserts what it likes in std::cout, and
    beginTest and endTest only exchange the buffer of the stream (testcase.cpp L184-207): the
    format state is that of the test.  Left out: report() (L221-257). *)

From Coq Require Import ZArith String Ascii Bool List Arith.
From Verif Require Import Base TextModel StreamModel FutModel.
Import ListNotations.
Open Scope string_scope.
Open Scope list_scope.

(** unittest.cpp L196-213: the name is composed in a stream of its own (L198-210), the result
    inserted as a string (L212) *)
Definition name_ins (count : nat) (tname result : string) (ms : option Z) : list ins :=
  let secs := match ms with
              | None => seconds6 (-1000)
              | Some z => if (z <? 0)%Z then seconds6 z else seconds3 z
              end in
  [PText ("[" ++ padl 3 " " (dec (Z.of_nat count)) ++ ": " ++ padr screenWidth " " (take screenWidth tname)
          ++ padr 10 " " secs ++ " " ++ padr 4 " " result ++ "]"); PText nl].

(** L150-154 *)
Definition begin_ins (v count : nat) (c : tcase) : list ins :=
  if (3 <=? v)%nat then name_ins count (t_name c) "GO" None else [].

(** L163-169, L171-177 *)
Definition captured_ins (title : string) (c : tcase) (text : string) : list ins :=
  [PText (nl ++ line70 ++ nl); PText title; PText (t_name c); PText nl; PText (line70 ++ nl); PText text; PText nl].

(** L159-194, after the capture has ended *)
Definition end_ins (v count : nat) (c : tcase) : list ins :=
  let passed := is_success (t_status c) in
  (if negb (is_empty (capturedOut c)) && ((5 <=? v)%nat || ((0 <? v)%nat && negb passed)) then captured_ins "STDOUT " c (capturedOut c) else [])
  ++ (if negb (is_empty (capturedErr c)) && ((4 <=? v)%nat || ((0 <? v)%nat && negb passed)) then captured_ins "STDERR " c (capturedErr c) else [])
  ++ (if (0 <? v)%nat && match t_status c with ERROR => true | _ => false end
      then [PText (nl ++ line70 ++ nl); PText "Uncaught error in Case "; PInt (Z.of_nat count); PText ": "; PText (t_name c); PText nl;
            PText (t_desc c); PText nl]
      else if (1 <=? v)%nat && match t_status c with FAIL => true | _ => false end
      then [PText (nl ++ line70 ++ nl); PText "Failure in case "; PInt (Z.of_nat count); PText ": "; PText (t_name c); PText " at ";
            PText (t_file c); PText ": "; PInt (t_line c); PText nl; PText (t_desc c); PText nl]
      else if (2 <=? v)%nat
      then name_ins count (t_name c) (if passed then "OK" else "FAIL") (Some (elapsed (t_begin c) (t_end c)))
      else []).

(** testcase.cpp L190-191, L201-202: rdbuf(sb) replaces the buffer and clears the error state *)
Definition rdbuf (capture : bool) (o : ostate) : ostate := if capture then clear_state o else o.

(** A test: the case as endTest finds it, and what the test inserts in std::cout. *)
Definition test : Type := (tcase * list ins)%type.

(** unittest.cpp L134-137: the texts of beginTest, of the test, and of endTest, and the state of
    std::cout then *)
Definition cout_test (capture : bool) (v count : nat) (x : test) (o : ostate) : (string * string * string) * ostate :=
  let (c, own) := x in
  let (b, o1) := emit (begin_ins v count c) o in
  let (t, o2) := emit own (rdbuf capture o1) in
  let (e, o3) := emit (end_ins v count c) (rdbuf capture o2) in
  ((b, t, e), o3).

(** The tests of a run, [count] having been run before *)
Fixpoint cout_run (capture : bool) (v count : nat) (l : list test) (o : ostate) : list (string * string * string) :=
  match l with
  | [] => []
  | x :: l' => let (r, o') := cout_test capture v (S count) x o in r :: cout_run capture v (S count) l' o'
  end.
