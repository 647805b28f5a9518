(** * The XML report, read as a document. *)

From Coq Require Import ZArith String Ascii Bool List Arith.
From Verif Require Import TextModel FutModel FutSpec.
Import ListNotations.
Open Scope string_scope.
Open Scope list_scope.

(** ** Reading

    The reader of FutSpec, which also collects what it reads.  Blank text is left out. *)

Inductive mark : Type :=
| Start (name : string) (attributes : list (string * string))
| Chars (text : string)
| End (name : string).

Record reader : Type := mkReader {
  rd_place : place;
  rd_text : string;                       (** of the attribute value or content, so far *)
  rd_attrs : list (string * string);      (** of the tag, so far *)
  rd_marks : list mark
}.
Fixpoint blank_text (s : string) : bool := match s with "" => true | String c s' => is_space c && blank_text s' end.

Definition feed (r : reader) (c : ascii) : option reader :=
  match read (rd_place r) c with
  | None => None
  | Some p =>
      Some match rd_place r, p with
           | AfterEq _ _ _, AttrValue _ _ _ => mkReader p "" (rd_attrs r) (rd_marks r)
           | AttrValue _ _ _, AttrValue _ _ _ => mkReader p (rd_text r ++ String c "") (rd_attrs r) (rd_marks r)
           | AttrValue _ _ (a :: _), AfterValue _ _ _ => mkReader p "" (rd_attrs r ++ [(a, rd_text r)]) (rd_marks r)
           | TagName _ _, Content (n :: _) _ | InTag _ _ _, Content (n :: _) _ | AfterValue _ _ _, Content (n :: _) _ =>
               mkReader p "" [] (rd_marks r ++ [Start n (rd_attrs r)])
           | Content _ _, Content _ _ => mkReader p (rd_text r ++ String c "") [] (rd_marks r)
           | Content _ _, TagStart _ => mkReader p "" [] (rd_marks r ++ if blank_text (rd_text r) then [] else [Chars (rd_text r)])
           | EndTag _ n, Content _ _ | EndTag _ n, Outside _ => mkReader p "" [] (rd_marks r ++ [End n])
           | _, _ => mkReader p (rd_text r) (rd_attrs r) (rd_marks r)
           end
  end.
Fixpoint feeds (r : reader) (s : string) : option reader :=
  match s with
  | "" => Some r
  | String c s' => match feed r c with Some r' => feeds r' s' | None => None end
  end.
(** The contents of a document; [None] if it is not well-formed. *)
Definition document (s : string) : option (list mark) :=
  if String.prefix declaration s then
    match feeds (mkReader (Outside false) "" [] []) (drop (String.length declaration) s) with
    | Some (mkReader (Outside true) _ _ l) => Some l
    | _ => None
    end
  else None.

(** ** What the report should say *)

Definition element (name : string) (attributes : list (string * string)) (contents : list mark) : list mark :=
  Start name attributes :: contents ++ [End name].

Definition count (l : list nat) : string := dec (Z.of_nat (List.length l)).
Definition not_ok (u : unit_test) (l : list nat) : list nat := filter (fun t => match status_of u t with SUCCESS => false | _ => true end) l.

(** A test that did not succeed: text, kind, file and line of the failure. *)
Definition failure_element (u : unit_test) (t : nat) : list mark :=
  match status_of u t with
  | SUCCESS => []
  | s => let '(text, line, file) := record_of u t in
         element "failure" [("message", text); ("type", match s with FAIL => "FAIL" | ERROR => "EXCEMPTION" | OUT_ON_ERROR_STREAM => "STREAM-ERROR" | _ => "NONE" end)]
           [Chars (nl ++ text ++ nl ++ "File: " ++ file ++ nl ++ "Line: " ++ dec line ++ nl)%string]
  end.
(** [u]: after the run; [times]: of the tests, [time]: a time as text. *)
Definition case_element (time : Z -> string) (u : unit_test) (n : string) (t : nat) : list mark :=
  let case := t_case (caseof u t) in
  element "testcase" [("id", u_id u ++ "." ++ n ++ "." ++ case); ("name", case); ("time", time (elapsed (t_begin (caseof u t)) (t_end (caseof u t))))]%string (failure_element u t).
Definition suite_element (time : Z -> string) (u : unit_test) (sel : list nat) (x : string * Z) : list mark :=
  let (n, ms) := x in let tests := in_comp u n sel in
  element "testsuite" [("id", u_id u ++ "." ++ n); ("name", n); ("tests", count tests); ("failures", count (not_ok u tests)); ("time", time ms)]%string
    (flat_map (case_element time u n) tests).
(** [comps]: the components, each with its time. *)
Definition report_elements (time : Z -> string) (u : unit_test) (sel : list nat) (comps : list (string * Z)) (ms : Z) : list mark :=
  element "testsuites" [("id", u_id u); ("name", u_name u); ("tests", count sel); ("failures", count (not_ok u sel)); ("time", time ms)]
    (flat_map (suite_element time u sel) comps).
