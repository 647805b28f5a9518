(** * What the properties of the test framework mean. *)

From Coq Require Import ZArith QArith String Ascii Bool List Arith SpecFloat.
From Verif Require Import Base TextModel TextSpec FutModel.
From Verif Require ItemSpec.
Import ListNotations.
Open Scope string_scope.
Open Scope list_scope.

(** ** What a test does *)

(** The step leaves the function by an exception. *)
Definition raised (s : stmt) : option exn :=
  match s with SThrow e => Some e | SExpectThrow (TOther e) _ _ _ => Some e | _ => None end.
(** The step leaves the function without one. *)
Definition returns (s : stmt) : bool :=
  match s with SCheck false _ _ _ _ => true | SReturn => true | _ => false end.
(** The step is a check that does not hold, or a call of fail(). *)
Definition fails (s : stmt) : bool :=
  match s with
  | SCheck false _ _ _ _ | SFail _ _ _ | SExpectThrow TNothing _ _ _ | SExpectAny None _ _
  | SExpectNone (Some _) _ _ | SCallFail _ _ _ => true
  | _ => false
  end.
(** The step sets the status by hand. *)
Definition meddles (s : stmt) : bool := match s with SStatus _ => true | _ => false end.

(** The steps of a function that are executed, and the exception that leaves it. *)
Fixpoint executed (l : list stmt) : list stmt :=
  match l with
  | [] => []
  | s :: l' => s :: (match raised s with Some _ => [] | None => if returns s then [] else executed l' end)
  end.
Fixpoint escapes (l : list stmt) : option exn :=
  match l with
  | [] => None
  | s :: l' => match raised s with Some e => Some e | None => if returns s then None else escapes l' end
  end.

(** The same for a whole test: SetUp, then the body, then TearDown, until something is thrown. *)
Definition before_teardown (sc : script) : list stmt :=
  executed (sc_setup sc) ++ (if escapes (sc_setup sc) then [] else executed (sc_test sc)).
Definition thrown (sc : script) : option exn :=
  match escapes (sc_setup sc) with
  | Some e => Some e
  | None => match escapes (sc_test sc) with Some e => Some e | None => escapes (sc_teardown sc) end
  end.
Definition reaches_teardown (sc : script) : bool :=
  match escapes (sc_setup sc), escapes (sc_test sc) with None, None => true | _, _ => false end.
Definition steps (sc : script) : list stmt :=
  before_teardown sc ++ (if reaches_teardown sc then executed (sc_teardown sc) else []).

(** What steps write on a stream. *)
Fixpoint written (st : stream) (l : list stmt) : string :=
  match l with
  | [] => ""
  | SOut x :: l' => match st with Out => (x ++ written st l')%string | Err => written st l' end
  | SErr x :: l' => match st with Err => (x ++ written st l')%string | Out => written st l' end
  | _ :: l' => written st l'
  end.

(** The verdict C69 asks for; [noise]: what counts as output on stderr. *)
Definition verdict (sc : script) (noise : string) : stat :=
  match thrown sc with
  | Some _ => ERROR
  | None => if existsb fails (steps sc) then FAIL
            else match noise with "" => SUCCESS | _ => OUT_ON_ERROR_STREAM end
  end.

(** ** Program runs *)

(** The tests started, and the verdicts given, in a piece of history. *)
Fixpoint started (l : list event) : list nat :=
  match l with [] => [] | EvSetUp t :: l' => t :: started l' | _ :: l' => started l' end.
Fixpoint verdicts (l : list event) : list (nat * stat) :=
  match l with [] => [] | EvDone t s :: l' => (t, s) :: verdicts l' | _ :: l' => verdicts l' end.
(** The test an event is about. *)
Definition about (e : event) : nat :=
  match e with EvSetUp t | EvTest t | EvTearDown t | EvStmt t _ | EvDone t _ => t end.

(** The tests a call of performUnitTests has to run: those given by -t, or all of them. *)
Definition selection (u : unit_test) : list nat := match u_select u with [] => u_tests u | l => l end.

(** Where std::cout and std::cerr lead. *)
Definition dests (u : unit_test) : dest * dest := (w_out (u_world u), w_err (u_world u)).

(** No run has taken place, and output goes to the console. *)
Definition fresh (u : unit_test) : Prop :=
  u_comps u = [] /\ w_out (u_world u) = Console /\ w_err (u_world u) = Console.
(** Output goes to the console. *)
Definition on_console (u : unit_test) : Prop := w_out (u_world u) = Console /\ w_err (u_world u) = Console.

(** What happened between two states. *)
Definition history (u u' : unit_test) (T : list event) : Prop := w_trace (u_world u') = w_trace (u_world u) ++ T.
Definition output (u u' : unit_test) (L : list chunk) : Prop := w_console (u_world u') = w_console (u_world u) ++ L.

Definition comp_of (u : unit_test) (t : nat) : string := t_comp (caseof u t).
Definition name_of (u : unit_test) (t : nat) : string := t_name (caseof u t).
Definition status_of (u : unit_test) (t : nat) : stat := t_status (caseof u t).

(** Subsequence. *)
Inductive sub {A : Type} : list A -> list A -> Prop :=
| sub_nil : forall l, sub [] l
| sub_skip : forall a l l', sub l l' -> sub l (a :: l')
| sub_take : forall a l l', sub l l' -> sub (a :: l) (a :: l').

(** A line of equals signs. *)
Definition rule : string := (nl ++ "======================================================================" ++ nl)%string.
(** The pieces of text that make up the list of failed cases. *)
Definition failed_cases (names : list string) : list string :=
  match names with
  | [] => []
  | n :: l => (rule ++ "Failed cases: ")%string :: n :: flat_map (fun m => [", "; m]) l ++ [rule]
  end.
Definition framework_says (l : list string) : list chunk := map (mkChunk Out Framework) l.

(** The events of one run of test [t]. *)
Definition events (t : nat) (sc : script) : list event :=
  EvSetUp t :: map (EvStmt t) (executed (sc_setup sc))
  ++ match escapes (sc_setup sc) with
     | Some _ => []
     | None => EvTest t :: map (EvStmt t) (executed (sc_test sc))
               ++ match escapes (sc_test sc) with
                  | Some _ => []
                  | None => EvTearDown t :: map (EvStmt t) (executed (sc_teardown sc))
                  end
     end.

(** Components in lexicographic order. *)
Definition comp_le (u : unit_test) (a b : nat) : Prop := String.compare (comp_of u a) (comp_of u b) <> Gt.
(** The tests of a component, in order. *)
Definition in_comp (u : unit_test) (n : string) (l : list nat) : list nat := filter (fun t => String.eqb (comp_of u t) n) l.

(** [k] calls of performUnitTests. *)
Fixpoint calls (E : env) (k : nat) (u : unit_test) : unit_test :=
  match k with O => u | S k' => fst (performUnitTests E (calls E k' u)) end.

(** ** Reading the XML report *)

(** For each suite: the number of tests and of failures it declares, and the number of test cases
    and of failure elements in it. *)
Fixpoint tally (l : list xml) : list (Z * Z * Z * Z) * Z * Z :=
  match l with
  | [] => ([], 0, 0)%Z
  | x :: l' =>
      let '(r, c, f) := tally l' in
      match x with
      | XCase _ _ _ _ => (r, c + 1, f)%Z
      | XFailure _ _ _ _ => (r, c, f + 1)%Z
      | XSuite _ _ n m _ => ((n, m, c, f) :: r, 0, 0)%Z
      | XSuiteEnd => (r, 0, 0)%Z
      | _ => (r, c, f)
      end
  end.
Definition suites (l : list xml) : list (Z * Z * Z * Z) := fst (fst (tally l)).
Definition sum (l : list Z) : Z := fold_right Z.add 0%Z l.
(** The totals at the top. *)
Definition totals (l : list xml) : option (Z * Z) :=
  match l with XHead :: XSuites _ _ n f _ :: _ => Some (n, f) | _ => None end.

(** The test cases of a report, each with its suite, component and case, and its failure if there is
    one: text, kind, file and line. *)
Fixpoint entries (suite : string) (l : list xml) : list (string * string * string * option (string * string * string * Z)) :=
  match l with
  | [] => []
  | XSuite _ n _ _ _ :: l' => entries n l'
  | XCase _ co ca _ :: XFailure d k f n :: l' => (suite, co, ca, Some (d, k, f, n)) :: entries suite l'
  | XCase _ co ca _ :: l' => (suite, co, ca, None) :: entries suite l'
  | _ :: l' => entries suite l'
  end.
(** The kinds of failures in a report. *)
Definition kind (s : stat) : string :=
  match s with FAIL => "FAIL" | ERROR => "EXCEMPTION" | OUT_ON_ERROR_STREAM => "STREAM-ERROR" | SUCCESS => "SUCCESS" | NONE => "NONE" end.
(** What the report has to say about a test with status [s] and this text, line and file. *)
Definition reported_failure (s : stat) (r : string * Z * string) : option (string * string * string * Z) :=
  match s with SUCCESS => None | _ => let '(d, l, f) := r in Some (d, kind s, f, l) end.

(** ** What is recorded about a failure *)

(** The last component of a path. *)
Fixpoint has_char (c : ascii) (s : string) : bool :=
  match s with "" => false | String d s' => Ascii.eqb c d || has_char c s' end.
Fixpoint base_name (s : string) : string :=
  match s with
  | "" => ""
  | String c s' => if has_char "/" s' then base_name s' else if Ascii.eqb c "/" then s' else s
  end.

(** The characters before the first NUL. *)
Fixpoint until_nul (s : string) : string :=
  match s with "" => "" | String c s' => if Ascii.eqb c "000" then "" else String c (until_nul s') end.
(** The text of a failed check. *)
Definition check_text (expected actual : string) : string :=
  let quote := String (ascii_of_nat 34) "" in
  if String.eqb actual "" then expected else (expected ++ " (Actually " ++ quote ++ actual ++ quote ++ ")")%string.

(** What a failing step reports: text, line and file. *)
Definition complaint (s : stmt) : option (string * Z * string) :=
  let quote := String (ascii_of_nat 34) "" in
  match s with
  | SCheck false f l d a => Some (check_text d (until_nul a), l, base_name f)
  | SFail f l m => Some (m, l, base_name f)
  | SExpectThrow TNothing f l ty => Some ("Expected exception of type " ++ ty ++ " wasn't thrown", l, base_name f)%string
  | SExpectAny None f l => Some ("No throw when any throw was expected", l, base_name f)
  | SExpectNone (Some (Some what)) f l => Some ("Exception thrown: " ++ quote ++ " " ++ what ++ quote, l, base_name f)%string
  | SExpectNone (Some None) f l => Some ("Unknown exception thrown", l, base_name f)
  | SCallFail f l r => Some (r, l, f)
  | _ => None
  end.
(** The last of them, [d] if there is none. *)
Fixpoint last_complaint (l : list stmt) (d : string * Z * string) : string * Z * string :=
  match l with
  | [] => d
  | s :: l' => last_complaint l' (match complaint s with Some c => c | None => d end)
  end.
(** The text for an exception. *)
Definition what (e : exn) : string :=
  match e with Some w => w | None => "Unknown error caught by falcon::testing framework" end.
(** What is on record after a run, [d] before it. *)
Definition on_record (sc : script) (d : string * Z * string) : string * Z * string :=
  let '(m, l, f) := last_complaint (steps sc) d in
  (match thrown sc with Some e => what e | None => m end, l, f).
Definition record_of (u : unit_test) (t : nat) : string * Z * string :=
  (t_desc (caseof u t), t_line (caseof u t), t_file (caseof u t)).

(** The next step follows. *)
Definition goes_on (s : stmt) : Prop := raised s = None /\ returns s = false.
(** A check that holds. *)
Definition passes (s : stmt) : bool :=
  match s with
  | SCheck true _ _ _ _ | SExpectThrow TExpected _ _ _ | SExpectAny (Some _) _ _ | SExpectNone None _ _ => true
  | _ => false
  end.
(** The same script without the checks that hold. *)
Definition no_passes (sc : script) : script :=
  let f := filter (fun s => negb (passes s)) in mkScript (f (sc_setup sc)) (f (sc_test sc)) (f (sc_teardown sc)).

(** ** Registration *)

(** Registering tests: component, case, object. *)
Definition register (l : list (string * string * nat)) (u : unit_test) : unit_test :=
  fold_left (fun u r => let '(co, ca, t) := r in addTestCase co ca t u) l u.
Definition full_name (r : string * string * nat) : string := let '(co, ca, _) := r in (co ++ "::" ++ ca)%string.
(** The first test registered under a name. *)
Fixpoint first_named (n : string) (l : list (string * string * nat)) : option nat :=
  match l with [] => None | r :: l' => if String.eqb (full_name r) n then Some (snd r) else first_named n l' end.

(** ** The command line *)

Inductive opt : Type :=
| OQuiet | ONoCapture | OErrFail | OLevel (n : nat) | OTest (name : string) | OXml (file : string) | OName (n : string) | OId (i : string).

(** How an option is written; [lvl]: which texts stand for a level. *)
Inductive spells (lvl : string -> nat -> Prop) : opt -> list string -> Prop :=
| sp_quiet : spells lvl OQuiet ["-q"]
| sp_nocapture : spells lvl ONoCapture ["-c"]
| sp_errfail : spells lvl OErrFail ["-e"]
| sp_level : forall s n, lvl s n -> spells lvl (OLevel n) ["-v"; s]
| sp_test : forall n, spells lvl (OTest n) ["-t"; n]
| sp_xml : forall f, spells lvl (OXml f) ["-x"; f]
| sp_name : forall n, spells lvl (OName n) ["-n"; n]
| sp_id : forall i, spells lvl (OId i) ["-i"; i].
Inductive command_line (lvl : string -> nat -> Prop) : list opt -> list string -> Prop :=
| cl_nil : command_line lvl [] []
| cl_cons : forall o a os args, spells lvl o a -> command_line lvl os args -> command_line lvl (o :: os) (a ++ args).

(** As documented: the level is a decimal number. *)
Definition decimal_level (s : string) (n : nat) : Prop := s = dec (Z.of_nat n).
(** What is accepted: blanks, a number and anything; or no number at all, for 0. *)
Inductive lenient_level : string -> nat -> Prop :=
| ll_number : forall s n rest, ItemSpec.starts_with_numeral s (Z.of_nat n) rest -> lenient_level s n
| ll_junk : forall s, ~ ItemSpec.all_blanks s -> (forall z rest, ~ ItemSpec.starts_with_numeral s z rest) -> lenient_level s 0.

(** Levels go from 0 to 5, tests have to be registered. *)
Definition valid (names : list (string * nat)) (o : opt) : Prop :=
  match o with OLevel n => (n <= 5)%nat | OTest n => lookup n names <> None | _ => True end.
(** What an option does. *)
Definition effect (o : opt) (u : unit_test) : unit_test :=
  match o with
  | OQuiet => set_verbosity 0 u
  | ONoCapture => set_capture false u
  | OErrFail => set_errfail true u
  | OLevel n => set_verbosity n u
  | OTest n => match lookup n (u_byName u) with Some t => set_select (u_select u ++ [t]) u | None => u end
  | OXml f => set_xml f u
  | OName n => set_names (u_id u) n u
  | OId i => set_names i (u_name u) u
  end.
Definition effects (os : list opt) (u : unit_test) : unit_test := fold_left (fun u o => effect o u) os u.

(** What the last of some options says, or else [d]. *)
Definition last_of {A : Type} (f : opt -> option A) (os : list opt) (d : A) : A :=
  fold_left (fun d o => match f o with Some x => x | None => d end) os d.
(** The tests that the options name, in order. *)
Fixpoint named_tests (os : list opt) : list string :=
  match os with [] => [] | OTest n :: os' => n :: named_tests os' | _ :: os' => named_tests os' end.

(** Something that has to be refused. *)
Inductive refused (names : list (string * nat)) : list string -> Prop :=
| rf_help : forall l, refused names ("-h" :: l)
| rf_unknown : forall o l, ~ In o ["-q"; "-c"; "-e"; "-v"; "-t"; "-x"; "-n"; "-i"; "-h"] -> refused names (o :: l)
| rf_missing : forall o, In o ["-v"; "-t"; "-x"; "-n"; "-i"] -> refused names [o]
| rf_test : forall n l, lookup n names = None -> refused names ("-t" :: n :: l)
| rf_level : forall z l, (z < 0 \/ 5 < z)%Z -> refused names ("-v" :: dec z :: l).

(** ** Numbers *)

(** The value of a double, in units of 2^-1074 (the smallest positive double). *)
Definition units (x : spec_float) : Z :=
  match x with
  | S754_finite s m e => let a := (Z.pos m * 2 ^ (e + 1074))%Z in if s then (- a)%Z else a
  | _ => 0%Z
  end.
Definition one_unit : Z := (2 ^ 1074)%Z.   (** 1.0 *)
(** A double that is a number. *)
Definition number (x : spec_float) : Prop :=
  valid_binary 53 1024 x = true /\ match x with S754_zero _ | S754_finite _ _ _ => True | _ => False end.

(** ** Well-formed XML

    A recogniser of XML documents with a fixed declaration, and without references, comments,
    CDATA sections, processing instructions and single-quoted values.  What it accepts is
    well-formed. *)

Definition code (c : ascii) : nat := nat_of_ascii c.
Definition quote_char : ascii := ascii_of_nat 34.
Definition is_space (c : ascii) : bool := existsb (Nat.eqb (code c)) [9; 10; 13; 32]%nat.
Definition is_letter (c : ascii) : bool := ((65 <=? code c) && (code c <=? 90) || (97 <=? code c) && (code c <=? 122))%nat.
Definition is_name_char (c : ascii) : bool := is_letter c || ((48 <=? code c) && (code c <=? 57))%nat || existsb (Nat.eqb (code c)) [45; 46; 58; 95]%nat.
Definition is_legal (c : ascii) : bool := is_space c || ((32 <=? code c) && (code c <=? 126))%nat.

(** Where the reader is; [open]: the elements that are open, innermost first. *)
Inductive place : Type :=
| Outside (root_seen : bool)
| Content (open : list string) (brackets : nat)      (** after that many ] *)
| TagStart (open : list string)                      (** after < *)
| TagName (open : list string) (n : string)
| InTag (open : list string) (n : string) (attrs : list string)
| AttrName (open : list string) (n : string) (attrs : list string) (a : string)
| AfterEq (open : list string) (n : string) (attrs : list string)
| AttrValue (open : list string) (n : string) (attrs : list string)
| AfterValue (open : list string) (n : string) (attrs : list string)
| EndTag (open : list string) (n : string).

Definition read (p : place) (c : ascii) : option place :=
  match p with
  | Outside seen => if is_space c then Some p else if Ascii.eqb c "<" && negb seen then Some (TagStart []) else None
  | Content open k => if Ascii.eqb c "<" then Some (TagStart open)
                      else if Ascii.eqb c "&" || negb (is_legal c) then None
                      else if Ascii.eqb c "]" then Some (Content open (S k))
                      else if Ascii.eqb c ">" && (2 <=? k)%nat then None
                      else Some (Content open 0)
  | TagStart open => if Ascii.eqb c "/" then (match open with [] => None | _ => Some (EndTag open "") end)
                     else if is_letter c then Some (TagName open (String c "")) else None
  | TagName open n => if is_name_char c then Some (TagName open (n ++ String c ""))
                      else if is_space c then Some (InTag open n [])
                      else if Ascii.eqb c ">" then Some (Content (n :: open) 0) else None
  | InTag open n attrs => if is_space c then Some p
                          else if Ascii.eqb c ">" then Some (Content (n :: open) 0)
                          else if is_letter c then Some (AttrName open n attrs (String c "")) else None
  | AttrName open n attrs a => if is_name_char c then Some (AttrName open n attrs (a ++ String c ""))
                               else if Ascii.eqb c "=" && negb (existsb (String.eqb a) attrs) then Some (AfterEq open n (a :: attrs)) else None
  | AfterEq open n attrs => if Ascii.eqb c quote_char then Some (AttrValue open n attrs) else None
  | AttrValue open n attrs => if Ascii.eqb c quote_char then Some (AfterValue open n attrs)
                              else if Ascii.eqb c "<" || Ascii.eqb c "&" || negb (is_legal c) then None else Some p
  | AfterValue open n attrs => if is_space c then Some (InTag open n attrs)
                               else if Ascii.eqb c ">" then Some (Content (n :: open) 0) else None
  | EndTag open n => if is_name_char c then Some (EndTag open (n ++ String c ""))
                     else if Ascii.eqb c ">" then
                       match open with
                       | m :: rest => if String.eqb n m then Some (match rest with [] => Outside true | _ => Content rest 0 end) else None
                       | [] => None
                       end
                     else None
  end.
Fixpoint reads (p : place) (s : string) : option place :=
  match s with
  | "" => Some p
  | String c s' => match read p c with Some p' => reads p' s' | None => None end
  end.
Definition declaration : string := ("<?xml version=" ++ q "1.0" ++ " encoding=" ++ q "utf-8" ++ "?>")%string.
(** Where the reader is after the declaration and [s]. *)
Definition after (s : string) : option place :=
  if String.prefix declaration s then reads (Outside false) (drop (String.length declaration) s) else None.
Definition well_formed (s : string) : Prop := after s = Some (Outside true).

(** Text without special characters. *)
Definition plain_char (c : ascii) : bool := is_legal c && negb (existsb (Ascii.eqb c) ["<"; "&"; quote_char; "]"]%char).
Fixpoint plain (s : string) : bool := match s with "" => true | String c s' => plain_char c && plain s' end.
Definition plain_token (x : xml) : Prop :=
  match x with
  | XSuites id name _ _ _ | XSuite id name _ _ _ => plain id = true /\ plain name = true
  | XCase id comp case _ => plain id = true /\ plain comp = true /\ plain case = true
  | XFailure d ty file _ => plain d = true /\ plain ty = true /\ plain file = true
  | _ => True
  end.
(** The characters that may follow an attribute value. *)
Definition may_follow (c : ascii) : bool := is_space c || Ascii.eqb c ">".
