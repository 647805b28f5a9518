(** * Model of the unit test framework (src/fut/testcase.cpp, src/fut/unittest.cpp,
    src/include/falcon/fut/fut.h, timelapse.h).

    Parameters, gathered in [env]: what the tests do, the clock, the text of a number of
    seconds, and which files can be opened.

    Not modelled: failure of gettimeofday and of new; tests that change the buffers of std::cout
    and std::cerr or call the framework themselves, apart from fail() and status(). *)

From Coq Require Import ZArith String Ascii Bool List Arith.
From Coq Require Import SpecFloat.
From Verif Require Import Base TextModel.
From Verif Require ItemModel.
Import ListNotations.
Open Scope string_scope.
Open Scope list_scope.

(** ** Test cases *)

(** testcase.h L37-44 *)
Inductive stat : Type := NONE | SUCCESS | FAIL | ERROR | OUT_ON_ERROR_STREAM.

(** What is thrown: a std::exception with its what(), or anything else. *)
Definition exn : Type := option string.

(** What an expression given to EXPECT_THROW does: nothing, throw the expected type, throw
    something else. *)
Inductive throws : Type := TNothing | TExpected | TOther (e : exn).

(** A step of SetUp, of the test body or of TearDown. *)
Inductive stmt : Type :=
| SOut (s : string)                                              (** std::cout << s *)
| SErr (s : string)                                              (** std::cerr << s *)
| SCheck (ok : bool) (file : string) (line : Z) (desc actual : string)
      (** [actual]: what was inserted in the stream ss;
          EXPECT_EQ .. EXPECT_STRNE, EXPECT_TRUE, EXPECT_FALSE, EXPECT_FLOAT_EQ, ..; fut.h L54-93 *)
| SFail (file : string) (line : Z) (msg : string)                (** FAIL(msg); fut.h L95-96 *)
| SExpectThrow (r : throws) (file : string) (line : Z) (ty : string)   (** fut.h L99-105 *)
| SExpectAny (r : option exn) (file : string) (line : Z)         (** fut.h L108-112 *)
| SExpectNone (r : option exn) (file : string) (line : Z)        (** fut.h L115-125 *)
| SCallFail (file : string) (line : Z) (reason : string)         (** fail(..) *)
| SStatus (s : stat)                                             (** status(s) *)
| SThrow (e : exn)
| SReturn.

Record script : Type := mkScript { sc_setup : list stmt; sc_test : list stmt; sc_teardown : list stmt }.

(** TestCase::Private (testcase.cpp L28-49); failLine starts with an arbitrary value.  [t_runs]
    counts the runs. *)
Record tcase : Type := mkT {
  t_comp : string; t_case : string; t_name : string;
  t_status : stat;
  t_outCap : string; t_errCap : string;
  t_outStr : string; t_errStr : string;
  t_desc : string; t_line : Z; t_file : string;
  t_begin : Z; t_end : Z;
  t_runs : nat
}.

(** testcase.cpp L116-124: const char* results; capturedOut()[0] is zero iff the text is empty *)
Definition capturedOut (c : tcase) : string := c_str (t_outStr c).
Definition capturedErr (c : tcase) : string := c_str (t_errStr c).

(** Where std::cout and std::cerr write. *)
Inductive dest : Type := Console | Capture (t : nat).
Inductive stream : Type := Out | Err.
Inductive origin : Type := Framework | Test (t : nat).
(** Something that appeared on the console. *)
Record chunk : Type := mkChunk { ch_stream : stream; ch_origin : origin; ch_text : string }.

(** Functions called, steps executed, and the verdict when a test is over; nothing of the code
    depends on them. *)
Inductive event : Type :=
| EvSetUp (t : nat) | EvTest (t : nat) | EvTearDown (t : nat) | EvStmt (t : nat) (s : stmt)
| EvDone (t : nat) (s : stat).

(** The test objects, by number, and the world they run in. *)
Record world : Type := mkW {
  w_case : nat -> tcase;
  w_out : dest; w_err : dest;
  w_console : list chunk;
  w_tick : nat;
  w_trace : list event
}.

Record env : Type := mkEnv {
  beh : nat -> nat -> script;         (** what test t does in its n-th run *)
  clock : nat -> Z;                   (** the n-th reading of markTime *)
  seconds : nat -> Z -> string;       (** ostream << setprecision(p) << ms / 1000.0 *)
  can_write : string -> bool          (** ofstream(name) opens *)
}.

(** size() *)
Definition len {A : Type} (l : list A) : Z := Z.of_nat (List.length l).

Section Fut.
Variable E : env.

Definition set_case (t : nat) (c : tcase) (w : world) : world :=
  mkW (fun u => if (u =? t)%nat then c else w_case w u) (w_out w) (w_err w) (w_console w) (w_tick w) (w_trace w).
Definition set_dests (o e : dest) (w : world) : world := mkW (w_case w) o e (w_console w) (w_tick w) (w_trace w).
Definition say (c : chunk) (w : world) : world := mkW (w_case w) (w_out w) (w_err w) (w_console w ++ [c]) (w_tick w) (w_trace w).
Definition note (e : event) (w : world) : world := mkW (w_case w) (w_out w) (w_err w) (w_console w) (w_tick w) (w_trace w ++ [e]).
Definition tick (w : world) : world := mkW (w_case w) (w_out w) (w_err w) (w_console w) (S (w_tick w)) (w_trace w).

Definition with_status (s : stat) (c : tcase) : tcase :=
  mkT (t_comp c) (t_case c) (t_name c) s (t_outCap c) (t_errCap c) (t_outStr c) (t_errStr c) (t_desc c) (t_line c) (t_file c) (t_begin c) (t_end c) (t_runs c).
Definition with_caps (o e : string) (c : tcase) : tcase :=
  mkT (t_comp c) (t_case c) (t_name c) (t_status c) o e (t_outStr c) (t_errStr c) (t_desc c) (t_line c) (t_file c) (t_begin c) (t_end c) (t_runs c).
Definition with_strs (o e : string) (c : tcase) : tcase :=
  mkT (t_comp c) (t_case c) (t_name c) (t_status c) (t_outCap c) (t_errCap c) o e (t_desc c) (t_line c) (t_file c) (t_begin c) (t_end c) (t_runs c).
Definition with_fail (d : string) (l : Z) (f : string) (c : tcase) : tcase :=
  mkT (t_comp c) (t_case c) (t_name c) (t_status c) (t_outCap c) (t_errCap c) (t_outStr c) (t_errStr c) d l f (t_begin c) (t_end c) (t_runs c).
Definition with_begin (z : Z) (c : tcase) : tcase :=
  mkT (t_comp c) (t_case c) (t_name c) (t_status c) (t_outCap c) (t_errCap c) (t_outStr c) (t_errStr c) (t_desc c) (t_line c) (t_file c) z (t_end c) (t_runs c).
Definition with_end (z : Z) (c : tcase) : tcase :=
  mkT (t_comp c) (t_case c) (t_name c) (t_status c) (t_outCap c) (t_errCap c) (t_outStr c) (t_errStr c) (t_desc c) (t_line c) (t_file c) (t_begin c) z (t_runs c).
Definition with_names (co ca : string) (c : tcase) : tcase :=
  mkT co ca (co ++ "::" ++ ca)%string (t_status c) (t_outCap c) (t_errCap c) (t_outStr c) (t_errStr c) (t_desc c) (t_line c) (t_file c) (t_begin c) (t_end c) (t_runs c).
Definition with_runs (n : nat) (c : tcase) : tcase :=
  mkT (t_comp c) (t_case c) (t_name c) (t_status c) (t_outCap c) (t_errCap c) (t_outStr c) (t_errStr c) (t_desc c) (t_line c) (t_file c) (t_begin c) (t_end c) n.

Definition on_case (t : nat) (f : tcase -> tcase) (w : world) : world := set_case t (f (w_case w t)) w.

(** std::cout << s and std::cerr << s *)
Definition print (st : stream) (o : origin) (s : string) (w : world) : world :=
  match (match st with Out => w_out w | Err => w_err w end) with
  | Console => say (mkChunk st o s) w
  | Capture t =>
      on_case t (fun c => match st with
                          | Out => with_caps (t_outCap c ++ s) (t_errCap c) c
                          | Err => with_caps (t_outCap c) (t_errCap c ++ s) c
                          end) w
  end.

(** setup.h L99 (L87: a backslash on Windows) *)
Definition DIR_SEP : ascii := "/".

(** testcase.cpp L142-159 *)
Definition checkFail (t : nat) (fname : string) (line : Z) (expected actual : string) (w : world) : world :=
  let quote := String (ascii_of_nat 34) "" in
  let d := match actual with
           | "" => expected
           | _ => (expected ++ " (Actually " ++ quote ++ actual ++ quote ++ ")")%string
           end in
  let f := match rfind DIR_SEP fname with Some p => drop (S p) fname | None => fname end in
  on_case t (fun c => with_status FAIL (with_fail d line f c)) w.

(** L103-109 *)
Definition fail (t : nat) (file : string) (line : Z) (reason : string) (w : world) : world :=
  on_case t (fun c => with_fail reason line file (with_status FAIL c)) w.

(** How a function of the test ends. *)
Inductive ending : Type := Returned | Thrown (e : exn).

(** One step of test [t]; [None]: the next one follows. *)
Definition exec1 (t : nat) (s : stmt) (w : world) : world * option ending :=
  match s with
  | SOut x => (print Out (Test t) x w, None)
  | SErr x => (print Err (Test t) x w, None)
  | SCheck true _ _ _ _ => (w, None)
  | SCheck false f l d a => (checkFail t f l d (c_str a) w, Some Returned)
  | SFail f l m => (checkFail t f l m "" w, None)
  | SExpectThrow r f l ty =>
      match r with
      | TNothing => (checkFail t f l ("Expected exception of type " ++ ty ++ " wasn't thrown") "" w, None)
      | TExpected => (w, None)
      | TOther e => (w, Some (Thrown e))
      end
  | SExpectAny r f l =>
      match r with
      | None => (checkFail t f l "No throw when any throw was expected" "" w, None)
      | Some _ => (w, None)
      end
  | SExpectNone r f l =>
      match r with
      | None => (w, None)
      | Some (Some what) =>
          let quote := String (ascii_of_nat 34) "" in
          (checkFail t f l ("Exception thrown: " ++ quote ++ " " ++ what ++ quote) "" w, None)
      | Some None => (checkFail t f l "Unknown exception thrown" "" w, None)
      end
  | SCallFail f l r => (fail t f l r w, None)
  | SStatus s => (on_case t (with_status s) w, None)
  | SThrow e => (w, Some (Thrown e))
  | SReturn => (w, Some Returned)
  end.

Fixpoint exec_body (t : nat) (l : list stmt) (w : world) : world * ending :=
  match l with
  | [] => (w, Returned)
  | s :: l' => match exec1 t s (note (EvStmt t s) w) with
               | (w', Some e) => (w', e)
               | (w', None) => exec_body t l' w'
               end
  end.

(** timelapse.h L42-43 *)
Definition markBegin (t : nat) (w : world) : world := on_case t (with_begin (clock E (w_tick w))) (tick w).
Definition markEnd (t : nat) (w : world) : world := on_case t (with_end (clock E (w_tick w))) (tick w).

(** timelapse.h L28, L36-40 *)
Definition MSECS_IN_A_DAY : Z := 60 * 60 * 24 * 1000.
Definition elapsed (b e : Z) : Z := if (e <? b)%Z then (e - b + MSECS_IN_A_DAY)%Z else (e - b)%Z.

(** testcase.cpp L224-233 *)
Definition caught (t : nat) (e : exn) (w : world) : world :=
  on_case t (fun c => with_fail (match e with Some what => what | None => "Unknown error caught by falcon::testing framework" end) (t_line c) (t_file c) (with_status ERROR c))
    (markEnd t w).

Definition is_empty (s : string) : bool := match s with "" => true | _ => false end.
Definition is_none (s : stat) : bool := match s with NONE => true | _ => false end.

(** testcase.cpp L209-234 *)
Definition run (t : nat) (w : world) : world :=
  let sc := beh E t (t_runs (w_case w t)) in
  let w := on_case t (fun c => with_runs (S (t_runs c)) (with_status NONE c)) w in
  match exec_body t (sc_setup sc) (note (EvSetUp t) w) with
  | (w, Thrown e) => caught t e w
  | (w, Returned) =>
      match exec_body t (sc_test sc) (note (EvTest t) (markBegin t w)) with
      | (w, Thrown e) => caught t e w
      | (w, Returned) =>
          let w := markEnd t w in
          let w := if is_none (t_status (w_case w t))
                   then on_case t (fun c => with_status (if is_empty (t_errCap c) then SUCCESS else OUT_ON_ERROR_STREAM) c) w
                   else w in
          match exec_body t (sc_teardown sc) (note (EvTearDown t) w) with
          | (w, Thrown e) => caught t e w
          | (w, Returned) => w
          end
      end
  end.

(** L184-195 *)
Definition tc_begin (capture : bool) (t : nat) (w : world) : world :=
  on_case t (with_status NONE) (if capture then set_dests (Capture t) (Capture t) w else w).
(** L197-207; [o], [e]: the buffers saved by beginTest *)
Definition tc_end (capture : bool) (o e : dest) (t : nat) (w : world) : world :=
  if capture then on_case t (fun c => with_strs (t_outCap c) (t_errCap c) c) (set_dests o e w) else w.

(** ** UnitTest *)

(** unittest.cpp L35-46 *)
Record component : Type := mkComp { c_name : string; c_failures : Z; c_tests : list nat; c_begin : Z; c_end : Z }.

(** L49-76.  [u_comps]: the map componentToPerform, sorted by name; [u_files]: files written. *)
Record unit_test : Type := mkU {
  u_world : world;
  u_tests : list nat;
  u_byName : list (string * nat);
  u_comps : list component;
  u_select : list nat;
  u_xml : string; u_id : string; u_name : string;
  u_status : Z; u_failed : Z;
  u_capture : bool; u_errfail : bool; u_verbosity : nat;
  u_begin : Z; u_end : Z;
  u_files : list (string * string)
}.

Definition set_world (w : world) (u : unit_test) : unit_test :=
  mkU w (u_tests u) (u_byName u) (u_comps u) (u_select u) (u_xml u) (u_id u) (u_name u) (u_status u) (u_failed u) (u_capture u) (u_errfail u) (u_verbosity u) (u_begin u) (u_end u) (u_files u).
Definition in_world (f : world -> world) (u : unit_test) : unit_test := set_world (f (u_world u)) u.
Definition set_tests (l : list nat) (b : list (string * nat)) (u : unit_test) : unit_test :=
  mkU (u_world u) l b (u_comps u) (u_select u) (u_xml u) (u_id u) (u_name u) (u_status u) (u_failed u) (u_capture u) (u_errfail u) (u_verbosity u) (u_begin u) (u_end u) (u_files u).
Definition set_comps (l : list component) (u : unit_test) : unit_test :=
  mkU (u_world u) (u_tests u) (u_byName u) l (u_select u) (u_xml u) (u_id u) (u_name u) (u_status u) (u_failed u) (u_capture u) (u_errfail u) (u_verbosity u) (u_begin u) (u_end u) (u_files u).
Definition set_select (l : list nat) (u : unit_test) : unit_test :=
  mkU (u_world u) (u_tests u) (u_byName u) (u_comps u) l (u_xml u) (u_id u) (u_name u) (u_status u) (u_failed u) (u_capture u) (u_errfail u) (u_verbosity u) (u_begin u) (u_end u) (u_files u).
Definition set_xml (s : string) (u : unit_test) : unit_test :=
  mkU (u_world u) (u_tests u) (u_byName u) (u_comps u) (u_select u) s (u_id u) (u_name u) (u_status u) (u_failed u) (u_capture u) (u_errfail u) (u_verbosity u) (u_begin u) (u_end u) (u_files u).
Definition set_names (i n : string) (u : unit_test) : unit_test :=
  mkU (u_world u) (u_tests u) (u_byName u) (u_comps u) (u_select u) (u_xml u) i n (u_status u) (u_failed u) (u_capture u) (u_errfail u) (u_verbosity u) (u_begin u) (u_end u) (u_files u).
Definition set_result (s f : Z) (u : unit_test) : unit_test :=
  mkU (u_world u) (u_tests u) (u_byName u) (u_comps u) (u_select u) (u_xml u) (u_id u) (u_name u) s f (u_capture u) (u_errfail u) (u_verbosity u) (u_begin u) (u_end u) (u_files u).
Definition set_capture (b : bool) (u : unit_test) : unit_test :=
  mkU (u_world u) (u_tests u) (u_byName u) (u_comps u) (u_select u) (u_xml u) (u_id u) (u_name u) (u_status u) (u_failed u) b (u_errfail u) (u_verbosity u) (u_begin u) (u_end u) (u_files u).
Definition set_errfail (b : bool) (u : unit_test) : unit_test :=
  mkU (u_world u) (u_tests u) (u_byName u) (u_comps u) (u_select u) (u_xml u) (u_id u) (u_name u) (u_status u) (u_failed u) (u_capture u) b (u_verbosity u) (u_begin u) (u_end u) (u_files u).
Definition set_verbosity (n : nat) (u : unit_test) : unit_test :=
  mkU (u_world u) (u_tests u) (u_byName u) (u_comps u) (u_select u) (u_xml u) (u_id u) (u_name u) (u_status u) (u_failed u) (u_capture u) (u_errfail u) n (u_begin u) (u_end u) (u_files u).
Definition set_lapse (b e : Z) (u : unit_test) : unit_test :=
  mkU (u_world u) (u_tests u) (u_byName u) (u_comps u) (u_select u) (u_xml u) (u_id u) (u_name u) (u_status u) (u_failed u) (u_capture u) (u_errfail u) (u_verbosity u) b e (u_files u).
Definition add_file (f : string * string) (u : unit_test) : unit_test :=
  mkU (u_world u) (u_tests u) (u_byName u) (u_comps u) (u_select u) (u_xml u) (u_id u) (u_name u) (u_status u) (u_failed u) (u_capture u) (u_errfail u) (u_verbosity u) (u_begin u) (u_end u) (u_files u ++ [f]).

Definition caseof (u : unit_test) (t : nat) : tcase := w_case (u_world u) t.

(** L51-56: a new UnitTest; failedCount is set by init() before it is read *)
Definition unit0 (w : world) : unit_test := mkU w [] [] [] [] "" "" "" 0 0 true false 2 0 0 [].

(** std::map::find *)
Fixpoint lookup (n : string) (l : list (string * nat)) : option nat :=
  match l with [] => None | (m, t) :: l' => if String.eqb n m then Some t else lookup n l' end.

(** L90-98; insert keeps what is there.  testsByComponent is never read. *)
Definition addTestCase (comp name : string) (t : nat) (u : unit_test) : unit_test :=
  let u := in_world (on_case t (with_names comp name)) u in
  let n := t_name (caseof u t) in
  set_tests (u_tests u ++ [t]) (match lookup n (u_byName u) with Some _ => u_byName u | None => u_byName u ++ [(n, t)] end) u.

(** L100-107 *)
Definition init (u : unit_test) : unit_test :=
  in_world (fun w => fold_left (fun w t => on_case t (with_status NONE) w) (u_tests u) w) (set_result 0 0 u).

(** L215-219 *)
Definition is_success (s : stat) : bool := match s with SUCCESS => true | _ => false end.
Definition is_stream (s : stat) : bool := match s with OUT_ON_ERROR_STREAM => true | _ => false end.
Definition hasPassed (u : unit_test) (t : nat) : bool :=
  negb ((is_stream (t_status (caseof u t)) && u_errfail u) || negb (is_success (t_status (caseof u t)))).

(** std::cout << s by the framework *)
Definition tell (s : string) (u : unit_test) : unit_test := in_world (print Out Framework s) u.

(** L196-213; [ms]: elapsed in milliseconds, [None]: the default -1.0 seconds *)
Definition seconds3 (z : Z) : string := (dec (z / 1000) ++ "." ++ padl 3 "0" (dec (z mod 1000)) ++ "s")%string.
Definition seconds6 (z : Z) : string := ("-" ++ dec (- z / 1000) ++ "." ++ padl 3 "0" (dec ((- z) mod 1000)) ++ "000")%string.
Fixpoint take (n : nat) (s : string) : string :=
  match n, s with S n', String c s' => String c (take n' s') | _, _ => "" end.
Definition screenWidth : nat := 50.
Definition writeTestName (count : nat) (tname result : string) (ms : option Z) (u : unit_test) : unit_test :=
  let secs := match ms with
              | None => seconds6 (-1000)
              | Some z => if (z <? 0)%Z then seconds6 z else seconds3 z
              end in
  tell ("[" ++ padl 3 " " (dec (Z.of_nat count)) ++ ": " ++ padr screenWidth " " (take screenWidth tname)
        ++ padr 10 " " secs ++ " " ++ padr 4 " " result ++ "]" ++ nl) u.

(** L150-157 *)
Definition beginTest (count : nat) (t : nat) (u : unit_test) : unit_test :=
  let u := if (3 <=? u_verbosity u)%nat then writeTestName count (t_name (caseof u t)) "GO" None u else u in
  in_world (tc_begin (u_capture u) t) u.

Definition line70 : string := "======================================================================".

(** L159-194; [o], [e]: the buffers saved by beginTest *)
Definition endTest (o e : dest) (count : nat) (t : nat) (u : unit_test) : unit_test :=
  let u := in_world (tc_end (u_capture u) o e t) u in
  let c := caseof u t in
  let v := u_verbosity u in
  let u := if negb (is_empty (capturedOut c)) && ((5 <=? v)%nat || ((0 <? v)%nat && negb (hasPassed u t)))
           then tell (nl ++ line70 ++ nl ++ "STDOUT " ++ t_name c ++ nl ++ line70 ++ nl ++ capturedOut c ++ nl) u else u in
  let u := if negb (is_empty (capturedErr c)) && ((4 <=? v)%nat || ((0 <? v)%nat && negb (hasPassed u t)))
           then tell (nl ++ line70 ++ nl ++ "STDERR " ++ t_name c ++ nl ++ line70 ++ nl ++ capturedErr c ++ nl) u else u in
  if (0 <? v)%nat && match t_status c with ERROR => true | _ => false end
  then tell (nl ++ line70 ++ nl ++ "Uncaught error in Case " ++ dec (Z.of_nat count) ++ ": " ++ t_name c ++ nl ++ t_desc c ++ nl) u
  else if (1 <=? v)%nat && match t_status c with FAIL => true | _ => false end
  then tell (nl ++ line70 ++ nl ++ "Failure in case " ++ dec (Z.of_nat count) ++ ": " ++ t_name c ++ " at " ++ t_file c ++ ": " ++ dec (t_line c) ++ nl ++ t_desc c ++ nl) u
  else if (2 <=? v)%nat
  then writeTestName count (t_name c) (if hasPassed u t then "OK" else "FAIL") (Some (elapsed (t_begin c) (t_end c))) u
  else u.

(** L111-126: the components, in the order of std::map *)
Fixpoint add_to_comp (n : string) (t : nat) (l : list component) : list component :=
  match l with
  | [] => [mkComp n 0 [t] 0 0]
  | c :: l' => match String.compare n (c_name c) with
               | Eq => mkComp (c_name c) (c_failures c) (c_tests c ++ [t]) (c_begin c) (c_end c) :: l'
               | Lt => mkComp n 0 [t] 0 0 :: c :: l'
               | Gt => c :: add_to_comp n t l'
               end
  end.
Definition group (u : unit_test) : unit_test :=
  set_comps (fold_left (fun l t => add_to_comp (t_comp (caseof u t)) t l) (u_select u) (u_comps u)) u.

(** L139-144, with the verdict noted; [failures]: of the component *)
Definition finish (t : nat) (count : nat) (failures : Z) (u : unit_test) : unit_test * nat * Z :=
  let u := in_world (note (EvDone t (t_status (caseof u t)))) u in
  if hasPassed u t then (u, count, failures) else (set_result (-1) (u_failed u + 1) u, count, (failures + 1)%Z).
(** L134-144: one test; the number of failures of the component and the count go along *)
Definition run_one (t : nat) (s : unit_test * nat * Z) : unit_test * nat * Z :=
  let '(u, count, failures) := s in
  finish t (S count) failures
    (endTest (w_out (u_world u)) (w_err (u_world u)) (S count) t (in_world (run t) (beginTest (S count) t u))).

(** L129-146 *)
Fixpoint run_comps (todo : list component) (done : list component) (s : unit_test * nat) : unit_test :=
  let (u, count) := s in
  match todo with
  | [] => set_comps done u
  | c :: todo' =>
      let b := clock E (w_tick (u_world u)) in
      let '(u, count, failures) := fold_left (fun s t => run_one t s) (c_tests c) (in_world tick u, count, c_failures c) in
      let e := clock E (w_tick (u_world u)) in
      run_comps todo' (done ++ [mkComp (c_name c) failures (c_tests c) b e]) (in_world tick u, count)
  end.

(** L109-148 *)
Definition runAllTests (u : unit_test) : unit_test :=
  let u := group u in
  let b := clock E (w_tick (u_world u)) in
  let u := run_comps (u_comps u) [] (in_world tick u, 0) in
  let e := clock E (w_tick (u_world u)) in
  set_lapse b e (in_world tick u).

(** L221-257 *)
Fixpoint failed_list (u : unit_test) (first : bool) (l : list nat) : list string * bool :=
  match l with
  | [] => ([], first)
  | t :: l' => if hasPassed u t then failed_list u first l'
               else let (r, f) := failed_list u false l' in
                    ((if first then nl ++ line70 ++ nl ++ "Failed cases: " else ", ")%string :: t_name (caseof u t) :: r, f)
  end.
Definition report (u : unit_test) : unit_test :=
  if (0 <? u_verbosity u)%nat then
    let u := if (u_status u =? 0)%Z then u
             else let (r, first) := failed_list u true (u_tests u) in
                  let u := fold_left (fun u s => tell s u) r u in
                  if first then u else tell (nl ++ line70 ++ nl) u in
    let u := if (1 <? List.length (u_comps u))%nat
             then fold_left (fun u c => tell ("  Component " ++ c_name c ++ " (elapsed " ++ seconds E 3 (elapsed (c_begin c) (c_end c)) ++ "s) "
                                              ++ (if (c_failures c =? 0)%Z then "Passed" ++ nl else "FAILED " ++ nl)) u) (u_comps u) u
             else u in
    tell ("Unit Test " ++ u_name u ++ " (elapsed " ++ seconds E 4 (elapsed (u_begin u) (u_end u)) ++ "s) "
          ++ (if (u_status u =? 0)%Z then "Passed" ++ nl else "FAILED " ++ nl)) u
  else u.

(** ** The XML report *)

(** The pieces written by saveToXML. *)
Inductive xml : Type :=
| XHead
| XSuites (id name : string) (tests failures : Z) (ms : Z)
| XSuite (id name : string) (tests failures : Z) (ms : Z)
| XCase (id comp case : string) (ms : Z)
| XFailure (desc type file : string) (line : Z)
| XCaseEnd | XSuiteEnd | XSuitesEnd.

(** testcase.cpp L92-101 *)
Definition statusDesc (s : stat) : string :=
  match s with NONE => "NONE" | SUCCESS => "SUCCESS" | FAIL => "FAIL" | ERROR => "EXCEMPTION" | OUT_ON_ERROR_STREAM => "STREAM-ERROR" end.


(** unittest.cpp L413-454 *)
Definition case_xml (u : unit_test) (comp : component) (t : nat) : list xml :=
  let c := caseof u t in
  [XCase (u_id u) (c_name comp) (t_case c) (elapsed (t_begin c) (t_end c))]
  ++ (if hasPassed u t then [] else [XFailure (t_desc c) (statusDesc (t_status c)) (t_file c) (t_line c)])
  ++ [XCaseEnd].
Definition suite_xml (u : unit_test) (comp : component) : list xml :=
  [XSuite (u_id u) (c_name comp) (len (c_tests comp)) (c_failures comp) (elapsed (c_begin comp) (c_end comp))]
  ++ flat_map (case_xml u comp) (c_tests comp) ++ [XSuiteEnd].
Definition report_xml (u : unit_test) : list xml :=
  [XHead; XSuites (u_id u) (u_name u) (len (u_select u)) (u_failed u) (elapsed (u_begin u) (u_end u))]
  ++ flat_map (suite_xml u) (u_comps u) ++ [XSuitesEnd].

(** The text of each piece: L421-426, L430-434, L437-439, L442-447, L449, L451, L453. *)
Definition q (s : string) : string := (String (ascii_of_nat 34) "" ++ s ++ String (ascii_of_nat 34) "")%string.
Definition xml_text (x : xml) : string :=
  match x with
  | XHead => "<?xml version=" ++ q "1.0" ++ " encoding=" ++ q "utf-8" ++ "?>" ++ nl
  | XSuites id name n f ms => "<testsuites id=" ++ q id ++ " name=" ++ q name ++ " tests=" ++ q (dec n) ++ " failures=" ++ q (dec f)
                              ++ " time=" ++ q (seconds E 6 ms) ++ ">" ++ nl
  | XSuite id name n f ms => "<testsuite id=" ++ q (id ++ "." ++ name) ++ " name=" ++ q name ++ " tests=" ++ q (dec n) ++ " failures=" ++ q (dec f)
                             ++ " time=" ++ q (seconds E 6 ms) ++ ">" ++ nl
  | XCase id comp case ms => "<testcase id=" ++ q (id ++ "." ++ comp ++ "." ++ case) ++ " name=" ++ q case ++ " time=" ++ q (seconds E 6 ms) ++ ">" ++ nl
  | XFailure d ty file line => "<failure message=" ++ q d ++ " type=" ++ q ty ++ ">" ++ nl ++ d ++ nl ++ "File: " ++ file ++ nl
                               ++ "Line: " ++ dec line ++ nl ++ "</failure>" ++ nl
  | XCaseEnd => "</testcase>" ++ nl
  | XSuiteEnd => "</testsuite>" ++ nl
  | XSuitesEnd => "</testsuites>" ++ nl
  end%string.
Definition xml_file (l : list xml) : string := fold_right (fun x s => (xml_text x ++ s)%string) "" l.

Definition saveToXML (u : unit_test) : unit_test :=
  if can_write E (u_xml u) then add_file (u_xml u, xml_file (report_xml u)) u
  else in_world (print Err Framework ("Cannot save XML report to " ++ u_xml u)) u.

(** ** Entry points *)

(** L283-287 *)
Definition select_all (u : unit_test) : unit_test :=
  match u_select u with [] => set_select (u_tests u) u | _ => u end.
(** L291-293 *)
Definition save_report (u : unit_test) : unit_test := if is_empty (u_xml u) then u else saveToXML u.
(** L280-295 *)
Definition performUnitTests (u : unit_test) : unit_test * Z :=
  let u := save_report (report (runAllTests (select_all (init u)))) in
  (u, u_status u).

(** L298-323; [None]: std::runtime_error *)
Definition performTest (name : string) (u : unit_test) : unit_test * option Z :=
  let u := init u in
  match lookup name (u_byName u) with
  | None => (u, None)
  | Some t =>
      let (o, e) := (w_out (u_world u), w_err (u_world u)) in
      let u := beginTest 1 t u in
      let b := clock E (w_tick (u_world u)) in
      let u := in_world (run t) (in_world tick u) in
      let z := clock E (w_tick (u_world u)) in
      let u := endTest o e 1 t (set_lapse b z (in_world tick u)) in
      if hasPassed u t then (u, Some 0%Z) else (set_result (-1) (u_failed u) u, Some (-1)%Z)
  end.

(** L260-267 *)
Definition destroy (u : unit_test) : unit_test := set_tests [] [] u.

(** L397-410; SILENT is 0 and REPORT_STDOUT 5 (unittest.h L36-41) *)
Definition tab : string := String "009" "".
Definition usage_text : string :=
  ("UnitTest command line options:" ++ nl ++ nl
   ++ tab ++ "-c" ++ tab ++ "Do not capture stdout/stderr" ++ nl
   ++ tab ++ "-e" ++ tab ++ "Fail tests on STDERR output" ++ nl
   ++ tab ++ "-i" ++ tab ++ "Set an explicit ID for the unit test" ++ nl
   ++ tab ++ "-h" ++ tab ++ "This help" ++ nl
   ++ tab ++ "-n" ++ tab ++ "Set an explicit name for the UnitTest" ++ nl
   ++ tab ++ "-q" ++ tab ++ "Run quietly (suppress all output)" ++ nl
   ++ tab ++ "-t NAME" ++ tab ++ "Run given test (may be used multiple times)" ++ nl
   ++ tab ++ "-v N" ++ tab ++ "Sets verbosity level to N (" ++ dec 0 ++ "=silent, " ++ dec 5 ++ "=all)" ++ nl
   ++ tab ++ "-x FILE" ++ tab ++ "Save XML report to this file" ++ nl
   ++ nl)%string.
Definition usage (u : unit_test) : unit_test := tell usage_text u.

(** L350-352: istringstream >> int.  0 is stored if there is no number, the nearest int if it is
    too large, and nothing if there are only blanks ([None]). *)
Definition read_level (s : string) : option Z :=
  match ItemModel.skip_spaces s with
  | "" => None
  | t => let (neg, t) := ItemModel.read_sign t in
         let v := ItemModel.read_digits 0 t in
         let z := if neg then (- v)%Z else v in
         Some (Z.max (-2147483648) (Z.min 2147483647 z))
  end.

(** L332-394; the arguments after the program name.  [RBad UB]: level is read uninitialised. *)
Definition invalid (u : unit_test) : res unit_test Z :=
  ROk (usage (in_world (print Err Framework ("Invalid options" ++ nl)) u)) 1%Z.
Fixpoint parseParams (args : list string) (u : unit_test) : res unit_test Z :=
  match args with
  | [] => ROk u 0%Z
  | opt :: rest =>
      if String.eqb opt "-q" then parseParams rest (set_verbosity 0 u)
      else if String.eqb opt "-c" then parseParams rest (set_capture false u)
      else if String.eqb opt "-e" then parseParams rest (set_errfail true u)
      else if String.eqb opt "-h" then ROk (usage u) 1%Z
      else
        match rest with
        | [] => invalid u
        | arg :: rest' =>
            if String.eqb opt "-v" then
              match read_level arg with
              | Some z => if (0 <=? z)%Z && (z <=? 5)%Z then parseParams rest' (set_verbosity (Z.to_nat z) u) else invalid u
              | None => RBad UB
              end
            else if String.eqb opt "-t" then
              match lookup arg (u_byName u) with
              | None => ROk (tell ("Unknown test case " ++ arg ++ nl) u) 1%Z
              | Some t => parseParams rest' (set_select (u_select u ++ [t]) u)
              end
            else if String.eqb opt "-x" then parseParams rest' (set_xml arg u)
            else if String.eqb opt "-n" then parseParams rest' (set_names (u_id u) arg u)
            else if String.eqb opt "-i" then parseParams rest' (set_names arg (u_name u) u)
            else invalid u
        end
  end.

(** L456-470 *)
Fixpoint before_dot (s : string) : string :=
  match s with "" => "" | String c s' => if Ascii.eqb c "." then "" else String c (before_dot s') end.
Definition detectTestName (exe : string) (u : unit_test) : unit_test :=
  let f := match rfind DIR_SEP exe with Some p => drop (S p) exe | None => exe end in
  set_names (before_dot f) (before_dot f) u.

(** L473-489: the value returned, and the state just before [delete this] *)
Definition main (argv : list string) (u : unit_test) : res unit_test Z :=
  let r := match argv with
           | [] => ROk u 0%Z
           | exe :: args => parseParams args (detectTestName exe u)
           end in
  match r with
  | ROk u 0%Z => let (u, s) := performUnitTests u in ROk (destroy u) s
  | r => r
  end.

End Fut.

(** ** EXPECT_FLOAT_EQ, EXPECT_FLOAT_NE *)

(** 10000.0 = 5497558138880000 * 2^-39, in double precision *)
Definition ten4 : spec_float := S754_finite false 5497558138880000 (-39).
(** fut.h L88-93: whether the check passes; the product is rounded to double.  [None]: the
    conversion to int64 is undefined. *)
Definition scaled (x : spec_float) : option Z := ItemModel.truncate (SFmul 53 1024 x ten4).
Definition float_eq (x y : spec_float) : option bool :=
  match scaled x, scaled y with Some a, Some b => Some (a =? b)%Z | _, _ => None end.
(** The macro does not put its arguments in parentheses: EXPECT_FLOAT_EQ(a + b, y). *)
Definition scaled_sum (a b : spec_float) : option Z := ItemModel.truncate (SFadd 53 1024 a (SFmul 53 1024 b ten4)).
Definition float_eq_sum (a b y : spec_float) : option bool :=
  match scaled_sum a b, scaled y with Some p, Some q => Some (p =? q)%Z | _, _ => None end.
