(** * The project's other tests, run in the models

    src/test/engine/{futex,logsystem,logger,logstream,item,compiler,singleton}.fut.cpp and
    src/test/fut/fut_{checks,fixture,verbosity,timing}.cpp.  As in PagedStackTests.v, these are not
    properties: they check that the models behave as the tests say the code does.  The tests of
    the futex are the exception: they hold for every schedule.

    A test that waits for a callback and then goes on is run by two client threads, the
    second of which starts after the callback. *)

From Coq Require Import ZArith NArith String Ascii Bool List Arith SpecFloat.
From Verif Require Import Base TextModel.
From Verif Require FutexModel FutexSpec FutexProofs FutexMore LogModel LoggerModel StreamModel LogStreamModel CodeModel ItemModel MiscModel FutModel.
Import ListNotations.
Open Scope string_scope.
Open Scope list_scope.

(** The text [x] occurs in [s] (std::string::find). *)
Fixpoint occurs (x s : string) : bool :=
  String.prefix x s || match s with EmptyString => false | String _ s' => occurs x s' end.
(** The position where it occurs first. *)
Definition position (x s : string) : option nat := String.index 0 x s.

(** ** futex.fut.cpp *)
Section FutexTests.
Import FutexModel FutexSpec.

(** L42-68 performance_test: [threads] threads increment the counter [n] times each; whatever the
    schedule, the counter is right in the end.  L91-163 are instances. *)
Lemma performance_test : forall spin n threads (s : fstate nat nat) tr,
  freaches spin 0 (repeat (repeat increment n, 0) threads) s tr -> all_done s -> data s = n * threads.
Proof.
  intros spin n k s tr R D. rewrite (FutexMore.counter_exact _ _ _ _ _ R); [|apply Forall_forall; intros p Hp; apply repeat_spec in Hp; subst p; apply Forall_forall; intros b Hb; apply repeat_spec in Hb; exact Hb|exact D].
  clear. induction k as [|k IH]; [now rewrite Nat.mul_0_r|]. cbn [repeat map list_sum fst fold_right] in *. rewrite repeat_length.
  rewrite Nat.mul_succ_r, <- IH. cbn. apply Nat.add_comm.
Qed.

(** L71-88 smoke, smoke2: isLocked() before, during and after *)
Example smoke :
  let at_ n := option_map (fun p => isLocked (fst p)) (frun 0 (repeat (0, false) n) (finit 0 [([[]], 0)])) in
  (at_ 0, at_ 2, at_ 3) = (Some false, Some true, Some false).
Proof. vm_compute. reflexivity. Qed.
End FutexTests.

(** ** logsystem.fut.cpp *)
Section LogTests.
Import LogModel.

(** The expressions used: "*" is invalid, ".*" at the end means any text. *)
Definition compile (re : string) : option (string -> bool) :=
  if String.eqb re "*" then None
  else if String.eqb re "Good.*" then Some (String.prefix "Good")
  else Some (String.eqb re).
Definition rmatch (s : string) (r : string -> bool) : bool := r s.
Definition no_regex : string -> bool := fun _ => false.
Notation sysw := (@world (string -> bool)).

(** One thread runs as far as it can. *)
Fixpoint drive (fuel : nat) (ch : choice) (w : sysw) : sysw * list ev :=
  match fuel with
  | O => (w, [])
  | S n => match step compile rmatch ch w with
           | None => (w, [])
           | Some (w', es) => let (w'', es') := drive n ch w' in (w'', es ++ es')
           end
  end.
Fixpoint drives (l : list choice) (w : sysw) : sysw * list ev :=
  match l with
  | [] => (w, [])
  | ch :: l' => let (w', es) := drive 100 ch w in let (w'', es') := drives l' w' in (w'', es ++ es')
  end.
Definition order : list choice := [Go 0; GoLog []; Go 1; GoLog []; Go 1].

(** L40-48 SetUp: m_listener is 0, m_catcher is 1 *)
Definition test (first second : list call) : list ev :=
  snd (drives order (init true false (fun _ => new_listener no_regex) [[CAdd 0; CAdd 1] ++ first; second])).
(** L54-56 sendLog *)
Definition sent (level : Z) (cat : string) : msg := mkMsg "File" 101 level cat "Message".
Definition sendLog (level : Z) (cat : string) : call := CLog (sent level cat).

Definition delivered (l : nat) (es : list ev) : list msg :=
  flat_map (fun e => match e with EvDeliver k m => if (k =? l)%nat then [m] else [] | _ => [] end) es.
Definition diags (es : list ev) : list (field * nat) :=
  flat_map (fun e => match e with EvRead _ f v => [(f, v)] | _ => [] end) es.
(** L69-87 sanityCheck *)
Definition sane (enabled msgs : nat) : list (field * nat) :=
  [(FCreated, 0); (FDiscarded, 0); (FActive, 2); (FEnabled, enabled); (FReceived, msgs); (FMaxQueue, msgs); (FPool, POOL); (FPending, 0)].

Example log_smoke : diags (test [CDiags] []) =
  [(FCreated, 0); (FDiscarded, 0); (FActive, 0); (FEnabled, 0); (FReceived, 0); (FMaxQueue, 0); (FPool, POOL); (FPending, 2)].
Proof. vm_compute. reflexivity. Qed.

Example ReceiveMessage : let es := test [sendLog INFO "Category"] [CStop; CDiags] in
  delivered 0 es = [sent INFO "Category"] /\ diags es = sane 2 1.
Proof. vm_compute. split; reflexivity. Qed.

Example ThrowCategory : List.In (EvThrown (Client 0)) (test [CCategory 0 "*"] []).
Proof. vm_compute. tauto. Qed.

Example DiscardLevel : let es := test [CSetLevel 0 DEBUG; sendLog TRACE "Category"] [CStop; CDiags] in
  delivered 1 es = [sent TRACE "Category"] /\ delivered 0 es = [] /\ diags es = sane 2 1.
Proof. vm_compute. repeat split; reflexivity. Qed.

Example DiscardCategory : let es := test [CCategory 0 "SomeCategory"; sendLog CRITICAL "Category"] [CStop; CDiags] in
  delivered 1 es = [sent CRITICAL "Category"] /\ delivered 0 es = [] /\ diags es = sane 2 1.
Proof. vm_compute. repeat split; reflexivity. Qed.

Example ListenerDisabled : let es := test [CEnable 0 false; sendLog TRACE "Category"] [CStop; CDiags] in
  delivered 1 es = [sent TRACE "Category"] /\ delivered 0 es = [] /\ diags es = sane 1 1.
Proof. vm_compute. repeat split; reflexivity. Qed.

Example RightCategory : let es := test [CCategory 0 "Good.*"; sendLog INFO "GoodCategory"] [CStop; CDiags] in
  delivered 0 es = [sent INFO "GoodCategory"] /\ diags es = sane 2 1.
Proof. vm_compute. repeat split; reflexivity. Qed.
End LogTests.

(** ** logstream.fut.cpp *)
Section LogStreamTests.
Import LogModel LogStreamModel.

Definition noon : tm := mkTm 119 1 28 12 0 0.
(** L49-51 sendLog *)
Definition line : string := log_line noon (mkMsg "File" 101 INFO "" "Message").
(** L62-69, L71-80, L82-89: stream 0 is shared, given away, or only used *)
Definition text_on (ops : list sop) (s : nat) : option string :=
  match srun ops (sink0 (fun _ => 1)) with
  | ROk k _ => Some (fold_right String.append "" (map snd (filter (fun p => (fst p =? s)%nat) (written k))))
  | _ => None
  end.
Definition found (ops : list sop) (s : nat) : bool := match text_on ops s with Some x => occurs "Message" x | None => false end.

Example stream_smoke : text_on [OnMessage line] 0 = Some "".
Proof. reflexivity. Qed.
Example SharedStream : found [Share (Some 0); OnMessage line] 0 = true.
Proof. vm_compute. reflexivity. Qed.
Example UniqueStream : found [Own (Some 0); OnMessage line] 0 = true.
Proof. vm_compute. reflexivity. Qed.
Example WriteOnStream : found [WriteOn (Some 0); OnMessage line] 0 = true.
Proof. vm_compute. reflexivity. Qed.
Example ChangeStream : found [Share (Some 0); Own (Some 1); WriteOn (Some 2); OnMessage line] 2 = true.
Proof. vm_compute. reflexivity. Qed.
End LogStreamTests.

(** ** logger.fut.cpp *)
Section LoggerTests.
Import LogModel LoggerModel StreamModel LogStreamModel.

Definition say (s : string) : operand := Op [] [SPut (PText s)].
Definition LOG (lvl : Z) (cat : option string) (s : string) : stmt := SLog "logger.fut.cpp" 1 lvl cat [say s].

Definition all (n : nat) : list nat := repeat 0 n.
Fixpoint thread_run (fuel : nat) (w : lworld) : list lev :=
  match fuel with
  | O => []
  | S n => match lwstep TRACE 0 w with Some (w', es) => map snd es ++ thread_run n w' | None => [] end
  end.
(** The messages a program hands to the LogSystem that pass its level. *)
Definition messages (p : list stmt) : list msg :=
  flat_map (fun e => match e with EvCommit m true => [m] | _ => [] end) (thread_run 200 (lwinit [p])).
(** What the default listener writes, on a string stream. *)
Definition written_by (p : list stmt) : string := fold_right String.append "" (map (log_line noon) (messages p)).

(** L90-96; LOGGER.commit() is what is left of a finished LOG_BLOCK *)
Definition written_code (code : list instr) : string :=
  fold_right String.append "" (map (log_line noon)
    (flat_map (fun e => match e with EvCommit m true => [m] | _ => [] end) (thread_run 200 (mkLW TRACE [(code, tls0)])))).
Example logger_smoke : occurs "Hello World" (written_code [IStmt (SPut (PText "Hello World")); IComplete]) = true.
Proof. vm_compute. reflexivity. Qed.
Example AutoEnd : occurs "Hello Auto" (written_by [LOG INFO None "Hello Auto"]) = true.
Proof. vm_compute. reflexivity. Qed.
Example Category : occurs "The Category" (written_by [SCategory "The Category"; LOG INFO None "Hello Category"]) = true.
Proof. vm_compute. reflexivity. Qed.
(** L114-142; one line after the other, the second with the category of the thread *)
Example TempCategory :
  map (fun m => (m_cat m, m_text m)) (messages [SCategory "Cat"; LOG INFO (Some "Temp") "One"; LOG INFO None "Two"]) = [("Temp", "One"); ("Cat", "Two")]
  /\ let s := written_by [SCategory "Cat"; LOG INFO (Some "Temp") "One"; LOG INFO None "Two"] in
     match position "Temp" s, position "One" s, position "Cat" s with
     | Some t, Some o, Some c => (t <? o)%nat && (t <? c)%nat && (o <? c)%nat
     | _, _, _ => false
     end = true.
Proof. vm_compute. split; reflexivity. Qed.
Example LogBlock : occurs "Hello partial world"
  (written_by [SBlock "logger.fut.cpp" 1 INFO [SPut (PText "Hello"); SPut (PText " partial"); SPut (PText " world")] false]) = true.
Proof. vm_compute. reflexivity. Qed.

(** L157-190: what the default listener (number 0) or the proxy write.  The level of the LogSystem
    is INFO, then that of the filter, then TRACE again. *)
Definition Internal (re : string) : option (string -> bool) :=
  if String.eqb re ".*::INTERNAL" then Some (fun s => occurs "::INTERNAL" s) else Some (String.eqb re).
Definition served (s : @fstate (string -> bool)) (m : msg) : bool :=
  (m_level m <=? f_level s)%Z &&
  existsb (fun k => match nth_error (f_listeners s) k with
                    | Some l => negb (l_detached l) && (m_level m <=? l_level l)%Z && checkCategory rmatch l (m_cat m)
                    | None => false
                    end) (f_added s).
Example CategoryFilter :
  let s0 := upd_listener 0 (set_llevel INFO) (set_f_level INFO (fnew no_regex)) in
  let m lvl cat := mkMsg "" 0 lvl cat "" in
  match categoryFilter Internal no_regex ".*::INTERNAL" TRACE s0 with
  | ROk s1 _ => match clearFilter s1 with
                | ROk s2 _ => (served s1 (m INFO "Test::BASE"), served s1 (m TRACE "Test::BASE"), served s1 (m TRACE "Test::INTERNAL"),
                               served (set_f_level TRACE s2) (m TRACE "Test::INTERNAL"))
                | _ => (false, true, false, true)
                end
  | _ => (false, true, false, true)
  end = (true, false, true, false).
Proof. vm_compute. reflexivity. Qed.
End LoggerTests.

(** ** item.fut.cpp, compiler.fut.cpp, singleton.fut.cpp *)
Section ItemTests.
Import ItemModel.
Definition E0 : env := mkEnv unit (fun _ => "") (fun _ => true) (fun _ => 0%Z) (fun _ => "").
Definition seen (v : cval E0) (op : iop E0) : option (list iout) :=
  match irun E0 [INew E0 0 v; op; IDestroy E0 0] (is0 E0) with ROk _ l => Some l | _ => None end.

Example item_smoke : seen (VInt64 E0 0) (IToInt E0 0) = Some [OInt 0].
Proof. vm_compute. reflexivity. Qed.
Example StringItem : seen (VCString E0 (Some "Hello world")) (IToString E0 0) = Some [OText "Hello world"].
Proof. vm_compute. reflexivity. Qed.
Example StringBool : (seen (VCString E0 (Some "abc")) (IToBool E0 0), seen (VCString E0 (Some "")) (IToBool E0 0)) = (Some [OBool true], Some [OBool false]).
Proof. vm_compute. reflexivity. Qed.
Example StringNumber : seen (VCString E0 (Some "100")) (IToInt E0 0) = Some [OInt 100].
Proof. vm_compute. reflexivity. Qed.
End ItemTests.

Example compiler_smoke :
  match CodeModel.compile (CodeModel.mkIn ["0"%char] false false false) CodeModel.cs0 with
  | ROk (_, s) c => match CodeModel.toString c s with ROk _ t => t | _ => "" end
  | _ => ""
  end = "0".
Proof. vm_compute. reflexivity. Qed.

Example singleton_smoke :
  snd (MiscModel.sruns string (fun _ => "") [MiscModel.SNew string 0 0; MiscModel.SWrite string 0 "Hello"; MiscModel.SRead string 0; MiscModel.SAddr string 0; MiscModel.SAddr string 0] (MiscModel.s0 string))
  = [MiscModel.OVal string "Hello"; MiscModel.OAddr string 0; MiscModel.OAddr string 0].
Proof. vm_compute. reflexivity. Qed.

(** ** src/test/fut *)
Section FutTests.
Import FutModel.

(** A program with the single test "C::T", whose body, or SetUp and TearDown, are these. *)
Definition script0 (body : list FutModel.stmt) : script := mkScript [] body [].
Definition EE (sc : script) (times : nat -> Z) : env := mkEnv (fun _ _ => sc) times (fun _ _ => "") (fun _ => true).
Definition case0 : tcase := mkT "" "" "" NONE "" "" "" "" "" 0 "" 0 0 0.
Definition w0 : FutModel.world := mkW (fun _ => case0) Console Console [] 0 [].
Definition single (sc : script) : unit_test := addTestCase "C" "T" 0 (unit0 w0).
Definition perform (v : nat) (sc : script) : unit_test * option Z := performTest (EE sc (fun _ => 0%Z)) "C::T" (set_verbosity v (single sc)).
Definition shown (st : FutModel.stream) (u : unit_test) : string :=
  fold_right String.append "" (map ch_text (filter (fun c => match ch_stream c, st with Out, Out | Err, Err => true | _, _ => false end) (w_console (u_world u)))).

(** fut_checks.cpp: all the checks pass *)
Example checks_pass : snd (perform 2 (script0 [SCheck true "" 0 "" ""; SExpectThrow TExpected "" 0 "std::runtime_error";
    SExpectAny (Some (Some "Something")) "" 0; SExpectNone None "" 0; SOut "1"])) = Some 0%Z.
Proof. vm_compute. reflexivity. Qed.
(** L66-72: 33.333333 and 33.334 against 100.0/3.0, as doubles *)
Example FloatEquality :
  let third := SFdiv 53 1024 (S754_finite false 7036874417766400 (-46)) (S754_finite false 6755399441055744 (-51)) in
  float_eq (S754_finite false 4691249564931771 (-47)) third = Some true /\ float_eq (S754_finite false 4691343436836504 (-47)) third = Some false.
Proof. vm_compute. split; reflexivity. Qed.

(** fut_fixture.cpp: SetUp, the test, TearDown, in this order *)
Example SetUpCalled :
  w_trace (u_world (fst (perform 2 (script0 [])))) = [EvSetUp 0; FutModel.EvTest 0; EvTearDown 0].
Proof. vm_compute. reflexivity. Qed.

(** fut_verbosity.cpp L28-40: three of the tests *)
Definition Cout : string := ("A sentence on COUT" ++ nl)%string.
Definition Cerr : string := ("An error written on cerr" ++ nl)%string.
Definition onCerr : script := script0 [SOut Cout; SErr Cerr].
Definition TestFail : script := script0 [SOut Cout; SCheck false "f" 1 "10 EQ 20" "20"].
Definition ExplicitFail : script := script0 [SFail "f" 1 "Explicit failure!"].

(** L80-128 *)
Example verbosity1 : let (u, r) := perform 0 ExplicitFail in (r, shown Out u, shown Err u) = (Some (-1)%Z, "", "").
Proof. vm_compute. reflexivity. Qed.
Example verbosity2 : let (u, r) := perform 1 ExplicitFail in (r, occurs "Explicit failure!" (shown Out u), shown Err u) = (Some (-1)%Z, true, "").
Proof. vm_compute. reflexivity. Qed.
Example verbosity3 : let (u, r) := perform 2 TestFail in (r, occurs Cout (shown Out u), shown Err u) = (Some (-1)%Z, true, "").
Proof. vm_compute. reflexivity. Qed.
Example verbosity4 : let (u, r) := perform 4 onCerr in (r, occurs Cout (shown Out u), occurs Cerr (shown Out u)) = (Some (-1)%Z, true, true).
Proof. vm_compute. reflexivity. Qed.
Example verbosity5 : let (u, r) := perform 5 onCerr in (r, occurs Cout (shown Out u), occurs Cerr (shown Out u)) = (Some (-1)%Z, true, true).
Proof. vm_compute. reflexivity. Qed.

(** fut_timing.cpp: a clock that advances 200 ms during the test *)
Example Time1 : let u := fst (performTest (EE (script0 []) (fun n => (200 * Z.of_nat n)%Z)) "C::T" (single (script0 []))) in
  elapsed (t_begin (caseof u 0)) (t_end (caseof u 0)) = 200%Z.
Proof. vm_compute. reflexivity. Qed.
End FutTests.
