(** * Model of LogSystem (src/engine/logsystem.cpp, src/include/falcon/logsystem.h).

    Any number of client threads and the log thread run in steps chosen by a
    schedule.  Granularity: a section under m_mtxMessage, m_mtxPool,
    m_mtxListeners or a listener's m_mtxCategory is one step, since the code never
    blocks nor takes another lock inside it (C22 justifies this view of a lock, and
    C43 states which shared accesses are outside the locks); every other access to
    shared memory is a step of its own.  m_mtxThread, that is held during join(),
    is explicit.  A callback is any sequence of calls of the API, chosen by the
    environment each time.

    The destructor is in LogEndModel.v.  A callback can throw; InvalidCategory is
    taken to be caught by whoever called category().

    Exceptions thrown when memory runs out or by std::regex_match are in
    LogMemModel.v. *)

From Coq Require Import ZArith String Bool List Arith.
From Verif Require Import Base.
From Verif Require TextModel.
Import ListNotations.
Open Scope bool_scope.
Open Scope list_scope.

(** logsystem.h L61-84 Message; LEVEL is an enum, its values are integers. *)
Record msg : Type := mkMsg { m_file : string; m_line : Z; m_level : Z; m_cat : string; m_text : string }.

(** L63-66 default constructor. *)
Definition empty_msg : msg := mkMsg "" 0 0 "" "".

(** L48-55 *)
Definition CRITICAL : Z := 0. Definition ERROR : Z := 1. Definition WARN : Z := 2.
Definition INFO : Z := 3. Definition DEBUG : Z := 4. Definition TRACE : Z := 5.

(** L231-233 *)
Definition POOL : nat := 64.

(** logsystem.cpp L122-134 *)
Definition levelToString (l : Z) : string :=
  if (l =? CRITICAL)%Z then "CRIT"
  else if (l =? ERROR)%Z then "ERR "
  else if (l =? WARN)%Z then "WARN"
  else if (l =? INFO)%Z then "INFO"
  else if (l =? DEBUG)%Z then "DBG "
  else if (l =? TRACE)%Z then "TRC "
  else "????".

Section LogSystem.

(** std::regex: compiled expressions, compilation (that may throw) and matching are
    left open. *)
Context {RE : Type}.
Variable compile : string -> option RE.
Variable rmatch : string -> RE -> bool.
Variable no_regex : RE.   (** a default-constructed std::regex *)

(** ** Listeners (logsystem.h L105-178) *)
Record listener : Type := mkL {
  l_category : string; l_regex : RE; l_level : Z; l_enabled : bool; l_detached : bool }.

(** L108-112 *)
Definition new_listener : listener := mkL "" no_regex TRACE true false.

(** L122-133 category(regex_cat); [None]: InvalidCategory is thrown. *)
Definition set_category (re : string) (l : listener) : option listener :=
  match compile re with
  | Some r => Some (mkL re r (l_level l) (l_enabled l) (l_detached l))
  | None => None
  end.

(** logsystem.cpp L201-210 *)
Definition checkCategory (l : listener) (cat : string) : bool :=
  if String.eqb cat "" then true
  else if String.eqb (l_category l) "" then true
  else rmatch cat (l_regex l).

(** L208: what it writes on std::cout, in its default format state; [""]: nothing.
    Simplification: the insertions are one write. *)
Definition checkCategory_out (l : listener) (cat : string) : string :=
  if String.eqb cat "" then ""
  else if String.eqb (l_category l) "" then ""
  else ("Category filtering: " ++ cat ++ " vs. " ++ l_category l ++ ": " ++ (if rmatch cat (l_regex l) then "1" else "0") ++ TextModel.nl)%string.

(** L143-145, L149, L160 *)
Definition set_enabled (b : bool) (l : listener) : listener :=
  mkL (l_category l) (l_regex l) (l_level l) b (l_detached l).
Definition set_detached (l : listener) : listener :=
  mkL (l_category l) (l_regex l) (l_level l) (l_enabled l) true.
Definition set_llevel (z : Z) (l : listener) : listener :=
  mkL (l_category l) (l_regex l) z (l_enabled l) (l_detached l).

(** ** Threads *)

(** The API calls a thread can make.  Listeners are named by numbers. *)
Inductive call : Type :=
| CLog (m : msg)                        (** log(file, line, level, cat, message) *)
| CPass (m : msg)                       (** log(Message* ), with an object that the caller created with new *)
| CAdd (l : nat)                        (** addListener *)
| CStart | CStop
| CLevel (z : Z)                        (** LogSystem::level(l) *)
| CSetLevel (l : nat) (z : Z)           (** Listener::level *)
| CEnable (l : nat) (b : bool)          (** Listener::enable *)
| CDetach (l : nat)                     (** Listener::detach *)
| CCategory (l : nat) (re : string)     (** Listener::category *)
| CDiags                                (** getDiags *)
| CThrow                                (** not a call: the caller's own code throws an exception *).

(** Fields of Diags (logsystem.h L238-248). *)
Inductive field : Type :=
| FCreated | FDiscarded | FActive | FEnabled | FReceived | FMaxQueue | FPool | FPending.

(** The order in which getDiags reads them (logsystem.cpp L253-274). *)
Definition diag_order : list field :=
  [FCreated; FDiscarded; FActive; FEnabled; FReceived; FMaxQueue; FPool; FPending].

(** Where a thread is in a call. *)
Inductive cpc : Type :=
| Idle
| LogAlloc (m : msg)             (** L217: about to look in the pool *)
| LogNew (m : msg)               (** L224: the pool was empty *)
| LogMake (m : msg)              (** L225: counted, about to be made *)
| LogCtor (m : msg) (o : nat)    (** L92: about to construct the message in object [o] *)
| LogPush (m : msg) (o : nat)    (** L99: about to queue it *)
| StopNotify                     (** L69 *)
| StopLock                       (** L73 *)
| StopJoin                       (** L79, holding m_mtxThread *)
| StartLock                      (** L57 *)
| Diag (todo : list field)       (** in getDiags, with these fields to be read *)
| DiagCount (n : nat) (rest : list nat) (todo : list field)
                                 (** L258: in count_if, [n] enabled listeners so far, these to be asked *).

Record cthread : Type := mkC { c_pc : cpc; c_todo : list call }.

(** The log thread (L147-177); [TNone]: m_logThread is null. *)
Inductive tpc : Type :=
| TNone
| TCheck                                        (** L150-152: about to lock and test *)
| TAsleep                                       (** L151: waiting on m_cvLogs *)
| TGot (o : nat)                                (** L166 *)
| TCount (o : nat)                              (** L190 *)
| TSend (o : nat) (rest : list nat)             (** L191-192, listeners left *)
| TLevel (o : nat) (l : nat) (rest : list nat)  (** L193 *)
| TCat (o : nat) (l : nat) (rest : list nat)    (** L194 *)
| TCall (o : nat) (rest : list nat) (c : cthread) (** L196: in onMessage *)
| TClean (o : nat) (kept todo : list nat)       (** L245-248: listeners kept so far, listeners still to be asked *)
| TDispose (o : nat)                            (** L175, L232 *)
| TDelete (o : nat)                             (** L238 *)
| TFree (o : nat)                               (** L239: counted, about to be deleted *)
| TExited                                       (** L158 *).

Inductive tid : Type := Client (i : nat) | LogThread.

(** What happened, for the record. *)
Inductive ev : Type :=
| EvLog (w : tid) (m : msg) (accepted : bool)  (** log() passed or failed the level test *)
| EvPass (w : tid) (m : msg)                   (** log(Message* ) called *)
| EvAccept (w : tid) (m : msg)                 (** m was queued *)
| EvPop (m : msg)                              (** the log thread took m from the queue *)
| EvBegin (m : msg)                            (** new listeners taken in; the dispatch of m begins *)
| EvSend (m : msg)                             (** m_msgReceived++ *)
| EvCheck (l : nat) (m : msg) (out : string)    (** checkCategory called on l; it wrote out on std::cout *)
| EvDeliver (l : nat) (m : msg)                (** onMessage(m) called on l *)
| EvEnd (m : msg)                              (** all listeners served *)
| EvClean                                      (** the detached listeners were dropped *)
| EvAdd (l : nat)                              (** addListener(l) *)
| EvLevel (z : Z)                              (** the level of the LogSystem was set *)
| EvSet (l : nat) (k : call)                   (** a setting of l was changed, by this call *)
| EvDetach (l : nat)                           (** detach() on l *)
| EvThrown (w : tid)                           (** an exception was thrown: InvalidCategory or the caller's own *)
| EvStopped (w : tid)                          (** stop() returned *)
| EvStarted (w : tid)                          (** start() returned *)
| EvRead (w : tid) (f : field) (v : nat)       (** getDiags read a field *).

(** The members of LogSystem (logsystem.h L266-291), the message objects, the
    listeners and the log thread.  [heap]: contents of the message objects ever
    created, [None] once deleted; the pool has its back first.  [built]/[torn]: how
    often the strings of a Message were constructed / destroyed (ghost). *)
Record sys : Type := mkSys {
  heap : list (option msg);
  pool : list nat;
  queue : list nat;
  terminated : bool;
  unpooled : nat;
  discarded : nat;
  maxq : nat;
  received : nat;
  slevel : Z;
  pending : list nat;
  active : list nat;
  lst : nat -> listener;
  mtx : option tid;
  logt : tpc;
  crashed : option bad;
  built : nat;
  torn : nat }.

Definition set_heap x s := mkSys x (pool s) (queue s) (terminated s) (unpooled s) (discarded s) (maxq s) (received s) (slevel s) (pending s) (active s) (lst s) (mtx s) (logt s) (crashed s) (built s) (torn s).
Definition set_pool x s := mkSys (heap s) x (queue s) (terminated s) (unpooled s) (discarded s) (maxq s) (received s) (slevel s) (pending s) (active s) (lst s) (mtx s) (logt s) (crashed s) (built s) (torn s).
Definition set_queue x s := mkSys (heap s) (pool s) x (terminated s) (unpooled s) (discarded s) (maxq s) (received s) (slevel s) (pending s) (active s) (lst s) (mtx s) (logt s) (crashed s) (built s) (torn s).
Definition set_terminated x s := mkSys (heap s) (pool s) (queue s) x (unpooled s) (discarded s) (maxq s) (received s) (slevel s) (pending s) (active s) (lst s) (mtx s) (logt s) (crashed s) (built s) (torn s).
Definition set_unpooled x s := mkSys (heap s) (pool s) (queue s) (terminated s) x (discarded s) (maxq s) (received s) (slevel s) (pending s) (active s) (lst s) (mtx s) (logt s) (crashed s) (built s) (torn s).
Definition set_discarded x s := mkSys (heap s) (pool s) (queue s) (terminated s) (unpooled s) x (maxq s) (received s) (slevel s) (pending s) (active s) (lst s) (mtx s) (logt s) (crashed s) (built s) (torn s).
Definition set_maxq x s := mkSys (heap s) (pool s) (queue s) (terminated s) (unpooled s) (discarded s) x (received s) (slevel s) (pending s) (active s) (lst s) (mtx s) (logt s) (crashed s) (built s) (torn s).
Definition set_received x s := mkSys (heap s) (pool s) (queue s) (terminated s) (unpooled s) (discarded s) (maxq s) x (slevel s) (pending s) (active s) (lst s) (mtx s) (logt s) (crashed s) (built s) (torn s).
Definition set_slevel x s := mkSys (heap s) (pool s) (queue s) (terminated s) (unpooled s) (discarded s) (maxq s) (received s) x (pending s) (active s) (lst s) (mtx s) (logt s) (crashed s) (built s) (torn s).
Definition set_pending x s := mkSys (heap s) (pool s) (queue s) (terminated s) (unpooled s) (discarded s) (maxq s) (received s) (slevel s) x (active s) (lst s) (mtx s) (logt s) (crashed s) (built s) (torn s).
Definition set_active x s := mkSys (heap s) (pool s) (queue s) (terminated s) (unpooled s) (discarded s) (maxq s) (received s) (slevel s) (pending s) x (lst s) (mtx s) (logt s) (crashed s) (built s) (torn s).
Definition set_lst x s := mkSys (heap s) (pool s) (queue s) (terminated s) (unpooled s) (discarded s) (maxq s) (received s) (slevel s) (pending s) (active s) x (mtx s) (logt s) (crashed s) (built s) (torn s).
Definition set_mtx x s := mkSys (heap s) (pool s) (queue s) (terminated s) (unpooled s) (discarded s) (maxq s) (received s) (slevel s) (pending s) (active s) (lst s) x (logt s) (crashed s) (built s) (torn s).
Definition set_logt x s := mkSys (heap s) (pool s) (queue s) (terminated s) (unpooled s) (discarded s) (maxq s) (received s) (slevel s) (pending s) (active s) (lst s) (mtx s) x (crashed s) (built s) (torn s).
Definition set_crashed x s := mkSys (heap s) (pool s) (queue s) (terminated s) (unpooled s) (discarded s) (maxq s) (received s) (slevel s) (pending s) (active s) (lst s) (mtx s) (logt s) x (built s) (torn s).
Definition set_built x s := mkSys (heap s) (pool s) (queue s) (terminated s) (unpooled s) (discarded s) (maxq s) (received s) (slevel s) (pending s) (active s) (lst s) (mtx s) (logt s) (crashed s) x (torn s).
Definition set_torn x s := mkSys (heap s) (pool s) (queue s) (terminated s) (unpooled s) (discarded s) (maxq s) (received s) (slevel s) (pending s) (active s) (lst s) (mtx s) (logt s) (crashed s) (built s) x.

(** Change the settings of listener [l]. *)
Definition upd_lst (l : nat) (x : listener) (f : nat -> listener) : nat -> listener :=
  fun k => if k =? l then x else f k.

(** m_cvLogs.notify_all(): the log thread, if asleep, will lock and test again. *)
Definition notify (s : sys) : sys := match logt s with TAsleep => set_logt TCheck s | _ => s end.

(** m_logThread == 0 (L58, L74). *)
Definition no_thread (s : sys) : bool := match logt s with TNone => true | _ => false end.

(** One field of getDiags (L255-273), read in one step.  getDiags does not read the number of the
    enabled listeners so: see [DiagCount]. *)
Definition read_field (s : sys) (f : field) : nat :=
  match f with
  | FCreated => unpooled s
  | FDiscarded => discarded s
  | FActive => length (active s)
  | FEnabled => length (filter (fun l => l_enabled (lst s l)) (active s))
  | FReceived => received s
  | FMaxQueue => maxq s
  | FPool => length (pool s)
  | FPending => length (pending s)
  end.

(** Contents of a message object; a deleted or unknown one is never read (C31). *)
Definition content (s : sys) (o : nat) : msg :=
  match nth_error (heap s) o with Some (Some m) => m | _ => empty_msg end.

(** One step of a thread that executes API calls: a client or, from a callback, the
    log thread.  [None]: nothing to do, or blocked. *)
Definition cstep (w : tid) (c : cthread) (s : sys) : option (cthread * sys * list ev) :=
  let go pc s' es := Some (mkC pc (c_todo c), s', es) in
  match c_pc c with
  | Idle =>
      match c_todo c with
      | [] => None
      | k :: todo =>
          let next pc s' es := Some (mkC pc todo, s', es) in
          match k with
          | CLog m =>
              (* L88-90 *)
              if (m_level m >? slevel s)%Z then next Idle s [EvLog w m false]
              else next (LogAlloc m) s [EvLog w m true]
          | CPass m =>
              (* the caller's new Message(...), then L97; any level is accepted *)
              next (LogPush m (length (heap s))) (set_built (S (built s)) (set_heap (heap s ++ [Some m]) s)) [EvPass w m]
          | CAdd l =>
              (* L139-140 *)
              next Idle (set_pending (pending s ++ [l]) s) [EvAdd l]
          | CStart => next StartLock s []
          | CStop =>
              (* L66-68 *)
              next StopNotify (set_terminated true s) []
          | CLevel z => next Idle (set_slevel z s) [EvLevel z]
          | CSetLevel l z => next Idle (set_lst (upd_lst l (set_llevel z (lst s l)) (lst s)) s) [EvSet l k]
          | CEnable l b => next Idle (set_lst (upd_lst l (set_enabled b (lst s l)) (lst s)) s) [EvSet l k]
          | CDetach l => next Idle (set_lst (upd_lst l (set_detached (lst s l)) (lst s)) s) [EvSet l k; EvDetach l]
          | CCategory l re =>
              match set_category re (lst s l) with
              | Some x => next Idle (set_lst (upd_lst l x (lst s)) s) [EvSet l k]
              | None => next Idle s [EvThrown w]
              end
          | CDiags => next (Diag diag_order) s []
          | CThrow =>
              (* sendMessageToListeners (L188) is noexcept: an exception that leaves onMessage
                 terminates the program.  In a client it is the client's own affair. *)
              match w with
              | LogThread => next Idle (set_crashed (Some Terminate) s) [EvThrown w]
              | Client _ => next Idle s [EvThrown w]
              end
          end
      end
  | LogAlloc m =>
      (* L217-222 *)
      match pool s with
      | o :: p => go (LogCtor m o) (set_pool p s) []
      | [] => go (LogNew m) s []
      end
  | LogNew m =>
      (* L224 *)
      go (LogMake m) (set_unpooled (S (unpooled s)) s) []
  | LogMake m =>
      (* L225 *)
      go (LogCtor m (length (heap s))) (set_built (S (built s)) (set_heap (heap s ++ [Some empty_msg]) s)) []
  | LogCtor m o =>
      (* L92: the constructor runs on top of the old contents *)
      go (LogPush m o) (set_built (S (built s)) (set_heap (upd o (fun _ => Some m) (heap s)) s)) []
  | LogPush m o =>
      (* L99-104 *)
      let q := queue s ++ [o] in
      let s1 := set_queue q s in
      let s2 := if maxq s <? length q then set_maxq (length q) s1 else s1 in
      go Idle (notify s2) [EvAccept w m]
  | StopNotify => go StopLock (notify s) []
  | StopLock =>
      (* L73-76 *)
      match mtx s with
      | Some _ => None
      | None => if no_thread s then go Idle s [EvStopped w]
                else go StopJoin (set_mtx (Some w) s) []
      end
  | StopJoin =>
      (* L79-81; join() from the log thread itself throws in a noexcept function *)
      match w with
      | LogThread => go StopJoin (set_crashed (Some Terminate) s) []
      | Client _ =>
          match logt s with
          | TExited => go Idle (set_mtx None (set_logt TNone s)) [EvStopped w]
          | _ => None
          end
      end
  | StartLock =>
      (* L57-60 *)
      match mtx s with
      | Some _ => None
      | None => go Idle (if no_thread s then set_logt TCheck s else s) [EvStarted w]
      end
  | Diag [] => go Idle s []
  | Diag (FEnabled :: fs) =>
      (* L258: begin() and end() *)
      go (DiagCount 0 (active s) fs) s []
  | Diag (f :: fs) => go (Diag fs) s [EvRead w f (read_field s f)]
  | DiagCount n (l :: rest) fs =>
      (* L259: the listeners are asked one after the other.  Simplification: the loop visits those that
         were in m_activeListeners when it began (who changes the vector meanwhile: C43) *)
      go (DiagCount (if l_enabled (lst s l) then S n else n) rest fs) s []
  | DiagCount n [] fs => go (Diag fs) s [EvRead w FEnabled n]
  end.

(** One step of the log thread; [cb] is what the callback does, if one begins. *)
Definition lstep (cb : list call) (s : sys) : option (sys * list ev) :=
  match logt s with
  | TNone | TAsleep | TExited => None
  | TCheck =>
      (* L150-163 *)
      if terminated s then Some (set_logt TExited s, [])
      else match queue s with
           | [] => Some (set_logt TAsleep s, [])
           | o :: q => Some (set_logt (TGot o) (set_queue q s), [EvPop (content s o)])
           end
  | TGot o =>
      (* L166, L182-185 *)
      Some (set_logt (TCount o) (set_pending [] (set_active (active s ++ pending s) s)),
            [EvBegin (content s o)])
  | TCount o =>
      (* L190-191 *)
      Some (set_logt (TSend o (active s)) (set_received (S (received s)) s), [EvSend (content s o)])
  | TSend o [] => Some (set_logt (TClean o [] (active s)) s, [EvEnd (content s o)])
  | TSend o (l :: rest) =>
      (* L192 *)
      if l_enabled (lst s l) then Some (set_logt (TLevel o l rest) s, [])
      else Some (set_logt (TSend o rest) s, [])
  | TLevel o l rest =>
      (* L193 *)
      if (l_level (lst s l) >=? m_level (content s o))%Z then Some (set_logt (TCat o l rest) s, [])
      else Some (set_logt (TSend o rest) s, [])
  | TCat o l rest =>
      (* L194-196 *)
      let e := EvCheck l (content s o) (checkCategory_out (lst s l) (m_cat (content s o))) in
      if checkCategory (lst s l) (m_cat (content s o))
      then Some (set_logt (TCall o rest (mkC Idle cb)) s, [e; EvDeliver l (content s o)])
      else Some (set_logt (TSend o rest) s, [e])
  | TCall o rest c =>
      match c_pc c, c_todo c with
      | Idle, [] => Some (set_logt (TSend o rest) s, [])
      | _, _ => match cstep LogThread c s with
                | Some (c', s', es) => Some (set_logt (TCall o rest c') s', es)
                | None => None
                end
      end
  | TClean o kept (l :: todo) =>
      (* L245-247: remove_if asks the listeners one after the other; nothing keeps the other
         threads from detaching them meanwhile.  Simplification: the listeners are moved within
         m_activeListeners in the last step, not one by one (who looks meanwhile: C43) *)
      Some (set_logt (TClean o (if l_detached (lst s l) then kept else kept ++ [l]) todo) s, [])
  | TClean o kept [] =>
      (* L248 *)
      Some (set_logt (TDispose o) (set_active kept s), [EvClean])
  | TDispose o =>
      (* L232-236 *)
      if length (pool s) <? POOL then Some (set_logt TCheck (set_pool (o :: pool s) s), [])
      else Some (set_logt (TDelete o) s, [])
  | TDelete o =>
      (* L238 *)
      Some (set_logt (TFree o) (set_discarded (S (discarded s)) s), [])
  | TFree o =>
      (* L239 *)
      Some (set_logt TCheck (set_torn (S (torn s)) (set_heap (upd o (fun _ => None) (heap s)) s)), [])
  end.

(** ** The whole program *)

Record world : Type := mkWorld { w_sys : sys; w_clients : list cthread }.

(** Who moves: a client, the log thread, or nobody but the condition variable wakes up
    spuriously. *)
Inductive choice : Type := Go (i : nat) | GoLog (cb : list call) | Wake.

Definition step (ch : choice) (w : world) : option (world * list ev) :=
  match crashed (w_sys w) with
  | Some _ => None
  | None =>
      match ch with
      | Go i =>
          match nth_error (w_clients w) i with
          | None => None
          | Some c =>
              match cstep (Client i) c (w_sys w) with
              | Some (c', s', es) => Some (mkWorld s' (upd i (fun _ => c') (w_clients w)), es)
              | None => None
              end
          end
      | GoLog cb =>
          match lstep cb (w_sys w) with
          | Some (s', es) => Some (mkWorld s' (w_clients w), es)
          | None => None
          end
      | Wake =>
          match logt (w_sys w) with
          | TAsleep => Some (mkWorld (set_logt TCheck (w_sys w)) (w_clients w), [])
          | _ => None
          end
      end
  end.

Fixpoint run (sched : list choice) (w : world) : option (world * list ev) :=
  match sched with
  | [] => Some (w, [])
  | ch :: sched' =>
      match step ch w with
      | None => None
      | Some (w', es) => match run sched' w' with
                         | None => None
                         | Some (w'', es') => Some (w'', es ++ es')
                         end
      end
  end.

(** logsystem.cpp L21-37 LogSystem(startNow).  m_isTerminated is not initialised:
    [garbage] is what the memory contains.  The listeners start with any settings. *)
Definition construct (startNow garbage : bool) (ls : nat -> listener) : sys :=
  mkSys (repeat (Some empty_msg) POOL) (rev (seq 0 POOL)) [] garbage 0 0 0 0 TRACE [] [] ls None
    (if startNow then TCheck else TNone) None POOL 0.

Definition init (startNow garbage : bool) (ls : nat -> listener) (progs : list (list call)) : world :=
  mkWorld (construct startNow garbage ls) (map (mkC Idle) progs).

End LogSystem.

Arguments checkCategory_out : simpl never.
