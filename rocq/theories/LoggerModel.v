(** * Model of Logger (src/include/falcon/logger.h, src/engine/logger.cpp) and of
    LogProxyListener (src/include/falcon/logproxy.h).

    Part 1: threads that execute log statements.  A thread is a list of instructions, the
    code the macros expand to, and its thread-local variables (logger.h L379-384).  Each
    instruction is one step; only the level of the LogSystem is shared.  The code is C++17
    (CMakeLists.txt L19): in "a << b" a is evaluated before b.

    Part 2: categoryFilter and clearFilter.

    Not modelled: exhaustion of memory (LoggerMemModel.v). *)

From Coq Require Import ZArith String Bool List.
From Verif Require Import Base LogModel StreamModel.
Import ListNotations.
Open Scope string_scope.
Open Scope list_scope.

(** ** Part 1 *)

(** The thread-local variables (logger.h L379-384, initial values logger.cpp L20-25);
    [composer] and [cstate] are the text of m_composer and its format and error state. *)
Record tls : Type := mkTls {
  composer : string; category : string; tempcat : string; tfile : string; tline : Z; tlevel : Z; cstate : ostate }.

Definition tls0 : tls := mkTls "" "" "" "" 0 TRACE os0.

(** logger.h L265-271, L289-299: setCategory, setTempCategory, setFile + setLine + setLevel;
    L349-352: operator<<. *)
Definition set_cat (c : string) (t : tls) : tls := mkTls (composer t) c (tempcat t) (tfile t) (tline t) (tlevel t) (cstate t).
Definition set_temp (c : string) (t : tls) : tls := mkTls (composer t) (category t) c (tfile t) (tline t) (tlevel t) (cstate t).
Definition enter (f : string) (l lv : Z) (t : tls) : tls := mkTls (composer t) (category t) (tempcat t) f l lv (cstate t).
Definition put (i : ins) (t : tls) : tls :=
  mkTls (composer t ++ fst (insert i (cstate t)))%string (category t) (tempcat t) (tfile t) (tline t) (tlevel t) (snd (insert i (cstate t))).

(** L277-287 commit(): the message, ... *)
Definition message (t : tls) : msg :=
  mkMsg (tfile t) (tline t) (tlevel t) (if String.eqb (tempcat t) "" then category t else tempcat t) (composer t).
(** ... and the variables afterwards (L284, L386-389): clear() and str("") leave the format. *)
Definition committed (t : tls) : tls := mkTls "" (category t) "" (tfile t) (tline t) (tlevel t) (clear_state (cstate t)).

(** Statements of a program that logs, and operands of <<.  An operand runs [eval] when its
    expression is evaluated, and [render] when it is inserted in the stream; both may log. *)
Inductive stmt : Type :=
| SLog (file : string) (line lvl : Z) (cat : option string) (ops : list operand)
    (** LOG(lvl) << LOG_CAT(cat) << ops, at file:line (L413) *)
| SBlock (file : string) (line lvl : Z) (body : list stmt) (early : bool)
    (** LOG_BLOCK(lvl) { body }; [early]: the body is left by break, return or an exception (L422-425) *)
| SPut (i : ins)          (** an insertion in m_composer: LOGGER << i *)
| SCategory (c : string)  (** LOG_CATEGORY(c) (L411) *)
| SLevel (z : Z)          (** LOGGER.level(z) *)
| SThrow                  (** an exception is thrown, e.g. when an operand is evaluated or rendered *)
| STry (body : list stmt) (** try { body } catch(...) {} *)
with operand : Type := Op (eval render : list stmt).

(** Instructions: statements and what is left of them. [b]: whether m_obj of the AutoEnd or
    BlockEnd object is not null. *)
Inductive instr : Type :=
| IStmt (s : stmt)
| ICat (b : bool) (c : string)        (** operator<<(AutoEnd, category_manipulator) (L402-408) *)
| IOp (b : bool) (o : operand)        (** operator<<(AutoEnd, T) (L393-400) *)
| IEnd (b : bool)                     (** ~AutoEnd (L322) *)
| ITest (b : bool) (lvl : Z) (body : list stmt) (early : bool)  (** the condition of the loop (L424) *)
| IComplete                           (** BlockEnd::complete (L343) *)
| ICatch                              (** the end of a try block *)
| IUnwind                             (** an exception is on its way to the handler *).

(** Is there a handler? *)
Definition caught (k : list instr) : bool := existsb (fun i => match i with ICatch => true | _ => false end) k.

(** What happened, for the record. *)
Inductive lev : Type :=
| EvTest (lvl : Z) (b : bool)          (** a level test and its result *)
| EvGuard (b : bool)                   (** the test of LOG_CATEGORY *)
| EvPut (s : string)                   (** a text went to m_composer *)
| EvCommit (m : msg) (accepted : bool) (** LogSystem::log(m) was called; it passed the test there *)
| EvSetLevel (z : Z)
| EvUncaught                           (** std::terminate *).

Section Logger.

(** FALCON_MIN_LOG_LEVEL (L26-28), fixed at compile time. *)
Variable min : Z.

(** L314, L336, L424: FALCON_MIN_LOG_LEVEL >= lvl && obj.level() >= lvl. *)
Definition enabled (cur lvl : Z) : bool := (lvl <=? min)%Z && (lvl <=? cur)%Z.

(** One instruction of a thread; [cur] is the level of the LogSystem. *)
Definition tstep (cur : Z) (code : list instr) (t : tls) : option (list instr * tls * list lev) :=
  match code with
  | [] => None
  | i :: k =>
      match i with
      | IStmt (SLog f l lv c ops) =>
          (* L311-320, then the operands, then the destructor *)
          let b := enabled cur lv in
          Some ((match c with Some c => [ICat b c] | None => [] end) ++ map (IOp b) ops ++ IEnd b :: k,
                if b then enter f l lv t else t, [EvTest lv b])
      | ICat b c => Some (k, if b then set_temp c t else t, [])
      | IOp b (Op e r) => Some (map IStmt e ++ (if b then map IStmt r else []) ++ k, t, [])
      | IEnd b =>
          if b then Some (k, committed t, [EvCommit (message t) (tlevel t <=? cur)%Z])
          else Some (k, t, [])
      | IStmt (SBlock f l lv body early) =>
          (* L333-342 *)
          let b := enabled cur lv in
          Some (ITest b lv body early :: k, if b then enter f l lv t else t, [EvTest lv b])
      | ITest b lv body early =>
          (* L424; after complete() m_obj is null and the loop ends: that test is left out *)
          let b' := enabled cur lv in
          Some ((if b' && b then map IStmt body ++ (if early then [] else [IComplete]) else []) ++ k, t, [EvTest lv b'])
      | IComplete => Some (k, committed t, [EvCommit (message t) (tlevel t <=? cur)%Z])
      | IStmt (SPut i) => Some (k, put i t, [EvPut (fst (insert i (cstate t)))])
      | IStmt (SCategory c) =>
          (* L411 *)
          let b := (cur <=? min)%Z in
          Some (k, if b then set_cat c t else t, [EvGuard b])
      | IStmt (SLevel z) => Some (k, t, [EvSetLevel z])
      | IStmt (STry body) => Some (map IStmt body ++ ICatch :: k, t, [])
      | ICatch => Some (k, t, [])
      | IStmt SThrow =>
          (* without a handler std::terminate is called, and the stack is not unwound (the
             standard leaves that open); what it does to the other threads is left out *)
          if caught k then Some (IUnwind :: k, t, []) else Some ([], t, [EvUncaught])
      | IUnwind =>
          (* the temporaries on the way are destroyed: ~AutoEnd (L322); BlockEnd has no destructor *)
          match k with
          | [] => Some ([], t, [])
          | IEnd true :: k' => Some (IUnwind :: k', committed t, [EvCommit (message t) (tlevel t <=? cur)%Z])
          | ICatch :: k' => Some (k', t, [])
          | _ :: k' => Some (IUnwind :: k', t, [])
          end
      end
  end.

(** The level after these events. *)
Fixpoint cur_level (es : list lev) (z : Z) : Z :=
  match es with
  | [] => z
  | EvSetLevel z' :: es' => cur_level es' z'
  | _ :: es' => cur_level es' z
  end.

Record lworld : Type := mkLW { lw_level : Z; lw_threads : list (list instr * tls) }.

Definition lwstep (i : nat) (w : lworld) : option (lworld * list (nat * lev)) :=
  match nth_error (lw_threads w) i with
  | None => None
  | Some (code, t) =>
      match tstep (lw_level w) code t with
      | None => None
      | Some (code', t', es) =>
          Some (mkLW (cur_level es (lw_level w)) (upd i (fun _ => (code', t')) (lw_threads w)), map (pair i) es)
      end
  end.

Fixpoint lwrun (sched : list nat) (w : lworld) : option (lworld * list (nat * lev)) :=
  match sched with
  | [] => Some (w, [])
  | i :: sched' =>
      match lwstep i w with
      | None => None
      | Some (w', es) => match lwrun sched' w' with
                         | None => None
                         | Some (w'', es') => Some (w'', es ++ es')
                         end
      end
  end.

(** Threads that execute [progs]; logsystem.cpp L23: the level is TRACE. *)
Definition lwinit (progs : list (list stmt)) : lworld :=
  mkLW TRACE (map (fun p => (map IStmt p, tls0)) progs).

End Logger.

(** ** Part 2 *)

Section Filter.
Context {RE : Type}.
Variable compile : string -> option RE.
Variable no_regex : RE.

(** Logger's members (logger.h L375-377) and the settings of its listeners: number 0 is the
    default listener, the others are the proxies made by categoryFilter, in order; [added]:
    those that addListener received. *)
Record fstate : Type := mkFS {
  f_level : Z; f_base : Z; f_proxy : option nat; f_listeners : list (@listener RE); f_added : list nat }.

(** logger.cpp L27-31, logger.h L377 *)
Definition fnew : fstate := mkFS TRACE TRACE None [new_listener no_regex] [0].

Definition set_f_level (z : Z) (s : fstate) : fstate := mkFS z (f_base s) (f_proxy s) (f_listeners s) (f_added s).
Definition upd_listener (k : nat) (f : @listener RE -> @listener RE) (s : fstate) : fstate :=
  mkFS (f_level s) (f_base s) (f_proxy s) (upd k f (f_listeners s)) (f_added s).

(** L35-37: detach() of the previous proxy *)
Definition detach_proxy (s : fstate) : fstate :=
  match f_proxy s with Some k => upd_listener k set_detached s | None => s end.

(** logger.cpp L34-46 *)
Definition categoryFilter (cat : string) (l : Z) (s : fstate) : res fstate unit :=
  let s1 := detach_proxy s in
  let base := f_level s1 in
  let lev := if (l >? base)%Z then l else base in
  let k := List.length (f_listeners s1) in
  let s2 := mkFS lev base (Some k) (f_listeners s1 ++ [new_listener no_regex]) (f_added s1) in
  match set_category compile cat (new_listener no_regex) with
  | None => RThrow s2
  | Some L => ROk (mkFS lev base (Some k) (f_listeners s1 ++ [set_llevel l L]) (f_added s1 ++ [k])) tt
  end.

(** L49-52; m_proxy is dereferenced without a test *)
Definition clearFilter (s : fstate) : res fstate unit :=
  match f_proxy s with
  | None => RBad UB
  | Some _ => ROk (set_f_level (f_base s) (detach_proxy s)) tt
  end.

(** logproxy.h L41-43: the listener whose onMessage does the work: proxies hand everything
    to the default listener, whose number is 0. *)
Definition proxy_target (k : nat) : nat := 0.

(** Calls of the filter interface and of level(). *)
Inductive fop : Type := FFilter (cat : string) (l : Z) | FClear | FLevel (z : Z).

(** A program over them; it catches InvalidCategory. *)
Fixpoint frun (ops : list fop) (s : fstate) : res fstate unit :=
  match ops with
  | [] => ROk s tt
  | op :: ops' =>
      match (match op with
             | FFilter c l => categoryFilter c l s
             | FClear => clearFilter s
             | FLevel z => ROk (set_f_level z s) tt
             end) with
      | ROk s' _ | RThrow s' => frun ops' s'
      | RBad b => RBad b
      end
  end.

End Filter.
