(** * Model of the settings of a listener, used by several threads at once
    (src/include/falcon/logsystem.h L105-178, src/engine/logsystem.cpp L201-210).

    One listener and any number of threads, the log thread among them, that read and change its
    settings.  Here m_mtxCategory is explicit and the statements executed under it are
    separate steps: [LogModel] takes each such section as one step.  Simplification: the line that
    checkCategory prints (L208) is left out (C103). *)

From Coq Require Import ZArith String Bool List Arith.
From Verif Require Import Base LogModel.
Import ListNotations.
Open Scope string_scope.
Open Scope list_scope.

(** What a thread does with the listener. *)
Inductive lcall : Type :=
| SetCategory (re : string)   (** category(re) *)
| GetCategory                 (** const std::string& r = category() *)
| UseCategory                 (** the text that r refers to is read *)
| Check (cat : string)        (** checkCategory(cat), called by the log thread *)
| SetLevel (z : Z) | GetLevel (** level(z), level() *)
| Enable (b : bool) | IsEnabled
| Detach | IsDetached.

Inductive levent : Type :=
| Tau
| DidSet (re : string)              (** category(re) is about to return *)
| Refused (re : string)             (** category(re) throws InvalidCategory *)
| Used (text : string)              (** the text read through the reference *)
| Checked (cat : string) (ok : bool)
| DidLevel (z : Z) | SawLevel (z : Z)
| DidEnable (b : bool) | SawEnabled (b : bool)
| DidDetach | SawDetached (b : bool).

Section Listener.
Context {RE : Type}.
Variable compile : string -> option RE.
Variable rmatch : string -> RE -> bool.

(** Where a thread is. *)
Inductive lpc : Type :=
| Out
| SetLock (re : string)               (** logsystem.h L124 *)
| SetCompile (re : string)            (** L127, std::regex(regex_cat), holding the mutex *)
| SetRegex (re : string) (r : RE)     (** L127, m_catRegex = *)
| SetText (re : string)               (** L128 *)
| SetDone (re : string)               (** L132: the mutex is released *)
| SetThrow (re : string)              (** L131: the mutex is released *)
| GetLock | GetDone                   (** L139; L140, the mutex is released *)
| ChkLock (cat : string)              (** logsystem.cpp L204 *)
| ChkText (cat : string)              (** L205 *)
| ChkMatch (cat : string)             (** L209 *)
| ChkDone (cat : string) (ok : bool)  (** the mutex is released *).

(** A thread: where it is, what it will do, and whether it has a reference from category(). *)
Record lthread : Type := mkLT { t_pc : lpc; t_todo : list lcall; t_ref : bool }.

(** The members (logsystem.h L171-176), m_mtxCategory by the thread that holds it. *)
Record lstate : Type := mkLS {
  s_lock : option nat; s_text : string; s_regex : RE; s_level : Z; s_enabled : bool; s_detached : bool;
  s_threads : list lthread }.

(** One step of thread [t].  [None]: nothing to do, blocked, or (L140) no reference to read. *)
Definition lstep (t : nat) (s : lstate) : option (lstate * levent) :=
  match nth_error (s_threads s) t with
  | None => None
  | Some th =>
      let at_ p rf := upd t (fun _ => mkLT p (t_todo th) rf) (s_threads s) in
      let go p lk e := Some (mkLS lk (s_text s) (s_regex s) (s_level s) (s_enabled s) (s_detached s) (at_ p (t_ref th)), e) in
      let free := match s_lock s with None => true | Some _ => false end in
      match t_pc th with
      | Out =>
          match t_todo th with
          | [] => None
          | k :: todo =>
              let next p := upd t (fun _ => mkLT p todo (t_ref th)) (s_threads s) in
              let same p e := Some (mkLS (s_lock s) (s_text s) (s_regex s) (s_level s) (s_enabled s) (s_detached s) (next p), e) in
              match k with
              | SetCategory re => same (SetLock re) Tau
              | GetCategory => same GetLock Tau
              | UseCategory => if t_ref th then same Out (Used (s_text s)) else None
              | Check cat =>
                  (* logsystem.cpp L203 *)
                  if String.eqb cat "" then same Out (Checked cat true) else same (ChkLock cat) Tau
              | SetLevel z => Some (mkLS (s_lock s) (s_text s) (s_regex s) z (s_enabled s) (s_detached s) (next Out), DidLevel z)
              | GetLevel => same Out (SawLevel (s_level s))
              | Enable b => Some (mkLS (s_lock s) (s_text s) (s_regex s) (s_level s) b (s_detached s) (next Out), DidEnable b)
              | IsEnabled => same Out (SawEnabled (s_enabled s))
              | Detach => Some (mkLS (s_lock s) (s_text s) (s_regex s) (s_level s) (s_enabled s) true (next Out), DidDetach)
              | IsDetached => same Out (SawDetached (s_detached s))
              end
          end
      | SetLock re => if free then go (SetCompile re) (Some t) Tau else None
      | SetCompile re =>
          match compile re with
          | Some r => go (SetRegex re r) (s_lock s) Tau
          | None => go (SetThrow re) (s_lock s) Tau
          end
      | SetRegex re r =>
          Some (mkLS (s_lock s) (s_text s) r (s_level s) (s_enabled s) (s_detached s) (at_ (SetText re) (t_ref th)), Tau)
      | SetText re =>
          Some (mkLS (s_lock s) re (s_regex s) (s_level s) (s_enabled s) (s_detached s) (at_ (SetDone re) (t_ref th)), Tau)
      | SetDone re => go Out None (DidSet re)
      | SetThrow re => go Out None (Refused re)
      | GetLock => if free then go GetDone (Some t) Tau else None
      | GetDone =>
          Some (mkLS None (s_text s) (s_regex s) (s_level s) (s_enabled s) (s_detached s) (at_ Out true), Tau)
      | ChkLock cat => if free then go (ChkText cat) (Some t) Tau else None
      | ChkText cat => if String.eqb (s_text s) "" then go (ChkDone cat true) (s_lock s) Tau else go (ChkMatch cat) (s_lock s) Tau
      | ChkMatch cat => go (ChkDone cat (rmatch cat (s_regex s))) (s_lock s) Tau
      | ChkDone cat ok => go Out None (Checked cat ok)
      end
  end.

(** A schedule: which thread moves. *)
Fixpoint lrun (sched : list nat) (s : lstate) : option (lstate * list (nat * levent)) :=
  match sched with
  | [] => Some (s, [])
  | t :: sched' =>
      match lstep t s with
      | None => None
      | Some (s', e) => match lrun sched' s' with
                        | None => None
                        | Some (s'', es) => Some (s'', (t, e) :: es)
                        end
      end
  end.

(** L108-112: a new listener, and threads with these things to do. *)
Definition linit (r0 : RE) (progs : list (list lcall)) : lstate :=
  mkLS None "" r0 TRACE true false (map (fun p => mkLT Out p false) progs).

(** ** Accesses to the two members that are not atomic *)

Inductive lloc : Type := AText | ARegex.
(** What is touched, whether it is written, and whether m_mtxCategory is held. *)
Record laccess : Type := mkLA { la_loc : lloc; la_write : bool; la_locked : bool }.

(** The next step of a thread. *)
Definition laccesses (th : lthread) : list laccess :=
  match t_pc th with
  | Out => match t_todo th with
           | UseCategory :: _ => if t_ref th then [mkLA AText false false] else []
           | _ => []
           end
  | SetRegex _ _ => [mkLA ARegex true true]
  | SetText _ => [mkLA AText true true]
  | ChkText _ => [mkLA AText false true]
  | ChkMatch _ => [mkLA ARegex false true]
  | _ => []
  end.

End Listener.
Arguments lpc : clear implicits.
Arguments lthread : clear implicits.
Arguments lstate : clear implicits.
