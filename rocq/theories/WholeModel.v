(** * Model of the whole logging service: threads that execute log statements (LoggerModel.v)
    on a running LogSystem (LogModel.v).

    Logger is a LogSystem (logger.h L249).  Thread [i] executes the instructions of its statements;
    one that reaches commit() (L277-287) calls LogSystem::log, LOGGER.level(z) calls
    LogSystem::level, and the thread goes on when that call has returned.  The level that the
    statements test is that of the LogSystem (L314, L336, L411, L424).  Further threads make
    calls of LogSystem directly, e.g. the one that constructs the Logger adds the default listener
    (logger.cpp L27-31). *)

From Coq Require Import ZArith String Bool List.
From Verif Require Import Base LogModel LoggerModel.
Import ListNotations.
Open Scope list_scope.

(** An event of LogSystem, or of the statements of thread [i].  The second argument of an
    EvCommit means nothing here: the level test of LogSystem::log comes later. *)
Inductive wev : Type := WL (e : ev) | WS (i : nat) (e : lev).

(** The calls of LogSystem that an instruction makes (logger.h L277-287). *)
Definition calls_of (es : list lev) : list call :=
  flat_map (fun e => match e with EvCommit m _ => [CLog m] | EvSetLevel z => [CLevel z] | _ => [] end) es.

(** More calls to make. *)
Definition give (ks : list call) (c : cthread) : cthread := mkC (c_pc c) (c_todo c ++ ks).

Section Whole.
Context {RE : Type}.
Variable compile : string -> option RE.
Variable rmatch : string -> RE -> bool.
Variable min : Z.   (** FALCON_MIN_LOG_LEVEL *)

(** The LogSystem with its threads, and the instructions and thread-local variables of those
    that execute log statements, which come first. *)
Record whole : Type := mkWhole { wh_log : @world RE; wh_code : list (list instr * tls) }.

Inductive wchoice : Type := WThread (i : nat) | WLogThread (cb : list call) | WWake.

(** A step of LogSystem. *)
Definition wlift (ch : choice) (w : whole) : option (whole * list wev) :=
  match step compile rmatch ch (wh_log w) with
  | Some (l, es) => Some (mkWhole l (wh_code w), map WL es)
  | None => None
  end.

(** An instruction of thread [i]. *)
Definition winstr (i : nat) (code : list instr) (t : tls) (w : whole) : option (whole * list wev) :=
  match crashed (w_sys (wh_log w)) with
  | Some _ => None
  | None =>
      match tstep min (slevel (w_sys (wh_log w))) code t with
      | Some (code', t', es) =>
          Some (mkWhole (mkWorld (w_sys (wh_log w)) (upd i (give (calls_of es)) (w_clients (wh_log w))))
                        (upd i (fun _ => (code', t')) (wh_code w)),
                map (WS i) es)
      | None => None
      end
  end.

Definition wstep (ch : wchoice) (w : whole) : option (whole * list wev) :=
  match ch with
  | WLogThread cb => wlift (GoLog cb) w
  | WWake => wlift Wake w
  | WThread i =>
      match nth_error (wh_code w) i, nth_error (w_clients (wh_log w)) i with
      | Some (code, t), Some (mkC Idle []) => winstr i code t w
      | _, _ => wlift (Go i) w
      end
  end.

Fixpoint wrun (sched : list wchoice) (w : whole) : option (whole * list wev) :=
  match sched with
  | [] => Some (w, [])
  | ch :: sched' =>
      match wstep ch w with
      | None => None
      | Some (w', es) => match wrun sched' w' with
                         | None => None
                         | Some (w'', es') => Some (w'', es ++ es')
                         end
      end
  end.

(** Threads with the statements [progs], then threads with the calls [others]. *)
Definition winit (sn g : bool) (ls : nat -> @listener RE) (progs : list (list stmt)) (others : list (list call)) : whole :=
  mkWhole (init sn g ls (map (fun _ => []) progs ++ others)) (map (fun p => (map IStmt p, tls0)) progs).

End Whole.
