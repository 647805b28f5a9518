(** * Model of Futex and RFutex (src/include/falcon/futex.h, src/engine/futex.cpp).

    Any number of threads run the code one atomic action at a time, in an order
    chosen by a schedule.  Simplification: the memory is sequentially consistent.
    The accesses with their memory orders are modelled in FutexMemModel.v; property
    C96 shows there that guarded data behaves as if it were. *)

From Coq Require Import List Arith NArith Bool.
From Verif Require Import Base.
Import ListNotations.

(** Arithmetic of [unsigned int]. *)
Definition two32 : N := 4294967296.
Definition u32_dec (x : N) : N := (x + (two32 - 1)) mod two32.
Definition u32_inc (x : N) : N := (x + 1) mod two32.

(** ** Futex (futex.h L39-71) *)
Section Futex.

(** [D]: the shared data guarded by the futex; [L]: the local data of a thread. *)
Context {D L : Type}.

(** One action of a critical section on the local and the shared data. *)
Definition action : Type := L -> D -> L * D.
(** A critical section. *)
Definition body : Type := list action.

(** Where a thread is.  L49-62 lock(). *)
Inductive pc : Type :=
| Out                             (** not in lock() nor in a critical section *)
| Cas (isOwned : bool) (sc : N)   (** L52: about to run the compare-exchange *)
| Failed (sc : N)                 (** L56: in the loop body *)
| In (rest : body)                (** lock() has returned; what is left to do *).

Record thread : Type := mkT { t_pc : pc; t_todo : list body; t_local : L }.

(** The atomic flag m_owned (L41), the guarded data, the threads. *)
Record fstate : Type := mkF { owned : bool; data : D; threads : list thread }.

(** What a step shows to the outside. *)
Inductive fevent : Type :=
| Tau
| Acquired (b : body)   (** lock() returns; the section [b] begins *)
| Released              (** unlock() *)
| Yielded               (** std::this_thread::yield() *)
| Retried               (** end of the loop body without a yield *).

(** L52 compare_exchange_weak(isOwned, true): it fails if the flag differs from the
    expected value, and may fail spuriously.  On failure the flag is loaded in the
    expected value.  Result: success, new expected value, new flag. *)
Definition cas_weak (flag expected spurious : bool) : bool * bool * bool :=
  if Bool.eqb flag expected && negb spurious then (true, expected, true)
  else (false, flag, flag).

(** L58-60, with the template parameter [spin]: new counter, and whether the thread yields. *)
Definition after_failure (spin sc : N) : N * bool :=
  if (spin =? 0)%N then (sc, false)
  else let sc' := u32_dec sc in (sc', (sc' =? 0)%N).

(** One step of thread [t]; [spurious] is the choice of the environment for a
    compare-exchange.  [None]: the thread has nothing to do. *)
Definition fstep (spin : N) (t : nat) (spurious : bool) (s : fstate) : option (fstate * fevent) :=
  match nth_error (threads s) t with
  | None => None
  | Some th =>
      let put_t th' flag d := mkF flag d (upd t (fun _ => th') (threads s)) in
      match t_pc th with
      | Out =>
          match t_todo th with
          | [] => None
          | _ :: _ => Some (put_t (mkT (Cas false spin) (t_todo th) (t_local th)) (owned s) (data s), Tau)
          end
      | Cas isOwned sc =>
          let '(ok, isOwned', flag') := cas_weak (owned s) isOwned spurious in
          (* L52/L55: while(!cas || isOwned) *)
          if negb ok || isOwned'
          then Some (put_t (mkT (Failed sc) (t_todo th) (t_local th)) flag' (data s), Tau)
          else match t_todo th with
               | [] => None
               | b :: todo => Some (put_t (mkT (In b) todo (t_local th)) flag' (data s), Acquired b)
               end
      | Failed sc =>
          let (sc', y) := after_failure spin sc in
          Some (put_t (mkT (Cas false sc') (t_todo th) (t_local th)) (owned s) (data s),
                if y then Yielded else Retried)
      | In (a :: rest) =>
          let (l', d') := a (t_local th) (data s) in
          Some (put_t (mkT (In rest) (t_todo th) l') (owned s) d', Tau)
      | In [] =>
          (* L64-66 unlock() *)
          Some (put_t (mkT Out (t_todo th) (t_local th)) false (data s), Released)
      end
  end.

(** L68-70 isLocked(): one load. *)
Definition isLocked (s : fstate) : bool := owned s.

(** A schedule: which thread moves, and whether its compare-exchange, if any, fails
    spuriously.  The trace lists the events with the thread that caused them. *)
Fixpoint frun (spin : N) (sched : list (nat * bool)) (s : fstate) : option (fstate * list (nat * fevent)) :=
  match sched with
  | [] => Some (s, [])
  | (t, sp) :: sched' =>
      match fstep spin t sp s with
      | None => None
      | Some (s', e) =>
          match frun spin sched' s' with
          | None => None
          | Some (s'', es) => Some (s'', (t, e) :: es)
          end
      end
  end.

(** L41-44: a new futex, with threads that have these sections to run and this
    local data. *)
Definition finit (d : D) (progs : list (list body * L)) : fstate :=
  mkF false d (map (fun p => mkT Out (fst p) (snd p)) progs).

End Futex.
Arguments pc : clear implicits.
Arguments thread : clear implicits.
Arguments fstate : clear implicits.
Arguments body : clear implicits.
Arguments action : clear implicits.
Arguments fevent : clear implicits.

(** ** RFutex (futex.h L74-116, futex.cpp L19-20) *)

(** Where a thread is in RFutex::lock (L86-101). *)
Inductive rpc : Type :=
| ROut
| RCas (free : N)        (** L94: about to run the compare-exchange *)
| RLoop (free : N)       (** L97-98: the exchange failed or [free != thread_id] *)
| RCount                 (** L100: out of the loop, about to run ++m_count *).

(** s_thread_id (L76, futex.cpp L20), the position, and ghost data: how often lock()
    has returned, and whether this thread's exchange ever set m_owner to its identity. *)
Record rthread : Type := mkRT { r_id : N; r_pc : rpc; r_returns : nat; r_won : bool }.

(** s_count (L75, futex.cpp L19), m_owner (L77), m_count (L78). *)
Record rstate : Type := mkR { r_ids : N; r_owner : N; r_count : N; r_threads : list rthread }.

(** What the client lets a thread that is outside do. *)
Inductive rcall : Type := CLock | CUnlock.

(** One step of thread [t]; [call] is the call it makes if it is outside.
    Simplification: the two accesses of ++m_count and --m_count are one step. *)
Definition rstep (t : nat) (call : rcall) (s : rstate) : option rstate :=
  match nth_error (r_threads s) t with
  | None => None
  | Some th =>
      let put_t th' ids owner cnt := mkR ids owner cnt (upd t (fun _ => th') (r_threads s)) in
      match r_pc th with
      | ROut =>
          match call with
          | CLock =>
              (* L87-92 *)
              if (r_id th =? 0)%N
              then let id := u32_inc (r_ids s) in
                   Some (put_t (mkRT id (RCas 0) (r_returns th) (r_won th)) id (r_owner s) (r_count s))
              else Some (put_t (mkRT (r_id th) (RCas 0) (r_returns th) (r_won th)) (r_ids s) (r_owner s) (r_count s))
          | CUnlock =>
              (* L103-107 *)
              if (0 <? r_count s)%N
              then let c := (r_count s - 1)%N in
                   Some (put_t th (r_ids s) (if (c =? 0)%N then 0%N else r_owner s) c)
              else Some (put_t th (r_ids s) (r_owner s) (r_count s))
          end
      | RCas free =>
          (* L94-97: compare_exchange_strong; on failure the owner is loaded in [free] *)
          if (r_owner s =? free)%N
          then Some (put_t (mkRT (r_id th) (if (free =? r_id th)%N then RCount else RLoop free) (r_returns th) true)
                       (r_ids s) (r_id th) (r_count s))
          else Some (put_t (mkRT (r_id th) (RLoop (r_owner s)) (r_returns th) (r_won th))
                       (r_ids s) (r_owner s) (r_count s))
      | RLoop _ =>
          (* L98 free = 0 *)
          Some (put_t (mkRT (r_id th) (RCas 0) (r_returns th) (r_won th)) (r_ids s) (r_owner s) (r_count s))
      | RCount =>
          (* L100 ++m_count; lock() returns *)
          Some (put_t (mkRT (r_id th) ROut (S (r_returns th)) (r_won th)) (r_ids s) (r_owner s) (u32_inc (r_count s)))
      end
  end.

Fixpoint rrun (sched : list (nat * rcall)) (s : rstate) : option rstate :=
  match sched with
  | [] => Some s
  | (t, c) :: sched' => match rstep t c s with Some s' => rrun sched' s' | None => None end
  end.

(** L109-111 *)
Definition r_isLocked (s : rstate) : bool := negb (r_owner s =? 0)%N.
(** L113-115, called by thread [t]. *)
Definition r_isOwner (t : nat) (s : rstate) : bool :=
  match nth_error (r_threads s) t with Some th => (r_owner s =? r_id th)%N | None => false end.

(** A new recursive futex and [n] threads that never used one. *)
Definition rinit (n : nat) : rstate := mkR 0 0 0 (repeat (mkRT 0 ROut 0 false) n).
