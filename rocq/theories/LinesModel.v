(** * Model of LogStreamListener::onMessage called by several threads at once
    (src/engine/logstream.cpp L23-67, src/include/falcon/logstream.h L44-61).

    Every LogSystem has a log thread of its own, and the program can call onMessage too.  Threads
    call onMessage and change the destinations of any number of listeners; each insertion into
    a stream is a step.  localtime() (L27) returns the address of an object that all
    threads share: the call and the copy of the object are two steps.
    Simplifications: an insertion is one step even if another thread inserts into the same stream
    (without synchronisation that is undefined for most streams).  The destination is m_dummy, whose output is lost, or a stream that is alive;
    LogStreamModel.v has null pointers and destroyed streams.  L40-41 are one step. *)

From Coq Require Import ZArith String Ascii Bool List Arith.
From Verif Require Import Base LogModel TextModel StreamModel LogStreamModel.
Import ListNotations.
Open Scope string_scope.
Open Scope list_scope.

(** What a thread does.  [now] is the local time when the call looks at the clock (L25-26). *)
Inductive mcall : Type :=
| OnMsg (l : nat) (now : tm) (m : msg)
| Direct (l s : nat)   (** own, share or writeOn: listener [l] writes on stream [s] *).

Inductive mpc : Type :=
| Away
| MTime (l : nat) (now : tm) (m : msg)             (** L27: localtime(&tt) *)
| MCopy (l : nat) (now : tm) (m : msg)             (** L27: local_tm = *... *)
| MLock (l : nat) (now t : tm) (m : msg)           (** L40, with local_tm = [t] *)
| MPut (l : nat) (s : option nat) (now t : tm) (m : msg) (rest : list ins)  (** L44-63, insertions left *).

Record mthread : Type := mkMT { m_pc : mpc; m_todo : list mcall }.

(** [Wrote l s now t m]: onMessage of listener [l] returns; it was called at [now], shows [t],
    and has written on [s]. *)
Inductive mevent : Type := Quiet | Wrote (l : nat) (s : option nat) (now t : tm) (m : msg).

(** The object of localtime(); m_mtxStream of each listener, by the thread that holds it; m_pout
    ([None]: m_dummy); what each stream contains and its state; the threads. *)
Record mstate : Type := mkMS {
  ms_tm : tm; ms_lock : nat -> option nat; ms_pout : nat -> option nat;
  ms_str : nat -> string * ostate; ms_threads : list mthread }.

Definition put_at {A : Type} (x : nat) (a : A) (f : nat -> A) : nat -> A := fun y => if (y =? x)%nat then a else f y.

(** out << i *)
Definition insert_at (s : option nat) (i : ins) (f : nat -> string * ostate) : nat -> string * ostate :=
  match s with
  | None => f
  | Some k => let (x, o) := insert i (snd (f k)) in put_at k ((fst (f k) ++ x)%string, o) f
  end.

(** One step of thread [t]; [None]: nothing to do, or blocked. *)
Definition mstep (t : nat) (w : mstate) : option (mstate * mevent) :=
  match nth_error (ms_threads w) t with
  | None => None
  | Some th =>
      let at_ p := upd t (fun _ => mkMT p (m_todo th)) (ms_threads w) in
      match m_pc th with
      | Away =>
          match m_todo th with
          | [] => None
          | k :: todo =>
              let next p := upd t (fun _ => mkMT p todo) (ms_threads w) in
              match k with
              | OnMsg l now m => Some (mkMS (ms_tm w) (ms_lock w) (ms_pout w) (ms_str w) (next (MTime l now m)), Quiet)
              | Direct l s =>
                  (* logstream.h L45-47, L52-54, L59-60: one section of m_mtxStream *)
                  match ms_lock w l with
                  | Some _ => None
                  | None => Some (mkMS (ms_tm w) (ms_lock w) (put_at l (Some s) (ms_pout w)) (ms_str w) (next Away), Quiet)
                  end
              end
          end
      | MTime l now m => Some (mkMS now (ms_lock w) (ms_pout w) (ms_str w) (at_ (MCopy l now m)), Quiet)
      | MCopy l now m => Some (mkMS (ms_tm w) (ms_lock w) (ms_pout w) (ms_str w) (at_ (MLock l now (ms_tm w) m)), Quiet)
      | MLock l now x m =>
          match ms_lock w l with
          | Some _ => None
          | None => Some (mkMS (ms_tm w) (put_at l (Some t) (ms_lock w)) (ms_pout w) (ms_str w)
                            (at_ (MPut l (ms_pout w l) now x m (line_ins x m))), Quiet)
          end
      | MPut l s now x m [] =>
          Some (mkMS (ms_tm w) (put_at l None (ms_lock w)) (ms_pout w) (ms_str w) (at_ Away), Wrote l s now x m)
      | MPut l s now x m (i :: rest) =>
          Some (mkMS (ms_tm w) (ms_lock w) (ms_pout w) (insert_at s i (ms_str w)) (at_ (MPut l s now x m rest)), Quiet)
      end
  end.

Fixpoint mrun (sched : list nat) (w : mstate) : option (mstate * list (nat * mevent)) :=
  match sched with
  | [] => Some (w, [])
  | t :: sched' =>
      match mstep t w with
      | None => None
      | Some (w', e) => match mrun sched' w' with
                        | None => None
                        | Some (w'', es) => Some (w'', (t, e) :: es)
                        end
      end
  end.

(** New listeners, new streams, threads with these things to do. *)
Definition minit (x : tm) (progs : list (list mcall)) : mstate :=
  mkMS x (fun _ => None) (fun _ => None) (fun _ => ("", os0)) (map (mkMT Away) progs).
