(** * What is said about LogSystem with the statements of its critical sections one by one. *)
From Coq Require Import ZArith String Bool List Arith.
From Verif Require Import Base LogModel LogSpec LogAccess LogLockModel.
Import ListNotations.

Section Spec.
Context {RE : Type}.
Variable compile : string -> option RE.
Variable rmatch : string -> RE -> bool.

(** As [reaches] of LogSpec.v, for the statements one by one. *)
Definition freaches (sn g : bool) (ls : nat -> @listener RE) (progs : list (list call)) (fw : @fworld RE) (tr : list ev) : Prop :=
  exists sched, frun compile rmatch sched (finit (init sn g ls progs)) = Some (fw, tr).

(** Thread [t] is between locking and unlocking mutex [k]. *)
Definition inside (fw : @fworld RE) (t : tid) (k : lock) : Prop := exists q, f_sect fw t = Some (k, q).

(** Nobody is. *)
Definition quiet (fw : @fworld RE) : Prop := forall t k, ~ inside fw t k.

(** The program is still in the realm of defined behaviour. *)
Definition defined (fw : @fworld RE) : Prop := crashed (w_sys (f_world fw)) <> Some UB.

(** Somebody has queued a message and not yet called notify_all(). *)
Definition will_notify (fw : @fworld RE) : Prop :=
  exists t q, f_sect fw t = Some (MMessage, q) /\ (q = SMax \/ q = SMaxSet \/ q = SNotify).

(** Client [i] is in getDiags() and about to look at the list of the active listeners, or going through it. *)
Definition looking (fw : @fworld RE) (i : nat) : Prop :=
  (exists f fs, at_pc (f_world fw) i (Diag (f :: fs)) /\ (f = FActive \/ f = FEnabled)) \/
  (exists n rest fs, at_pc (f_world fw) i (DiagCount n rest fs)).

(** The log thread is appending to that list. *)
Definition appending (fw : @fworld RE) : Prop := exists n, f_sect fw LogThread = Some (MListeners, SCopy n).

(** Infinite executions: as [execution] of LogSpec.v. *)
Definition fexecution (fs : nat -> @fworld RE) (evs : nat -> list ev) : Prop :=
  forall n, (exists ch, fstep compile rmatch ch (fs n) = Some (fs (S n), evs n)) \/ (fs (S n) = fs n /\ evs n = []).

(** Scheduler and mutexes are fair to thread [t]: it moves again and again, or from some time
    on it is never able to.  So if a mutex for which it waits becomes free again and again, it
    will get it. *)
Definition ffair (t : tid) (fs : nat -> @fworld RE) (evs : nat -> list ev) : Prop :=
  forall n,
    (exists k, n <= k /\ exists ch, of_thread t ch /\ fstep compile rmatch ch (fs k) = Some (fs (S k), evs k)) \/
    (exists m, n <= m /\ forall k, m <= k -> forall ch, of_thread t ch -> fstep compile rmatch ch (fs k) = None).

End Spec.

(** A thread's own moves. *)
Definition own_move (t : tid) : choice := match t with Client i => Go i | LogThread => GoLog [] end.
