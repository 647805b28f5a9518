(** * What C94 says: a PagedStack<T, Futex> shared by threads.

    Each call of a member function is a section under the futex (C18).  Its steps are left open:
    any list of steps on the stack and on the thread's own data that, executed without
    interruption, has the effect and the result of the modelled function (pagedstack.h, each
    member function takes std::lock_guard<_Lock> over its whole body). *)

From Coq Require Import List Arith.
From Verif Require Import Base PagedStackModel PagedStackSpec PagedStackExec FutexModel FutexSpec.
Import ListNotations.

Section Threads.
Context {T : Type}.

(** The shared stack, [None] once a call has failed; a thread's own data: the results of its
    calls so far. *)
Definition shared : Type := option (stack T).
Definition results : Type := list (retval T).

(** The section [b] has the effect and the result of the call [o]. *)
Definition implements (b : body shared results) (o : op T) : Prop :=
  forall rs s s' r, exec false o s = ROk s' r -> exec_body b rs (Some s) = (rs ++ [r], Some s').

(** A call in two steps: the result is computed and kept; then the stack is changed. *)
Definition in_two_steps (o : op T) : body shared results :=
  [fun rs d => match d with
               | Some s => match exec false o s with ROk _ r => (rs ++ [r], d) | _ => (rs, d) end
               | None => (rs, None)
               end;
   fun rs d => match d with
               | Some s => match exec false o s with ROk s' _ => (rs, Some s') | _ => (rs, None) end
               | None => (rs, None)
               end].

(** The calls whose whole effect is in one member function and under its lock guard.  Not:
    top() (L435), whose value the caller reads through a reference after the lock was released; discard(begin() + k) and discard(from_top(d)), where the iterator was
    obtained before. *)
Definition guarded_op (o : op T) : bool :=
  match o with Top | DiscardAt _ | DiscardFromTop _ => false | _ => true end.

(** Sequential histories for which C01, or C04 and C06, tell the results. *)
Definition described (ps : nat) (ops : list (op T)) : Prop :=
  forallb core_op ops = true \/ 1 <= ps /\ careful ps false ops [] = true.

(** The calls thread [t] makes in an order of calls; their results. *)
Definition calls_of (t : nat) (order : list (nat * op T)) : list (op T) := map snd (filter (fun x => fst x =? t) order).
Definition results_of (t : nat) (order : list (nat * op T)) (rs : list (retval T)) : list (retval T) :=
  map snd (filter (fun x => fst x =? t) (combine (map fst order) rs)).

(** The sections of these calls, when call [o] is executed as [code o]. *)
Definition sections (code : op T -> body shared results) (order : list (nat * op T)) : list (nat * body shared results) :=
  map (fun x => (fst x, code (snd x))) order.

End Threads.
