(** * Specification of the futex properties, independent of the lock's code. *)
From Coq Require Import List Arith NArith Bool.
From Verif Require Import Base FutexModel.
Import ListNotations.

Section Spec.
Context {D L : Type}.

(** The state [s] is reached from a new futex by some schedule, with trace [tr]. *)
Definition freaches (spin : N) (d0 : D) (progs : list (list (body D L) * L))
    (s : fstate D L) (tr : list (nat * fevent D L)) : Prop :=
  exists sched, frun spin sched (finit d0 progs) = Some (s, tr).

(** Thread [t] is between the return of lock() and unlock(). *)
Definition holds (s : fstate D L) (t : nat) : Prop :=
  exists th rest, nth_error (threads s) t = Some th /\ t_pc th = In rest.

(** Thread [t] is inside lock(), about to try. *)
Definition trying (s : fstate D L) (t : nat) : Prop :=
  exists th o sc, nth_error (threads s) t = Some th /\ t_pc th = Cas o sc.

(** The sections in the order in which the lock was acquired. *)
Fixpoint acquisitions (tr : list (nat * fevent D L)) : list (nat * body D L) :=
  match tr with
  | [] => []
  | (t, Acquired b) :: tr' => (t, b) :: acquisitions tr'
  | _ :: tr' => acquisitions tr'
  end.

(** Sequential execution. *)
Fixpoint exec_body (b : body D L) (l : L) (d : D) : L * D :=
  match b with
  | [] => (l, d)
  | a :: b' => let (l', d') := a l d in exec_body b' l' d'
  end.

(** Run section [b] of thread [t], to the end, on the shared data and the local data
    of all threads. *)
Definition run_section (tb : nat * body D L) (x : D * list L) : D * list L :=
  let (t, b) := tb in
  match nth_error (snd x) t with
  | None => x
  | Some l => let (l', d') := exec_body b l (fst x) in (d', upd t (fun _ => l') (snd x))
  end.

(** Run sections one after the other. *)
Definition serial (log : list (nat * body D L)) (x : D * list L) : D * list L :=
  fold_left (fun x tb => run_section tb x) log x.

(** What can be seen of the memory of a concurrent state. *)
Definition memory (s : fstate D L) : D * list L := (data s, map t_local (threads s)).

(** Every thread has finished. *)
Definition all_done (s : fstate D L) : Prop :=
  forall th, List.In th (threads s) -> t_pc th = Out /\ t_todo th = [].

(** ** Yields *)

(** The outcome of each failed attempt of thread [t] since its last lock() call
    returned (or since the beginning): did the thread yield? *)
Definition call_yields (t : nat) (tr : list (nat * fevent D L)) : list bool :=
  fold_left (fun acc te =>
    if fst te =? t then
      match snd te with
      | Acquired _ => []
      | Yielded => acc ++ [true]
      | Retried => acc ++ [false]
      | _ => acc
      end
    else acc) tr [].

(** The sections thread [t] has acquired the lock for, in order. *)
Definition acquired_by (t : nat) (tr : list (nat * fevent D L)) : list (body D L) :=
  map snd (filter (fun tb => fst tb =? t) (acquisitions tr)).

End Spec.

(** The comment of futex.h L31-37: after the [i]-th failed attempt ([i >= 1]) of a
    lock() call the thread yields iff the spin count is not zero and divides [i]. *)
Definition documented_yield (spin i : N) : bool :=
  negb (spin =? 0)%N && (i mod spin =? 0)%N.

(** What C24 finds instead: the counter is not reset, so that the thread yields after the
    [spin]-th failed attempt and then only every 2^32 attempts. *)
Definition code_yield (spin i : N) : bool := negb (spin =? 0)%N && (i mod 2 ^ 32 =? spin)%N.

(** The numbers 1 ... n. *)
Definition attempts (n : nat) : list N := map N.of_nat (seq 1 n).

(** A guarded counter, incremented by a load and a store. *)
Definition load : action nat nat := fun _ d => (d, d).
Definition store_inc : action nat nat := fun l _ => (l, S l).
Definition increment : body nat nat := [load; store_inc].
