(** * Futex (src/include/falcon/futex.h) in terms of memory accesses.

    Which accesses, with which memory orders, a thread makes that runs lock(),
    a guarded section and unlock() any number of times, and may call isLocked()
    at any point.  Simplification: yielding and the spin counter, that make no
    access to shared memory, are left out (they are in FutexModel.v). *)
From Coq Require Import List Arith Bool.
From Verif Require Import FutexMemSpec.
Import ListNotations.

(** L53-54: the orders of compare_exchange_weak. *)
Definition cas_success : order := AcqRel.
Definition cas_failure : order := Relaxed.
(** L65: the order of the store of unlock(). *)
Definition unlock_order : order := Release.
(** L69: the order of the load of isLocked(). *)
Definition isLocked_order : order := Acquire.

Definition order_eqb (a b : order) : bool :=
  match a, b with
  | Relaxed, Relaxed | Acquire, Acquire | Release, Release | AcqRel, AcqRel | SeqCst, SeqCst => true
  | _, _ => false
  end.

Section Model.
Context {X V : Type}.
Implicit Types l : label X V.

(** Where a thread is. *)
Inductive tpc : Type :=
| TOut   (** not in lock() nor in a section *)
| TLoop  (** in lock(), a compare-exchange having failed *)
| TIn    (** lock() has returned *).

(** L52-54 compare_exchange_weak(isOwned, true, ...): the access it makes, whether
    it succeeds, and the new [isOwned].  It may fail spuriously. *)
Definition cas (isOwned : bool) l : option (bool * bool) :=
  match l with
  | Update old new o =>
      if Bool.eqb old isOwned && Bool.eqb new true && order_eqb o cas_success
      then Some (true, isOwned) else None
  | Load v o => if order_eqb o cas_failure then Some (false, v) else None
  | _ => None
  end.

(** L52-57: one turn of the loop, which begins with [isOwned] false (L50, L56). *)
Definition attempt l : option tpc :=
  match cas false l with
  | None => None
  | Some (ok, isOwned') => Some (if negb ok || isOwned' then TLoop else TIn)
  end.

(** L68-70 isLocked() *)
Definition is_isLocked l : bool :=
  match l with Load _ o => order_eqb o isLocked_order | _ => false end.

(** The next access of a thread, and where it is then. *)
Definition tnext (p : tpc) l : option tpc :=
  match p with
  | TOut => if is_isLocked l then Some TOut else attempt l
  | TLoop => attempt l
  | TIn =>
      if is_isLocked l then Some TIn
      else match l with
           | Read _ _ | Write _ _ => Some TIn
           (* L64-66 unlock() *)
           | Store v o => if Bool.eqb v false && order_eqb o unlock_order then Some TOut else None
           | _ => None
           end
  end.

Fixpoint tsteps (p : tpc) (tr : list (label X V)) : option tpc :=
  match tr with
  | [] => Some p
  | l :: tr' => match tnext p l with None => None | Some p' => tsteps p' tr' end
  end.

(** All the threads of an execution use the futex and touch the ordinary
    variables in guarded sections only. *)
Definition guarded (E : execution X V) : Prop :=
  forall t, tsteps TOut (trace E t) <> None.

End Model.
