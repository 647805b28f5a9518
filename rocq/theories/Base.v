(** * Common definitions: outcomes of C++ computations, list helpers.

    Nothing here models a particular file of /repo: it fixes how the
    "abnormal" outcomes of C++ code are represented in all the models. *)

From Coq Require Import List Arith ZArith Lia Bool.
Import ListNotations.

(** What may go irrecoverably wrong in a C++ call. *)
Inductive bad : Type :=
| UB         (** undefined behaviour (invalid dereference, double free, ...) *)
| AssertFail (** a failed [assert] in a debug build: the process aborts *)
| Terminate  (** [std::terminate] (exception out of a [noexcept] function) *)
| Deadlock   (** the calling thread blocks for ever on a lock it holds *).

(** Result of a computation over an object state [S] that returns [A] or
    throws a [std::runtime_error] (the only exception class thrown by the
    modelled stateful code). *)
Inductive res (S A : Type) : Type :=
| ROk (s : S) (a : A)
| RThrow (s : S)
| RBad (b : bad).
Arguments ROk {S A} s a.
Arguments RThrow {S A} s.
Arguments RBad {S A} b.

(** State + exception monad used to write the modelled functions in the
    statement order of the source. *)
Definition M (S A : Type) : Type := S -> res S A.

Definition ret {S A : Type} (a : A) : M S A := fun s => ROk s a.

Definition bind {S A B : Type} (m : M S A) (k : A -> M S B) : M S B :=
  fun s => match m s with
           | ROk s' a => k a s'
           | RThrow s' => RThrow s'
           | RBad b => RBad b
           end.

Definition get {S : Type} : M S S := fun s => ROk s s.
Definition put {S : Type} (s : S) : M S unit := fun _ => ROk s tt.
Definition fail {S A : Type} (b : bad) : M S A := fun _ => RBad b.
Definition throw {S A : Type} : M S A := fun s => RThrow s.

(** An exception leaving a [noexcept] function terminates the program. *)
Definition noexcept {S A : Type} (m : M S A) : M S A :=
  fun s => match m s with
           | RThrow _ => RBad Terminate
           | r => r
           end.

(** [assert(c)]: checked when the build is a debug build, absent otherwise. *)
Definition cassert {S : Type} (debug : bool) (c : M S bool) : M S unit :=
  if debug
  then bind c (fun b => if b then ret tt else fail AssertFail)
  else ret tt.

Declare Scope m_scope.
Delimit Scope m_scope with m.
Notation "x <- m ;; k" := (bind m (fun x => k))
  (at level 61, m at next level, right associativity) : m_scope.
Notation "m ;;; k" := (bind m (fun _ => k))
  (at level 61, right associativity) : m_scope.

(** Replace the [n]-th element of a list by its image under [f]. *)
Fixpoint upd {A : Type} (n : nat) (f : A -> A) (l : list A) : list A :=
  match l, n with
  | [], _ => []
  | x :: l', O => f x :: l'
  | x :: l', S n' => x :: upd n' f l'
  end.

(** A lifted optional value: [None] stands for an invalid access. *)
Definition lift_opt {S A : Type} (o : option A) : M S A :=
  match o with Some a => ret a | None => fail UB end.
