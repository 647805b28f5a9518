(** * What C124 says: the assertions of a stack that threads share. *)

From Coq Require Import List Arith Bool.
From Verif Require Import Base PagedStackModel PagedStackSpec PagedStackExec FutexModel FutexSpec PagedStackThreadsSpec PagedStackAssertModel.
Import ListNotations.

Section Assertions.
Context {T : Type}.

(** A section, in any number of steps, that has the effect of [x]. *)
Definition performs (b : body (process T) (list (retval T))) (x : piece T) : Prop :=
  forall rs d, exec_body b rs d = effect x rs d.

(** The assertion of the call [o] fails on a stack with these contents. *)
Definition alarm (o : op T) (l : list T) : bool :=
  match o with
  | Pop | PopN _ => match l with [] => true | _ => false end
  | Discard n => length l <? n
  | Peek n | PeekReverse n | PopReverse n => length l <? S n
  | PeekDepth d n => (length l <? d) || (d <? S n)
  | _ => false
  end.

(** The sections one after the other on an ideal stack: the contents and the results; the
    first assertion that fails; or a call outside its domain whose assertion did not fail. *)
Inductive verdict : Type := Fine (l : list T) (rs : list (retval T)) | Alarm (o : op T) (l : list T) | Missed (o : op T) (l : list T).

Fixpoint judge (xs : list (piece T)) (l : list T) : verdict :=
  match xs with
  | [] => Fine l []
  | Check o :: r => if alarm o l then Alarm o l else judge r l
  | Act o :: r => match spec_step o l with
                  | None => Missed o l
                  | Some (l', v) => match judge r l' with Fine l'' rs => Fine l'' (v :: rs) | x => x end
                  end
  end.

(** The calls that are made; thread [t]'s part of an order; the results of its calls. *)
Definition acts (xs : list (piece T)) : list (op T) := flat_map (fun x => match x with Act o => [o] | Check _ => [] end) xs.
Definition pieces_of (t : nat) (order : list (nat * piece T)) : list (piece T) := map snd (filter (fun x => fst x =? t) order).
Definition act_order (order : list (nat * piece T)) : list (nat * op T) :=
  flat_map (fun x => match snd x with Act o => [(fst x, o)] | Check _ => [] end) order.

(** The calls whose assertion says exactly that the call is within its domain. *)
Definition asserted (o : op T) : bool :=
  match o with PopN _ | Top | SetTop _ | DiscardAt _ | DiscardFromTop _ => false | _ => true end.

(** Thread 0 makes the calls [p]; then both threads check that the stack is not empty, and then
    thread 0 pops. *)
Definition late_pops (p : list (op T)) : list (nat * piece T) :=
  map (fun x => (0, x)) (flat_map pieces p) ++ [(0, Check Pop); (1, Check Pop); (0, Act Pop)].

End Assertions.
