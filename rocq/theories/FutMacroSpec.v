(** * What a check should do with its arguments. *)

From Coq Require Import ZArith String Bool List.
From Verif Require Import TextModel FutModel FutMacroModel.
Open Scope string_scope.

(** An expression that has a value in every state and leaves the state as it is. *)
Definition pure {S V} (e : expr S V) : Prop := exists val : S -> V, forall s, e s = Value (val s) s.

(** The expression is evaluated, and this is its value; the new state is [s']. *)
Definition gives {S V} (e : expr S V) (s : S) (v : V) (s' : S) : Prop := e s = Value v s'.

(** Both are evaluated, each once, one after the other, with the values [v] and [w]. *)
Definition both_once {S V W} (a : expr S V) (b : expr S W) (s : S) (v : V) (w : W) (s' : S) : Prop :=
  (exists m, gives a s v m /\ gives b m w s') \/ (exists m, gives b s w m /\ gives a m v s').

(** ++n *)
Definition next : expr Z Z := fun n => Value (n + 1)%Z (n + 1)%Z.
