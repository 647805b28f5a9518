(** * The check macros as the compiler sees them: src/include/falcon/fut/fut.h.

    The arguments are expressions: they may change the state of the program ([S]) and may throw.  The
    macros put their text where it is needed, so an expression can be evaluated more than once.
    What the macro does to the test is a statement of FutModel. *)

From Coq Require Import ZArith String Bool List SpecFloat.
From Verif Require Import TextModel FutModel.
Import ListNotations.
Open Scope string_scope.

Section Macros.
Context {S : Type}.

(** An expression of type [V]: a value and the new state, or an exception. *)
Inductive result (V : Type) : Type := Value (v : V) (s : S) | Thrown (e : exn) (s : S).
Arguments Value {V}.
Arguments Thrown {V}.
Definition expr (V : Type) : Type := S -> result V.

Definition bind {V W} (e : expr V) (k : V -> expr W) : expr W :=
  fun s => match e s with Value v s' => k v s' | Thrown x s' => Thrown x s' end.

(** Both operands of an operator; which one is evaluated first is up to the compiler. *)
Definition both {V W} (left_first : bool) (a : expr V) (b : expr W) : expr (V * W) :=
  if left_first then bind a (fun v => bind b (fun w s => Value (v, w) s)) else bind b (fun w => bind a (fun v s => Value (v, w) s)).

(** L54-60: FALCON_TEST_CHECK_LOGIC; [cmp]: the operator, [show]: what operator<< inserts, [f], [l]:
    __FILE__, __LINE__, [d]: the text of the check.  The argument ACTUAL stands in L55 and in L57.
    EXPECT_EQ .. EXPECT_LE (L62-67) are instances; so are EXPECT_STREQ and EXPECT_STRNE (L68-69), with
    the conversion to std::string in the expressions.  Simplification: the operators have no
    effect on the state. *)
Definition check_logic {V W} (left_first : bool) (cmp : V -> W -> bool) (show : W -> string) (f : string) (l : Z) (d : string)
           (expected : expr V) (actual : expr W) (s : S) : stmt * S :=
  match both left_first expected actual s with
  | Thrown x s' => (SThrow x, s')
  | Value (v, w) s' =>
      if cmp v w then (SCheck true f l d "", s')
      else match actual s' with
           | Thrown x s'' => (SThrow x, s'')
           | Value w' s'' => (SCheck false f l d (show w'), s'')
           end
  end.

(** L71-77: EXPECT_TRUE ([wanted] = true), L79-85: EXPECT_FALSE; [truth]: the conversion to bool. *)
Definition check_truth {W} (wanted : bool) (truth : W -> bool) (show : W -> string) (f : string) (l : Z) (d : string)
           (actual : expr W) (s : S) : stmt * S :=
  match actual s with
  | Thrown x s' => (SThrow x, s')
  | Value w s' =>
      if Bool.eqb (truth w) wanted then (SCheck true f l d "", s')
      else match actual s' with
           | Thrown x s'' => (SThrow x, s'')
           | Value w' s'' => (SCheck false f l d (show w'), s'')
           end
  end.

(** L88-93: EXPECT_FLOAT_EQ ([same] = true), EXPECT_FLOAT_NE: what is compared, and shown, is the
    product with 10000.0, converted to int64.  Only for values for which the conversion is defined:
    [None] otherwise. *)
Definition check_float (same : bool) (f : string) (l : Z) (d : string) (x y : spec_float) : option stmt :=
  match scaled x, scaled y with
  | Some a, Some b => Some (if Bool.eqb (a =? b)%Z same then SCheck true f l d "" else SCheck false f l d (dec b))
  | _, _ => None
  end.

End Macros.
Arguments result : clear implicits.
Arguments Value {S V}.
Arguments Thrown {S V}.
Arguments expr : clear implicits.
