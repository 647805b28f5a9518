(** * Reading text: used to state what can be read back from an output. *)

From Coq Require Import ZArith String Ascii Decimal DecimalString DecimalZ.
Open Scope string_scope.

(** The number a decimal string denotes. *)
Definition undec (s : string) : option Z := option_map Z.of_int (NilZero.int_of_string s).

(** The character occurs in the string. *)
Fixpoint has (c : ascii) (s : string) : Prop :=
  match s with "" => False | String a s' => a = c \/ has c s' end.

(** The parts before and after the first [c]. *)
Fixpoint upto (c : ascii) (s : string) : option (string * string) :=
  match s with
  | "" => None
  | String a s' => if Ascii.eqb a c then Some ("", s')
                   else match upto c s' with Some (x, y) => Some (String a x, y) | None => None end
  end.

(** The string starts with [p]: the rest. *)
Fixpoint after (p s : string) : option string :=
  match p, s with
  | "", _ => Some s
  | String a p', String b s' => if Ascii.eqb a b then after p' s' else None
  | _, "" => None
  end.

(** The string ends with the character [c]: what is before. *)
Fixpoint chop (c : ascii) (s : string) : option string :=
  match s with
  | "" => None
  | String a "" => if Ascii.eqb a c then Some "" else None
  | String a s' => option_map (String a) (chop c s')
  end.

(** The first [n] characters and the rest. *)
Fixpoint cut (n : nat) (s : string) : option (string * string) :=
  match n, s with
  | O, _ => Some ("", s)
  | S n', String a s' => match cut n' s' with Some (x, y) => Some (String a x, y) | None => None end
  | S _, "" => None
  end.
