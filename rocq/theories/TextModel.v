(** * Text output shared by the models: what std::ostream does with numbers and fields.

    Assumed of the stream: decimal base, no pending width, default alignment. *)

From Coq Require Import ZArith String Ascii Decimal DecimalString DecimalZ.
Open Scope string_scope.

(** operator<<(int), std::to_string: decimal digits, "-" before negative numbers. *)
Definition dec (z : Z) : string := NilZero.string_of_int (Z.to_int z).

(** [n] times the character [c]. *)
Fixpoint fill (n : nat) (c : ascii) : string :=
  match n with O => "" | S n' => String c (fill n' c) end.

(** setfill(c) << setw(w) << s *)
Definition padl (w : nat) (c : ascii) (s : string) : string := fill (w - String.length s) c ++ s.
(** the same with std::left *)
Definition padr (w : nat) (c : ascii) (s : string) : string := s ++ fill (w - String.length s) c.

Definition newline : ascii := "010"%char.
Definition nl : string := String newline "".

(** std::string::rfind(c), npos = None *)
Fixpoint rfind (c : ascii) (s : string) : option nat :=
  match s with
  | "" => None
  | String a s' => match rfind c s' with
                   | Some n => Some (S n)
                   | None => if Ascii.eqb a c then Some 0 else None
                   end
  end.
(** substr(n) *)
Fixpoint drop (n : nat) (s : string) : string :=
  match n, s with S n', String _ s' => drop n' s' | _, _ => s end.

(** std::string(s.c_str()), ostream << s.c_str(): the characters before the first NUL *)
Fixpoint c_str (s : string) : string :=
  match s with
  | "" => ""
  | String a s' => if Ascii.eqb a "000" then "" else String a (c_str s')
  end.
