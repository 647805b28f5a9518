(** * Model of std::ostream: the format state and the insertions that the modelled code uses
    (C++17, [ostream.formatted], [facet.num.put.virtuals]; classic locale).

    It is not code of /repo; logger.h L349-352 and logstream.cpp L43-64 make insertions on streams that
    the program has at hand too, and that keep their format state from one use to the next. *)

From Coq Require Import ZArith NArith String Ascii Bool List Arith.
From Verif Require Import TextModel.
Import ListNotations.
Open Scope string_scope.
Open Scope list_scope.

Inductive base : Type := BDec | BOct | BHex.
Inductive adjust : Type := ARight | ALeft | AInternal.   (** [ARight]: std::right, or nothing set *)

(** flags(), fill(), width() *)
Record fmt : Type := mkFmt {
  fm_base : base; fm_adjust : adjust; fm_showbase : bool; fm_showpos : bool; fm_upper : bool; fm_fill : ascii; fm_width : nat }.

(** A new stream. *)
Definition fmt0 : fmt := mkFmt BDec ARight false false false " " 0.

(** Manipulators. *)
Inductive manip : Type :=
| MBase (b : base)        (** std::dec, std::oct, std::hex *)
| MAdjust (a : adjust)    (** std::right, std::left, std::internal *)
| MShowbase (x : bool) | MShowpos (x : bool) | MUpper (x : bool)
| MFill (c : ascii)       (** std::setfill(c) *)
| MSetw (n : nat)         (** std::setw(n) *).

Definition set_width (n : nat) (f : fmt) : fmt :=
  mkFmt (fm_base f) (fm_adjust f) (fm_showbase f) (fm_showpos f) (fm_upper f) (fm_fill f) n.

Definition apply_manip (m : manip) (f : fmt) : fmt :=
  match m with
  | MBase b => mkFmt b (fm_adjust f) (fm_showbase f) (fm_showpos f) (fm_upper f) (fm_fill f) (fm_width f)
  | MAdjust a => mkFmt (fm_base f) a (fm_showbase f) (fm_showpos f) (fm_upper f) (fm_fill f) (fm_width f)
  | MShowbase x => mkFmt (fm_base f) (fm_adjust f) x (fm_showpos f) (fm_upper f) (fm_fill f) (fm_width f)
  | MShowpos x => mkFmt (fm_base f) (fm_adjust f) (fm_showbase f) x (fm_upper f) (fm_fill f) (fm_width f)
  | MUpper x => mkFmt (fm_base f) (fm_adjust f) (fm_showbase f) (fm_showpos f) x (fm_fill f) (fm_width f)
  | MFill c => mkFmt (fm_base f) (fm_adjust f) (fm_showbase f) (fm_showpos f) (fm_upper f) c (fm_width f)
  | MSetw n => set_width n f
  end.

(** Digits of [n] to the base [b]. *)
Definition digit_char (up : bool) (d : N) : ascii := ascii_of_N (if (d <? 10)%N then 48 + d else (if up then 55 else 87) + d)%N.
Fixpoint digits (fuel : nat) (up : bool) (b n : N) (acc : string) : string :=
  match fuel with
  | O => acc
  | S fuel' => let acc' := String (digit_char up (n mod b)%N) acc in
               if (n / b =? 0)%N then acc' else digits fuel' up b (n / b)%N acc'
  end.
Definition radix (up : bool) (b n : N) : string := digits (S (N.size_nat n)) up b n "".

(** An int: the sign or base prefix, after which std::internal pads, and the digits.  In octal
    and hexadecimal it is converted to unsigned int first. *)
Definition int_text (f : fmt) (z : Z) : string * string :=
  match fm_base f with
  | BDec => (if (z <? 0)%Z then "-" else if fm_showpos f then "+" else "", dec (Z.abs z))
  | BOct => let n := Z.to_N (z mod 2 ^ 32) in ("", (if fm_showbase f && negb (n =? 0)%N then "0" else "") ++ radix false 8 n)%string
  | BHex => let n := Z.to_N (z mod 2 ^ 32) in
            (if fm_showbase f && negb (n =? 0)%N then (if fm_upper f then "0X" else "0x") else "", radix (fm_upper f) 16 n)
  end.

(** Padding to the width. *)
Definition pad (f : fmt) (prefix body : string) : string :=
  let room := fill (fm_width f - String.length (prefix ++ body)%string) (fm_fill f) in
  match fm_adjust f with
  | ARight => (room ++ prefix ++ body)%string
  | ALeft => (prefix ++ body ++ room)%string
  | AInternal => (prefix ++ room ++ body)%string
  end.

(** What can be inserted. *)
Inductive ins : Type :=
| PText (s : string)   (** a std::string or a char array *)
| PChar (c : ascii)
| PInt (z : Z)         (** an int *)
| PFail                (** an insertion that fails, e.g. of a null std::streambuf* *)
| PManip (m : manip).

Coercion PText : string >-> ins.

(** The format and whether badbit or failbit is set. *)
Record ostate : Type := mkOS { o_fmt : fmt; o_bad : bool }.
Definition os0 : ostate := mkOS fmt0 false.

(** The text an insertion adds, and the state after it.  In a failed state nothing is added
    and the width stays; manipulators work all the same. *)
Definition insert (i : ins) (o : ostate) : string * ostate :=
  let f := o_fmt o in
  let done := mkOS (set_width 0 f) false in
  match i with
  | PManip m => ("", mkOS (apply_manip m f) (o_bad o))
  | PText s => if o_bad o then ("", o) else (pad f "" s, done)
  | PChar c => if o_bad o then ("", o) else (pad f "" (String c ""), done)
  | PInt z => if o_bad o then ("", o) else let (p, b) := int_text f z in (pad f p b, done)
  | PFail => ("", mkOS f true)
  end.

Fixpoint emit (l : list ins) (o : ostate) : string * ostate :=
  match l with
  | [] => ("", o)
  | i :: l' => let (s, o1) := insert i o in let (s', o2) := emit l' o1 in ((s ++ s')%string, o2)
  end.

(** clear() *)
Definition clear_state (o : ostate) : ostate := mkOS (o_fmt o) false.
