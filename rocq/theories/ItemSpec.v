(** * What the properties of Item speak about. *)

From Coq Require Import ZArith QArith Qabs String Ascii Bool List Arith SpecFloat Decimal DecimalString DecimalZ.
From Verif Require Import Base CodeModel CodeSpec ItemModel.
Import ListNotations.
Open Scope string_scope.
Open Scope list_scope.

(** ** Integers *)

(** The argument of Item(v) is an integer of an accepted type: its value. *)
Inductive is_int {E : env} : cval E -> Z -> Prop :=
| int_char : forall z, (-128 <= z <= 255)%Z -> is_int (VChar E z) z      (* signed or unsigned, by platform *)
| int_byte : forall z, (0 <= z <= 255)%Z -> is_int (VByte E z) z
| int_int32 : forall z, (- 2 ^ 31 <= z < 2 ^ 31)%Z -> is_int (VInt32 E z) z
| int_uint32 : forall z, (0 <= z < 2 ^ 32)%Z -> is_int (VUint32 E z) z
| int_int64 : forall z, (- 2 ^ 63 <= z < 2 ^ 63)%Z -> is_int (VInt64 E z) z
| int_uint64 : forall z, (0 <= z < 2 ^ 64)%Z -> is_int (VUint64 E z) z.

Definition int64_range (z : Z) : Prop := (- 2 ^ 63 <= z < 2 ^ 63)%Z.

(** The decimal form. *)
Definition decimal (z : Z) : string := NilZero.string_of_int (Z.to_int z).

(** ** Numbers in text *)

Definition digits : list ascii := list_ascii_of_string "0123456789".
Definition all_digits (s : string) : Prop := Forall (fun c => In c digits) (list_ascii_of_string s).
Definition all_blanks (s : string) : Prop := Forall (fun c => In c blanks) (list_ascii_of_string s).
Definition starts_with_digit (s : string) : Prop := match s with EmptyString => False | String c _ => In c digits end.

(** Positional notation. *)
Fixpoint positional (s : string) : Z :=
  match s with
  | EmptyString => 0
  | String c s' => ((Z.of_nat (nat_of_ascii c) - 48) * 10 ^ Z.of_nat (String.length s') + positional s')%Z
  end.

(** [s] is blanks, an optional sign and digits, and denotes [z]. *)
Definition numeral (s : string) (z : Z) : Prop :=
  exists b g d, s = (b ++ g ++ d)%string /\ all_blanks b /\ all_digits d /\ d <> "" /\
    ((g = "" /\ z = positional d) \/ (g = "+" /\ z = positional d) \/ (g = "-" /\ z = (- positional d)%Z)).
(** [s] starts with a numeral, the longest possible one denoting [z]; [rest] follows it. *)
Definition starts_with_numeral (s : string) (z : Z) (rest : string) : Prop :=
  exists n, s = (n ++ rest)%string /\ numeral n z /\ ~ starts_with_digit rest.

(** ** Doubles *)

(** The rational number a double stands for; none for infinities and NaN. *)
Definition rational (d : spec_float) : option Q :=
  match d with
  | S754_zero _ => Some 0%Q
  | S754_finite s m e =>
      let z := if s then Z.neg m else Z.pos m in
      Some (match e with Zneg k => z # (2 ^ k) | _ => inject_Z (z * 2 ^ e) end)
  | _ => None
  end.

(** [z] is [x] truncated towards zero. *)
Definition truncated (x : Q) (z : Z) : Prop :=
  (inject_Z (Z.abs z) <= Qabs x < inject_Z (Z.abs z + 1))%Q /\ (0 <= inject_Z z * x)%Q.

(** ** Ownership *)

(** The item refers to a string or a big number of its own. *)
Definition owns {E : env} (v : cval E) : bool :=
  match v with VCString _ _ | VString _ _ | VBig _ _ => true | _ => false end.

(** Cells not deleted, and cells that an item refers to. *)
Definition live_cells {E : env} (s : istate E) : list nat :=
  filter (fun p => match nth_error (cells E s) p with Some (Some _) => true | _ => false end) (seq 0 (List.length (cells E s))).
Definition owned_cells {E : env} (s : istate E) : list nat :=
  flat_map (fun o => match i_handler (snd o), i_data (snd o) with
                     | HString, DPtr (PCell n) | HBig, DPtr (PCell n) => [n]
                     | _, _ => []
                     end) (items E s).

(** What items show; [None]: a default item. *)
Definition word (z : Z) : Z := if (z <? 2 ^ 63)%Z then z else (z - 2 ^ 64)%Z.
Definition shown {E : env} (v : option (cval E)) : string :=
  match v with
  | None => "nil"
  | Some (VBool _ b) => if b then "true" else "false"
  | Some (VChar _ z) | Some (VByte _ z) | Some (VInt32 _ z) | Some (VUint32 _ z) | Some (VInt64 _ z) => decimal z
  | Some (VUint64 _ z) => decimal (word z)
  | Some (VNum _ d) => num_str E d
  | Some (VCString _ (Some s)) => before_nul s
  | Some (VString _ s) => s
  | Some (VBig _ n) => big_str E n
  | _ => ""
  end.

Definition truth {E : env} (v : option (cval E)) : bool :=
  match v with
  | None => false
  | Some (VBool _ b) => b
  | Some (VChar _ z) | Some (VByte _ z) | Some (VInt32 _ z) | Some (VUint32 _ z) | Some (VInt64 _ z)
  | Some (VUint64 _ z) => negb (z =? 0)%Z
  | Some (VNum _ d) => match d with S754_zero _ => false | _ => true end
  | Some (VCString _ (Some s)) => match before_nul s with "" => false | _ => true end
  | Some (VString _ s) => match s with "" => false | _ => true end
  | Some (VBig _ n) => negb (big_zero E n)
  | _ => false
  end.

(** The item refers to a string or a big number. *)
Definition deep (i : item) : bool := match i_handler i with HString | HBig => true | _ => false end.
(** The type needs no storage of its own. *)
Definition flat (h : handler) : bool := match h with HString | HBig => false | _ => true end.

(** Text of the default value of a type without separate storage: nil, false, 0, +0.0. *)
Definition default_text (E : env) (h : handler) : string :=
  match h with
  | HNil => "nil"
  | HBool => "false"
  | HInt => "0"
  | _ => num_str E (S754_zero false)
  end.

(** The items of a program by name, as values. *)
Definition vals (E : env) : Type := list (nat * option (cval E)).
Fixpoint vfind {E : env} (x : nat) (l : vals E) : option (option (cval E)) :=
  match l with [] => None | (y, t) :: l' => if (x =? y)%nat then Some t else vfind x l' end.
Fixpoint vdel {E : env} (x : nat) (l : vals E) : vals E :=
  match l with [] => [] | (y, t) :: l' => if (x =? y)%nat then l' else (y, t) :: vdel x l' end.
Definition vowns {E : env} (v : option (cval E)) : bool := match v with Some u => owns u | None => false end.

(** The integer arguments are values of their types. *)
Definition well_typed {E : env} (v : cval E) : Prop :=
  match v with
  | VChar _ _ | VByte _ _ | VInt32 _ _ | VUint32 _ _ | VInt64 _ _ | VUint64 _ _ => exists z, is_int v z
  | VCString _ None => False
  | _ => True
  end.

(** The integer an item stands for.  A text stands for the numeral it starts with and a double for
    its truncation, if they are in range; elsewhere toInt() gives none (C62, C65). *)
Definition int_value {E : env} (v : option (cval E)) (z : Z) : Prop :=
  match v with
  | None => z = 0%Z
  | Some (VBool _ b) => z = (if b then 1 else 0)%Z
  | Some (VChar _ n) | Some (VByte _ n) | Some (VInt32 _ n) | Some (VUint32 _ n) | Some (VInt64 _ n) => z = n
  | Some (VUint64 _ n) => z = word n
  | Some (VNum _ d) => exists x, rational d = Some x /\ truncated x z /\ int64_range z
  | Some (VCString _ (Some s)) => int64_range z /\ exists rest, starts_with_numeral (before_nul s) z rest
  | Some (VString _ s) => int64_range z /\ exists rest, starts_with_numeral s z rest
  | Some (VBig _ n) => z = big_int E n
  | _ => False
  end.

(** The program should observe [r], with items being values [l].  False if it copies or assigns an
    owning item, or calls toInt() where there is no integer. *)
Fixpoint ideal_items {E : env} (ops : list (iop E)) (l : vals E) (r : list iout) : Prop :=
  match ops with
  | [] => r = []
  | INil _ x :: ops' => match vfind x l with None => ideal_items ops' ((x, None) :: l) r | Some _ => ideal_items ops' l r end
  | INew _ x (VOther _) :: ops' => match vfind x l with
                                   | None => exists r', r = ORejected :: r' /\ ideal_items ops' l r'
                                   | Some _ => ideal_items ops' l r
                                   end
  | INew _ x v :: ops' => match vfind x l with None => ideal_items ops' ((x, Some v) :: l) r | Some _ => ideal_items ops' l r end
  | ICopy _ x y :: ops' => match vfind x l, vfind y l with
                           | None, Some v => vowns v = false /\ ideal_items ops' ((x, v) :: l) r
                           | _, _ => ideal_items ops' l r
                           end
  | IAssign _ x y :: ops' => match vfind x l, vfind y l with
                             | Some u, Some v => (vowns u = false /\ vowns v = false) /\ ideal_items ops' ((x, v) :: vdel x l) r
                             | _, _ => ideal_items ops' l r
                             end
  | IDestroy _ x :: ops' => ideal_items ops' (vdel x l) r
  | IToString _ x :: ops' => match vfind x l with
                             | Some v => exists r', r = OText (shown v) :: r' /\ ideal_items ops' l r'
                             | None => ideal_items ops' l r
                             end
  | IToBool _ x :: ops' => match vfind x l with
                           | Some v => exists r', r = OBool (truth v) :: r' /\ ideal_items ops' l r'
                           | None => ideal_items ops' l r
                           end
  | IToInt _ x :: ops' => match vfind x l with
                          | Some v => exists z r', r = OInt z :: r' /\ int_value v z /\ ideal_items ops' l r'
                          | None => ideal_items ops' l r
                          end
  end.
Definition typed_program {E : env} (ops : list (iop E)) : Prop :=
  Forall (fun op => match op with INew _ _ v => well_typed v | _ => True end) ops.
