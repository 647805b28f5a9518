(** * Model of Item, ItemData and the type handlers
    (src/include/falcon/engine/item.h, itemdata.h, handler.h and the *handler.h beside it).

    Not modelled: failure of new; arithmetic and text form of BigNum
    (boost::multiprecision::cpp_dec_float_50) and the text form of double: both are
    parameters, gathered in [env]; Item::get<T>, which no T can instantiate
    (static_cast<T*>(data) at L95 of item.h is ill-formed). *)

From Coq Require Import ZArith String Ascii Bool List Arith SpecFloat.
From Verif Require Import Base TextModel CodeModel.
Import ListNotations.
Open Scope list_scope.

(** ** Parameters *)

(** What boost and the standard library do with big numbers and doubles. *)
Record env : Type := mkEnv {
  big : Type;
  big_str : big -> string;            (** ostream << BigNum *)
  big_zero : big -> bool;             (** BigNum::is_zero *)
  big_int : big -> Z;                 (** BigNum::convert_to<int64> *)
  num_str : spec_float -> string      (** ostream << double *)
}.

Section Item.
Variable E : env.

(** ** Values and representation *)

(** An argument of the constructor template Item(T value), by its type (types.h L27-55).  A
    ccstring is a null pointer or a pointer to characters; [VOther]: any other type. *)
Inductive cval : Type :=
| VBool (b : bool)
| VChar (z : Z) | VByte (z : Z) | VInt32 (z : Z) | VUint32 (z : Z) | VInt64 (z : Z) | VUint64 (z : Z)
| VNum (d : spec_float)
| VCString (s : option string)
| VString (s : string)
| VBig (n : big E)
| VOther.

(** What new creates for a handler. *)
Inductive cell : Type := CStr (s : string) | CBig (n : big E).
(** Cells are numbered in order of creation; [None]: deleted. *)
Definition heap : Type := list (option cell).

(** A pointer: to a cell, or to a temporary whose life has ended. *)
Inductive ptr : Type := PCell (n : nat) | PDead.

(** union ItemData (itemdata.h L23-28) with its active member.  int64Value and uint64Value are
    one member holding a 64 bit word: gcc defines reading one after writing the other. *)
Inductive data : Type :=
| DBool (b : bool)
| DWord (z : Z)
| DNum (d : spec_float)
| DPtr (p : ptr).

Inductive handler : Type := HNil | HBool | HInt | HFloat | HString | HBig.

Record item : Type := mkItem { i_data : data; i_handler : handler }.

Definition two64 : Z := 18446744073709551616.
Definition two63 : Z := 9223372036854775808.
(** static_cast<uint64> *)
Definition u64 (z : Z) : Z := z mod two64.
(** int64Value of a word *)
Definition i64 (w : Z) : Z := if (w <? two63)%Z then w else (w - two64)%Z.

(** The characters before the first NUL: what String(const char* ) copies. *)
Fixpoint zstring (s : string) : string :=
  match s with
  | EmptyString => EmptyString
  | String a s' => if Ascii.eqb a NUL then EmptyString else String a (zstring s')
  end.

(** new String(..), new BigNum(..) *)
Definition alloc (c : cell) (m : heap) : heap * data := (m ++ [Some c], DPtr (PCell (List.length m))).

(** item.h L29: ItemData(nullptr) takes the last branch of the template and keeps the address
    of its argument (itemdata.h L49). *)
Definition item_default : item := mkItem (DPtr PDead) HNil.

(** item.h L31-70 with itemdata.h L30-51.  [RThrow]: std::invalid_argument.  String(nullptr) is
    undefined. *)
Definition item_new (v : cval) (m : heap) : res heap item :=
  match v with
  | VBool b => ROk m (mkItem (DBool b) HBool)
  | VChar z => ROk m (mkItem (DWord (u64 z)) HInt)
  | VByte z => ROk m (mkItem (DWord (u64 z)) HInt)
  | VInt32 z => ROk m (mkItem (DWord (u64 z)) HInt)
  | VUint32 z => ROk m (mkItem (DWord (u64 z)) HInt)
  | VInt64 z => ROk m (mkItem (DWord (u64 z)) HInt)
  | VUint64 z => ROk m (mkItem (DWord (u64 z)) HInt)
  | VNum d => ROk m (mkItem (DNum d) HFloat)
  | VCString None => RBad UB
  | VCString (Some s) => let (m', d) := alloc (CStr (zstring s)) m in ROk m' (mkItem d HString)
  | VString s => let (m', d) := alloc (CStr s) m in ROk m' (mkItem d HString)
  | VBig n => let (m', d) := alloc (CBig n) m in ROk m' (mkItem d HBig)
  | VOther => RThrow m
  end.

(** ** Handlers *)

(** Dereferencing ptrValue. *)
Definition deref (d : data) (m : heap) : option cell :=
  match d with
  | DPtr (PCell n) => match nth_error m n with Some (Some c) => Some c | _ => None end
  | _ => None
  end.

(** std::stoll in base 10 (stringhandler.h L30): blanks, an optional sign, digits; what follows
    is ignored.  [None]: it throws, std::invalid_argument or std::out_of_range. *)
Definition digit_of (c : ascii) : option Z :=
  let n := nat_of_ascii c in if ((48 <=? n) && (n <=? 57))%nat then Some (Z.of_nat (n - 48)) else None.
Fixpoint read_digits (acc : Z) (s : string) : Z :=
  match s with
  | EmptyString => acc
  | String c s' => match digit_of c with Some d => read_digits (10 * acc + d)%Z s' | None => acc end
  end.
Fixpoint skip_spaces (s : string) : string :=
  match s with String c s' => if blank c then skip_spaces s' else s | EmptyString => EmptyString end.
Definition read_sign (s : string) : bool * string :=
  match s with
  | String c s' => if Ascii.eqb c "-" then (true, s') else if Ascii.eqb c "+" then (false, s') else (false, s)
  | EmptyString => (false, s)
  end.
Definition fits (z : Z) : bool := ((- two63 <=? z) && (z <? two63))%Z.
Definition stoll (s : string) : option Z :=
  let (neg, t) := read_sign (skip_spaces s) in
  match t with
  | EmptyString => None
  | String c _ => match digit_of c with
                  | None => None
                  | Some _ => let v := read_digits 0 t in
                              let z := if neg then (- v)%Z else v in
                              if fits z then Some z else None
                  end
  end.

(** static_cast<int64>(double): towards zero; undefined if the result does not fit. *)
Definition truncate (d : spec_float) : option Z :=
  match d with
  | S754_zero _ => Some 0%Z
  | S754_infinity _ | S754_nan => None
  | S754_finite s m e =>
      let a := match e with Zneg k => (Z.pos m / 2 ^ Z.pos k)%Z | _ => (Z.pos m * 2 ^ e)%Z end in
      let z := if s then (- a)%Z else a in
      if fits z then Some z else None
  end.

(** toString: nilhandler.h L28, boolhandler.h L28, inthandler.h L29-33, floathandler.h L29-33,
    stringhandler.h L27, bignumhandler.h L31-35. *)
Definition h_toString (h : handler) (d : data) (m : heap) : res heap string :=
  match h with
  | HNil => ROk m "nil"%string
  | HBool => match d with DBool b => ROk m (if b then "true" else "false")%string | _ => RBad UB end
  | HInt => match d with DWord w => ROk m (dec (i64 w)) | _ => RBad UB end
  | HFloat => match d with DNum x => ROk m (num_str E x) | _ => RBad UB end
  | HString => match deref d m with Some (CStr s) => ROk m s | _ => RBad UB end
  | HBig => match deref d m with Some (CBig n) => ROk m (big_str E n) | _ => RBad UB end
  end.

(** toBool: nilhandler.h L29, boolhandler.h L29, inthandler.h L35, floathandler.h L35,
    stringhandler.h L29, bignumhandler.h L37. *)
Definition h_toBool (h : handler) (d : data) (m : heap) : res heap bool :=
  match h with
  | HNil => ROk m false
  | HBool => match d with DBool b => ROk m b | _ => RBad UB end
  | HInt => match d with DWord w => ROk m (negb (i64 w =? 0)%Z) | _ => RBad UB end
  | HFloat => match d with DNum x => ROk m (negb (SFeqb x (S754_zero false))) | _ => RBad UB end
  | HString => match deref d m with Some (CStr s) => ROk m (negb (String.length s =? 0)%nat) | _ => RBad UB end
  | HBig => match deref d m with Some (CBig n) => ROk m (negb (big_zero E n)) | _ => RBad UB end
  end.

(** toInt: nilhandler.h L30, boolhandler.h L30, inthandler.h L36, floathandler.h L36,
    stringhandler.h L30, bignumhandler.h L38.  All are noexcept. *)
Definition h_toInt (h : handler) (d : data) (m : heap) : res heap Z :=
  match h with
  | HNil => ROk m 0%Z
  | HBool => match d with DBool b => ROk m (if b then 1 else 0)%Z | _ => RBad UB end
  | HInt => match d with DWord w => ROk m (i64 w) | _ => RBad UB end
  | HFloat => match d with
              | DNum x => match truncate x with Some z => ROk m z | None => RBad UB end
              | _ => RBad UB
              end
  | HString => match deref d m with
               | Some (CStr s) => match stoll s with Some z => ROk m z | None => RBad Terminate end
               | _ => RBad UB
               end
  | HBig => match deref d m with Some (CBig n) => ROk m (big_int E n) | _ => RBad UB end
  end.

(** destroy: flathandler.h L26, deephandler.h L28. *)
Definition h_destroy (h : handler) (d : data) (m : heap) : res heap unit :=
  match h with
  | HNil | HBool | HInt | HFloat => ROk m tt
  | HString => match d, deref d m with
               | DPtr (PCell n), Some (CStr _) => ROk (upd n (fun _ => None) m) tt
               | _, _ => RBad UB
               end
  | HBig => match d, deref d m with
            | DPtr (PCell n), Some (CBig _) => ROk (upd n (fun _ => None) m) tt
            | _, _ => RBad UB
            end
  end.

(** allocate: nilhandler.h L25, boolhandler.h L25, inthandler.h L26, floathandler.h L26.
    deephandler.h L27 returns new T through the template constructor of ItemData, whose last
    branch keeps the address of the pointer, not the pointer. *)
Definition h_allocate (empty : big E) (h : handler) (m : heap) : heap * data :=
  match h with
  | HNil => (m, DWord 0)
  | HBool => (m, DBool false)
  | HInt => (m, DWord 0)
  | HFloat => (m, DNum (S754_zero false))
  | HString => (m ++ [Some (CStr EmptyString)], DPtr PDead)
  | HBig => (m ++ [Some (CBig empty)], DPtr PDead)
  end.

(** ** Programs over items *)

(** item.h L72-74, L98-100 *)
Definition item_destroy (i : item) (m : heap) : res heap unit := h_destroy (i_handler i) (i_data i) m.
Definition item_toString (i : item) (m : heap) : res heap string := h_toString (i_handler i) (i_data i) m.
Definition item_toBool (i : item) (m : heap) : res heap bool := h_toBool (i_handler i) (i_data i) m.
Definition item_toInt (i : item) (m : heap) : res heap Z := h_toInt (i_handler i) (i_data i) m.

(** The items of a program, by name. *)
Record istate : Type := mkI { cells : heap; items : list (nat * item) }.
Definition is0 : istate := mkI [] [].

Fixpoint ifind (x : nat) (l : list (nat * item)) : option item :=
  match l with [] => None | (y, c) :: l' => if (x =? y)%nat then Some c else ifind x l' end.
Fixpoint idel (x : nat) (l : list (nat * item)) : list (nat * item) :=
  match l with [] => [] | (y, c) :: l' => if (x =? y)%nat then l' else (y, c) :: idel x l' end.

(** What a program does with items.  An operation on an item that does not exist, or the
    construction of one that does, changes nothing. *)
Inductive iop : Type :=
| INil (x : nat)               (** Item x; *)
| INew (x : nat) (v : cval)    (** Item x(v); *)
| ICopy (x y : nat)            (** Item x(y); the generated member-wise copy; a move does the same *)
| IAssign (x y : nat)          (** x = y; the generated member-wise assignment *)
| IDestroy (x : nat)           (** end of x's life *)
| IToString (x : nat)
| IToBool (x : nat)
| IToInt (x : nat).

(** What it observes; [ORejected]: std::invalid_argument was thrown. *)
Inductive iout : Type := OText (s : string) | OBool (b : bool) | OInt (z : Z) | ORejected.

Definition observe {A : Type} (s : istate) (r : res heap A) (f : A -> iout) : res istate (option iout) :=
  match r with
  | ROk m a => ROk (mkI m (items s)) (Some (f a))
  | RThrow m => RThrow (mkI m (items s))
  | RBad b => RBad b
  end.

Definition istep (op : iop) (s : istate) : res istate (option iout) :=
  match op with
  | INil x =>
      match ifind x (items s) with
      | Some _ => ROk s None
      | None => ROk (mkI (cells s) ((x, item_default) :: items s)) None
      end
  | INew x v =>
      match ifind x (items s) with
      | Some _ => ROk s None
      | None => match item_new v (cells s) with
                | ROk m i => ROk (mkI m ((x, i) :: items s)) None
                | RThrow m => ROk (mkI m (items s)) (Some ORejected)
                | RBad b => RBad b
                end
      end
  | ICopy x y =>
      match ifind x (items s), ifind y (items s) with
      | None, Some i => ROk (mkI (cells s) ((x, i) :: items s)) None
      | _, _ => ROk s None
      end
  | IAssign x y =>
      match ifind x (items s), ifind y (items s) with
      | Some _, Some i => ROk (mkI (cells s) ((x, i) :: idel x (items s))) None
      | _, _ => ROk s None
      end
  | IDestroy x =>
      match ifind x (items s) with
      | None => ROk s None
      | Some i => match item_destroy i (cells s) with
                  | ROk m _ => ROk (mkI m (idel x (items s))) None
                  | RThrow m => RThrow (mkI m (items s))
                  | RBad b => RBad b
                  end
      end
  | IToString x => match ifind x (items s) with None => ROk s None | Some i => observe s (item_toString i (cells s)) OText end
  | IToBool x => match ifind x (items s) with None => ROk s None | Some i => observe s (item_toBool i (cells s)) OBool end
  | IToInt x => match ifind x (items s) with None => ROk s None | Some i => observe s (item_toInt i (cells s)) OInt end
  end.

Fixpoint irun (ops : list iop) (s : istate) : res istate (list iout) :=
  match ops with
  | [] => ROk s []
  | op :: ops' =>
      match istep op s with
      | ROk s' r => match irun ops' s' with
                    | ROk s'' l => ROk s'' (match r with Some o => o :: l | None => l end)
                    | r' => r'
                    end
      | RThrow s' => RThrow s'
      | RBad b => RBad b
      end
  end.

End Item.
