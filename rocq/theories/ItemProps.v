(** * Item: properties C60 to C66. *)

From Coq Require Import ZArith QArith String Ascii Bool List Arith Lia Permutation SpecFloat.
From Verif Require Import Base CodeSpec CodeProofs ItemModel ItemSpec ItemProofs.
Import ListNotations.
Open Scope string_scope.
Open Scope list_scope.

(** An environment for the examples; big numbers are integers. *)
Definition Ex : env := mkEnv Z (fun _ => "big") (Z.eqb 0) (fun z => z) (fun _ => "num").

(** ** C60 *)

(** Integers that fit in 64 signed bits; missing: uint64 values of 2^63 and more, refuted next. *)
Theorem C60_integers_partial : forall E (v : cval E) z m, is_int v z -> int64_range z ->
  exists i, item_new E v m = ROk m i /\ item_toInt E i m = ROk m z /\
    item_toBool E i m = ROk m (negb (z =? 0)%Z) /\ item_toString E i m = ROk m (decimal z).
Proof. exact int_reads. Qed.
Print Assumptions C60_integers_partial.

(** Only uint64 has other values, and those read as negative numbers. *)
Theorem C60_types : forall E (v : cval E) z, is_int v z -> int64_range z \/ (v = VUint64 E z /\ (2 ^ 63 <= z < 2 ^ 64)%Z).
Proof. exact is_int_word. Qed.
Print Assumptions C60_types.

Theorem C60_uint64_refuted : forall E z m, (2 ^ 63 <= z < 2 ^ 64)%Z ->
  exists i, item_new E (VUint64 E z) m = ROk m i /\ item_toInt E i m = ROk m (z - 2 ^ 64)%Z /\
    item_toString E i m = ROk m (decimal (z - 2 ^ 64)) /\ item_toBool E i m = ROk m true.
Proof. exact big_uint64. Qed.
Print Assumptions C60_uint64_refuted.

Example C60_witness : is_int (VChar Ex (-5)) (-5) /\ int64_range (-5) /\ is_int (VUint32 Ex 4294967295) 4294967295 /\
  is_int (VUint64 Ex (2 ^ 64 - 1)) (2 ^ 64 - 1) /\ decimal (2 ^ 64 - 1 - 2 ^ 64) = "-1".
Proof. repeat split; try (constructor; lia); try (unfold int64_range; lia). Qed.

(** ** C61 *)

Theorem C61_round_trip : forall E n m, int64_range n ->
  exists i m1 t m2 j, item_new E (VInt64 E n) m = ROk m1 i /\ item_toString E i m1 = ROk m1 t /\
    item_new E (VString E t) m1 = ROk m2 j /\ item_toInt E j m2 = ROk m2 n.
Proof.
  intros E n m R. destruct (int_reads E (VInt64 E n) n m) as (i & N & _ & _ & S); auto. { constructor. auto. }
  destruct (string_reads E (decimal n) m) as (m2 & j & N' & _ & _ & I). rewrite decimal_trip in I by auto.
  exists i, m, (decimal n), m2, j. auto.
Qed.
Print Assumptions C61_round_trip.

Example C61_witness : int64_range (- 2 ^ 63) /\ decimal (- 2 ^ 63) = "-9223372036854775808".
Proof. split; [unfold int64_range; lia|reflexivity]. Qed.

(** ** C62 *)

(** Texts; toInt() of a text that starts with a numeral in range. *)
Theorem C62_text : forall E s m, exists m' i, item_new E (VString E s) m = ROk m' i /\
  item_toString E i m' = ROk m' s /\ item_toBool E i m' = ROk m' (negb (String.eqb s "")).
Proof. intros E s m. destruct (string_reads E s m) as (m' & i & A & B & C & _). eauto 6. Qed.
Print Assumptions C62_text.

(** The same from a C string, up to its end; String(nullptr) is undefined. *)
Theorem C62_c_text : forall E s m, exists m' i, item_new E (VCString E (Some s)) m = ROk m' i /\
  item_toString E i m' = ROk m' (before_nul s) /\ item_toBool E i m' = ROk m' (negb (String.eqb (before_nul s) "")).
Proof. intros E s m. rewrite <- zstring_before. exact (C62_text E (ItemModel.zstring s) m). Qed.
Print Assumptions C62_c_text.

Theorem C62_null_refuted : forall E m, item_new E (VCString E None) m = RBad UB.
Proof. reflexivity. Qed.
Print Assumptions C62_null_refuted.

(** A numeral in the range of int64 is read; missing: what happens to all other texts. *)
Theorem C62_numeral_partial : forall E s z m, numeral s z -> int64_range z -> exists m' i,
  item_new E (VString E s) m = ROk m' i /\ item_toInt E i m' = ROk m' z.
Proof.
  intros E s z m N R. destruct (string_reads E s m) as (m' & i & A & _ & _ & I). exists m', i. split; auto.
  apply fits_range in R. rewrite I. rewrite <- (TextFacts.str_app_nil_r s), (numeral_stoll s z) by (auto; intros []). rewrite R. auto.
Qed.
Print Assumptions C62_numeral_partial.

(** Any other text ends the program ... *)
Theorem C62_not_a_number_refuted : forall E s m, (forall z r, ~ starts_with_numeral s z r) -> exists m' i,
  item_new E (VString E s) m = ROk m' i /\ item_toInt E i m' = RBad Terminate.
Proof.
  intros E s m N. destruct (string_reads E s m) as (m' & i & A & _ & _ & I). exists m', i. split; auto. rewrite I, stoll_not by auto. auto.
Qed.
Print Assumptions C62_not_a_number_refuted.

Theorem C62_out_of_range_refuted : forall E s z r m, starts_with_numeral s z r -> ~ int64_range z -> exists m' i,
  item_new E (VString E s) m = ROk m' i /\ item_toInt E i m' = RBad Terminate.
Proof.
  intros E s z r m N R. destruct (string_reads E s m) as (m' & i & A & _ & _ & I). exists m', i. split; auto.
  rewrite I, (starts_stoll _ _ _ N), not_fits by auto. auto.
Qed.
Print Assumptions C62_out_of_range_refuted.

(** ... and what follows a numeral is ignored without an error. *)
Theorem C62_trailing_refuted : forall E s z r m, starts_with_numeral s z r -> int64_range z -> exists m' i,
  item_new E (VString E s) m = ROk m' i /\ item_toInt E i m' = ROk m' z.
Proof.
  intros E s z r m N R. destruct (string_reads E s m) as (m' & i & A & _ & _ & I). exists m', i. split; auto.
  apply fits_range in R. rewrite I, (starts_stoll _ _ _ N), R. auto.
Qed.
Print Assumptions C62_trailing_refuted.

Example C62_witness : numeral " +42" 42 /\ starts_with_numeral "12ab" 12 "ab" /\ (forall z r, ~ starts_with_numeral "abc" z r) /\
  starts_with_numeral "99999999999999999999" 99999999999999999999 "" /\ ~ int64_range 99999999999999999999.
Proof.
  split; [exists " ", "+", "42"; split; [reflexivity|]; split; [repeat constructor|]; split; [apply all_digits_dec; reflexivity|]; split; [discriminate|]; right; left; split; reflexivity|].
  split. { exists "12". split; [reflexivity|]. split; [|cbn; intuition discriminate].
    exists "", "", "12". split; [reflexivity|]. split; [constructor|]. split; [apply all_digits_dec; reflexivity|]. split; [discriminate|]. left. split; reflexivity. }
  split. { intros z r S. pose proof (starts_stoll _ _ _ S) as X. change (stoll "abc") with (@None Z) in X.
    destruct (fits z) eqn:F; [discriminate|]. destruct S as (n & N1 & (b & g & d & -> & B & D & N & G) & _).
    destruct b as [|c b]; [|cbn in N1; injection N1 as <- _; inversion B as [|? ? B1 B2]; cbn in B1; intuition discriminate].
    destruct G as [(-> & _)|[(-> & _)|(-> & _)]]; [|discriminate|discriminate].
    destruct d as [|c d]; [contradiction|]. cbn in N1. injection N1 as <- _. inversion D as [|? ? D1 D2]. cbn in D1. intuition discriminate. }
  split; [|unfold int64_range; lia]. exists "99999999999999999999". split; [reflexivity|]. split; [|intros []].
  exists "", "", "99999999999999999999". split; [reflexivity|]. split; [constructor|]. split; [apply all_digits_dec; reflexivity|].
  split; [discriminate|]. left. split; reflexivity.
Qed.

(** ** C63 *)

(** Programs that copy and assign no owning item (string, C string, big number): no undefined
    behaviour, the reads give the values stored, and every cell not freed belongs to exactly
    one item.  Missing: copies and assignments of owning items, refuted below. *)
Theorem C63_no_owning_copies_partial : forall E (ops : list (iop E)) r, typed_program ops -> ideal_items ops [] r ->
  exists s, irun E ops (is0 E) = ROk s r /\ Permutation (live_cells s) (owned_cells s) /\ NoDup (owned_cells s).
Proof. exact no_copy_items. Qed.
Print Assumptions C63_no_owning_copies_partial.

(** In every state, copying an owning item and ending both lives frees twice, and the original
    cannot be used after the end of the copy's life. *)
Theorem C63_copy_refuted : forall E s x y i, ifind x (items E s) = None -> ifind y (items E s) = Some i -> deep i = true ->
  irun E [ICopy E x y; IDestroy E x; IDestroy E y] s = RBad UB /\ irun E [ICopy E x y; IDestroy E x; IToString E y] s = RBad UB.
Proof. exact copy_frees_twice. Qed.
Print Assumptions C63_copy_refuted.

(** An assignment loses a string, and the other one is freed twice. *)
Theorem C63_assign_refuted : forall E s u, exists st,
  irun E [INew E 0 (VString E s); INew E 1 (VString E u); IAssign E 0 1] (is0 E) = ROk st [] /\
  In 0%nat (live_cells st) /\ ~ In 0%nat (owned_cells st) /\ istep E (IDestroy E 0) st <> RBad UB /\
  irun E [IDestroy E 0; IDestroy E 1] st = RBad UB.
Proof. exact assign_leaks. Qed.
Print Assumptions C63_assign_refuted.

Example C63_witness : let ops := [INew Ex 0 (VString Ex "a"); INew Ex 1 (VInt64 Ex 7); ICopy Ex 2 1; IToString Ex 2; IDestroy Ex 0;
    INew Ex 0 (VBig Ex 5%Z); INew Ex 3 (VOther Ex); IAssign Ex 1 2; INil Ex 4; IToBool Ex 0; IToString Ex 4;
    INew Ex 5 (VString Ex "12ab"); IToInt Ex 5; IToInt Ex 0] in
  typed_program ops /\ ideal_items ops [] [OText "7"; ORejected; OBool true; OText "nil"; OInt 12; OInt 5] /\
  (exists s i, irun Ex [INew Ex 0 (VString Ex "a")] (is0 Ex) = ROk s [] /\ ifind 1 (items Ex s) = None /\ ifind 0 (items Ex s) = Some i /\ deep i = true).
Proof.
  cbv zeta. split. { repeat constructor. exists 7%Z. constructor. lia. }
  split. { cbn. split; [reflexivity|]. eexists. split; [reflexivity|]. eexists. split; [reflexivity|]. split; [split; reflexivity|]. eexists. split; [reflexivity|]. eexists. split; [reflexivity|].
    eexists. eexists. split; [reflexivity|]. split. { split; [unfold int64_range; lia|]. exists "ab". exact (proj1 (proj2 C62_witness)). }
    eexists. eexists. split; [reflexivity|]. split; reflexivity. }
  eexists. eexists. split; [reflexivity|]. split; [reflexivity|]. split; reflexivity.
Qed.

(** ** C64 *)

(** The handlers of nil, bool, int and float; missing: string and big number, refuted next. *)
Theorem C64_flat_partial : forall E e h m, flat h = true -> exists d, h_allocate E e h m = (m, d) /\
  h_toString E h d m = ROk m (default_text E h) /\ h_toBool E h d m = ROk m false /\ h_toInt E h d m = ROk m 0%Z /\ h_destroy E h d m = ROk m tt.
Proof. exact allocate_flat. Qed.
Print Assumptions C64_flat_partial.

(** What allocate() of the others gives cannot be used nor released, and the object it created is lost. *)
Theorem C64_deep_refuted : forall E e h m, flat h = false -> exists m' d c, h_allocate E e h m = (m', d) /\
  h_toString E h d m' = RBad UB /\ h_toBool E h d m' = RBad UB /\ h_toInt E h d m' = RBad UB /\ h_destroy E h d m' = RBad UB /\
  nth_error m' (List.length m) = Some (Some c) /\ d <> DPtr (PCell (List.length m)).
Proof. exact allocate_deep. Qed.
Print Assumptions C64_deep_refuted.

Example C64_witness : flat HInt = true /\ flat HString = false.
Proof. auto. Qed.

(** ** C65 *)

Theorem C65_zero : forall E d m, exists i, item_new E (VNum E d) m = ROk m i /\
  exists b, item_toBool E i m = ROk m b /\ (b = false <-> d = S754_zero false \/ d = S754_zero true).
Proof.
  intros E d m. destruct (float_item E d m) as (i & N & B & _). exists i. split; auto. eexists. split; [exact B|].
  destruct d as [[]|[]| |[] ]; split; intros H; try discriminate; auto; destruct H; discriminate.
Qed.
Print Assumptions C65_zero.

Theorem C65_truncation : forall E d x z m, rational d = Some x -> truncated x z -> int64_range z ->
  exists i, item_new E (VNum E d) m = ROk m i /\ item_toInt E i m = ROk m z.
Proof.
  intros E d x z m R T I. destruct (float_item E d m) as (i & N & _ & B). exists i. split; auto. rewrite B, (float_trunc d x z) by auto. auto.
Qed.
Print Assumptions C65_truncation.

(** For all other values toInt() is undefined. *)
Theorem C65_elsewhere : forall E d m, (forall x z, rational d = Some x -> truncated x z -> ~ int64_range z) ->
  exists i, item_new E (VNum E d) m = ROk m i /\ item_toInt E i m = RBad UB.
Proof.
  intros E d m H. destruct (float_item E d m) as (i & N & _ & B). exists i. split; auto. rewrite B, float_trunc_out by auto. auto.
Qed.
Print Assumptions C65_elsewhere.

Example C65_witness : (* -2.75 *) rational (S754_finite true 11 (-2)) = Some (-11 # 4) /\ truncated (-11 # 4) (-2) /\ int64_range (-2) /\
  rational S754_nan = None.
Proof. split; [reflexivity|]. split; [apply truncated_frac; lia|]. split; [unfold int64_range; lia|reflexivity]. Qed.

(** ** C66 *)

Theorem C66_nil : forall E m, item_toString E item_default m = ROk m "nil" /\ item_toBool E item_default m = ROk m false /\
  item_toInt E item_default m = ROk m 0%Z /\ item_destroy E item_default m = ROk m tt.
Proof. intros E m. repeat split. Qed.
Print Assumptions C66_nil.

Theorem C66_bool : forall E b m, exists i, item_new E (VBool E b) m = ROk m i /\ item_toBool E i m = ROk m b /\
  item_toInt E i m = ROk m (if b then 1 else 0)%Z /\ item_toString E i m = ROk m (if b then "true" else "false").
Proof. intros E b m. eexists. repeat split. Qed.
Print Assumptions C66_bool.

(** A value of any other type: an exception, and nothing was allocated. *)
Theorem C66_other_types : forall E m, item_new E (VOther E) m = RThrow m.
Proof. reflexivity. Qed.
Print Assumptions C66_other_types.

Example C66_witness : item_toString Ex (mkItem (DBool true) HBool) [] = ROk [] "true".
Proof. reflexivity. Qed.
