(** * Proofs about Item (C60 to C66). *)

From Coq Require Import ZArith QArith Qabs String Ascii Bool List Arith Lia Permutation SpecFloat Decimal DecimalString DecimalZ DecimalPos.
From Verif Require Import Base ListFacts TextModel TextSpec TextFacts CodeModel CodeSpec CodeProofs ItemModel ItemSpec.
Import ListNotations.
Open Scope string_scope.
Open Scope list_scope.

(** ** Words *)

Lemma two64_eq : two64 = (2 ^ 64)%Z. Proof. reflexivity. Qed.
Lemma two63_eq : two63 = (2 ^ 63)%Z. Proof. reflexivity. Qed.

Lemma i64_u64 : forall z, int64_range z -> i64 (u64 z) = z.
Proof.
  unfold int64_range, i64, u64, two63, two64. intros z H. change (2 ^ 63)%Z with 9223372036854775808%Z in H.
  destruct (Z.ltb_spec z 0).
  - replace (z mod 18446744073709551616)%Z with (z + 18446744073709551616)%Z.
    + destruct (Z.ltb_spec (z + 18446744073709551616) 9223372036854775808); lia.
    + apply Z.mod_unique with (q := (-1)%Z); lia.
  - rewrite Z.mod_small by lia. destruct (Z.ltb_spec z 9223372036854775808); lia.
Qed.

Lemma i64_word : forall z, (0 <= z < 2 ^ 64)%Z -> i64 (u64 z) = word z.
Proof. intros z H. unfold i64, u64, word. rewrite two64_eq, two63_eq, Z.mod_small by auto. auto. Qed.

Lemma is_int_word : forall E (v : cval E) z, is_int v z -> int64_range z \/ (v = VUint64 E z /\ (2 ^ 63 <= z < 2 ^ 64)%Z).
Proof.
  intros E v z H. unfold int64_range. change (2 ^ 63)%Z with 9223372036854775808%Z. change (2 ^ 64)%Z with 18446744073709551616%Z.
  destruct H; try (left; lia).
  destruct (Z.ltb_spec z 9223372036854775808); [left; lia|right; split; auto; lia].
Qed.

Lemma int_item : forall E (v : cval E) z m, is_int v z -> item_new E v m = ROk m (mkItem (DWord (u64 z)) HInt).
Proof. intros E v z m H. destruct H; auto. Qed.

Lemma int_reads : forall E (v : cval E) z m, is_int v z -> int64_range z ->
  exists i, item_new E v m = ROk m i /\ item_toInt E i m = ROk m z /\
    item_toBool E i m = ROk m (negb (z =? 0)%Z) /\ item_toString E i m = ROk m (decimal z).
Proof.
  intros E v z m H R. eexists. split; [apply int_item; eauto|]. unfold item_toInt, item_toBool, item_toString.
  cbn [i_handler i_data h_toInt h_toBool h_toString]. rewrite i64_u64 by auto. auto.
Qed.

Lemma big_uint64 : forall E z m, (2 ^ 63 <= z < 2 ^ 64)%Z ->
  exists i, item_new E (VUint64 E z) m = ROk m i /\ item_toInt E i m = ROk m (z - 2 ^ 64)%Z /\
    item_toString E i m = ROk m (decimal (z - 2 ^ 64)) /\ item_toBool E i m = ROk m true.
Proof.
  intros E z m H. eexists. split; [reflexivity|]. unfold item_toInt, item_toBool, item_toString.
  cbn [i_handler i_data h_toInt h_toBool h_toString]. rewrite i64_word by (change (2 ^ 63)%Z with 9223372036854775808%Z in H; lia).
  unfold word. destruct (Z.ltb_spec z (2 ^ 63)); [lia|]. split; auto. split; auto.
  destruct (Z.eqb_spec (z - 2 ^ 64) 0); auto. lia.
Qed.

(** ** Text to number *)

Lemma In_digits : forall c, In c digits <-> exists d, digit_of c = Some d.
Proof.
  intros [[] [] [] [] [] [] [] []]; vm_compute; split; intros H;
    first [ eexists; reflexivity | destruct H; discriminate | repeat (destruct H as [H|H]; [discriminate|]); contradiction | repeat (first [left; reflexivity | right]) ].
Qed.

Lemma all_digits_dec : forall s, forallb (fun c => match digit_of c with Some _ => true | None => false end) (list_ascii_of_string s) = true -> all_digits s.
Proof.
  intros s H. apply Forall_forall. intros c I. rewrite forallb_forall in H. specialize (H c I). apply In_digits.
  destruct (digit_of c) as [d|]; [eauto|discriminate].
Qed.

Lemma digit_of_val : forall c d, digit_of c = Some d -> d = (Z.of_nat (nat_of_ascii c) - 48)%Z.
Proof.
  intros c d. unfold digit_of. destruct (Nat.leb_spec 48 (nat_of_ascii c)); cbn; [|discriminate].
  destruct (Nat.leb_spec (nat_of_ascii c) 57); [|discriminate]. intros [= <-]. lia.
Qed.

Lemma not_digit_of : forall c, ~ In c digits -> digit_of c = None.
Proof. intros c H. destruct (digit_of c) eqn:E; auto. exfalso. apply H, In_digits. eauto. Qed.

Lemma read_digits_pos : forall d acc rest, all_digits d -> ~ starts_with_digit rest ->
  read_digits acc (d ++ rest)%string = (acc * 10 ^ Z.of_nat (String.length d) + positional d)%Z.
Proof.
  intros d. induction d as [|c d IH]; intros acc rest H N.
  - cbn [append String.length positional]. change (10 ^ Z.of_nat 0)%Z with 1%Z. destruct rest as [|c r]; cbn [read_digits]; [lia|].
    rewrite not_digit_of by exact N. lia.
  - inversion H as [|? ? H1 H2]; subst. apply In_digits in H1. destruct H1 as (v & V).
    cbn [append read_digits String.length positional]. rewrite V. rewrite IH by auto. apply digit_of_val in V. subst v.
    rewrite Nat2Z.inj_succ, Z.pow_succ_r by lia. nia.
Qed.

Lemma In_blanks : forall c, In c blanks <-> blank c = true.
Proof.
  intros [[] [] [] [] [] [] [] []]; vm_compute; split; intros H;
    first [ reflexivity | discriminate | repeat (destruct H as [H|H]; [discriminate|]); contradiction | repeat (first [left; reflexivity | right]) ].
Qed.

Lemma skip_spaces_app : forall b s, all_blanks b -> skip_spaces (b ++ s)%string = skip_spaces s.
Proof.
  intros b s H. induction b as [|c b IH]; auto. inversion H as [|? ? H1 H2]; subst. cbn [append skip_spaces].
  apply In_blanks in H1. rewrite H1. apply IH. auto.
Qed.

Lemma digit_not : forall c, In c digits -> blank c = false /\ Ascii.eqb c "-" = false /\ Ascii.eqb c "+" = false.
Proof. intros c H. cbn in H. repeat (destruct H as [<-|H]; [vm_compute; auto|]). contradiction. Qed.

Lemma fits_range : forall z, fits z = true <-> int64_range z.
Proof. intros z. unfold fits, int64_range. rewrite two63_eq. rewrite andb_true_iff, Z.leb_le, Z.ltb_lt. tauto. Qed.

Lemma numeral_stoll : forall s z rest, numeral s z -> ~ starts_with_digit rest ->
  stoll (s ++ rest)%string = if fits z then Some z else None.
Proof.
  intros s z rest (b & g & d & -> & B & D & N & G) R. unfold stoll. rewrite str_app_assoc, skip_spaces_app by auto.
  destruct d as [|c d]; [contradiction|]. pose proof D as D'. inversion D' as [|? ? D1 D2]; subst.
  destruct (digit_not _ D1) as (Q1 & Q2 & Q3). apply In_digits in D1. destruct D1 as (v & V).
  pose proof (read_digits_pos _ 0%Z rest D R) as P. rewrite Z.mul_0_l, Z.add_0_l in P.
  destruct G as [(-> & ->)|[(-> & ->)|(-> & ->)]]; rewrite ?str_app_assoc; cbn [append].
  - cbn [skip_spaces]. rewrite Q1. cbn [read_sign]. rewrite Q2, Q3. cbv beta iota zeta. rewrite V. cbn [append] in P. rewrite P. auto.
  - change (skip_spaces (String "+" (String c (d ++ rest)))) with (String "+" (String c (d ++ rest))).
    change (read_sign (String "+" (String c (d ++ rest)))) with (false, String c (d ++ rest)). 
    cbv beta iota zeta. rewrite V. cbn [append] in P. rewrite P. auto.
  - change (skip_spaces (String "-" (String c (d ++ rest)))) with (String "-" (String c (d ++ rest))).
    change (read_sign (String "-" (String c (d ++ rest)))) with (true, String c (d ++ rest)). cbv beta iota zeta. rewrite V. cbn [append] in P. rewrite P. auto.
Qed.

(** What stoll accepts. *)
Fixpoint spandig (s : string) : string * string :=
  match s with
  | "" => ("", "")
  | String c s' => match digit_of c with Some _ => let (a, b) := spandig s' in (String c a, b) | None => ("", s) end
  end.
Lemma spandig_ok : forall s a b, spandig s = (a, b) -> s = (a ++ b)%string /\ all_digits a /\ ~ starts_with_digit b.
Proof.
  intros s. induction s as [|c s IH]; intros a b H; cbn in H.
  - injection H as <- <-. repeat split; [constructor|intros []].
  - destruct (digit_of c) as [d|] eqn:E.
    + destruct (spandig s) as [a' b']. injection H as <- <-. destruct (IH _ _ eq_refl) as (-> & A & B). repeat split; auto. constructor; auto.
      apply In_digits. eauto.
    + injection H as <- <-. repeat split; [constructor|]. intros I. cbn in I. apply In_digits in I. destruct I. congruence.
Qed.
Lemma skip_split : forall s, exists b, s = (b ++ skip_spaces s)%string /\ all_blanks b.
Proof.
  intros s. induction s as [|c s (b & E & B)]; [exists ""; split; [auto|constructor]|]. cbn [skip_spaces]. destruct (blank c) eqn:K.
  - exists (String c b). cbn [append]. rewrite <- E. split; auto. constructor; auto. apply In_blanks. auto.
  - exists "". split; auto. constructor.
Qed.

Lemma stoll_starts : forall s, stoll s <> None -> exists z r, starts_with_numeral s z r.
Proof.
  intros s. unfold stoll. destruct (skip_split s) as (b & E & B). destruct (skip_spaces s) as [|c t] eqn:K; [intros H; exfalso; apply H; auto|].
  cbn [read_sign].
  assert (G : forall g u, String c t = (g ++ u)%string -> (g = "" \/ g = "+" \/ g = "-") ->
     match u with "" => False | String x _ => digit_of x <> None end -> exists z r, starts_with_numeral s z r).
  { intros g u Hg Hs Hu. destruct (spandig u) as [d r] eqn:S. destruct (spandig_ok _ _ _ S) as (-> & D & R).
    assert (N : d <> ""). { intros ->. destruct r as [|x r]; [destruct Hu|]. apply Hu. apply not_digit_of. exact R. }
    destruct Hs as [->|[->| ->]].
    - exists (positional d), r, (b ++ "" ++ d)%string. rewrite !str_app_assoc. rewrite E, Hg. split; auto. split; auto. exists b, "", d. tauto.
    - exists (positional d), r, (b ++ "+" ++ d)%string. rewrite !str_app_assoc. rewrite E, Hg. split; auto. split; auto. exists b, "+", d. tauto.
    - exists (- positional d)%Z, r, (b ++ "-" ++ d)%string. rewrite !str_app_assoc. rewrite E, Hg. split; auto. split; auto. exists b, "-", d. tauto. }
  destruct (Ascii.eqb_spec c "-") as [->|N1]; [|destruct (Ascii.eqb_spec c "+") as [->|N2]].
  - intros H. apply (G "-" t); auto. destruct t as [|x t]; [apply H; auto|]. intros X. apply H. rewrite X. auto.
  - intros H. apply (G "+" t); auto. destruct t as [|x t]; [apply H; auto|]. intros X. apply H. rewrite X. auto.
  - intros H. apply (G "" (String c t)); auto. intros X. apply H. rewrite X. auto.
Qed.

(** *** The decimal form is a numeral *)
Lemma positional_app : forall a b, positional (a ++ b)%string = (positional a * 10 ^ Z.of_nat (String.length b) + positional b)%Z.
Proof.
  intros a b. induction a as [|c a IH]; [cbn; lia|]. cbn [append positional]. rewrite IH, str_length_app, Nat2Z.inj_add, Z.pow_add_r by lia. ring.
Qed.

Lemma uint_digits : forall d, all_digits (NilEmpty.string_of_uint d).
Proof. intros d. induction d; cbn; constructor; auto; cbn; tauto. Qed.

Fixpoint rd (acc : Z) (s : string) : Z :=
  match s with "" => acc | String c s' => rd (10 * acc + (Z.of_nat (nat_of_ascii c) - 48)) s' end%Z.
Lemma rd_pos : forall s acc, rd acc s = (acc * 10 ^ Z.of_nat (String.length s) + positional s)%Z.
Proof.
  intros s. induction s as [|c s IH]; intros acc; [cbn; lia|]. cbn [rd positional String.length]. rewrite IH.
  rewrite Nat2Z.inj_succ, Z.pow_succ_r by lia. ring.
Qed.
Lemma rd_acc : forall d p, rd (Z.pos p) (NilEmpty.string_of_uint d) = Z.pos (Pos.of_uint_acc d p).
Proof.
  intros d. induction d; intros p; auto; cbn [NilEmpty.string_of_uint rd Pos.of_uint_acc]; rewrite <- IHd; f_equal;
    match goal with |- context [nat_of_ascii ?c] => let v := eval vm_compute in (nat_of_ascii c) in change (nat_of_ascii c) with v end; lia.
Qed.
Lemma positional_uint : forall d, positional (NilEmpty.string_of_uint d) = Z.of_N (Pos.of_uint d).
Proof.
  intros d. rewrite <- (Z.add_0_l (positional _)), <- (Z.mul_0_l (10 ^ Z.of_nat (String.length (NilEmpty.string_of_uint d)))), <- rd_pos.
  induction d; auto; cbn [NilEmpty.string_of_uint rd Pos.of_uint Z.of_N]; rewrite <- ?rd_acc; auto.
Qed.

Lemma zero_uint : forall d, d <> Nil -> NilZero.string_of_uint d = NilEmpty.string_of_uint d.
Proof. intros d H. destruct d; auto; contradiction. Qed.
Lemma string_uint_nil : forall d, d <> Nil -> NilEmpty.string_of_uint d <> "".
Proof. intros d H. destruct d; try discriminate. contradiction. Qed.

Lemma decimal_numeral : forall z, numeral (decimal z) z.
Proof.
  intros z. unfold decimal. destruct z as [|p|p]; cbn [Z.to_int NilZero.string_of_int].
  - exists "", "", "0". split; [reflexivity|]. split; [constructor|]. split; [repeat constructor|]. split; [discriminate|]. left. split; reflexivity.
  - exists "", "", (NilEmpty.string_of_uint (Pos.to_uint p)). rewrite zero_uint by apply to_uint_nz. split; [auto|].
    split; [constructor|]. split; [apply uint_digits|]. split; [apply string_uint_nil, to_uint_nz|].
    left. split; auto. rewrite positional_uint. rewrite DecimalPos.Unsigned.of_to. reflexivity.
  - exists "", "-", (NilEmpty.string_of_uint (Pos.to_uint p)). rewrite zero_uint by apply to_uint_nz. split; [auto|].
    split; [constructor|]. split; [apply uint_digits|]. split; [apply string_uint_nil, to_uint_nz|].
    right. right. split; auto. rewrite positional_uint. rewrite DecimalPos.Unsigned.of_to. reflexivity.
Qed.

Lemma decimal_trip : forall z, int64_range z -> stoll (decimal z) = Some z.
Proof.
  intros z R. rewrite <- (str_app_nil_r (decimal z)). rewrite (numeral_stoll _ z); [|apply decimal_numeral|intros []].
  apply fits_range in R. rewrite R. auto.
Qed.

(** ** Strings *)

Lemma new_string : forall E s m, item_new E (VString E s) m = ROk (m ++ [Some (CStr E s)]) (mkItem (DPtr (PCell (List.length m))) HString).
Proof. auto. Qed.
Lemma deref_new : forall E m (c : cell E), deref E (DPtr (PCell (List.length m))) (m ++ [Some c]) = Some c.
Proof. intros. unfold deref. rewrite nth_error_app2, Nat.sub_diag by auto. auto. Qed.

Lemma length_nil : forall s, (String.length s =? 0)%nat = match s with "" => true | _ => false end.
Proof. intros []; auto. Qed.

Lemma string_reads : forall E s m, exists m' i, item_new E (VString E s) m = ROk m' i /\
  item_toString E i m' = ROk m' s /\ item_toBool E i m' = ROk m' (negb (String.eqb s "")) /\
  item_toInt E i m' = match stoll s with Some z => ROk m' z | None => RBad Terminate end.
Proof.
  intros E s m. eexists. eexists. split; [apply new_string|]. unfold item_toString, item_toBool, item_toInt.
  cbn [i_handler i_data h_toString h_toBool h_toInt]. rewrite deref_new. split; auto. split; auto. rewrite length_nil. destruct s; auto.
Qed.

Lemma zstring_before : forall s, zstring s = before_nul s.
Proof. intros s. reflexivity. Qed.

Lemma stoll_not : forall s, (forall z r, ~ starts_with_numeral s z r) -> stoll s = None.
Proof. intros s H. destruct (stoll s) eqn:E; auto. destruct (stoll_starts s) as (z' & r & S); [congruence|]. exfalso. eapply H; eauto. Qed.

Lemma starts_stoll : forall s z r, starts_with_numeral s z r -> stoll s = if fits z then Some z else None.
Proof. intros s z r (n & -> & N & R). apply numeral_stoll; auto. Qed.

Lemma not_fits : forall z, ~ int64_range z -> fits z = false.
Proof. intros z H. destruct (fits z) eqn:E; auto. apply fits_range in E. contradiction. Qed.

(** ** Doubles *)

Lemma truncated_frac : forall n d z, truncated (n # d) z <-> (Z.abs z * Z.pos d <= Z.abs n < (Z.abs z + 1) * Z.pos d /\ 0 <= z * n)%Z.
Proof.
  intros n d z. unfold truncated, Qle, Qlt, inject_Z, Qabs, Qmult. cbn [Qnum Qden]. rewrite !Z.mul_1_r, Pos.mul_1_l. lia.
Qed.

Lemma truncated_unique : forall x z z', truncated x z -> truncated x z' -> z = z'.
Proof. intros [n d] z z' H H'. rewrite truncated_frac in *. assert (Z.abs z = Z.abs z') by nia. nia. Qed.

Definition whole (d : spec_float) : Z :=
  match d with
  | S754_finite s m e =>
      let a := match e with Zneg k => (Z.pos m / 2 ^ Z.pos k)%Z | _ => (Z.pos m * 2 ^ e)%Z end in
      if s then (- a)%Z else a
  | _ => 0%Z
  end.

Lemma whole_truncated : forall d x, rational d = Some x -> truncated x (whole d).
Proof.
  intros d x H. destruct d as [s|s| |s m e]; try discriminate; cbn [rational whole] in *.
  - injection H as <-. apply truncated_frac. lia.
  - destruct e as [|k|k]; cbn [rational] in H; injection H as <-.
    + apply truncated_frac. rewrite Z.pow_0_r. destruct s; cbn [Qnum Qden inject_Z]; nia.
    + apply truncated_frac. assert (0 < 2 ^ Z.pos k)%Z by (apply Z.pow_pos_nonneg; lia). destruct s; nia.
    + apply truncated_frac. rewrite Pos2Z.inj_pow.
      assert (P : (0 < 2 ^ Z.pos k)%Z) by (apply Z.pow_pos_nonneg; lia).
      assert (A : (0 <= Z.pos m / 2 ^ Z.pos k)%Z) by (apply Z.div_pos; lia).
      pose proof (Z.div_mod (Z.pos m) (2 ^ Z.pos k)). pose proof (Z.mod_pos_bound (Z.pos m) (2 ^ Z.pos k) P).
      destruct s; [rewrite Z.abs_opp|]; rewrite (Z.abs_eq (Z.pos m / 2 ^ Z.pos k)) by auto; split; try nia.
Qed.

Lemma truncate_whole : forall d x, rational d = Some x -> truncate d = if fits (whole d) then Some (whole d) else None.
Proof. intros d x H. destruct d; try discriminate; auto. Qed.

Lemma float_item : forall E d m, exists i, item_new E (VNum E d) m = ROk m i /\
  item_toBool E i m = ROk m (match d with S754_zero _ => false | _ => true end) /\
  item_toInt E i m = match truncate d with Some z => ROk m z | None => RBad UB end.
Proof.
  intros E d m. eexists. split; [reflexivity|]. unfold item_toBool, item_toInt. cbn [i_handler i_data h_toBool h_toInt]. split; auto.
  destruct d as [[]|[]| |[] ]; auto.
Qed.

Lemma float_trunc : forall d x z, rational d = Some x -> truncated x z -> int64_range z -> truncate d = Some z.
Proof.
  intros d x z H T R. rewrite (truncate_whole d x) by auto. rewrite (truncated_unique x z (whole d)) in * by (auto using whole_truncated).
  apply fits_range in R. rewrite R. auto.
Qed.
Lemma float_trunc_out : forall d, (forall x z, rational d = Some x -> truncated x z -> ~ int64_range z) -> truncate d = None.
Proof.
  intros d H. destruct (rational d) as [x|] eqn:E.
  - rewrite (truncate_whole d x) by auto. rewrite not_fits; auto. eapply H; eauto. apply whole_truncated; auto.
  - destruct d; auto; discriminate.
Qed.

(** ** Ownership *)
Section Own.
Variable E : env.
Local Notation istate := (istate E).
Local Notation vals := (vals E).

(** The cell and the handler of an owning item. *)
Definition cell_of (v : cval E) : option (cell E * handler) :=
  match v with
  | VCString _ (Some s) => Some (CStr E (zstring s), HString)
  | VString _ s => Some (CStr E s, HString)
  | VBig _ n => Some (CBig E n, HBig)
  | _ => None
  end.

Definition stands (m : heap E) (i : item) (v : option (cval E)) : Prop :=
  match v with
  | None => i = item_default
  | Some u => if owns u then exists n c h, i = mkItem (DPtr (PCell n)) h /\ nth_error m n = Some (Some c) /\ cell_of u = Some (c, h)
              else item_new E u [] = ROk [] i /\ well_typed u
  end.
Definition iagree (m : heap E) (o : nat * item) (t : nat * option (cval E)) : Prop :=
  fst o = fst t /\ stands m (snd o) (snd t).

Definition own1 (i : item) : list nat :=
  match i_handler i, i_data i with HString, DPtr (PCell n) | HBig, DPtr (PCell n) => [n] | _, _ => [] end.
Definition own (o : list (nat * item)) : list nat := flat_map (fun o => own1 (snd o)) o.

Definition iinv (s : istate) (l : vals) : Prop :=
  Forall2 (iagree (cells E s)) (items E s) l /\ NoDup (map fst (items E s)) /\ NoDup (own (items E s)) /\
  (forall p c, nth_error (cells E s) p = Some (Some c) -> In p (own (items E s))).

Lemma own_app : forall a b, own (a ++ b) = own a ++ own b.
Proof. intros. apply flat_map_app. Qed.

Lemma ifind_vfind : forall m o l x, Forall2 (iagree m) o l ->
  match ifind x o, vfind x l with Some i, Some v => stands m i v | None, None => True | _, _ => False end.
Proof.
  intros m o l x F. induction F as [|[y c] [y' t] o l A F IH]; cbn [ifind vfind]; auto. destruct A as (A1 & A2). cbn in A1. subst y'.
  destruct (Nat.eqb_spec x y) as [->|N]; auto.
Qed.

Lemma idel_vdel : forall m o l x, Forall2 (iagree m) o l -> Forall2 (iagree m) (idel x o) (vdel x l).
Proof.
  intros m o l x F. induction F as [|[y c] [y' t] o l A F IH]; cbn [idel vdel]; auto. destruct A as (A1 & A2). cbn in A1. subst y'.
  destruct (x =? y)%nat; auto. constructor; auto. split; auto.
Qed.

Lemma ifind_none : forall x o, ifind x o = None -> ~ In x (map fst o).
Proof.
  intros x o. induction o as [|[y c] o IH]; cbn; auto. destruct (Nat.eqb_spec x y) as [->|N]; [discriminate|].
  intros H [K|K]; [congruence|]. apply IH; auto.
Qed.
Lemma vdel_none : forall x (l : vals), vfind x l = None -> vdel x l = l.
Proof. intros x l. induction l as [|[y c] l IH]; cbn; auto. destruct (x =? y)%nat; [discriminate|]. intros H. rewrite IH; auto. Qed.

Lemma ifind_split : forall x o c, ifind x o = Some c -> exists a b, o = a ++ (x, c) :: b /\ idel x o = a ++ b.
Proof.
  intros x o. induction o as [|[y d] o IH]; cbn; intros c H; [discriminate|]. destruct (Nat.eqb_spec x y) as [->|N].
  - injection H as <-. exists [], o. auto.
  - destruct (IH _ H) as (a & b & -> & K). rewrite K. exists ((y, d) :: a), b. auto.
Qed.

(** Non-owning items have no cell. *)
Lemma stands_own : forall m i v, stands m i v -> if vowns v then exists n c u, v = Some u /\ own1 i = [n] /\ nth_error m n = Some (Some c) else own1 i = [].
Proof.
  intros m i [u|] H; cbn [vowns stands] in *; [|subst; auto].
  destruct (owns u) eqn:O.
  - destruct H as (n & c & h & -> & N & C). exists n, c, u. split; auto. split; auto. destruct u as [| | | | | | | |[]| | |]; try discriminate; injection C as <- <-; auto.
  - destruct H as (H & _). destruct u as [| | | | | | | |[]| | |]; try discriminate; injection H as <-; auto.
Qed.

Lemma stands_heap : forall m m' i v, (forall p c, In p (own1 i) -> nth_error m p = Some (Some c) -> nth_error m' p = Some (Some c)) -> stands m i v -> stands m' i v.
Proof.
  intros m m' i [u|] H S; auto. pose proof (stands_own _ _ _ S) as O. cbn [stands vowns] in *. destruct (owns u); auto.
  destruct S as (n & c & h & -> & N & C). destruct O as (n' & c' & u' & _ & O & _). exists n, c, h. split; auto. split; auto. apply H; auto. rewrite O.
  unfold own1 in O. cbn in O. destruct h; try discriminate; left; congruence.
Qed.
Lemma agree_heap : forall m m' o l, (forall p c, In p (own o) -> nth_error m p = Some (Some c) -> nth_error m' p = Some (Some c)) ->
  Forall2 (iagree m) o l -> Forall2 (iagree m') o l.
Proof.
  intros m m' o l H F. induction F as [|[y c] [y' t] o l A F IH]; constructor.
  - destruct A as (A1 & A2). split; auto. eapply stands_heap; [|exact A2]. intros p q I. apply H. cbn. apply in_app_iff. auto.
  - apply IH. intros p b I. apply H. cbn. apply in_app_iff. auto.
Qed.
Lemma own_live : forall m o l p, Forall2 (iagree m) o l -> In p (own o) -> exists c, nth_error m p = Some (Some c).
Proof.
  intros m o l p F. induction F as [|[y c] [y' t] o l A F IH]; cbn; [tauto|]. intros I. apply in_app_iff in I. destruct I as [I|I]; auto.
  destruct A as (_ & A). apply stands_own in A. cbn [snd] in *. destruct (vowns t).
  - destruct A as (n & d & u & _ & O & N). rewrite O in I. destruct I as [<-|[]]. eauto.
  - rewrite A in I. destruct I.
Qed.

Lemma add_flat : forall s l x i v, iinv s l -> ifind x (items E s) = None -> stands (cells E s) i v -> vowns v = false ->
  iinv (mkI E (cells E s) ((x, i) :: items E s)) ((x, v) :: l).
Proof.
  intros s l x i v (F & K & P & L) N S O. pose proof (stands_own _ _ _ S) as Q. rewrite O in Q. split; [|split; [|split]]; cbn [cells items].
  - constructor; auto. split; auto.
  - cbn. constructor; auto. apply ifind_none; auto.
  - cbn. rewrite Q. auto.
  - cbn. rewrite Q. auto.
Qed.

Lemma add_cell : forall s l x v c h, iinv s l -> ifind x (items E s) = None -> cell_of v = Some (c, h) ->
  iinv (mkI E (cells E s ++ [Some c]) ((x, mkItem (DPtr (PCell (List.length (cells E s)))) h) :: items E s)) ((x, Some v) :: l).
Proof.
  intros s l x v c h (F & K & P & L) N C.
  assert (O : own1 (mkItem (DPtr (PCell (List.length (cells E s)))) h) = [List.length (cells E s)]).
  { destruct v as [| | | | | | | |[]| | |]; try discriminate; injection C as <- <-; auto. }
  split; [|split; [|split]]; cbn [cells items].
  - constructor.
    + split; auto. cbn [snd]. unfold stands. replace (owns v) with true by (destruct v as [| | | | | | | |[]| | |]; try discriminate; auto).
      exists (List.length (cells E s)), c, h. split; auto. split; auto. rewrite nth_error_app2, Nat.sub_diag by auto. auto.
    + eapply agree_heap; [|exact F]. intros p q _ Np. rewrite nth_error_app1; auto. apply nth_error_Some. congruence.
  - cbn. constructor; auto. apply ifind_none; auto.
  - cbn [own flat_map snd]. rewrite O. cbn. constructor; auto. intros I. destruct (own_live _ _ _ _ F I) as (d & D).
    assert (List.length (cells E s) < List.length (cells E s))%nat by (apply nth_error_Some; congruence). lia.
  - intros p d Hp. cbn [own flat_map snd]. rewrite O. cbn. destruct (Nat.eq_dec p (List.length (cells E s))) as [->|Np]; auto. right.
    assert (p < List.length (cells E s ++ [Some c]))%nat by (apply nth_error_Some; congruence).
    rewrite app_length in *. cbn in *. rewrite nth_error_app1 in Hp by lia. eapply L; eauto.
Qed.

Lemma del_item : forall s l x i v, iinv s l -> ifind x (items E s) = Some i -> stands (cells E s) i v ->
  exists m, item_destroy E i (cells E s) = ROk m tt /\ iinv (mkI E m (idel x (items E s))) (vdel x l).
Proof.
  intros s l x i v (F & K & P & L) X S. destruct (ifind_split _ _ _ X) as (a & b & Eo & Ed).
  assert (KD : NoDup (map fst (idel x (items E s)))).
  { rewrite Ed. rewrite Eo, map_app in K. cbn in K. rewrite map_app. apply (NoDup_mid _ _ _ _ K). }
  pose proof (stands_own _ _ _ S) as O. destruct (vowns v) eqn:V.
  - destruct O as (n & c & u & -> & O & N). cbn [stands vowns] in *. rewrite V in S. destruct S as (n' & c' & h & -> & N' & C).
    assert (n' = n) by (unfold own1 in O; cbn in O; destruct h; congruence). subst n'.
    exists (upd n (fun _ => None) (cells E s)). split.
    { unfold item_destroy. cbn [i_handler i_data]. unfold h_destroy, deref. rewrite N'. destruct u as [| | | | | | | |[]| | |]; try discriminate; injection C as <- <-; auto. }
    assert (PP : NoDup (own (a ++ b)) /\ ~ In n (own (a ++ b))).
    { rewrite Eo in P. rewrite own_app in *. cbn [own flat_map snd] in P. rewrite O in P. cbn in P. apply NoDup_mid. auto. }
    split; [|split; [|split]]; cbn [cells items]; auto.
    + eapply agree_heap; [|apply idel_vdel; exact F]. intros q d Iq Nq. rewrite nth_error_upd_neq; auto. intros ->. rewrite Ed in Iq. tauto.
    + rewrite Ed. tauto.
    + intros q d Hq. destruct (Nat.eq_dec q n) as [->|NE].
      * rewrite (nth_error_upd_eq _ _ _ _ N) in Hq. discriminate.
      * rewrite nth_error_upd_neq in Hq by auto. specialize (L _ _ Hq). rewrite Ed. rewrite Eo in L.
        rewrite own_app, in_app_iff in *. cbn [own flat_map snd] in L. rewrite O in L. cbn in L. intuition congruence.
  - exists (cells E s). split.
    { destruct v as [u|]; [|cbn in S; subst; auto]. cbn [stands vowns] in *. rewrite V in S. destruct S as (S & _).
      destruct u as [| | | | | | | |[]| | |]; try discriminate; injection S as <-; auto. }
    split; [|split; [|split]]; cbn [cells items]; auto.
    + apply idel_vdel. auto.
    + rewrite Ed. rewrite Eo in P. rewrite own_app in *. cbn [own flat_map snd] in P. rewrite O in P. auto.
    + intros q d Hq. specialize (L _ _ Hq). rewrite Ed. rewrite Eo in L. rewrite own_app, in_app_iff in *. cbn [own flat_map snd] in L. rewrite O in L. auto.
Qed.

Lemma decimal_word : forall z, (0 <= z < 2 ^ 64)%Z -> dec (i64 (u64 z)) = decimal (word z).
Proof. intros z H. rewrite i64_word by auto. auto. Qed.
Lemma dec_word : forall z, int64_range z -> dec (i64 (u64 z)) = decimal z.
Proof. intros z H. rewrite i64_u64 by auto. auto. Qed.
Lemma zero_word : forall z, (0 <= z < 2 ^ 64)%Z -> (word z =? 0)%Z = (z =? 0)%Z.
Proof. intros z H. unfold word. destruct (Z.ltb_spec z (2 ^ 63)); auto. destruct (Z.eqb_spec (z - 2 ^ 64) 0), (Z.eqb_spec z 0); auto; lia. Qed.

Lemma stands_reads : forall m i v, stands m i v -> item_toString E i m = ROk m (shown v) /\ item_toBool E i m = ROk m (truth v).
Proof.
  intros m i v S. destruct v as [u|]; cbn [stands] in S; [|subst; auto].
  destruct (owns u) eqn:O.
  - destruct S as (n & c & h & -> & N & C). unfold item_toString, item_toBool. cbn [i_handler i_data]. unfold h_toString, h_toBool, deref. rewrite N.
    destruct u as [| | | | | | | |[t|]| | |]; try discriminate; injection C as <- <-; cbn [shown truth]; rewrite ?length_nil, ?zstring_before; split; auto.
    + destruct (before_nul t); auto.
    + destruct s; auto.
  - destruct S as (S & W). destruct u as [b|z|z|z|z|z|z|d|[t|]|t|n|]; try discriminate; injection S as <-; unfold item_toString, item_toBool; cbn [i_handler i_data h_toString h_toBool shown truth]; auto;
      try (destruct W as (z' & W); inversion W; subst;
           (rewrite i64_u64; [split; reflexivity|unfold int64_range; lia])).
    + destruct W as (z' & W). inversion W; subst. rewrite i64_word, zero_word by auto. auto.
    + split; auto. destruct d as [[]|[]| |[] ]; auto.
Qed.

Lemma stands_int : forall m i v z, stands m i v -> int_value v z -> item_toInt E i m = ROk m z.
Proof.
  intros m i v z S Z. destruct v as [u|]; cbn [stands] in S; [|subst; cbn in Z; subst; reflexivity].
  destruct (owns u) eqn:O.
  - destruct S as (n & c & h & -> & N & C). unfold item_toInt. cbn [i_handler i_data]. unfold h_toInt, deref. rewrite N.
    destruct u as [| | | | | | | |[t|]|t|k|]; try discriminate; try contradiction; injection C as <- <-; cbn [int_value] in Z; rewrite ?zstring_before.
    + destruct Z as (R & r & Z). rewrite (starts_stoll _ _ _ Z). apply fits_range in R. rewrite R. reflexivity.
    + destruct Z as (R & r & Z). rewrite (starts_stoll _ _ _ Z). apply fits_range in R. rewrite R. reflexivity.
    + subst. reflexivity.
  - destruct S as (S & W). destruct u as [b|n|n|n|n|n|n|d|[t|]|t|n|]; try discriminate; try contradiction; injection S as <-; unfold item_toInt; cbn [i_handler i_data h_toInt int_value] in *; subst;
      try (destruct W as (z' & W); inversion W; subst; rewrite i64_u64; [reflexivity|unfold int64_range; lia]).
    + reflexivity.
    + destruct W as (z' & W). inversion W; subst. rewrite i64_word by auto. reflexivity.
    + destruct Z as (x & R & T & I). rewrite (float_trunc d x z R T I). reflexivity.
Qed.

Lemma new_flat : forall m v, well_typed v -> owns v = false -> v <> VOther E -> exists i, item_new E v m = ROk m i /\ stands m i (Some v).
Proof. intros m v W O N. destruct v as [| | | | | | | |[]| | |]; try discriminate; try contradiction; eexists; (split; [reflexivity|]); cbn [stands owns]; auto. Qed.
Lemma new_cell : forall m v, well_typed v -> owns v = true -> exists c h, cell_of v = Some (c, h) /\
  item_new E v m = ROk (m ++ [Some c]) (mkItem (DPtr (PCell (List.length m))) h).
Proof. intros m v W O. destruct v as [| | | | | | | |[]| | |]; try discriminate; try contradiction; eexists; eexists; (split; [reflexivity|]); auto. Qed.

Ltac again IH s l r N2 I := destruct (IH s l r N2 I) as (s' & l' & R & I'); auto; exists s', l'; rewrite R; auto.

Lemma irun_ideal : forall ops s l r, typed_program ops -> iinv s l -> ideal_items ops l r ->
  exists s' l', irun E ops s = ROk s' r /\ iinv s' l'.
Proof.
  intros ops. induction ops as [|op ops IH]; intros s l r N I H; cbn [irun].
  - cbn in H. subst r. exists s, l. auto.
  - inversion N as [|? ? N1 N2]; subst. pose proof I as (F & _).
    assert (Q : forall x, match ifind x (items E s), vfind x l with Some i, Some v => stands (cells E s) i v | None, None => True | _, _ => False end)
      by (intros x; apply (ifind_vfind _ _ _ x F)).
    destruct op as [x|x v|x y|x y|x|x|x|x].
    + cbn [istep ideal_items] in *. specialize (Q x). destruct (ifind x (items E s)) as [i|] eqn:X, (vfind x l) as [u|] eqn:Y; try contradiction.
      * again IH s l r N2 I.
      * destruct (IH _ _ r N2 (add_flat s l x item_default None I X eq_refl eq_refl) H) as (s' & l' & R & I'). exists s', l'. rewrite R. auto.
    + cbn [istep]. specialize (Q x). destruct (ifind x (items E s)) as [i|] eqn:X, (vfind x l) as [u|] eqn:Y; try contradiction.
      * assert (H' : ideal_items ops l r) by (cbn [ideal_items] in H; rewrite Y in H; destruct v; auto). again IH s l r N2 I.
      * destruct (owns v) eqn:O.
        { assert (H' : ideal_items ops ((x, Some v) :: l) r) by (cbn [ideal_items] in H; rewrite Y in H; destruct v; try discriminate; auto).
          destruct (new_cell (cells E s) v N1 O) as (c & h & C & ->).
          destruct (IH _ _ r N2 (add_cell s l x v c h I X C) H') as (s' & l' & R & I'). exists s', l'. rewrite R. auto. }
        destruct v as [b|z|z|z|z|z|z|d|t|t|n|] eqn:V; try discriminate.
        all: try (match goal with |- context [item_new E ?u _] =>
               assert (H' : ideal_items ops ((x, Some u) :: l) r) by (cbn [ideal_items] in H; rewrite Y in H; auto);
               destruct (new_flat (cells E s) u N1 O ltac:(discriminate)) as (i & -> & S);
               destruct (IH _ _ r N2 (add_flat s l x i _ I X S O) H') as (s' & l' & R & I'); exists s', l'; rewrite R; auto end).
        cbn [ideal_items] in H. rewrite Y in H. destruct H as (r' & -> & Z).
        cbn [item_new]. destruct s as [m its]. cbn [cells items] in *. destruct (IH _ _ r' N2 I Z) as (s' & l' & R & I'). exists s', l'. rewrite R. auto.
    + cbn [istep ideal_items] in *. pose proof (Q x) as Qx. pose proof (Q y) as Qy.
      destruct (ifind x (items E s)) as [i|] eqn:X, (vfind x l) as [u|] eqn:Y; try contradiction.
      * again IH s l r N2 I.
      * destruct (ifind y (items E s)) as [j|] eqn:X', (vfind y l) as [w|] eqn:Y'; try contradiction.
        { destruct H as (O & H).
          destruct (IH _ _ r N2 (add_flat s l x j w I X Qy O) H) as (s' & l' & R & I'). exists s', l'. rewrite R. auto. }
        again IH s l r N2 I.
    + cbn [istep ideal_items] in *. pose proof (Q x) as Qx. pose proof (Q y) as Qy.
      destruct (ifind x (items E s)) as [i|] eqn:X, (vfind x l) as [u|] eqn:Y; try contradiction.
      * destruct (ifind y (items E s)) as [j|] eqn:X', (vfind y l) as [w|] eqn:Y'; try contradiction.
        { destruct H as ((O1 & O2) & H).
          destruct (del_item s l x i u I X Qx) as (m & D & J).
          assert (m = cells E s).
          { pose proof (stands_own _ _ _ Qx) as G. rewrite O1 in G. unfold item_destroy in D. destruct u as [u|]; [|cbn in Qx; subst; cbn in D; congruence].
            cbn [stands vowns] in *. rewrite O1 in Qx. destruct Qx as (Qx & _).
            destruct u as [| | | | | | | |[]| | |]; try discriminate; injection Qx as <-; cbn in D; congruence. }
          subst m. assert (NX : ifind x (idel x (items E s)) = None).
          { destruct I as (_ & K & _). destruct (ifind_split _ _ _ X) as (a & b & Eo & ->). rewrite Eo, map_app in K. cbn in K.
            apply NoDup_mid in K. destruct K as (_ & K). rewrite <- map_app in K. clear - K. induction (a ++ b) as [|[z d] o IHo]; cbn in *; auto.
            destruct (Nat.eqb_spec x z); [exfalso; auto|]. apply IHo. auto. }
          destruct (IH _ _ r N2 (add_flat _ _ x j w J NX Qy O2) H) as (s' & l' & R & I'). cbn [cells items] in R. exists s', l'. rewrite R. auto. }
        again IH s l r N2 I.
      * again IH s l r N2 I.
    + cbn [istep ideal_items] in *. specialize (Q x). destruct (ifind x (items E s)) as [i|] eqn:X, (vfind x l) as [u|] eqn:Y; try contradiction.
      * destruct (del_item s l x i u I X Q) as (m & -> & J). destruct (IH _ _ r N2 J H) as (s' & l' & R & I'). exists s', l'. rewrite R. auto.
      * rewrite vdel_none in H by auto. again IH s l r N2 I.
    + cbn [istep ideal_items] in *. specialize (Q x). destruct (ifind x (items E s)) as [i|] eqn:X, (vfind x l) as [u|] eqn:Y; try contradiction.
      * destruct (stands_reads _ _ _ Q) as (-> & _). destruct H as (r' & -> & Z).
        cbn [observe]. destruct s as [m its]. cbn [cells items] in *. again IH (mkI E m its) l r' N2 I.
      * again IH s l r N2 I.
    + cbn [istep ideal_items] in *. specialize (Q x). destruct (ifind x (items E s)) as [i|] eqn:X, (vfind x l) as [u|] eqn:Y; try contradiction.
      * destruct (stands_reads _ _ _ Q) as (_ & ->). destruct H as (r' & -> & Z).
        cbn [observe]. destruct s as [m its]. cbn [cells items] in *. again IH (mkI E m its) l r' N2 I.
      * again IH s l r N2 I.
    + cbn [istep ideal_items] in *. specialize (Q x). destruct (ifind x (items E s)) as [i|] eqn:X, (vfind x l) as [u|] eqn:Y; try contradiction.
      * destruct H as (z & r' & -> & V & Z). rewrite (stands_int _ _ _ _ Q V).
        cbn [observe]. destruct s as [m its]. cbn [cells items] in *. again IH (mkI E m its) l r' N2 I.
      * again IH s l r N2 I.
Qed.

Lemma ilive_in : forall (s : istate) p, In p (live_cells s) <-> exists b, nth_error (cells E s) p = Some (Some b).
Proof.
  intros s p. unfold live_cells. rewrite filter_In, in_seq. split.
  - intros (_ & H). destruct (nth_error (cells E s) p) as [[b|]|]; try discriminate. eauto.
  - intros (b & H). rewrite H. split; auto. split; [lia|]. cbn. apply nth_error_Some. congruence.
Qed.

Lemma no_copy_items : forall ops r, typed_program ops -> ideal_items ops [] r ->
  exists s, irun E ops (is0 E) = ROk s r /\ Permutation (live_cells s) (owned_cells s) /\ NoDup (owned_cells s).
Proof.
  intros ops r T H. destruct (irun_ideal ops (is0 E) [] r) as (s & l & R & (F & K & P & L)); auto.
  { split; [constructor|]. split; [constructor|]. split; [constructor|]. intros [|p] b Hp; discriminate. }
  exists s. split; auto. change (owned_cells s) with (own (items E s)). split; auto. apply NoDup_Permutation; auto.
  - unfold live_cells. apply NoDup_filter. apply seq_NoDup.
  - intros p. rewrite ilive_in. split; [intros (b & Hb); eauto|]. intros I. eapply own_live; eauto.
Qed.

(** ** Copies of owning items *)

Lemma destroy_twice : forall i m m', deep i = true -> item_destroy E i m = ROk m' tt -> item_destroy E i m' = RBad UB /\
  item_toString E i m' = RBad UB /\ item_toBool E i m' = RBad UB /\ item_toInt E i m' = RBad UB.
Proof.
  intros [d h] m m' D H. unfold item_destroy, item_toString, item_toBool, item_toInt, deep in *. cbn [i_handler i_data] in *.
  destruct h; try discriminate; unfold h_destroy, h_toString, h_toBool, h_toInt in *; destruct d as [| | |[n|]]; cbn [deref] in *; try discriminate;
    destruct (nth_error m n) as [[[]|]|] eqn:N; try discriminate; injection H as <-; rewrite (nth_error_upd_eq _ _ _ _ N); auto.
Qed.

Lemma copy_frees_twice : forall s x y i, ifind x (items E s) = None -> ifind y (items E s) = Some i -> deep i = true ->
  irun E [ICopy E x y; IDestroy E x; IDestroy E y] s = RBad UB /\ irun E [ICopy E x y; IDestroy E x; IToString E y] s = RBad UB.
Proof.
  intros s x y i X Y D. assert (NE : x <> y) by congruence. cbn [irun istep]. rewrite X, Y. cbn [items cells ifind]. rewrite Nat.eqb_refl.
  destruct (item_destroy E i (cells E s)) as [m []|m|b] eqn:Z.
  - cbn [items idel cells]. rewrite Nat.eqb_refl. rewrite Y. destruct (destroy_twice _ _ _ D Z) as (-> & -> & _). auto.
  - exfalso. unfold item_destroy, h_destroy in Z. destruct (i_handler i); try discriminate; destruct (i_data i) as [| | |[n|]]; cbn [deref] in Z; try discriminate;
      destruct (nth_error (cells E s) n) as [[[]|]|]; discriminate.
  - assert (b = UB). { unfold item_destroy, h_destroy in Z. destruct (i_handler i); try discriminate; destruct (i_data i) as [| | |[n|]]; cbn [deref] in Z; try congruence;
      destruct (nth_error (cells E s) n) as [[[]|]|]; congruence. }
    subst. auto.
Qed.
End Own.

Lemma assign_leaks : forall E s u, exists st, irun E [INew E 0 (VString E s); INew E 1 (VString E u); IAssign E 0 1] (is0 E) = ROk st [] /\
  In 0%nat (live_cells st) /\ ~ In 0%nat (owned_cells st) /\ istep E (IDestroy E 0) st <> RBad UB /\
  irun E [IDestroy E 0; IDestroy E 1] st = RBad UB.
Proof.
  intros E s u. eexists. split; [reflexivity|]. split; [cbn; auto|]. split; [cbn; intuition discriminate|]. split; [discriminate|reflexivity].
Qed.

(** ** allocate *)
Lemma allocate_flat : forall E e h m, flat h = true -> exists d, h_allocate E e h m = (m, d) /\
  h_toString E h d m = ROk m (default_text E h) /\ h_toBool E h d m = ROk m false /\ h_toInt E h d m = ROk m 0%Z /\ h_destroy E h d m = ROk m tt.
Proof.
  intros E e h m H. destruct h; try discriminate; eexists; (split; [reflexivity|]);
    (split; [reflexivity|]); (split; [reflexivity|]); (split; [reflexivity|]); reflexivity.
Qed.
Lemma allocate_deep : forall E e h m, flat h = false -> exists m' d c, h_allocate E e h m = (m', d) /\
  h_toString E h d m' = RBad UB /\ h_toBool E h d m' = RBad UB /\ h_toInt E h d m' = RBad UB /\ h_destroy E h d m' = RBad UB /\
  nth_error m' (List.length m) = Some (Some c) /\ d <> DPtr (PCell (List.length m)).
Proof.
  intros E e h m H. destruct h; try discriminate; cbn [h_allocate]; eexists; eexists; eexists; (split; [reflexivity|]);
    repeat (split; [reflexivity|]); (split; [rewrite nth_error_app2, Nat.sub_diag by auto; reflexivity|discriminate]).
Qed.
