(** * EXPECT_FLOAT_EQ. *)

From Coq Require Import ZArith Bool List Lia SpecFloat.
From Verif Require Import Base FutModel FutSpec.
From Verif Require ItemModel.
Open Scope Z_scope.

(** ** Rounding *)

Lemma digits_bounds : forall p, 2 ^ (Z.pos (digits2_pos p) - 1) <= Z.pos p < 2 ^ Z.pos (digits2_pos p).
Proof.
  induction p as [p IH|p IH|]; cbn [digits2_pos].
  - rewrite Pos2Z.inj_succ. replace (Z.succ (Z.pos (digits2_pos p)) - 1) with (Z.succ (Z.pos (digits2_pos p) - 1)) by lia.
    rewrite !Z.pow_succ_r by lia. lia.
  - rewrite Pos2Z.inj_succ. replace (Z.succ (Z.pos (digits2_pos p)) - 1) with (Z.succ (Z.pos (digits2_pos p) - 1)) by lia.
    rewrite !Z.pow_succ_r by lia. lia.
  - cbn. lia.
Qed.

Lemma digits_unique : forall p d, 2 ^ (d - 1) <= Z.pos p < 2 ^ d -> 1 <= d -> Z.pos (digits2_pos p) = d.
Proof.
  intros p d [H1 H2] D. pose proof (digits_bounds p) as [B1 B2]. set (k := Z.pos (digits2_pos p)) in *. assert (K : 1 <= k) by (subst k; lia). clearbody k.
  assert (2 ^ (d - 1) < 2 ^ k) by lia. assert (2 ^ (k - 1) < 2 ^ d) by lia.
  apply Z.pow_lt_mono_r_iff in H; [|lia|lia]. apply Z.pow_lt_mono_r_iff in H0; lia.
Qed.

(** What is left of [M] after [k] right shifts. *)
Definition shifted (M k : Z) (x : shr_record) : Prop :=
  exists rest, 0 <= shr_m x /\ M = shr_m x * 2 ^ k + rest /\ 0 <= rest < 2 ^ k /\
  match loc_of_shr_record x with
  | loc_Exact => rest = 0
  | loc_Inexact Lt => 0 < rest /\ 2 * rest < 2 ^ k
  | loc_Inexact Eq => 2 * rest = 2 ^ k
  | loc_Inexact Gt => 2 ^ k < 2 * rest
  end.

Lemma shr_1_shifted : forall M k x, 0 <= k -> shifted M k x -> shifted M (k + 1) (shr_1 x).
Proof.
  intros M k [m r s] K (rest & P & E & R & L). cbn [shr_m] in *.
  assert (Q : 2 ^ (k + 1) = 2 * 2 ^ k) by (rewrite Z.pow_add_r by lia; lia).
  assert (Pk : 0 < 2 ^ k) by (apply Z.pow_pos_nonneg; lia).
  assert (S : (r || s = false /\ rest = 0) \/ (r || s = true /\ 0 < rest)).
  { destruct r, s; cbn [loc_of_shr_record orb] in L |- *; try (left; split; [reflexivity|lia]); right; split; try reflexivity; lia. }
  unfold shifted. destruct m as [|[p|p|]|p]; cbn [shr_1 shr_m]; try lia.
  - exists rest. destruct S as [[-> ->]|[-> S]]; cbn [loc_of_shr_record]; repeat split; lia.
  - exists (2 ^ k + rest). rewrite Q. split; [lia|]. split; [nia|]. split; [lia|]. destruct S as [[-> ->]|[-> S]]; cbn [loc_of_shr_record]; lia.
  - exists rest. rewrite Q. split; [lia|]. split; [nia|]. split; [lia|]. destruct S as [[-> ->]|[-> S]]; cbn [loc_of_shr_record]; lia.
  - exists (2 ^ k + rest). rewrite Q. split; [lia|]. split; [nia|]. split; [lia|]. destruct S as [[-> ->]|[-> S]]; cbn [loc_of_shr_record]; lia.
Qed.

Lemma iter_shifted : forall p M k x, 0 <= k -> shifted M k x -> shifted M (k + Z.pos p) (iter_pos shr_1 p x).
Proof.
  induction p as [p IH|p IH|]; intros M k x K S; cbn [iter_pos].
  - replace (k + Z.pos p~1) with (k + 1 + Z.pos p + Z.pos p) by lia. apply IH; [lia|]. apply IH; [lia|]. now apply shr_1_shifted.
  - replace (k + Z.pos p~0) with (k + Z.pos p + Z.pos p) by lia. apply IH; [lia|]. now apply IH.
  - now apply shr_1_shifted.
Qed.

Lemma shr_shifted : forall m e n, 0 <= m -> exists x, shr (shr_record_of_loc m loc_Exact) e n = (x, e + Z.max 0 n) /\ shifted m (Z.max 0 n) x.
Proof.
  intros m e n M. assert (B : shifted m 0 (shr_record_of_loc m loc_Exact)) by (exists 0; cbn; repeat split; lia).
  destruct n as [|p|p].
  - exists (shr_record_of_loc m loc_Exact). cbn [shr]. change (Z.max 0 0) with 0. rewrite Z.add_0_r. auto.
  - eexists. cbn [shr]. replace (Z.max 0 (Z.pos p)) with (0 + Z.pos p) by lia. rewrite Z.add_0_l. split; [reflexivity|]. exact (iter_shifted p m 0 _ (Z.le_refl 0) B).
  - exists (shr_record_of_loc m loc_Exact). cbn [shr]. change (Z.max 0 (Z.neg p)) with 0. rewrite Z.add_0_r. auto.
Qed.

Lemma round_near : forall M k x, 0 <= k -> shifted M k x ->
  let m1 := round_nearest_even (shr_m x) (loc_of_shr_record x) in
  2 * Z.abs (m1 * 2 ^ k - M) <= 2 ^ k /\ shr_m x <= m1 <= shr_m x + 1 /\ (2 * M < 2 ^ k -> m1 = 0).
Proof.
  intros M k x K (rest & P & E & R & L). cbv zeta. destruct x as [m r s]. cbn [shr_m] in *. subst M.
  assert (Pk : 0 < 2 ^ k) by (apply Z.pow_pos_nonneg; lia).
  destruct r, s; cbn [loc_of_shr_record] in L; cbn [loc_of_shr_record round_nearest_even]; try (destruct (Z.even m)); repeat split; try nia.
Qed.

(** Rounding to double precision. *)
Lemma rounded : forall s M e, let n := Z.max 0 (fexp 53 1024 (Z.pos (digits2_pos M) + e) - e) in
  exists m f, 0 <= m /\ e + n <= f /\ 2 * Z.abs (m * 2 ^ (f - e) - Z.pos M) <= 2 ^ n
    /\ binary_round_aux 53 1024 s (Z.pos M) e loc_Exact = match m with Z0 => S754_zero s | Z.pos p => if f <=? 971 then S754_finite s p f else S754_infinity s | _ => S754_nan end.
Proof.
  intros s M e n. unfold binary_round_aux. unfold shr_fexp at 1. cbn [Zdigits2].
  destruct (shr_shifted (Z.pos M) e (fexp 53 1024 (Z.pos (digits2_pos M) + e) - e)) as (x & -> & S); [lia|]. fold n in S |- *.
  assert (N : 0 <= n) by (unfold n; lia).
  pose proof (round_near _ _ _ N S) as (A & B & C). set (m1 := round_nearest_even (shr_m x) (loc_of_shr_record x)) in *. clearbody m1.
  destruct S as (rest & P & Q & R & _). assert (M1 : 0 <= m1) by lia.
  unfold shr_fexp. destruct (shr_shifted m1 (e + n) (fexp 53 1024 (Zdigits2 m1 + (e + n)) - (e + n)) M1) as (y & -> & S2).
  set (n2 := Z.max 0 (fexp 53 1024 (Zdigits2 m1 + (e + n)) - (e + n))) in *. destruct S2 as (rest2 & P2 & Q2 & R2 & _).
  pose proof (digits_bounds M) as [D1 D2]. set (d := Z.pos (digits2_pos M)) in *. assert (HD : 1 <= d) by (subst d; lia).
  assert (Pn : 0 < 2 ^ n) by (apply Z.pow_pos_nonneg; lia).
  assert (Z2 : n2 = 0 \/ (n2 = 1 /\ rest2 = 0)).
  { destruct (Z.eq_dec n 0) as [N0|N0].
    { left. assert (m1 = Z.pos M) by (rewrite N0 in A; change (2 ^ 0) with 1 in A; lia). unfold n2. rewrite H, N0. cbn [Zdigits2]. fold d. rewrite Z.add_0_r. unfold n in N0. lia. }
    assert (EF : e + n = fexp 53 1024 (d + e)) by (unfold n in *; lia). unfold fexp, emin in EF.
    destruct (Z_lt_le_dec d n) as [LT|LE].
    { left. assert (X : m1 = 0). { apply C. assert (2 ^ d <= 2 ^ (n - 1)) by (apply Z.pow_le_mono_r; lia). assert (2 ^ n = 2 * 2 ^ (n - 1)) by (rewrite <- Z.pow_succ_r by lia; f_equal; lia). lia. }
      unfold n2. rewrite X. cbn [Zdigits2]. unfold fexp, emin. lia. }
    assert (DN : 2 ^ d = 2 ^ (d - n) * 2 ^ n) by (rewrite <- Z.pow_add_r by lia; f_equal; lia).
    assert (XM : shr_m x < 2 ^ (d - n)) by nia.
    destruct (Z.eq_dec m1 (2 ^ (d - n))) as [EQ|NE].
    - assert (DG : Zdigits2 m1 = d - n + 1).
      { destruct m1 as [|p|p]; [assert (0 < 2 ^ (d - n)) by (apply Z.pow_pos_nonneg; lia); lia| |lia]. cbn [Zdigits2]. apply digits_unique; [|lia].
        rewrite EQ. replace (d - n + 1 - 1) with (d - n) by lia. rewrite Z.pow_add_r by lia. assert (0 < 2 ^ (d - n)) by (apply Z.pow_pos_nonneg; lia). lia. }
      unfold n2 in *. rewrite DG in *. unfold fexp, emin in *.
      destruct (Z.eq_dec (Z.max 0 (Z.max (d - n + 1 + (e + n) - 53) (3 - 1024 - 53) - (e + n))) 0) as [Y|Y]; [left; exact Y|right].
      assert (Y1 : Z.max 0 (Z.max (d - n + 1 + (e + n) - 53) (3 - 1024 - 53) - (e + n)) = 1) by lia. split; [exact Y1|]. rewrite Y1 in Q2, R2. change (2 ^ 1) with 2 in *.
      assert (1 <= d - n) by lia. assert (2 ^ (d - n) = 2 * 2 ^ (d - n - 1)) by (rewrite <- Z.pow_succ_r by lia; f_equal; lia). lia.
    - left. assert (LT : m1 < 2 ^ (d - n)) by lia.
      assert (DG : Zdigits2 m1 <= d - n).
      { destruct m1 as [|p|p]; [change (0 <= d - n); lia| |lia]. cbn [Zdigits2]. pose proof (digits_bounds p) as [B1 _]. assert (2 ^ (Z.pos (digits2_pos p) - 1) < 2 ^ (d - n)) by lia.
        apply Z.pow_lt_mono_r_iff in H; lia. }
      unfold n2, fexp, emin. lia. }
  exists (shr_m y), (e + n + n2). assert (VAL : shr_m y * 2 ^ (e + n + n2 - e) = m1 * 2 ^ n).
  { replace (e + n + n2 - e) with (n2 + n) by lia. rewrite Z.pow_add_r by (try lia; destruct Z2 as [->|[-> _]]; lia).
    destruct Z2 as [Z2|[Z2 R0]]; rewrite Z2 in *; [change (2 ^ 0) with 1 in *; nia|change (2 ^ 1) with 2 in *; nia]. }
  split; [exact P2|]. split; [destruct Z2 as [->|[-> _]]; lia|]. split; [rewrite VAL; exact A|]. reflexivity.
Qed.

Lemma bounded_spec : forall m e, bounded 53 1024 m e = true -> -1074 <= e /\ Z.pos m < 2 ^ 53.
Proof.
  intros m e H. unfold bounded, canonical_mantissa in H. apply andb_true_iff in H. destruct H as [H _]. apply Zeq_bool_eq in H. unfold fexp, emin in H.
  split; [lia|]. pose proof (digits_bounds m) as [_ D]. assert (2 ^ Z.pos (digits2_pos m) <= 2 ^ 53) by (apply Z.pow_le_mono_r; lia). lia.
Qed.

Lemma ten4_value : Z.pos 5497558138880000 = 10000 * 2 ^ 39. Proof. reflexivity. Qed.

Lemma abs_units : forall s m e, Z.abs (units (S754_finite s m e)) = Z.pos m * 2 ^ (e + 1074).
Proof. intros s m e. cbn [units]. cbv zeta. assert (0 <= 2 ^ (e + 1074)) by (apply Z.pow_nonneg; lia). destruct s; nia. Qed.

(** The product with 10000: its sign is right, it is right up to one part in 2^53, and exactly if
    it is A * 2^B units with A < 2^53. *)
Lemma product : forall s m e, bounded 53 1024 m e = true -> let x := S754_finite s m e in let r := SFmul 53 1024 x ten4 in
  (r = S754_infinity s /\ 2 ^ 2000 <= 10000 * Z.abs (units x)) \/
  exists a, 0 <= a /\ units r = (if s then - a else a) /\ 2 ^ 53 * Z.abs (a - 10000 * Z.abs (units x)) <= 10000 * Z.abs (units x)
    /\ (forall A B, 0 <= B -> 10000 * Z.abs (units x) = A * 2 ^ B -> 0 <= A < 2 ^ 53 -> a = A * 2 ^ B)
    /\ match r with S754_zero _ => a = 0 | S754_finite t p f => t = s /\ -1074 <= f /\ a = Z.pos p * 2 ^ (f + 1074) | _ => False end.
Proof.
  intros s m e HB x r. destruct (bounded_spec m e HB) as [HE HM]. unfold r. change (SFmul 53 1024 x ten4) with (binary_round_aux 53 1024 (xorb s false) (Z.pos (m * 5497558138880000)) (e + -39) loc_Exact). rewrite xorb_false_r. clear r. unfold x.
  set (M := (m * 5497558138880000)%positive). destruct (rounded s M (e + -39)) as (m2 & f & M0 & F & A & ->). set (e0 := e + -39) in *.
  set (n := Z.max 0 (fexp 53 1024 (Z.pos (digits2_pos M) + e0) - e0)) in *.
  pose proof (digits_bounds M) as [D1 D2]. set (d := Z.pos (digits2_pos M)) in *. assert (HD : 1 <= d) by (subst d; lia).
  assert (MV : Z.pos M = Z.pos m * 10000 * 2 ^ 39) by (unfold M; rewrite Pos2Z.inj_mul, ten4_value; ring).
  set (NN := m2 * 2 ^ (f - e0)) in *.
  assert (NK : exists K, NN = K * 2 ^ n).
  { exists (m2 * 2 ^ (f - e0 - n)). unfold NN. rewrite <- Z.mul_assoc, <- Z.pow_add_r by lia. f_equal. f_equal. lia. }
  assert (Pn : 0 < 2 ^ n) by (apply Z.pow_pos_nonneg; lia).
  (* exact if 2^n divides M *)
  assert (EX : forall j, Z.pos M = j * 2 ^ n -> NN = Z.pos M).
  { intros j J. destruct NK as [K NK]. rewrite J, NK in A. assert (K = j) by nia. subst K. lia. }
  assert (ERR : 2 ^ 53 * Z.abs (NN - Z.pos M) <= Z.pos M).
  { assert (CS : n = 0 \/ n = d - 53 \/ (n <= 39 /\ n > 0)) by (unfold n, fexp, emin, e0 in *; lia). destruct CS as [N0|[N1|[N2 N3]]].
    - rewrite N0 in A. change (2 ^ 0) with 1 in A. assert (NN = Z.pos M) by lia. lia.
    - assert (2 ^ d = 2 ^ 53 * 2 ^ n) by (rewrite <- Z.pow_add_r by lia; f_equal; lia). assert (2 ^ d = 2 * 2 ^ (d - 1)) by (rewrite <- Z.pow_succ_r by lia; f_equal; lia). nia.
    - rewrite (EX (Z.pos m * 10000 * 2 ^ (39 - n))); [lia|]. rewrite MV, <- !Z.mul_assoc, <- Z.pow_add_r by lia. do 3 f_equal. lia. }
  (* the value in units *)
  assert (HF : -1074 <= f) by (unfold n, fexp, emin, e0 in *; lia).
  set (a := m2 * 2 ^ (f + 1074)). assert (P39 : 0 < 2 ^ (e + 1074)) by (apply Z.pow_pos_nonneg; lia).
  assert (NA : NN * 2 ^ (e + 1074) = a * 2 ^ 39).
  { unfold NN, a. rewrite <- !Z.mul_assoc, <- !Z.pow_add_r by (unfold e0; lia). f_equal. f_equal. unfold e0. lia. }
  assert (UA : Z.pos M * 2 ^ (e + 1074) = 10000 * (Z.pos m * 2 ^ (e + 1074)) * 2 ^ 39) by (rewrite MV; ring).
  rewrite abs_units. set (v := Z.pos m * 2 ^ (e + 1074)) in *.
  assert (A0 : 0 <= a) by (unfold a; apply Z.mul_nonneg_nonneg; [exact M0|apply Z.pow_nonneg; lia]).
  assert (E1 : 2 ^ 53 * Z.abs (a - 10000 * v) <= 10000 * v).
  { assert (X : Z.abs (a - 10000 * v) * 2 ^ 39 = Z.abs (NN - Z.pos M) * 2 ^ (e + 1074)).
    { rewrite <- (Z.abs_eq (2 ^ 39)) at 1 by lia. rewrite <- (Z.abs_eq (2 ^ (e + 1074))) at 1 by lia. rewrite <- !Z.abs_mul, !Z.mul_sub_distr_r, NA, UA. reflexivity. }
    nia. }
  assert (E2 : forall A B, 0 <= B -> 10000 * v = A * 2 ^ B -> 0 <= A < 2 ^ 53 -> a = A * 2 ^ B).
  { intros C B B0 Q C0. rewrite <- Q.
    assert (NM : NN = Z.pos M); [|rewrite NM, UA in NA; assert (0 < 2 ^ 39) by lia; nia].
    assert (CP : 0 < C) by (assert (0 < 2 ^ B) by (apply Z.pow_pos_nonneg; lia); assert (0 < v) by (unfold v; nia); nia).
    (* M * 2^(e+1074) = C * 2^(B+39) *)
    assert (QM : Z.pos M * 2 ^ (e + 1074) = C * 2 ^ (B + 39)) by (rewrite UA, Q, Z.pow_add_r by lia; ring).
    destruct (Z_le_gt_dec (e + 1074) (B + 39)) as [L|G].
    - set (g := B + 39 - (e + 1074)). assert (QG : Z.pos M = C * 2 ^ g).
      { assert (2 ^ (B + 39) = 2 ^ g * 2 ^ (e + 1074)) by (rewrite <- Z.pow_add_r by (unfold g; lia); f_equal; unfold g; lia). rewrite H in QM. nia. }
      assert (PG : 0 < 2 ^ g) by (apply Z.pow_pos_nonneg; unfold g; lia).
      assert (DG : d <= 53 + g). { assert (2 ^ (d - 1) < 2 ^ (53 + g)) by (rewrite Z.pow_add_r by (unfold g; lia); nia). apply Z.pow_lt_mono_r_iff in H; unfold g in *; lia. }
      assert (CS : n = 0 \/ n = d - 53 \/ (n <= 39 /\ n > 0)) by (unfold n, fexp, emin, e0 in *; lia). destruct CS as [N0|[N1|[N2 N3]]].
      + rewrite N0 in A. change (2 ^ 0) with 1 in A. lia.
      + apply (EX (C * 2 ^ (g - n))). rewrite QG, <- Z.mul_assoc, <- Z.pow_add_r by (unfold g in *; lia). f_equal. f_equal. lia.
      + apply (EX (Z.pos m * 10000 * 2 ^ (39 - n))). rewrite MV, <- !Z.mul_assoc, <- Z.pow_add_r by lia. do 3 f_equal. lia.
    - assert (Z.pos M < 2 ^ 53).
      { assert (2 ^ (e + 1074) = 2 ^ (e + 1074 - (B + 39)) * 2 ^ (B + 39)) by (rewrite <- Z.pow_add_r by lia; f_equal; lia).
        assert (0 < 2 ^ (e + 1074 - (B + 39))) by (apply Z.pow_pos_nonneg; lia). assert (0 < 2 ^ (B + 39)) by (apply Z.pow_pos_nonneg; lia). nia. }
      assert (d <= 53) by (assert (2 ^ (d - 1) < 2 ^ 53) by lia; apply Z.pow_lt_mono_r_iff in H0; lia).
      assert (CS : n = 0 \/ (n <= 39 /\ n > 0)) by (unfold n, fexp, emin, e0 in *; lia). destruct CS as [N0|[N2 N3]].
      + rewrite N0 in A. change (2 ^ 0) with 1 in A. lia.
      + apply (EX (Z.pos m * 10000 * 2 ^ (39 - n))). rewrite MV, <- !Z.mul_assoc, <- Z.pow_add_r by lia. do 3 f_equal. lia. }
  destruct m2 as [|p|p]; [| |lia].
  - right. exists 0. unfold a in *. rewrite Z.mul_0_l in *. cbn [units]. split; [lia|]. split; [destruct s; reflexivity|]. split; [exact E1|]. split; [exact E2|reflexivity].
  - destruct (f <=? 971) eqn:OV.
    2:{ left. split; [reflexivity|]. apply Z.leb_gt in OV. assert (L : 2 ^ 46 * 2 ^ 2000 <= a).
        { unfold a. rewrite <- Z.pow_add_r by lia. assert (2 ^ (46 + 2000) <= 2 ^ (f + 1074)) by (apply Z.pow_le_mono_r; lia). nia. }
        revert L E1. generalize (2 ^ 2000) (10000 * v) a. clear. intros. lia. }
    right. exists a. split; [exact A0|]. split; [cbn [units]; fold a; reflexivity|]. split; [exact E1|]. split; [exact E2|]. auto.
Qed.

(** ** Truncation *)

Lemma one_unit_pos : 0 < one_unit. Proof. apply Z.pow_pos_nonneg; lia. Qed.

Lemma truncated : forall t p f z, -1074 <= f -> ItemModel.truncate (S754_finite t p f) = Some z ->
  exists b, 0 <= b /\ z = (if t then - b else b) /\ b * one_unit <= Z.pos p * 2 ^ (f + 1074) < (b + 1) * one_unit.
Proof.
  intros t p f z HF H. cbn [ItemModel.truncate] in H. cbv zeta in H.
  set (b := match f with Z.neg k => Z.pos p / 2 ^ Z.pos k | _ => Z.pos p * 2 ^ f end) in *.
  destruct (ItemModel.fits (if t then - b else b)); [|discriminate H]. injection H as <-. exists b.
  assert (X : 0 <= b /\ b * one_unit <= Z.pos p * 2 ^ (f + 1074) < (b + 1) * one_unit); [|tauto].
  pose proof one_unit_pos as U. destruct (Z_lt_le_dec f 0) as [N|N].
  - destruct f as [|k|k]; try lia. assert (BE : b = Z.pos p / 2 ^ Z.pos k) by reflexivity. clearbody b. subst b.
    assert (P : 0 < 2 ^ Z.pos k) by (apply Z.pow_pos_nonneg; lia). assert (P2 : 0 < 2 ^ (Z.neg k + 1074)) by (apply Z.pow_pos_nonneg; lia).
    assert (QU : one_unit = 2 ^ Z.pos k * 2 ^ (Z.neg k + 1074)) by (unfold one_unit; rewrite <- Z.pow_add_r by lia; f_equal; lia).
    split; [apply Z.div_pos; lia|]. pose proof (Z.mul_div_le (Z.pos p) _ P). pose proof (Z.mul_succ_div_gt (Z.pos p) _ P). rewrite QU. nia.
  - assert (BE : b = Z.pos p * 2 ^ f) by (destruct f; try reflexivity; lia). clearbody b. subst b.
    assert (P : 0 < 2 ^ f) by (apply Z.pow_pos_nonneg; lia). assert (QU : 2 ^ (f + 1074) = 2 ^ f * one_unit) by (unfold one_unit; now rewrite Z.pow_add_r by lia).
    rewrite QU. nia.
Qed.

Lemma truncated_fits : forall t p f, -1074 <= f -> Z.pos p * 2 ^ (f + 1074) < 2 ^ 63 * one_unit -> exists z, ItemModel.truncate (S754_finite t p f) = Some z.
Proof.
  intros t p f HF L. cbn [ItemModel.truncate]. cbv zeta. pose proof one_unit_pos as U.
  set (b := match f with Z.neg k => Z.pos p / 2 ^ Z.pos k | _ => Z.pos p * 2 ^ f end).
  assert (X : 0 <= b < 2 ^ 63).
  { destruct (Z_lt_le_dec f 0) as [N|N].
    - destruct f as [|k|k]; try lia. assert (BE : b = Z.pos p / 2 ^ Z.pos k) by reflexivity. clearbody b. subst b.
      assert (P : 0 < 2 ^ Z.pos k) by (apply Z.pow_pos_nonneg; lia). split; [apply Z.div_pos; lia|]. apply Z.div_lt_upper_bound; [exact P|].
      assert (P2 : 0 < 2 ^ (Z.neg k + 1074)) by (apply Z.pow_pos_nonneg; lia).
      assert (QU : one_unit = 2 ^ Z.pos k * 2 ^ (Z.neg k + 1074)) by (unfold one_unit; rewrite <- Z.pow_add_r by lia; f_equal; lia).
      rewrite QU in L. revert L. generalize (2 ^ 63). intros. nia.
    - assert (BE : b = Z.pos p * 2 ^ f) by (destruct f; try reflexivity; lia). clearbody b. subst b.
      assert (P : 0 < 2 ^ f) by (apply Z.pow_pos_nonneg; lia). assert (QU : 2 ^ (f + 1074) = 2 ^ f * one_unit) by (unfold one_unit; now rewrite Z.pow_add_r by lia).
      rewrite QU in L. revert L. generalize (2 ^ 63). intros. nia. }
  clearbody b. assert (Q : ItemModel.fits (if t then - b else b) = true).
  { unfold ItemModel.fits, ItemModel.two63. apply andb_true_iff. rewrite !Z.leb_le, ?Z.ltb_lt. change (2 ^ 63) with 9223372036854775808 in *. destruct t; lia. }
  rewrite Q. eauto.
Qed.

(** What the check compares. *)
Lemma scaled_spec : forall x z, number x -> scaled x = Some z ->
  exists (s : bool) a b, units x = (if s then - Z.abs (units x) else Z.abs (units x)) /\ 0 <= a /\ 0 <= b /\ z = (if s then - b else b)
    /\ 2 ^ 53 * Z.abs (a - 10000 * Z.abs (units x)) <= 10000 * Z.abs (units x) /\ b * one_unit <= a < (b + 1) * one_unit
    /\ (forall A B, 0 <= B -> 10000 * Z.abs (units x) = A * 2 ^ B -> 0 <= A < 2 ^ 53 -> a = A * 2 ^ B).
Proof.
  intros x z [V N] H. unfold scaled in H. pose proof one_unit_pos as U. destruct x as [s|s| |s m e]; try contradiction.
  - assert (z = 0) by (destruct s; cbn in H; congruence). subst z. exists false, 0, 0. cbn [units]. change (Z.abs 0) with 0. split; [reflexivity|]. split; [lia|].
    split; [lia|]. split; [reflexivity|]. split; [lia|]. split; [lia|]. intros A B HB Q HA. lia.
  - destruct (product s m e V) as [[R _]|(a & A0 & UR & ER & EX & R)]; [rewrite R in H; discriminate H|].
    assert (SX : units (S754_finite s m e) = if s then - Z.abs (units (S754_finite s m e)) else Z.abs (units (S754_finite s m e))).
    { rewrite abs_units. cbn [units]. cbv zeta. destruct s; reflexivity. }
    destruct (SFmul 53 1024 (S754_finite s m e) ten4) as [t|t| |t p f]; try contradiction.
    + subst a. cbn in H. injection H as <-. exists s, 0, 0. split; [exact SX|]. split; [lia|]. split; [lia|]. split; [destruct s; reflexivity|].
      split; [exact ER|]. split; [lia|exact EX].
    + destruct R as (-> & F & RA). destruct (truncated _ _ _ _ F H) as (b & B0 & ZB & BB). exists s, a, b. split; [exact SX|]. split; [exact A0|]. split; [exact B0|].
      split; [exact ZB|]. split; [exact ER|]. split; [rewrite RA; exact BB|exact EX].
Qed.

Lemma scaled_defined : forall x, number x -> 10000 * Z.abs (units x) <= 2 ^ 62 * one_unit -> exists z, scaled x = Some z.
Proof.
  intros x [V N] L. unfold scaled. destruct x as [s|s| |s m e]; try contradiction; [destruct s; eexists; reflexivity|].
  destruct (product s m e V) as [[_ R]|(a & A0 & _ & ER & _ & R)].
  - exfalso. assert (X : 2 ^ 62 * one_unit < 2 ^ 2000) by (unfold one_unit; rewrite <- Z.pow_add_r by lia; apply Z.pow_lt_mono_r; lia). lia.
  - destruct (SFmul 53 1024 (S754_finite s m e) ten4) as [t|t| |t p f]; try contradiction; [eexists; reflexivity|].
    destruct R as (-> & F & RA). apply truncated_fits; [exact F|]. rewrite <- RA. pose proof one_unit_pos as U. revert L ER U. clear.
    generalize one_unit (10000 * Z.abs (units (S754_finite s m e))). intros. lia.
Qed.

(** ** The check *)

(** Accepted values are near each other. *)
Lemma near : forall x y, number x -> number y -> float_eq x y = Some true ->
  2 ^ 53 * (10000 * Z.abs (units x - units y) - 2 * one_unit) < 10000 * (Z.abs (units x) + Z.abs (units y))
  /\ (2 * one_unit <= 10000 * Z.abs (units x) ->
      2 ^ 53 * (10000 * Z.abs (units x - units y) - one_unit) < 10000 * (Z.abs (units x) + Z.abs (units y))).
Proof.
  intros x y Nx Ny H. unfold float_eq in H. destruct (scaled x) as [z|] eqn:Sx; [|discriminate H]. destruct (scaled y) as [w|] eqn:Sy; [|discriminate H].
  injection H as H. apply Z.eqb_eq in H. subst w. pose proof one_unit_pos as U.
  destruct (scaled_spec x z Nx Sx) as (s & a & b & Ux & A0 & B0 & Zx & Ex & Tx & _).
  destruct (scaled_spec y z Ny Sy) as (t & c & d & Uy & C0 & D0 & Zy & Ey & Ty & _). clear Sx Sy Nx Ny.
  revert U Ux Uy Ex Ey Tx Ty. generalize one_unit (units x) (units y). intros U ux uy PU Ux Uy Ex Ey Tx Ty.
  assert (CS : b = d /\ (b = 0 \/ s = t)) by (destruct s, t; lia). destruct CS as [<- CS].
  assert (AC : Z.abs (a - c) < U) by nia.
  split.
  - destruct CS as [->|<-]; [nia|]. destruct s; lia.
  - intro L. assert (BN : b <> 0) by (intros ->; lia). destruct CS as [->|<-]; [contradiction|]. destruct s; lia.
Qed.

Lemma same_accepted : forall x, number x -> 10000 * Z.abs (units x) <= 2 ^ 62 * one_unit -> float_eq x x = Some true.
Proof. intros x N L. destruct (scaled_defined x N L) as [z S]. unfold float_eq. rewrite S, Z.eqb_refl. reflexivity. Qed.

Lemma close_rejected : forall k x y, 1 <= k <= 200000 -> number x -> number y -> units x = k * one_unit -> units y = k * one_unit - 2 ^ 1052 ->
  float_eq x y = Some false /\ 10000 * Z.abs (units x - units y) < one_unit.
Proof.
  intros k x y K Nx Ny Ux Uy. pose proof one_unit_pos as U.
  assert (P : 0 < 2 ^ 1052) by (apply Z.pow_pos_nonneg; lia). assert (QU : one_unit = 4194304 * 2 ^ 1052) by (unfold one_unit; change 4194304 with (2 ^ 22); rewrite <- Z.pow_add_r by lia; reflexivity).
  assert (D62 : 10000 * Z.abs (units x) <= 2 ^ 62 * one_unit /\ 10000 * Z.abs (units y) <= 2 ^ 62 * one_unit).
  { rewrite Ux, Uy, QU. revert P. generalize (2 ^ 1052). intros. rewrite !Z.abs_eq by nia. nia. }
  destruct (scaled_defined x Nx (proj1 D62)) as [z Sx]. destruct (scaled_defined y Ny (proj2 D62)) as [w Sy]. unfold float_eq. rewrite Sx, Sy.
  destruct (scaled_spec x z Nx Sx) as (s & a & b & SUx & A0 & B0 & Zx & Ex & Tx & Xx).
  destruct (scaled_spec y w Ny Sy) as (t & c & d & SUy & C0 & D0 & Zy & Ey & Ty & Xy).
  assert (AX : a = 10000 * k * 2 ^ 1074).
  { apply Xx; [lia| |lia]. rewrite Ux, Z.abs_eq by (unfold one_unit; nia). unfold one_unit. ring. }
  assert (CY : c = 10000 * (k * 4194304 - 1) * 2 ^ 1052).
  { apply Xy; [lia| |lia]. rewrite Uy, QU. revert P. generalize (2 ^ 1052). intros. rewrite Z.abs_eq by nia. ring. }
  change (2 ^ 1074) with one_unit in AX. split.
  - f_equal. apply Z.eqb_neq. rewrite QU in *. clear Ex Ey Xx Xy Sx Sy D62. revert P SUx SUy Tx Ty AX CY Ux Uy. generalize (2 ^ 1052) (units x) (units y). intros W ux uy P SUx SUy Tx Ty AX CY Ux Uy.
    assert (b = 10000 * k) by nia. assert (d = 10000 * k - 1) by nia. subst. assert (0 < k * (4194304 * W)) by nia. assert (0 < k * (4194304 * W) - W) by nia.
    destruct s; [lia|]. destruct t; [lia|]. lia.
  - rewrite Ux, Uy, QU. revert P. generalize (2 ^ 1052). intros. lia.
Qed.

Lemma tiny_accepted : forall x y, number x -> number y -> 100000 * Z.abs (units x) <= 9 * one_unit -> 100000 * Z.abs (units y) <= 9 * one_unit -> float_eq x y = Some true.
Proof.
  intros x y Nx Ny Lx Ly. pose proof one_unit_pos as U.
  assert (Z0 : forall v, number v -> 100000 * Z.abs (units v) <= 9 * one_unit -> scaled v = Some 0).
  { intros v Nv Lv. destruct (scaled_defined v Nv) as [z S]; [lia|]. rewrite S. f_equal.
    destruct (scaled_spec v z Nv S) as (s & a & b & _ & A0 & B0 & -> & E & T & _). assert (b = 0) by nia. subst b. destruct s; reflexivity. }
  unfold float_eq. now rewrite (Z0 x Nx Lx), (Z0 y Ny Ly).
Qed.

(** EXPECT_FLOAT_EQ(x + 0, x) *)
Lemma sum_rejected : forall x, number x -> one_unit <= Z.abs (units x) -> 10000 * Z.abs (units x) <= 2 ^ 62 * one_unit -> float_eq_sum x (S754_zero false) x = Some false.
Proof.
  intros x N L H. unfold float_eq_sum, scaled_sum. change (SFmul 53 1024 (S754_zero false) ten4) with (S754_zero false). pose proof one_unit_pos as U.
  destruct (scaled_defined x N H) as [z S]. rewrite S. destruct (scaled_spec x z N S) as (s & a & b & SU & A0 & B0 & -> & E & T & _).
  destruct N as [V N]. destruct x as [s'|s'| |s' m e]; try contradiction.
  change (SFadd 53 1024 (S754_finite s' m e) (S754_zero false)) with (S754_finite s' m e). destruct (bounded_spec m e V) as [HE _].
  rewrite abs_units in *. destruct (truncated_fits s' m e HE) as [w W]; [revert H U L; generalize one_unit; intros; lia|]. rewrite W.
  destruct (truncated s' m e w HE W) as (g & G0 & -> & G). f_equal. apply Z.eqb_neq.
  revert L H E T G SU U. generalize one_unit. intros U L H E T G SU PU. set (v := Z.pos m * 2 ^ (e + 1074)) in *.
  assert (b <> g) by (intros ->; nia). assert (g < b) by nia. destruct s', s; lia.
Qed.
