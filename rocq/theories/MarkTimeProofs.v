(** * Proofs about measuring and waiting (C120). *)
From Coq Require Import ZArith Bool Lia.
From Verif Require Import Base FutModel MarkTimeModel MarkTimeSpec.
Open Scope Z_scope.

Lemma sint_ok : forall b z, - 2 ^ (b - 1) <= z < 2 ^ (b - 1) -> sint b z = ROk tt z.
Proof. intros b z H. unfold sint. destruct (Z.leb_spec (- 2 ^ (b - 1)) z), (Z.ltb_spec z (2 ^ (b - 1))); auto; lia. Qed.
Lemma sint_bad : forall b z, 2 ^ (b - 1) <= z -> sint b z = RBad UB.
Proof. intros b z H. unfold sint. destruct (Z.ltb_spec z (2 ^ (b - 1))); [lia|]. rewrite andb_false_r. reflexivity. Qed.

Lemma unix_reading : forall t, within t -> mark_unix 64 (Some (timeval t)) = ROk tt (t / 1000).
Proof.
  intros t (A & B). unfold mark_unix, timeval. pose proof (Z.div_mod t 1000000 ltac:(lia)) as D. pose proof (Z.mod_pos_bound t 1000000 ltac:(lia)) as M.
  assert (Q : 0 <= t / 1000000 < 6250000000000) by (split; [apply Z.div_pos; lia|apply Z.div_lt_upper_bound; lia]).
  rewrite sint_ok by (change (2 ^ (64 - 1)) with 9223372036854775808; lia). cbn [andthen].
  assert (R : 0 <= t mod 1000000 / 1000 < 1000) by (split; [apply Z.div_pos; lia|apply Z.div_lt_upper_bound; lia]).
  rewrite sint_ok by (change (2 ^ (64 - 1)) with 9223372036854775808; lia). f_equal.
  rewrite D at 3. replace (1000000 * (t / 1000000) + t mod 1000000) with (t mod 1000000 + t / 1000000 * 1000 * 1000) by lia.
  rewrite Z.div_add by lia. lia.
Qed.

Lemma win_reading : forall t, 0 <= t -> mark_win (hour_of t) (minute_of t) (second_of t) (millisecond_of t) = ROk tt ((t / 1000) mod 86400000).
Proof.
  intros t A. unfold mark_win.
  pose proof (Z.mod_pos_bound (t / 3600000000) 24 ltac:(lia)) as H1. pose proof (Z.mod_pos_bound (t / 60000000) 60 ltac:(lia)) as H2.
  pose proof (Z.mod_pos_bound (t / 1000000) 60 ltac:(lia)) as H3. pose proof (Z.mod_pos_bound (t / 1000) 1000 ltac:(lia)) as H4.
  fold (hour_of t) in H1. fold (minute_of t) in H2. fold (second_of t) in H3. fold (millisecond_of t) in H4.
  assert (E : (t / 1000) mod 86400000 = hour_of t * 3600000 + minute_of t * 60000 + second_of t * 1000 + millisecond_of t).
  { unfold hour_of, minute_of, second_of, millisecond_of in *.
    change 3600000000 with (1000 * 3600000). change 60000000 with (1000 * 60000). change 1000000 with (1000 * 1000).
    rewrite <- !Z.div_div by lia. generalize (t / 1000). intros m.
    change 3600000 with (1000 * 60 * 60). change 60000 with (1000 * 60). rewrite <- !Z.div_div by lia.
    change 86400000 with (1000 * (60 * (60 * 24))). rewrite !Z.rem_mul_r by lia. lia. }
  repeat (rewrite sint_ok by (change (2 ^ (32 - 1)) with 2147483648; lia); cbn [andthen]). rewrite E. f_equal. lia.
Qed.

Lemma readings : forall t, within t ->
  mark_unix 64 (Some (timeval t)) = ROk tt (t / 1000) /\
  mark_win (hour_of t) (minute_of t) (second_of t) (millisecond_of t) = ROk tt ((t / 1000) mod 86400000).
Proof. intros t W. split; [apply unix_reading; auto|apply win_reading; destruct W; auto]. Qed.

Lemma narrow_refuted : forall t, 2147484 * 1000000 <= t -> mark_unix 32 (Some (timeval t)) = RBad UB.
Proof.
  intros t H. unfold mark_unix, timeval. rewrite sint_bad; [reflexivity|]. change (2 ^ (32 - 1)) with 2147483648.
  assert (2147484 <= t / 1000000) by (apply Z.div_le_lower_bound; lia). lia.
Qed.

Lemma floor_measure : forall t1 t2, measures (t2 / 1000 - t1 / 1000) (t2 - t1).
Proof.
  intros t1 t2. unfold measures. pose proof (Z.div_mod t1 1000 ltac:(lia)). pose proof (Z.div_mod t2 1000 ltac:(lia)).
  pose proof (Z.mod_pos_bound t1 1000 ltac:(lia)). pose proof (Z.mod_pos_bound t2 1000 ltac:(lia)). lia.
Qed.

Lemma elapsed_forward : forall x y, x <= y -> elapsed x y = y - x.
Proof. intros x y H. unfold elapsed. destruct (Z.ltb_spec y x); lia. Qed.

Lemma elapsed_day : forall x y, x <= y < x + 86400000 -> elapsed (x mod 86400000) (y mod 86400000) = y - x.
Proof.
  intros x y H. unfold elapsed, MSECS_IN_A_DAY.
  pose proof (Z.div_mod x 86400000 ltac:(lia)). pose proof (Z.div_mod y 86400000 ltac:(lia)).
  pose proof (Z.mod_pos_bound x 86400000 ltac:(lia)). pose proof (Z.mod_pos_bound y 86400000 ltac:(lia)).
  destruct (Z.ltb_spec (y mod 86400000) (x mod 86400000)); nia.
Qed.

Lemma measure_partial : forall t1 t2, 0 <= t1 <= t2 ->
  measures (elapsed (t1 / 1000) (t2 / 1000)) (t2 - t1) /\
  (t2 - t1 < day - 1000 -> measures (elapsed ((t1 / 1000) mod 86400000) ((t2 / 1000) mod 86400000)) (t2 - t1)).
Proof.
  intros t1 t2 (A & B). assert (L : t1 / 1000 <= t2 / 1000) by (apply Z.div_le_mono; lia). split.
  - rewrite elapsed_forward by auto. apply floor_measure.
  - intros D. unfold day in D. rewrite elapsed_day; [apply floor_measure|]. split; auto.
    pose proof (floor_measure t1 t2) as M. unfold measures in M. lia.
Qed.

Lemma measure_refuted : forall t1 t2,
  (t1 + day + 1000 <= t2 -> ~ measures (elapsed ((t1 / 1000) mod 86400000) ((t2 / 1000) mod 86400000)) (t2 - t1)) /\
  (t2 <= t1 - 1000 -> elapsed (t1 / 1000) (t2 / 1000) = 86400000 + (t2 / 1000 - t1 / 1000) /\ ~ measures (elapsed (t1 / 1000) (t2 / 1000)) (t2 - t1)).
Proof.
  intros t1 t2. pose proof (floor_measure t1 t2) as F. unfold measures in F. split.
  - intros D M. unfold day in D. unfold measures in M.
    assert (U : elapsed ((t1 / 1000) mod 86400000) ((t2 / 1000) mod 86400000) < 86400000).
    { pose proof (Z.mod_pos_bound (t1 / 1000) 86400000 ltac:(lia)). pose proof (Z.mod_pos_bound (t2 / 1000) 86400000 ltac:(lia)).
      unfold elapsed, MSECS_IN_A_DAY. destruct (Z.ltb_spec (t2 / 1000 mod 86400000) (t1 / 1000 mod 86400000)); lia. }
    lia.
  - intros D. assert (L : t2 / 1000 < t1 / 1000).
    { pose proof (Z.div_mod t1 1000 ltac:(lia)). pose proof (Z.div_mod t2 1000 ltac:(lia)).
      pose proof (Z.mod_pos_bound t1 1000 ltac:(lia)). pose proof (Z.mod_pos_bound t2 1000 ltac:(lia)). lia. }
    assert (E : elapsed (t1 / 1000) (t2 / 1000) = 86400000 + (t2 / 1000 - t1 / 1000)).
    { unfold elapsed, MSECS_IN_A_DAY. destruct (Z.ltb_spec (t2 / 1000) (t1 / 1000)); lia. }
    split; [exact E|]. rewrite E. unfold measures. lia.
Qed.

Lemma wait_partial : forall d t1 t2, 0 <= d -> 0 <= t1 ->
  (d * 1000 < 2 ^ 32 -> exists us, wait_unix d = ROk tt us /\ us = 1000 * d /\
     (t1 + us <= t2 -> d <= elapsed (t1 / 1000) (t2 / 1000))) /\
  (d < 2 ^ 32 - 1 -> wait_win d = ROk tt d /\
     (t1 + 1000 * d <= t2 < t1 + day - 1000 -> d <= elapsed ((t1 / 1000) mod 86400000) ((t2 / 1000) mod 86400000))).
Proof.
  intros d t1 t2 D T. change (2 ^ 32) with 4294967296.
  assert (G : t1 + 1000 * d <= t2 -> t1 / 1000 + d <= t2 / 1000).
  { intros H. rewrite <- Z.div_add by lia. apply Z.div_le_mono; lia. }
  split; intros H.
  - exists (1000 * d). unfold wait_unix. rewrite sint_ok by (change (2 ^ (64 - 1)) with 9223372036854775808; lia). cbn [andthen].
    change (2 ^ 32) with 4294967296. rewrite Z.mod_small by lia. repeat split; [f_equal; lia|]. intros W. specialize (G W). rewrite elapsed_forward; lia.
  - unfold wait_win. change (2 ^ 32) with 4294967296. rewrite Z.mod_small by lia. split; auto. intros (W & W'). specialize (G W).
    unfold day in W'. rewrite elapsed_day; [lia|]. pose proof (floor_measure t1 t2) as F. unfold measures in F. lia.
Qed.

Lemma wait_refuted : forall d,
  (2 ^ 32 <= d * 1000 < 2 ^ 63 -> exists us, wait_unix d = ROk tt us /\ us < 2 ^ 32 /\ us < 1000 * d) /\
  (2 ^ 32 <= d < 2 ^ 63 -> exists ms, wait_win d = ROk tt ms /\ ms < 2 ^ 32 /\ ms < d).
Proof.
  intros d. change (2 ^ 32) with 4294967296. change (2 ^ 63) with 9223372036854775808. split; intros H.
  - exists ((d * 1000) mod 4294967296). pose proof (Z.mod_pos_bound (d * 1000) 4294967296 ltac:(lia)).
    unfold wait_unix. rewrite sint_ok by (change (2 ^ (64 - 1)) with 9223372036854775808; lia). cbn [andthen]. split; [reflexivity|lia].
  - exists (d mod 4294967296). pose proof (Z.mod_pos_bound d 4294967296 ltac:(lia)). split; [reflexivity|lia].
Qed.

