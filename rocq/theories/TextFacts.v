(** * Facts about text. *)

From Coq Require Import ZArith String Ascii Bool List Lia Decimal DecimalString DecimalZ DecimalFacts.
From Verif Require Import TextModel TextSpec.
Open Scope string_scope.

Lemma str_app_assoc : forall a b c : string, (a ++ b) ++ c = a ++ (b ++ c).
Proof. intros a b c. induction a as [|x a IH]; cbn; [auto|rewrite IH; auto]. Qed.
Lemma str_app_nil_r : forall a : string, a ++ "" = a.
Proof. intros a. induction a as [|x a IH]; cbn; [auto|rewrite IH; auto]. Qed.
Lemma str_length_app : forall a b, String.length (a ++ b) = String.length a + String.length b.
Proof. intros a b. induction a as [|x a IH]; cbn; [auto|rewrite IH; auto]. Qed.
Lemma length_fill : forall n c, String.length (fill n c) = n.
Proof. intros n c. induction n; cbn; auto. Qed.

Lemma has_app : forall c a b, has c (a ++ b) <-> has c a \/ has c b.
Proof. intros c a b. induction a as [|x a IH]; cbn; [tauto|]. rewrite IH. tauto. Qed.
Lemma has_fill : forall c n d, has c (fill n d) -> c = d.
Proof. intros c n d. induction n; cbn; [tauto|]. intros [H|H]; auto. Qed.

Lemma upto_app : forall c a b, ~ has c a -> upto c (a ++ String c b) = Some (a, b).
Proof.
  intros c a b H. induction a as [|x a IH]; cbn.
  - rewrite Ascii.eqb_refl. auto.
  - cbn in H. destruct (Ascii.eqb_spec x c); [tauto|]. rewrite IH by tauto. auto.
Qed.

Lemma after_app : forall p s, after p (p ++ s) = Some s.
Proof. intros p s. induction p as [|a p IH]; cbn; auto. rewrite Ascii.eqb_refl. auto. Qed.

Lemma chop_app : forall c s, chop c (s ++ String c "") = Some s.
Proof.
  intros c s. induction s as [|a s IH]; [cbn; rewrite Ascii.eqb_refl; auto|].
  cbn [append chop]. destruct (s ++ String c "") eqn:E; [destruct s; discriminate|]. rewrite IH. auto.
Qed.

Lemma cut_app : forall a b, cut (String.length a) (a ++ b) = Some (a, b).
Proof. intros a b. induction a as [|x a IH]; cbn; auto. rewrite IH. auto. Qed.

(** ** Decimal numbers *)
Lemma to_uint_nz : forall p, Pos.to_uint p <> Nil.
Proof. intros p H. apply (f_equal Pos.of_uint) in H. rewrite DecimalPos.Unsigned.of_to in H. discriminate. Qed.

Lemma undec_dec : forall z, undec (dec z) = Some z.
Proof.
  intros z. unfold undec, dec. rewrite NilZero.isi.
  - cbn. rewrite DecimalZ.of_to. auto.
  - destruct z; cbn; [discriminate| |discriminate]. intros H. injection H as H. eapply to_uint_nz; eauto.
  - destruct z; cbn; [discriminate|discriminate|]. intros H. injection H as H. eapply to_uint_nz; eauto.
Qed.

Definition digit (c : ascii) : Prop := (48 <= nat_of_ascii c <= 57)%nat.

Lemma has_uint : forall c d, has c (NilEmpty.string_of_uint d) -> digit c.
Proof.
  intros c d. induction d as [|d IH|d IH|d IH|d IH|d IH|d IH|d IH|d IH|d IH|d IH]; cbn; [tauto| ..];
    (intros [<-|H]; [unfold digit; cbn; lia|auto]).
Qed.

Lemma has_zero_uint : forall c d, has c (NilZero.string_of_uint d) -> digit c.
Proof. intros c d H. destruct d; try (apply has_uint in H; auto; fail). cbn in H. destruct H as [<-|[]]. unfold digit. cbn. lia. Qed.

Lemma has_dec : forall c z, has c (dec z) -> digit c \/ c = "-"%char.
Proof.
  intros c z H. unfold dec, NilZero.string_of_int in H. destruct (Z.to_int z).
  - apply has_zero_uint in H. auto.
  - cbn in H. destruct H as [<-|H]; auto. apply has_zero_uint in H. auto.
Qed.

Lemma dec_nonneg : forall c z, (0 <= z)%Z -> has c (dec z) -> digit c.
Proof.
  intros c z P H. unfold dec, NilZero.string_of_int in H. destruct z as [|p|p]; [|apply has_zero_uint in H; auto|lia].
  cbn in H. destruct H as [<-|[]]. unfold digit. cbn. lia.
Qed.

Lemma not_digit : forall c z, (nat_of_ascii c < 48)%nat \/ (57 < nat_of_ascii c)%nat -> (0 <= z)%Z -> ~ has c (dec z).
Proof. intros c z H P I. apply dec_nonneg in I; auto. unfold digit in I. lia. Qed.

Lemma not_in_dec : forall c z, (nat_of_ascii c < 48)%nat \/ (57 < nat_of_ascii c)%nat -> c <> "-"%char -> ~ has c (dec z).
Proof. intros c z H N I. apply has_dec in I. unfold digit in I. destruct I; [lia|auto]. Qed.

Lemma dec_not_nil : forall z, dec z <> "".
Proof. intros z H. pose proof (undec_dec z) as E. rewrite H in E. discriminate. Qed.

(** A leading zero does not matter. *)
Lemma undec_zero : forall z, (0 <= z)%Z -> undec (String "0" (dec z)) = Some z.
Proof.
  intros z P.
  assert (X : exists d, dec z = NilEmpty.string_of_uint d /\ Z.of_uint d = z).
  { unfold dec. destruct z as [|p|p]; [|exists (Pos.to_uint p)|lia].
    - exists (D0 Nil). auto.
    - cbn [Z.to_int NilZero.string_of_int]. split.
      + unfold NilZero.string_of_uint. pose proof (to_uint_nz p). destruct (Pos.to_uint p); auto; contradiction.
      + unfold Z.of_uint. rewrite DecimalPos.Unsigned.of_to. auto. }
  destruct X as (d & E & V). unfold undec. rewrite E.
  assert (Y : NilZero.int_of_string (String "0" (NilEmpty.string_of_uint d)) = Some (Pos (D0 d))).
  { change (String "0" (NilEmpty.string_of_uint d)) with (NilZero.string_of_int (Pos (D0 d))). apply NilZero.isi; discriminate. }
  rewrite Y. cbn. f_equal. rewrite <- V. reflexivity.
Qed.

Lemma undec_pad2 : forall z, (0 <= z)%Z -> undec (padl 2 "0" (dec z)) = Some z.
Proof.
  intros z P. unfold padl. pose proof (dec_not_nil z) as N. destruct (dec z) as [|a [|b s]] eqn:E; [contradiction| |].
  - cbn [String.length Nat.sub fill append]. rewrite <- E. apply undec_zero; auto.
  - cbn [String.length Nat.sub fill append]. rewrite <- E. apply undec_dec.
Qed.

Lemma pad2_has : forall c z, (0 <= z)%Z -> has c (padl 2 "0" (dec z)) -> digit c.
Proof.
  intros c z P H. unfold padl in H. apply has_app in H. destruct H as [H|H]; [|eapply dec_nonneg; eauto].
  apply has_fill in H. subst. unfold digit. cbn. lia.
Qed.

Lemma pad2_not : forall c z, (nat_of_ascii c < 48)%nat \/ (57 < nat_of_ascii c)%nat -> (0 <= z)%Z -> ~ has c (padl 2 "0" (dec z)).
Proof. intros c z H P I. apply pad2_has in I; auto. unfold digit in I. lia. Qed.

(** Lengths of small numbers. *)
Lemma all_below : forall n (P : Z -> Prop), (forall k, (k < n)%nat -> P (Z.of_nat k)) -> forall z, (0 <= z < Z.of_nat n)%Z -> P z.
Proof. intros n P H z B. rewrite <- (Z2Nat.id z) by lia. apply H. lia. Qed.

Lemma forallb_seq : forall n f, List.forallb f (List.seq 0 n) = true -> forall k, (k < n)%nat -> f k = true.
Proof. intros n f H k L. rewrite List.forallb_forall in H. apply H. apply List.in_seq. lia. Qed.

Lemma dec_len_2 : forall z, (0 <= z < 100)%Z -> (String.length (dec z) <= 2)%nat.
Proof.
  intros z B. apply (all_below 100 (fun z => String.length (dec z) <= 2)%nat); [|lia]. intros k K.
  apply Nat.leb_le. apply (forallb_seq 100 (fun k => Nat.leb (String.length (dec (Z.of_nat k))) 2)); auto.
Qed.

Lemma pad2_length : forall z, (0 <= z < 100)%Z -> String.length (padl 2 "0" (dec z)) = 2.
Proof. intros z B. unfold padl. rewrite str_length_app, length_fill. pose proof (dec_len_2 z B). lia. Qed.

(** ** rfind *)
Lemma rfind_none : forall c s, rfind c s = None <-> ~ has c s.
Proof.
  intros c s. induction s as [|a s IH]; cbn; [tauto|]. destruct (rfind c s) as [n|].
  - split; [discriminate|]. intros H. exfalso. destruct IH as [_ IH]. assert (~ has c s) by tauto. specialize (IH H0). discriminate.
  - destruct (Ascii.eqb_spec a c); [split; [discriminate|tauto]|]. tauto.
Qed.

Lemma rfind_some : forall c s n, rfind c s = Some n -> exists d b, s = d ++ String c b /\ ~ has c b /\ drop (S n) s = b.
Proof.
  intros c s. induction s as [|a s IH]; intros n H; cbn in H; [discriminate|].
  destruct (rfind c s) as [k|] eqn:E.
  - injection H as <-. destruct (IH k eq_refl) as (d & b & -> & N & D). exists (String a d), b. split; auto.
  - destruct (Ascii.eqb_spec a c); [|discriminate]. injection H as <-. subst. exists "", s. split; auto.
    split; [apply rfind_none; auto|]. auto.
Qed.
