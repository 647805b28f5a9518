(** * Elementary facts on lists used by the proofs (no model content). *)
From Coq Require Import List Arith ZArith Lia Bool.
From Verif Require Import Base.
Import ListNotations.

Section Facts.
Context {A : Type}.

Lemma nth_error_mid : forall (b : list A) x a,
  nth_error (b ++ x :: a) (length b) = Some x.
Proof.
  intros. rewrite nth_error_app2 by lia. rewrite Nat.sub_diag. reflexivity.
Qed.

Lemma upd_mid : forall f (b : list A) x a,
  upd (length b) f (b ++ x :: a) = b ++ f x :: a.
Proof. intros f b x a. induction b; simpl; [|rewrite IHb]; reflexivity. Qed.

Lemma upd_length : forall f n (l : list A), length (upd n f l) = length l.
Proof. intros f n l. revert n. induction l; destruct n; simpl; auto. Qed.

Lemma nth_error_upd_eq : forall f n (l : list A) x,
  nth_error l n = Some x -> nth_error (upd n f l) n = Some (f x).
Proof.
  intros f n l. revert n. induction l; destruct n; simpl; intros; try discriminate.
  - congruence.
  - auto.
Qed.

Lemma nth_error_upd_neq : forall f n m (l : list A),
  n <> m -> nth_error (upd n f l) m = nth_error l m.
Proof.
  intros f n m l. revert n m. induction l; destruct n, m; simpl; intros; auto; lia.
Qed.

Lemma removelast_snoc : forall (l : list A) x, removelast (l ++ [x]) = l.
Proof.
  intros. rewrite removelast_app by discriminate. simpl. apply app_nil_r.
Qed.

Lemma snoc_cases : forall (l : list A), l = [] \/ exists l' x, l = l' ++ [x].
Proof.
  intros l. destruct l using rev_ind; [left; auto|right; eauto].
Qed.

Lemma firstn_length_app : forall (b a : list A), firstn (length b) (b ++ a) = b.
Proof.
  intros. rewrite firstn_app, Nat.sub_diag. simpl.
  rewrite firstn_all. apply app_nil_r.
Qed.

Lemma skipn_length_app : forall (b a : list A), skipn (length b) (b ++ a) = a.
Proof.
  intros. rewrite skipn_app, Nat.sub_diag. simpl.
  rewrite skipn_all. reflexivity.
Qed.

Lemma skipn_rev_firstn : forall n (l : list A),
  skipn n (rev l) = rev (firstn (length l - n) l).
Proof. intros. rewrite skipn_rev. reflexivity. Qed.

Lemma nth_error_rev : forall (l : list A) n,
  n < length l -> nth_error (rev l) n = nth_error l (length l - 1 - n).
Proof.
  intros l. induction l using rev_ind; intros n Hn; simpl in Hn; [lia|].
  rewrite rev_app_distr. simpl. rewrite app_length in *. simpl in *.
  destruct n; simpl.
  - rewrite nth_error_app2 by lia.
    replace (length l + 1 - 1 - 0 - length l) with 0 by lia. reflexivity.
  - rewrite IHl by lia. rewrite nth_error_app1 by lia. f_equal. lia.
Qed.

Lemma nth_error_ext_eq : forall (l1 l2 : list A),
  (forall n, nth_error l1 n = nth_error l2 n) -> l1 = l2.
Proof.
  induction l1; destruct l2; intros H; auto.
  - specialize (H 0). discriminate.
  - specialize (H 0). discriminate.
  - f_equal.
    + specialize (H 0). simpl in H. congruence.
    + apply IHl1. intros n. apply (H (S n)).
Qed.

Lemma firstn_S_nth : forall n (l : list A) x,
  nth_error l n = Some x -> firstn (S n) l = firstn n l ++ [x].
Proof.
  induction n; intros l x H; destruct l; simpl in *; try discriminate.
  - congruence.
  - f_equal. apply IHn. auto.
Qed.

Lemma skipn_nth_cons : forall n (l : list A) x,
  nth_error l n = Some x -> skipn n l = x :: skipn (S n) l.
Proof.
  induction n; intros l x H; destruct l; simpl in *; try discriminate.
  - congruence.
  - apply IHn. auto.
Qed.

Lemma concat_uniform_length : forall n (l : list (list A)),
  Forall (fun p => length p = n) l -> length (concat l) = length l * n.
Proof.
  intros n l H. induction H; simpl; auto. rewrite app_length. lia.
Qed.

End Facts.
