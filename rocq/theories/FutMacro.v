(** * Proofs about the check macros. *)

From Coq Require Import ZArith String Ascii Bool List Arith Lia SpecFloat.
From Verif Require Import TextModel FutModel FutSpec FutProofs FutClose FutFloat FutMacroModel FutMacroSpec.
Import ListNotations.
Open Scope string_scope.
Open Scope list_scope.

Lemma both_value : forall S V W lf (a : expr S V) (b : expr S W) s v w s', both lf a b s = Value (v, w) s' -> both_once a b s v w s'.
Proof.
  intros S V W lf a b s v w s' H. unfold both, bind in H. unfold both_once, gives. destruct lf.
  - destruct (a s) as [v0 m|x m] eqn:A; [|discriminate]. destruct (b m) as [w0 m'|x m'] eqn:B; [|discriminate]. injection H as -> -> ->. left. exists m. auto.
  - destruct (b s) as [w0 m|x m] eqn:B; [|discriminate]. destruct (a m) as [v0 m'|x m'] eqn:A; [|discriminate]. injection H as -> -> ->. right. exists m. auto.
Qed.

Lemma logic_passes : forall S V W lf (cmp : V -> W -> bool) show f l d (a : expr S V) (b : expr S W) s s' x,
  check_logic lf cmp show f l d a b s = (SCheck true f l d x, s') -> exists v w, both_once a b s v w s' /\ cmp v w = true.
Proof.
  intros S V W lf cmp show f l d a b s s' x H. unfold check_logic in H. destruct (both lf a b s) as [[v w] m|e m] eqn:B; [|discriminate].
  destruct (cmp v w) eqn:C.
  - injection H as _ ->. exists v, w. split; [exact (both_value _ _ _ _ _ _ _ _ _ _ B)|exact C].
  - destruct (b m); discriminate.
Qed.

Lemma logic_fails : forall S V W lf (cmp : V -> W -> bool) show f l d (a : expr S V) (b : expr S W) s s' x,
  check_logic lf cmp show f l d a b s = (SCheck false f l d x, s') ->
  exists v w m w', both_once a b s v w m /\ cmp v w = false /\ gives b m w' s' /\ x = show w'.
Proof.
  intros S V W lf cmp show f l d a b s s' x H. unfold check_logic in H. destruct (both lf a b s) as [[v w] m|e m] eqn:B; [|discriminate].
  destruct (cmp v w) eqn:C; [discriminate|]. destruct (b m) as [w' m'|e m'] eqn:B2; [|discriminate]. injection H as <- <-.
  exists v, w, m, w'. split; [exact (both_value _ _ _ _ _ _ _ _ _ _ B)|]. auto.
Qed.

Lemma logic_pure : forall S V W lf (cmp : V -> W -> bool) show f l d (a : expr S V) (b : expr S W) s, pure a -> pure b ->
  exists v w, gives a s v s /\ gives b s w s
  /\ check_logic lf cmp show f l d a b s = (if cmp v w then SCheck true f l d "" else SCheck false f l d (show w), s).
Proof.
  intros S V W lf cmp show f l d a b s [va A] [vb B]. exists (va s), (vb s). split; [apply A|]. split; [apply B|].
  unfold check_logic. assert (X : both lf a b s = Value (va s, vb s) s) by (unfold both, bind; destruct lf; rewrite ?A, ?B; rewrite ?A, ?B; reflexivity).
  rewrite X. destruct (cmp (va s) (vb s)); [reflexivity|]. rewrite B. reflexivity.
Qed.

Lemma truth_pure : forall S W wanted (truth : W -> bool) show f l d (b : expr S W) s, pure b ->
  exists w, gives b s w s
  /\ check_truth wanted truth show f l d b s = (if Bool.eqb (truth w) wanted then SCheck true f l d "" else SCheck false f l d (show w), s).
Proof.
  intros S W wanted truth show f l d b s [vb B]. exists (vb s). split; [apply B|]. unfold check_truth. rewrite B. destruct (Bool.eqb (truth (vb s)) wanted); [reflexivity|]. rewrite B. reflexivity.
Qed.

Lemma truth_passes : forall S W wanted (truth : W -> bool) show f l d (b : expr S W) s s' x,
  check_truth wanted truth show f l d b s = (SCheck true f l d x, s') -> exists w, gives b s w s' /\ truth w = wanted.
Proof.
  intros S W wanted truth show f l d b s s' x H. unfold check_truth in H. destruct (b s) as [w m|e m] eqn:B; [|discriminate].
  destruct (Bool.eqb (truth w) wanted) eqn:C; [injection H as _ <-; exists w; split; [exact B|now apply Bool.eqb_prop]|]. destruct (b m); discriminate.
Qed.

Lemma truth_fails : forall S W wanted (truth : W -> bool) show f l d (b : expr S W) s s' x,
  check_truth wanted truth show f l d b s = (SCheck false f l d x, s') ->
  exists w m w', gives b s w m /\ truth w = negb wanted /\ gives b m w' s' /\ x = show w'.
Proof.
  intros S W wanted truth show f l d b s s' x H. unfold check_truth in H. destruct (b s) as [w m|e m] eqn:B; [|discriminate].
  destruct (Bool.eqb (truth w) wanted) eqn:C; [discriminate|]. destruct (b m) as [w' m'|e m'] eqn:B2; [|discriminate]. injection H as <- <-.
  exists w, m, w'. split; [exact B|]. split; [|auto]. destruct (truth w), wanted; try discriminate; reflexivity.
Qed.

Lemma counter_fails : forall lf f l d (k n : Z), (n + 1 <> k)%Z ->
  check_logic lf Z.eqb dec f l d (fun s => Value k s) next n = (SCheck false f l d (dec (n + 2)), n + 2)%Z.
Proof.
  intros lf f l d k n N. unfold check_logic. assert (X : both lf (fun s => Value k s) next n = Value (k, (n + 1)%Z) (n + 1)%Z) by (destruct lf; reflexivity).
  rewrite X. replace (k =? n + 1)%Z with false by (symmetry; apply Z.eqb_neq; lia). unfold next. now replace (n + 1 + 1)%Z with (n + 2)%Z by lia.
Qed.

Lemma throws_again : forall S V W lf (cmp : V -> W -> bool) show f l d (a : expr S V) (b : expr S W) s v w m e m',
  both lf a b s = Value (v, w) m -> cmp v w = false -> b m = Thrown e m' -> check_logic lf cmp show f l d a b s = (SThrow e, m').
Proof. intros. unfold check_logic. rewrite H, H0, H1. reflexivity. Qed.

Lemma reported : forall E u u' z t, fresh u -> NoDup (selection u) -> performUnitTests E u = (u', z) -> In t (selection u) ->
  let sc := beh E t (t_runs (caseof u t)) in
  forall S V W lf (cmp : V -> W -> bool) show f l d (a : expr S V) (b : expr S W) s pre post v w, pure a -> pure b -> gives a s v s -> gives b s w s ->
  sc_test sc = pre ++ fst (check_logic lf cmp show f l d a b s) :: post -> escapes (sc_setup sc) = None -> Forall goes_on pre ->
  existsb meddles (steps sc) = false -> escapes (sc_teardown sc) = None -> (forall x, In x (executed (sc_teardown sc)) -> complaint x = None) ->
  cmp v w = false -> status_of u' t = FAIL /\ z = (-1)%Z /\ record_of u' t = (check_text d (until_nul (show w)), l, base_name f).
Proof.
  intros E u u' z t F ND P I sc S V W lf cmp show f l d a b s pre post v w PA PB GA GB ST U G M ED N C.
  destruct (logic_pure S V W lf cmp show f l d a b s PA PB) as (v' & w' & A & B & Q). unfold gives in *. rewrite GA in A. injection A as <-. rewrite GB in B. injection B as <-.
  rewrite Q, C in ST. cbn [fst] in ST. exact (check_fails E u u' z t F ND P I pre f l d (show w) post ST U G M ED N).
Qed.

Lemma float_shown : forall f l d k x y, (1 <= k <= 200000)%Z -> number x -> number y -> units x = 0%Z -> units y = (k * one_unit)%Z ->
  check_float true f l d x y = Some (SCheck false f l d (dec (10000 * k))).
Proof.
  intros f l d k x y K Nx Ny Ux Uy. pose proof one_unit_pos as U.
  assert (X0 : scaled x = Some 0%Z).
  { destruct (scaled_defined x Nx) as [z S]; [rewrite Ux; cbn [Z.abs]; lia|]. rewrite S. f_equal. destruct (scaled_spec x z Nx S) as (s & a & b & _ & A0 & B0 & -> & E & T & _). assert (b = 0)%Z by nia. subst b. destruct s; reflexivity. }
  assert (Y0 : scaled y = Some (10000 * k)%Z).
  { destruct (scaled_defined y Ny) as [z S]; [rewrite Uy; revert U; generalize one_unit; intros; rewrite Z.abs_eq by nia; nia|]. rewrite S. f_equal.
    destruct (scaled_spec y z Ny S) as (s & a & b & SU & A0 & B0 & -> & E & T & X).
    assert (AX : (a = 10000 * k * 2 ^ 1074)%Z).
    { apply X; [lia| |lia]. rewrite Uy, Z.abs_eq by (unfold one_unit; nia). unfold one_unit. ring. }
    change (2 ^ 1074)%Z with one_unit in AX. clear E X S. revert U SU T AX Uy. generalize one_unit (units y). intros W uy U SU T AX Uy.
    assert (b = 10000 * k)%Z by nia. subst b. assert (0 < k * W)%Z by nia. destruct s; lia. }
  unfold check_float. rewrite X0, Y0. replace (0 =? 10000 * k)%Z with false by (symmetry; apply Z.eqb_neq; lia). reflexivity.
Qed.
