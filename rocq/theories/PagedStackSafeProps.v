(** * PagedStack: property C117, every legal call is safe in every history. *)
From Coq Require Import List Arith ZArith Lia Permutation.
From Verif Require Import Base PagedStackModel PagedStackSpec PagedStackExec PagedStackSafeSpec PagedStackSafe.
Import ListNotations.

(** Whatever the calls before, a call within its domain for what the object now
    holds returns, with the result an ideal stack gives, and leaves what is
    [tolerated]: nothing is undefined, and the next call is safe again. *)
Theorem C117_safe : forall {T} debug ps pa ops (s : stack T) l o l1 r,
  1 <= pa -> lives debug ps pa ops s l -> spec_step o l = Some (l1, r) ->
  exists s' l', exec debug o s = ROk s' r /\ holds s' l' /\ lives debug ps pa (ops ++ [o]) s' l' /\
    tolerated ps o l l1 l'.
Proof. intros T. exact safe. Qed.
Print Assumptions C117_safe.

(** No value is held that the caller did not put in, nor more often than the caller
    did. *)
Theorem C117_origin : forall {T} debug ps pa ops (s : stack T) l,
  1 <= pa -> lives debug ps pa ops s l -> exists gone, Permutation (flat_map puts ops) (l ++ gone).
Proof. intros T. exact origin. Qed.
Print Assumptions C117_origin.

(** Such a history: the pushed 3 brings the removed 2 back, and the calls go on. *)

Example C117_witness : exists s : stack nat,
  lives true 1 1 [Push 1 []; Push 2 []; DiscardAt 0; Push 3 []; Size; Pop] s [2; 1] /\
  tolerated 1 (Push 3 []) [1] [3; 1] [3; 2; 1].
Proof.
  pose proof (@lives_new nat true 1 1) as L0.
  destruct (C117_safe true 1 1 _ _ _ (Push 1 []) [1] RUnit (le_n 1) L0 eq_refl) as (s1 & l1 & E1 & H1 & L1 & T1).
  assert (H1' : holds s1 [1]).
  { vm_compute in E1. injection E1 as <-. do 2 eexists. do 2 (split; [vm_compute; reflexivity|]).
    eapply loop_next; [reflexivity|reflexivity|reflexivity|]. apply loop_end. reflexivity. }
  rewrite (holds_det _ _ _ H1 H1') in L1. clear H1 H1' T1 L0 l1.
  destruct (C117_safe true 1 1 _ _ _ (Push 2 []) [2; 1] RUnit (le_n 1) L1 eq_refl) as (s2 & l2 & E2 & H2 & L2 & T2).
  vm_compute in E1. injection E1 as <-.
  assert (H2' : holds s2 [2; 1]).
  { vm_compute in E2. injection E2 as <-. do 2 eexists. do 2 (split; [vm_compute; reflexivity|]).
    do 2 (eapply loop_next; [reflexivity|reflexivity|reflexivity|]). apply loop_end. reflexivity. }
  rewrite (holds_det _ _ _ H2 H2') in L2. clear H2 H2' T2 L1 l2. vm_compute in E2. injection E2 as <-.
  destruct (C117_safe true 1 1 _ _ _ (DiscardAt 0) [1] RUnit (le_n 1) L2 eq_refl) as (s3 & l3 & E3 & H3 & L3 & ->).
  vm_compute in E3. injection E3 as <-.
  destruct (C117_safe true 1 1 _ _ _ (Push 3 []) [3; 1] RUnit (le_n 1) L3 eq_refl) as (s4 & l4 & E4 & H4 & L4 & T4).
  vm_compute in E4. injection E4 as <-.
  match type of H4 with holds ?s _ => assert (H4' : holds s [3; 2; 1]) end.
  { do 2 eexists. do 2 (split; [vm_compute; reflexivity|]).
    do 3 (eapply loop_next; [reflexivity|reflexivity|reflexivity|]). apply loop_end. reflexivity. }
  pose proof (holds_det _ _ _ H4 H4') as ->.
  destruct (C117_safe true 1 1 _ _ _ Size [3; 2; 1] (RNat 3) (le_n 1) L4 eq_refl) as (s5 & l5 & E5 & H5 & L5 & ->).
  destruct (C117_safe true 1 1 _ _ _ Pop [2; 1] RUnit (le_n 1) L5 eq_refl) as (s6 & l6 & E6 & H6 & L6 & ->).
  exists s6. split; [exact L6|exact T4].
Qed.
