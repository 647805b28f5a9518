(** * Singleton and distribute: properties C87 and C88. *)

From Coq Require Import List Arith Bool Lia.
From Verif Require Import Base MiscModel MiscSpec MiscProofs.
Import ListNotations.

(** ** C87 *)

(** Every program: a read through any Singleton gives the last value written through a Singleton
    of its type, or that of a default-constructed object, ... *)
Theorem C87_reads : forall V init ops, reads V (snd (sruns V init ops (s0 V))) = ideal_reads V ops (fun _ => None) init.
Proof. intros V init ops. apply runs_reads; auto. intros t. reflexivity. Qed.
Print Assumptions C87_reads.

(** ... each type gets at most one instance, ... *)
Theorem C87_created_once : forall V init ops t, created V t (after V init ops) <= 1.
Proof. exact created_once. Qed.
Print Assumptions C87_created_once.

(** ... an object always gives the same instance, whatever happens in between, ... *)
Theorem C87_same_instance : forall V init ops s x s1 k, sstep V init (SAddr V x) s = (s1, Some (OAddr V k)) ->
  let s2 := fst (sruns V init ops s1) in sstep V init (SAddr V x) s2 = (s2, Some (OAddr V k)).
Proof. exact same_address. Qed.
Print Assumptions C87_same_instance.

(** ... and different types have different instances.  Missing: Singleton objects of one type,
    next. *)
Theorem C87_distinct_partial : forall V init s t u s1 s2 k j, sget V init t s = (s1, k) -> sget V init u s1 = (s2, j) -> t <> u -> k <> j.
Proof. exact distinct_types. Qed.
Print Assumptions C87_distinct_partial.

(** Singleton objects of one type share their instance. *)
Theorem C87_shared_refuted : forall V init s x y t v, type_of x (objects V s) = Some t -> type_of y (objects V s) = Some t ->
  reads V (snd (sruns V init [SWrite V x v; SRead V y] s)) = [v] /\
  exists s' k, sruns V init [SAddr V x; SAddr V y] s = (s', [OAddr V k; OAddr V k]).
Proof. exact shared. Qed.
Print Assumptions C87_shared_refuted.

Example C87_witness : let init := fun t => 100 + t in
  let ops := [SNew nat 0 7; SNew nat 1 8; SRead nat 0; SWrite nat 0 5; SRead nat 1; SNew nat 2 7; SRead nat 2] in
  reads nat (snd (sruns nat init ops (s0 nat))) = [107; 108; 5] /\
  type_of 0 (objects nat (after nat init ops)) = Some 7 /\ type_of 2 (objects nat (after nat init ops)) = Some 7 /\
  created nat 7 (after nat init ops) = 1 /\
  snd (sruns nat init (ops ++ [SAddr nat 0; SAddr nat 1; SAddr nat 2]) (s0 nat)) =
    [OVal nat 107; OVal nat 108; OVal nat 5; OAddr nat 0; OAddr nat 1; OAddr nat 0].
Proof. repeat split; vm_compute; reflexivity. Qed.

(** ** C88 *)

(** With n >= 1 targets and at least n elements: they are stored in order and the iterator ends
    on the n-th of them. *)
Theorem C88_stores : forall A targets (l : list A) p r, targets <> [] -> p + length targets <= length l ->
  exists r', distribute A l p targets r = Some (p + length targets - 1, r') /\ r' = store targets (firstn (length targets) (skipn p l)) r.
Proof. exact distribute_ok. Qed.
Print Assumptions C88_stores.

(** Different targets: the i-th gets the i-th element. *)
Theorem C88_ith : forall A targets (vs : list A) r i x v, NoDup targets -> nth_error targets i = Some x -> nth_error vs i = Some v ->
  store targets vs r x = Some v.
Proof. exact store_nodup. Qed.
Print Assumptions C88_ith.

(** With fewer elements the behaviour is undefined. *)
Theorem C88_too_short : forall A targets (l : list A) p r, length l < p + length targets -> distribute A l p targets r = None.
Proof. exact distribute_short. Qed.
Print Assumptions C88_too_short.

Example C88_witness : exists r, distribute nat [10; 20; 30; 40] 1 [5; 6; 7] (fun _ => None) = Some (3, r) /\
  r 5 = Some 20 /\ r 6 = Some 30 /\ r 7 = Some 40 /\ r 8 = None.
Proof. eexists. split; [reflexivity|]. repeat split. Qed.
