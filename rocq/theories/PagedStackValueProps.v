(** * Stacks as values: property C113. *)

From Coq Require Import List Arith ZArith Bool Lia.
From Verif Require Import Base PagedStackModel PagedStackSpec PagedStackExec PagedStackValueModel PagedStackValueSpec PagedStackValue.
Import ListNotations.

(** ** C113.  A program that creates, moves, move-assigns, copies and destroys stacks,
    and calls only those that hold a value ([PagedStackValueSpec]), runs without
    undefined behaviour, and every call returns what it would on independent ideal lists. *)
Theorem C113_values : forall (T : Type) debug (cs : list (vop T)) i rs,
  vspec_run cs no_stacks = Some (i, rs) -> exists m, vrun debug cs vm0 = ROk m rs.
Proof. exact @values_ok. Qed.
Print Assumptions C113_values.

(** std::swap exchanges the contents and changes nothing else. *)
Theorem C113_swap : forall (T : Type) debug (cs : list (vop T)) i rs x y t u v,
  vspec_run cs no_stacks = Some (i, rs) -> i x = Some u -> i y = Some v -> i t = None -> x <> y ->
  exists m i', vrun debug (cs ++ vswap x y t) vm0 = ROk m rs /\
    vspec_run (cs ++ vswap x y t) no_stacks = Some (i', rs) /\
    i' x = Some v /\ i' y = Some u /\ forall z, z <> x -> z <> y -> i' z = i z.
Proof. exact @swap_ok. Qed.
Print Assumptions C113_swap.

(** After any program, legal or not: every page belongs to one stack, once; so that no
    page is freed twice, whatever was moved and copied. *)
Theorem C113_ownership : forall (T : Type) debug (cs : list (vop T)) m rs, vrun debug cs vm0 = ROk m rs ->
  forall x b, vfind x (m_objs m) = Some b -> NoDup (map fst (b_nodes b)) /\
    forall y c, x <> y -> vfind y (m_objs m) = Some c ->
      forall k, In k (map fst (b_nodes b)) -> ~ In k (map fst (b_nodes c)).
Proof. exact @ownership. Qed.
Print Assumptions C113_ownership.

Example C113_ownership_witness : exists m b c,
  vrun true [VNew 0 2 2; VCall 0 (Push 1 [2; 3; 4; 5]); VMoveNew 0 1; VCopyNew 1 2] vm0 = ROk m [RUnit] /\
  vfind 1 (m_objs m) = Some b /\ vfind 2 (m_objs m) = Some c /\
  map fst (b_nodes b) = [0; 1; 2; 3] /\ map fst (b_nodes c) = [4; 5; 6; 7].
Proof. eexists _, _, _. split; [vm_compute; reflexivity|]. repeat split. Qed.

(** Two stacks of two elements a page; swapped; one is copied and the copy destroyed. *)
Example C113_witness :
  let cs := [VNew 0 2 1; VNew 1 2 1; VCall 0 (Push 1 [2; 3; 4; 5]); VCall 1 (Push 7 [])] ++ vswap 0 1 9 ++
    [VCopyNew 1 2; VDestroy 2; VCall 1 (PopN 2); VCall 0 Top; VMoveNew 1 3; VDestroy 1; VCall 3 Size] in
  (exists i, vspec_run cs no_stacks = Some (i, [RUnit; RUnit; RVals [5; 4; 3]; RVals [7]; RNat 2])) /\
  exists m, vrun true cs vm0 = ROk m [RUnit; RUnit; RVals [5; 4; 3]; RVals [7]; RNat 2].
Proof. cbv zeta. split; eexists; vm_compute; reflexivity. Qed.

(** A stack whose contents were moved away, or that was made by copying, is not usable. *)
Example C113_moved_from : vrun true [VNew 0 2 1; VMoveNew 0 1; VCall 0 (Push 1 [])] vm0 = RBad UB /\
  vrun true [VNew 0 2 1; VCopyNew 0 1; VCall 1 (Push 1 [])] vm0 = RBad UB.
Proof. split; vm_compute; reflexivity. Qed.
