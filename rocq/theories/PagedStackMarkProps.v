(** * C114: an iterator is a mark; C15: a reference stays where its element is. *)
From Coq Require Import List Arith ZArith Lia Bool.
From Verif Require Import Base PagedStackModel PagedStackSpec PagedStackExec PagedStackMarkSpec PagedStackMark.
Import ListNotations.
Open Scope m_scope.

(** C114: [it] is taken as begin() += k on a stack of [length l] elements, then any
    calls [ops'] are made that never remove the element it addresses.  The old
    [it] is then what begin() += k' would give, k' being the number of elements
    now above that element.  It reads the element of the ideal stack at that
    depth.  The page it addresses is the same node, never freed. *)
Theorem C114_mark : forall (T : Type) debug ps pa ops ops' (s : stack T) l l' rs k,
  reaches_careful debug ps pa ops s l -> k < length l ->
  careful ps false (ops ++ ops') [] = true -> spec_run ops' l = Some (l', rs) ->
  never_below (length l - k) ops' l = true ->
  exists it s' x,
    (i <- begin ;; f_plus k i) s = ROk s it /\
    run debug ops' s = ROk s' rs /\
    nth_error l' (length l' - (length l - k)) = Some x /\
    f_deref it s' = ROk s' x /\
    (i <- begin ;; f_plus (length l' - (length l - k)) i) s' = ROk s' it /\
    nth_error (ids s') (f_page it) = nth_error (ids s) (f_page it).
Proof. exact @mark. Qed.
Print Assumptions C114_mark.

(** A page of two; the mark is on 1 of [2; 1; 0]; two pages come and one goes. *)
Example C114_witness : exists s,
  reaches_careful true 2 1 [Push 0 [1; 2]] s [2; 1; 0] /\ 1 < 3 /\
  careful 2 false ([Push 0 [1; 2]] ++ [Push 3 [4; 5]; PopN 3; Shrink; SetTop 7]) [] = true /\
  spec_run [Push 3 [4; 5]; PopN 3; Shrink; SetTop 7] [2; 1; 0] =
    Some ([7; 0], [RUnit; RVals [5; 4; 3; 2]; RUnit; RUnit]) /\
  never_below (3 - 1) [Push 3 [4; 5]; PopN 3; Shrink; SetTop 7] [2; 1; 0] = true.
Proof.
  eexists. split; [|split; [|split; [|split]]]; try reflexivity; try lia.
  split; [lia|]. split; [lia|]. split; [reflexivity|]. eexists. split; [reflexivity|]. vm_compute. reflexivity.
Qed.

(** C15: a reference is the page node and the offset where an element lives.  Take
    the reference of the element with [k] elements above it, then make any calls
    that never remove that element, shrink_to_fit and removals through iterators
    included.  The element still lives there, with the value it should have. *)
Theorem C15_references : forall (T : Type) debug ps pa ops ops' (s : stack T) l l' rs k x,
  reaches_careful debug ps pa ops s l -> nth_error l k = Some x ->
  careful ps false (ops ++ ops') [] = true -> spec_run ops' l = Some (l', rs) ->
  never_below (length l - k) ops' l = true ->
  exists s' id off x',
    run debug ops' s = ROk s' rs /\
    lives_at s (length l - S k) id off x /\
    lives_at s' (length l - S k) id off x' /\
    nth_error l' (length l' - (length l - k)) = Some x'.
Proof. exact @references. Qed.
Print Assumptions C15_references.

(** 0 is on the first page of two; all above it goes and the spare pages are freed;
    then a new page comes. *)
Example C15_references_witness : exists s s',
  reaches_careful true 2 1 [Push 0 [1; 2]] s [2; 1; 0] /\
  careful 2 false ([Push 0 [1; 2]] ++ [PopN 1; Shrink; Push 3 [4]]) [] = true /\
  never_below (3 - 2) [PopN 1; Shrink; Push 3 [4]] [2; 1; 0] = true /\
  run true [PopN 1; Shrink; Push 3 [4]] s = ROk s' [RVals [2; 1]; RUnit; RUnit] /\
  ids s = [0; 1] /\ ids s' = [0; 2] /\ pages s' = [[0; 3]; [4]].
Proof.
  eexists _, _. split.
  - split; [lia|]. split; [lia|]. split; [reflexivity|]. eexists. split; [reflexivity|]. vm_compute. reflexivity.
  - split; [reflexivity|]. split; [reflexivity|]. split; [vm_compute; reflexivity|].
    split; [reflexivity|]. split; reflexivity.
Qed.
