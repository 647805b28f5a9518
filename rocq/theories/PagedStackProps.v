(** * The properties C01-C10 and C15-C20 of PagedStack.

    Vocabulary: [PagedStackSpec] is the plain-list specification, [reaches] (in
    PagedStackExec) says that a stack object has been built with the given page
    size and pre-allocation and has gone through a legal history, [run] and
    [exec] are the modelled code.  [debug] tells whether assertions are
    compiled in. *)

From Coq Require Import List Arith ZArith Lia Bool.
From Verif Require Import Base PagedStackModel PagedStackSpec PagedStackExec
  PagedStackProofs PagedStackIter PagedStackMore PagedStackFrame PagedStackBlocks
  PagedStackCopy PagedStackMisc PagedStackThreads.
Import ListNotations.
Open Scope m_scope.

(** ** C01 *)
Theorem C01_lifo : forall (T : Type) debug ps pa (ops : list (op T)) l rs,
  1 <= pa -> forallb core_op ops = true -> spec_run ops [] = Some (l, rs) ->
  exists s, run debug ops (construct ps pa) = ROk s rs.
Proof. exact @core_exists. Qed.
Print Assumptions C01_lifo.

Example C01_witness : exists s,
  run true [Push 1 [2; 3]; Top; PopN 1; PushEmplace 9; Size; Discard 2; Empty; Shrink; Push 4 []; Peek 0]
    (construct 2 1) =
  ROk s [RUnit; RVals [3]; RVals [3; 2]; RUnit; RNat 2; RUnit; RBool true; RUnit; RUnit; RVals [4]].
Proof. eexists. vm_compute. reflexivity. Qed.

(** ** C02: from any reachable stack; [b1..bn] are the n targets of pop. *)
Theorem C02_multi_push_pop : forall (T : Type) debug ps pa ops (s : stack T) l x xs,
  reaches debug ps pa ops s l ->
  exists s', run debug [Push x xs; Top; PopN (length xs)] s =
               ROk s' [RUnit; RVals [last xs x]; RVals (rev (x :: xs))] /\
             reaches debug ps pa (ops ++ [Push x xs; Top; PopN (length xs)]) s' l.
Proof. exact @multi_push_pop. Qed.
Print Assumptions C02_multi_push_pop.

Example C02_witness : exists s, reaches true 2 1 [Push 7 [8; 9]] s [9; 8; 7].
Proof. eexists. split; [lia|]. split; [reflexivity|]. eexists. split; [reflexivity|]. vm_compute. reflexivity. Qed.

(** ** C03: the i-th target of each call, and the stack is unchanged. *)
Theorem C03_peeks : forall (T : Type) debug ps pa ops (s : stack T) l n d,
  reaches debug ps pa ops s l -> S n <= d -> d <= length l ->
  exists vp vr vd,
    peek debug (S n) s = ROk s vp /\ peek_reverse debug (S n) s = ROk s vr /\
    peek_depth debug d (S n) s = ROk s vd /\
    length vp = S n /\ length vr = S n /\ length vd = S n /\
    forall i, i <= n ->
      nth_error vp i = nth_error l i /\
      nth_error vr i = nth_error l (n - i) /\
      nth_error vd i = nth_error l (d - 1 - i).
Proof. exact @peeks_ok. Qed.
Print Assumptions C03_peeks.

Example C03_witness : exists s, reaches true 2 1 [Push 7 [8; 9]] s [9; 8; 7] /\
  peek_depth true 3 2 s = ROk s [7; 8].
Proof.
  eexists. split; [split; [lia|]; split; [reflexivity|]; eexists; split; [reflexivity|]; vm_compute; reflexivity|].
  vm_compute. reflexivity.
Qed.

(** ** C04
    Proved part: every history in which no push comes between a removal that
    ends on a page boundary and the next shrink_to_fit (and clear() is not used
    to empty a stack, see C06).  Missing: those histories, for which the
    property is false, as the next theorem shows. *)
Theorem C04_pop_reverse_partial : forall (T : Type) debug ps pa (ops : list (op T)) l rs,
  1 <= ps -> 1 <= pa -> careful ps false ops [] = true -> spec_run ops [] = Some (l, rs) ->
  exists s, run debug ops (construct ps pa) = ROk s rs.
Proof. exact @careful_exists. Qed.
Print Assumptions C04_pop_reverse_partial.

Example C04_witness :
  careful 3 false [Push 1 [2; 3; 4]; PopReverse 1; Push 5 []; PopReverse 2; Size] [] = true /\
  spec_run [Push 1 [2; 3; 4]; PopReverse 1; Push 5 []; PopReverse 2; Size] [] =
    Some ([], [RUnit; RVals [3; 4]; RUnit; RVals [1; 2; 5]; RNat 0]).
Proof. split; reflexivity. Qed.

(** In every reachable stack, a pop_reverse that ends on a page boundary followed
    by one push gives back removed elements: the size is too large. *)
Theorem C04_pop_reverse_refuted : forall (T : Type) debug ps pa ops (s : stack T) l n x,
  reaches debug ps pa ops s l -> 1 <= ps -> S n <= length l ->
  on_boundary ps (length l - S n) = true ->
  exists s', run debug [PopReverse n; Push x []; Size] s =
    ROk s' [RVals (rev (firstn (S n) l)); RUnit; RNat (length l - S n + 1 + Nat.min ps (S n))].
Proof. exact @pop_reverse_refuted. Qed.
Print Assumptions C04_pop_reverse_refuted.

Example C04_refuted_witness : exists s,
  run true [Push 1 [2; 3; 4]; PopReverse 1; Push 5 []; Size; PopN 0; PopN 0] (construct 2 1) =
  ROk s [RUnit; RVals [3; 4]; RUnit; RNat 5; RVals [5]; RVals [4]].
Proof. eexists. vm_compute. reflexivity. Qed.

(** ** C05 *)
Theorem C05_discard_iterator_partial : forall (T : Type) debug ps pa (ops : list (op T)) l rs,
  1 <= ps -> 1 <= pa -> careful ps false ops [] = true -> spec_run ops [] = Some (l, rs) ->
  exists s, run debug ops (construct ps pa) = ROk s rs.
Proof. exact @careful_exists. Qed.
Print Assumptions C05_discard_iterator_partial.

Example C05_witness :
  careful 2 false [Push 1 [2; 3; 4; 5]; DiscardAt 1; Push 6 []; DiscardFromTop 2; Shrink; Push 7 []; Peek 2] [] = true /\
  spec_run [Push 1 [2; 3; 4; 5]; DiscardAt 1; Push 6 []; DiscardFromTop 2; Shrink; Push 7 []; Peek 2] [] =
    Some ([7; 2; 1], [RUnit; RUnit; RUnit; RUnit; RUnit; RUnit; RVals [7; 2; 1]]).
Proof. split; reflexivity. Qed.

Theorem C05_discard_iterator_refuted : forall (T : Type) debug ps pa ops (s : stack T) l k x,
  reaches debug ps pa ops s l -> 1 <= ps -> k < length l ->
  on_boundary ps (length l - S k) = true ->
  (exists s', run debug [DiscardAt k; Push x []; Size] s =
    ROk s' [RUnit; RUnit; RNat (length l - S k + 1 + Nat.min ps (S k))]) /\
  (exists s', run debug [DiscardFromTop (S k); Push x []; Size] s =
    ROk s' [RUnit; RUnit; RNat (length l - S k + 1 + Nat.min ps (S k))]).
Proof. exact @discard_iterator_refuted. Qed.
Print Assumptions C05_discard_iterator_refuted.

Example C05_refuted_witness : exists s,
  run true [Push 1 [2; 3; 4; 5]; DiscardAt 2; Push 6 []; Size; Peek 4] (construct 2 1) =
  ROk s [RUnit; RUnit; RUnit; RNat 5; RVals [6; 4; 3; 2; 1]].
Proof. eexists. vm_compute. reflexivity. Qed.

(** The header comment ("the addressed element becomes the new top") is never
    true: the addressed element is removed too. *)
Theorem C05_header_comment_refuted : forall (T : Type) debug ps pa ops (s : stack T) l k,
  reaches debug ps pa ops s l -> k < length l ->
  exists s', run debug [DiscardAt k; Size] s = ROk s' [RUnit; RNat (length l - k - 1)].
Proof. exact @discard_comment_refuted. Qed.
Print Assumptions C05_header_comment_refuted.

Example C05_header_witness : exists s, reaches true 2 1 [Push 1 [2; 3]] s [3; 2; 1] /\
  exists s', run true [DiscardAt 1; Top] s = ROk s' [RUnit; RVals [1]].
Proof.
  eexists. split.
  - split; [lia|]. split; [reflexivity|]. eexists. split; [reflexivity|]. vm_compute. reflexivity.
  - eexists. vm_compute. reflexivity.
Qed.

(** ** C06
    False for every stack that is not empty: clear() keeps the bottom page. *)
Theorem C06_clear_refuted : forall (T : Type) debug ps pa ops (s : stack T) l,
  reaches debug ps pa ops s l -> 1 <= ps -> l <> [] ->
  exists s', run debug [Clear; Size; Empty] s =
    ROk s' [RUnit; RNat (Nat.min ps (length l)); RBool false].
Proof. exact @clear_refuted. Qed.
Print Assumptions C06_clear_refuted.

Example C06_refuted_witness : exists s,
  run true [Push 1 [2; 3]; Clear; Size; Top] (construct 2 1) = ROk s [RUnit; RUnit; RNat 2; RVals [2]].
Proof. eexists. vm_compute. reflexivity. Qed.

(** What clear() does: it keeps exactly the [ps] lowest elements, and later calls
    see a stack of those. *)
Theorem C06_clear_partial : forall (T : Type) debug ps pa ops (s : stack T) l more l' rs,
  reaches debug ps pa ops s l -> 1 <= ps -> forallb core_op more = true ->
  spec_run more (skipn (length l - ps) l) = Some (l', rs) ->
  exists s', run debug (Clear :: more) s = ROk s' (RUnit :: rs).
Proof. exact @clear_keeps_bottom. Qed.
Print Assumptions C06_clear_partial.

Example C06_witness : exists s, reaches true 2 1 [Push 1 [2; 3; 4]] s [4; 3; 2; 1] /\
  spec_run [Push 7 [8]; PopN 1; Size] (skipn (4 - 2) [4; 3; 2; 1]) = Some ([2; 1], [RUnit; RVals [8; 7]; RNat 2]).
Proof.
  eexists. split.
  - split; [lia|]. split; [reflexivity|]. eexists. split; [reflexivity|]. vm_compute. reflexivity.
  - reflexivity.
Qed.

(** ** C07: the loop [begin() .. end()] visits [l], the contents top first. *)
Theorem C07_forward_iteration : forall (T : Type) debug ps pa ops (s : stack T) l,
  reaches debug ps pa ops s l ->
  exists x y, begin s = ROk s x /\ end_ s = ROk s y /\ f_loop s x y l.
Proof. exact @forward_reaches. Qed.
Print Assumptions C07_forward_iteration.

(** The same after histories with removals through iterators (C04, C05). *)
Theorem C07_forward_iteration_careful : forall (T : Type) debug ps pa ops (s : stack T) l,
  reaches_careful debug ps pa ops s l ->
  exists x y, begin s = ROk s x /\ end_ s = ROk s y /\ f_loop s x y l.
Proof. exact @forward_careful. Qed.
Print Assumptions C07_forward_iteration_careful.

(** The loop visits one list only: the order and the number of steps are fixed. *)
Theorem C07_loop_deterministic : forall (T : Type) (s : stack T) x y xs xs',
  f_loop s x y xs -> f_loop s x y xs' -> xs = xs'.
Proof. exact @f_loop_det. Qed.
Print Assumptions C07_loop_deterministic.

Example C07_witness : exists s, reaches_careful true 2 3 [Push 1 [2; 3; 4; 5]; DiscardAt 1; Push 6 []] s [6; 3; 2; 1].
Proof. eexists. split; [lia|]. split; [lia|]. split; [reflexivity|]. eexists. split; [reflexivity|]. vm_compute. reflexivity. Qed.

(** ** C08: proved when there is no spare page, refuted otherwise.  The number of
    pages and the index of the page in use are those of getStats (C19). *)
Theorem C08_reverse_iteration_partial : forall (T : Type) debug ps pa ops (s : stack T) l,
  reaches debug ps pa ops s l -> 1 <= ps ->
  spec_blocks ps pa ops [] pa = pages_for ps (length l) ->
  exists x y, rbegin s = ROk s x /\ rend s = ROk s y /\ r_loop s x y (rev l).
Proof. exact @reverse_reaches. Qed.
Print Assumptions C08_reverse_iteration_partial.

Example C08_witness : exists s, reaches true 2 1 [Push 1 [2; 3]] s [3; 2; 1] /\
  spec_blocks 2 1 [Push 1 [2; 3]] [] 1 = pages_for 2 3.
Proof.
  eexists. split; [|reflexivity]. split; [lia|]. split; [reflexivity|]. eexists.
  split; [reflexivity|]. vm_compute. reflexivity.
Qed.

(** With a spare page no loop from rbegin() to rend() terminates properly,
    whatever it visits: it steps into an empty page and has undefined behaviour. *)
Theorem C08_reverse_iteration_refuted : forall (T : Type) debug ps pa ops (s : stack T) l,
  reaches debug ps pa ops s l -> 1 <= ps -> l <> [] ->
  spec_blocks ps pa ops [] pa <> pages_for ps (length l) ->
  exists x y, rbegin s = ROk s x /\ rend s = ROk s y /\ forall xs, ~ r_loop s x y xs.
Proof. exact @reverse_reaches_refuted. Qed.
Print Assumptions C08_reverse_iteration_refuted.

Example C08_refuted_witness : exists s, reaches true 4 2 [Push 1 [2; 3]] s [3; 2; 1] /\
  spec_blocks 4 2 [Push 1 [2; 3]] [] 2 <> pages_for 4 3.
Proof.
  eexists. split; [|discriminate]. split; [lia|]. split; [reflexivity|]. eexists.
  split; [reflexivity|]. vm_compute. reflexivity.
Qed.

(** ** C09 *)
Theorem C09_from_top : forall (T : Type) debug ps pa ops (s : stack T) l d,
  reaches debug ps pa ops s l -> d <= length l ->
  exists x y, from_top debug d s = ROk s x /\ rend s = ROk s y /\ r_loop s x y (rev (firstn d l)).
Proof. exact @from_top_reaches. Qed.
Print Assumptions C09_from_top.

Theorem C09_loop_deterministic : forall (T : Type) (s : stack T) x y xs xs',
  r_loop s x y xs -> r_loop s x y xs' -> xs = xs'.
Proof. exact @r_loop_det. Qed.
Print Assumptions C09_loop_deterministic.

Example C09_witness : exists s, reaches true 2 1 [Push 1 [2; 3; 4; 5]; Discard 1] s [4; 3; 2; 1] /\ 3 <= length [4; 3; 2; 1].
Proof.
  eexists. split; [|simpl; lia]. split; [lia|]. split; [reflexivity|]. eexists.
  split; [reflexivity|]. vm_compute. reflexivity.
Qed.

(** ** C10: forward iterators.  [k] steps from begin(), then [n] more; the position
    may be the end.  [f_plus]/[f_minus] are += and -=, n single steps. *)
Theorem C10_forward_inverse : forall (T : Type) debug ps pa ops (s : stack T) l k n,
  reaches debug ps pa ops s l -> k + n <= length l ->
  exists it it', (x <- begin ;; f_plus k x) s = ROk s it /\
    f_plus n it s = ROk s it' /\ f_minus n it' s = ROk s it /\
    (x <- begin ;; f_plus (k + n) x) s = ROk s it'.
Proof. exact @f_inverse_reaches. Qed.
Print Assumptions C10_forward_inverse.

(** Reverse iterators: [n + d] elements before rend(), n steps forward, n back. *)
Theorem C10_reverse_inverse : forall (T : Type) debug ps pa ops (s : stack T) l d n,
  reaches debug ps pa ops s l -> n + d <= length l ->
  exists it it', from_top debug (n + d) s = ROk s it /\
    r_plus n it s = ROk s it' /\ r_minus n it' s = ROk s it /\
    exists it'', from_top debug d s = ROk s it'' /\ r_eqb it' it'' = true.
Proof. exact @r_inverse_reaches. Qed.
Print Assumptions C10_reverse_inverse.

Example C10_witness : exists s, reaches true 2 1 [Push 1 [2; 3; 4; 5]] s [5; 4; 3; 2; 1] /\
  (it <- begin ;; a <- f_plus 2 it ;; b <- f_plus 3 a ;; c <- f_minus 3 b ;; ret (f_eqb a c, f_eqb a b)) s
    = ROk s (true, false).
Proof.
  eexists. split.
  - split; [lia|]. split; [reflexivity|]. eexists. split; [reflexivity|]. vm_compute. reflexivity.
  - vm_compute. reflexivity.
Qed.

(** ** C15: no page of a reachable stack holds more than the reserved capacity, and
    pushing moves no element: same node (identity), same offset. *)
Theorem C15_capacity : forall (T : Type) debug ps pa ops (s : stack T) l,
  reaches debug ps pa ops s l -> 1 <= ps -> Forall (fun p => length p <= ps) (pages s).
Proof. exact @capacity_reaches. Qed.
Print Assumptions C15_capacity.

Theorem C15_stable : forall (T : Type) debug (o : op T) (s s' : stack T) r i j p x,
  is_push o = true -> exec debug o s = ROk s' r ->
  nth_error (pages s) i = Some p -> nth_error p j = Some x ->
  exists p', nth_error (pages s') i = Some p' /\ nth_error p' j = Some x /\
    firstn (length (ids s)) (ids s') = ids s.
Proof. exact @exec_push_stable. Qed.
Print Assumptions C15_stable.

Example C15_witness : exists s, reaches true 2 1 [Push 1 [2; 3]; Pop] s [2; 1] /\
  pages s = [[1; 2]; []] /\ exists s' r, exec true (Push 7 [8; 9]) s = ROk s' r /\ pages s' = [[1; 2]; [7; 8]; [9]].
Proof.
  eexists. split; [|split].
  - split; [lia|]. split; [reflexivity|]. eexists. split; [reflexivity|]. vm_compute. reflexivity.
  - reflexivity.
  - eexists _, _. split; vm_compute; reflexivity.
Qed.

(** With page size 0 (accepted by the constructor) the claim is false. *)
Theorem C15_page_size_zero_refuted : forall (T : Type) debug pa (x : T), 1 <= pa ->
  exists s, run debug [Push x []] (construct 0 pa) = ROk s [RUnit] /\
    Exists (fun p => 0 < length p) (pages s).
Proof. exact @capacity_zero_refuted. Qed.
Print Assumptions C15_page_size_zero_refuted.

Example C15_zero_witness : exists s, run true [Push 1 [2]] (construct 0 1) = ROk s [RUnit] /\ pages s = [[]; [1; 2]].
Proof. eexists. vm_compute. split; reflexivity. Qed.

(** ** C16: [spec_blocks] (PagedStackSpec) adds [pa] pages exactly when a push finds
    all the pages full, drops the unused pages on shrink_to_fit, and does nothing
    else; getStats reports that number (C19). *)
Theorem C16_blocks : forall (T : Type) debug ps pa ops (s : stack T) l,
  reaches debug ps pa ops s l -> 1 <= ps -> length (pages s) = spec_blocks ps pa ops [] pa.
Proof. exact @reaches_blocks. Qed.
Print Assumptions C16_blocks.

(** Without shrink_to_fit, the number of batches depends only on the largest size
    ever reached. *)
Theorem C16_high_water : forall (T : Type) ps pa (ops : list (op T)) l rs, 1 <= ps -> 1 <= pa ->
  forallb core_op ops = true -> forallb no_shrink ops = true ->
  spec_run ops [] = Some (l, rs) ->
  spec_blocks ps pa ops [] pa =
    pa * Nat.max 1 ((high_water ops [] + pa * ps - 1) / (pa * ps)).
Proof. exact @blocks_closed. Qed.
Print Assumptions C16_high_water.

Example C16_witness : exists s, reaches true 2 2 [Push 1 [2; 3; 4; 5]; Discard 5; Push 1 [2; 3; 4; 5; 6; 7; 8]] s [8; 7; 6; 5; 4; 3; 2; 1] /\
  length (pages s) = 4.
Proof.
  eexists. split.
  - split; [lia|]. split; [reflexivity|]. eexists. split; [reflexivity|]. vm_compute. reflexivity.
  - reflexivity.
Qed.

(** ** C17: refuted for every stack whose current page has room: a push on the copy
    changes the original, and size() on the copy is always undefined. *)
Theorem C17_copy_refuted : forall (T : Type) debug ps pa ops (s : stack T) l x,
  reaches debug ps pa ops s l -> 1 <= ps -> (length l = 0 \/ length l mod ps <> 0) ->
  exists w, copy_push x (copy_of s) = ROk w tt /\
    size (tw_orig w) = ROk (tw_orig w) (S (length l)) /\ top (tw_orig w) = ROk (tw_orig w) x.
Proof. exact @copy_push_refuted. Qed.
Print Assumptions C17_copy_refuted.

Theorem C17_copy_size_refuted : forall (T : Type) (s : stack T), copy_size (copy_of s) = RBad UB.
Proof. exact @copy_size_refuted. Qed.
Print Assumptions C17_copy_size_refuted.

Example C17_witness : exists s, reaches true 2 1 [Push 1 [2; 3]] s [3; 2; 1] /\ length [3; 2; 1] mod 2 <> 0.
Proof.
  eexists. split; [|discriminate]. split; [lia|]. split; [reflexivity|]. eexists.
  split; [reflexivity|]. vm_compute. reflexivity.
Qed.

(** ** C18: in any state in which the lock is free, any call leaves it free when it
    returns or throws, and never blocks on it.  [free_call m] unfolds to that. *)
Theorem C18_lock_discipline : forall (T : Type) debug (ops : list (op T)),
  free_call (run debug ops).
Proof. exact @run_free. Qed.
Print Assumptions C18_lock_discipline.

Theorem C18_free_call_meaning : forall (T A : Type) (m : M (stack T) A),
  free_call m <->
  forall s, locked s = false ->
    match m s with
    | ROk s' _ | RThrow s' => locked s' = false
    | RBad b => b <> Deadlock
    end.
Proof. exact @free_call_meaning. Qed.
Print Assumptions C18_free_call_meaning.

Theorem C18_iterators : forall (T : Type) debug d n (fi : fiter) (ri : riter) (it it' : siter),
  free_call (@getStats T) /\ free_call (@from_top T debug d) /\
  free_call (@begin T) /\ free_call (@end_ T) /\ free_call (@rbegin T) /\ free_call (@rend T) /\
  free_call (@f_plus T n fi) /\ free_call (@f_minus T n fi) /\ free_call (@f_deref T fi) /\
  free_call (@r_plus T n ri) /\ free_call (@r_minus T n ri) /\ free_call (@r_deref T ri) /\
  free_call (@sync_begin T) /\ free_call (@sync_end T) /\
  free_call (@s_get T it) /\ free_call (@s_inc T it) /\ free_call (@s_dec T it) /\
  free_call (@s_eq T it it') /\ free_call (@s_copy T it) /\ free_call (@s_destroy T it).
Proof. exact @all_free. Qed.
Print Assumptions C18_iterators.

(** The guard is taken: while somebody else holds the lock, each of these calls waits. *)
Theorem C18_acquires : forall (T : Type) debug (s : stack T), locked s = true ->
  (forall o, match o with DiscardAt _ => True | _ => exec debug o s = RBad Deadlock end) /\
  (forall it, discard_f it s = RBad Deadlock) /\ getStats s = RBad Deadlock /\
  sync_begin s = RBad Deadlock /\ sync_end s = RBad Deadlock /\
  forall it it', s_get it s = RBad Deadlock /\ s_inc it s = RBad Deadlock /\ s_dec it s = RBad Deadlock /\
    s_eq it it' s = RBad Deadlock /\ s_destroy it s = RBad Deadlock.
Proof. exact @blocked. Qed.
Print Assumptions C18_acquires.

Example C18_witness : locked (set_locked true (@construct nat 3 1)) = true /\
  match run true [Push 1 [2; 3; 4]; PopN 1; Size] (construct 3 1) with ROk s rs => locked s = false /\ rs <> [] | _ => False end.
Proof. split; [reflexivity|]. vm_compute. split; [reflexivity|discriminate]. Qed.

(** ** C19 *)
Theorem C19_stats : forall (T : Type) debug ps pa ops (s : stack T) l,
  reaches debug ps pa ops s l -> 1 <= ps ->
  exists blocks curBlock curData,
    getStats s = ROk s (blocks, ps, curBlock, curData) /\
    size s = ROk s ((curBlock - 1) * ps + curData) /\
    blocks = length (pages s) /\ 1 <= curBlock <= blocks /\ curData <= ps /\
    (2 <= curBlock -> 1 <= curData) /\ length l = (curBlock - 1) * ps + curData.
Proof. exact @stats_reaches. Qed.
Print Assumptions C19_stats.

Theorem C19_stats_values : forall (T : Type) debug ps pa ops (s : stack T) l,
  reaches debug ps pa ops s l -> 1 <= ps ->
  getStats s = ROk s (spec_blocks ps pa ops [] pa, ps, pages_for ps (length l),
                      length l - (pages_for ps (length l) - 1) * ps).
Proof. exact @reaches_stats. Qed.
Print Assumptions C19_stats_values.

Example C19_witness : exists s, reaches true 2 2 [Push 1 [2; 3; 4; 5]; Pop] s [4; 3; 2; 1] /\
  getStats s = ROk s (4, 2, 2, 2).
Proof.
  eexists. split.
  - split; [lia|]. split; [reflexivity|]. eexists. split; [reflexivity|]. vm_compute. reflexivity.
  - vm_compute. reflexivity.
Qed.

(** ** C20: a first push is fine whenever at least one page is pre-allocated, and is
    undefined behaviour with no pre-allocated page, for every page size. *)
Theorem C20_construct_partial : forall (T : Type) debug ps pa (x : T) xs, 1 <= pa ->
  exists s, run debug [Push x xs; Size] (construct ps pa) = ROk s [RUnit; RNat (S (length xs))].
Proof. exact @construct_push. Qed.
Print Assumptions C20_construct_partial.

Theorem C20_no_prealloc_refuted : forall (T : Type) debug ps (x : T) xs,
  run debug [Push x xs] (construct ps 0) = RBad UB.
Proof. exact @construct_zero. Qed.
Print Assumptions C20_no_prealloc_refuted.

Example C20_witness : (exists s, run true [Push 1 [2; 3]; Size] (construct 2 3) = ROk s [RUnit; RNat 3] /\ length (pages s) = 3) /\
  run false [Push 1 []] (@construct nat 5 0) = RBad UB.
Proof. split; [eexists; vm_compute; split; reflexivity|reflexivity]. Qed.
