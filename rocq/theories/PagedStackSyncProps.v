(** * PagedStack, synchronised iterators: properties C11 to C14.

    [wreaches debug ps pa es w x] (PagedStackSyncSpec): the history [es] of legal
    stack calls and iterator events ran from a fresh stack and ended in the world
    [w]; [x] holds the ideal contents [ss_list], the number of live iterators, the
    pending shrink request and the number of allocated pages. *)

From Coq Require Import List Arith ZArith Bool Lia.
From Verif Require Import Base PagedStackModel PagedStackSpec PagedStackExec PagedStackSyncSpec PagedStackSync
  PagedStackSyncCopySpec PagedStackSyncCopy.
Import ListNotations.

(** ** C11.  In every history, every event outside the three hazards completes without
    undefined behaviour, get() yields an element now in the stack, and stack calls
    behave like the ideal list.  Missing for the full claim: the three hazards. *)
Theorem C11_sync_iterators_partial : forall (T : Type) debug ps pa es (w : world T) x e x',
  wreaches debug ps pa es w x -> sspec_step ps pa e x = Some x' -> hazard ps e w x = false ->
  exists w' a, wexec debug e w = ROk w' a /\ wreaches debug ps pa (es ++ [e]) w' x' /\
    (forall k, e = SyncGet k -> ss_list x <> [] -> exists v, a = AVal v /\ In v (ss_list x)) /\
    (forall o, e = Op o -> exists r, a = ARet r /\ spec_step o (ss_list x) = Some (ss_list x', r)).
Proof. exact @sync_safe. Qed.
Print Assumptions C11_sync_iterators_partial.

(** ... and the three hazards are always undefined behaviour, so the claim as listed
    is false of the code. *)
Theorem C11_hazards_refuted : forall (T : Type) debug ps pa es (w : world T) x e x',
  wreaches debug ps pa es w x -> sspec_step ps pa e x = Some x' -> hazard ps e w x = true ->
  wexec debug e w = RBad UB.
Proof. exact @sync_unsafe. Qed.
Print Assumptions C11_hazards_refuted.

(** The hazards in API terms: [is_sync_end] and [is_sync_begin] are comparison with
    what sync_end() and sync_begin() return at that moment. *)
Theorem C11_is_sync_end : forall (T : Type) debug ps pa es (w : world T) x it,
  wreaches debug ps pa es w x ->
  exists s' e, sync_end (w_stack w) = ROk s' e /\ (is_sync_end (w_stack w) it = true <-> it = e).
Proof. exact @sync_end_eq. Qed.
Print Assumptions C11_is_sync_end.

Theorem C11_is_sync_begin : forall (T : Type) debug ps pa es (w : world T) x it,
  wreaches debug ps pa es w x ->
  exists s' e, sync_begin (w_stack w) = ROk s' e /\ (is_sync_begin (w_stack w) it = true <-> it = e).
Proof. exact @sync_begin_eq. Qed.
Print Assumptions C11_is_sync_begin.

(** A history in which the iterator's page is emptied under it: get() finds the top. *)
Example C11_witness : exists w x, wreaches true 2 1
    [Op (Push 1 [2; 3; 4; 5]); SyncBegin; SyncInc 0; Op (Discard 3); Op Shrink] w x /\
  ss_list x = [2; 1] /\ sspec_step 2 1 (SyncGet 0) x = Some x /\ hazard 2 (SyncGet 0) w x = false /\
  exists w', wexec true (SyncGet 0) w = ROk w' (AVal 2).
Proof.
  eexists. eexists. split.
  - split; [lia|]. split; [lia|]. split; [reflexivity|]. eexists. vm_compute. reflexivity.
  - split; [reflexivity|]. split; [reflexivity|]. split; [reflexivity|]. eexists. vm_compute. reflexivity.
Qed.

(** sync_begin() on an empty stack, three pushes with pages of two, get(): undefined. *)
Example C11_refuted_get : wrun true [SyncBegin; Op (Push 1 [2; 3]); SyncGet 0] (wfresh 2 1) = RBad UB /\
  exists w x, wreaches true 2 1 [SyncBegin; Op (Push 1 [2; 3])] w x /\
    sspec_step 2 1 (SyncGet 0) x = Some x /\ hazard 2 (SyncGet 0) w x = true.
Proof.
  split; [vm_compute; reflexivity|]. eexists. eexists. split.
  - split; [lia|]. split; [lia|]. split; [reflexivity|]. eexists. vm_compute. reflexivity.
  - split; reflexivity.
Qed.

(** -- on the iterator returned by sync_begin() when no spare page exists: undefined. *)
Example C11_refuted_dec : wrun true [Op (Push 1 []); SyncBegin; SyncDec 0] (wfresh 2 1) = RBad UB.
Proof. vm_compute. reflexivity. Qed.

(** The third hazard is what an exception leaves behind: an iterator that was not in the
    bottom page when a use of it threw.  Whatever stack calls follow, ++ and -- of it are
    undefined, and so is get() while the contents fit in one page. *)
Theorem C11_after_throw_refuted : forall (T : Type) debug ps pa es (w : world T) x k it e1 w1 ops x2 w2 rs e2,
  wreaches debug ps pa es w x -> nth_error (w_live w) k = Some it -> at_bottom (w_stack w) it = false ->
  uses_nth k e1 = true -> wexec debug e1 w = ROk w1 AThrown ->
  sspec_run ps pa (map Op ops) x = Some x2 -> wrun debug (map Op ops) w1 = ROk w2 rs ->
  uses_nth k e2 = true -> (is_get e2 = true -> length (ss_list x2) <= ps) ->
  wexec debug e2 w2 = RBad UB.
Proof. exact @sync_after_throw. Qed.
Print Assumptions C11_after_throw_refuted.

(** Three elements with pages of two, sync_begin(), the stack emptied: get() throws; one
    push later it is undefined; and with three pushes it reads the old place again. *)
Example C11_after_throw_witness :
  let es := [Op (Push 1 [2; 3]); SyncBegin; Op (Discard 3)] in
  (exists w x it w1, wreaches true 2 1 es w x /\ nth_error (w_live w) 0 = Some it /\
     at_bottom (w_stack w) it = false /\ wexec true (SyncGet 0) w = ROk w1 AThrown /\
     sspec_run 2 1 (map Op [Push 7 []]) x <> None /\
     exists w2 rs, wrun true (map Op [Push 7 []]) w1 = ROk w2 rs) /\
  wrun true (es ++ [SyncGet 0; SyncGet 0]) (wfresh 2 1) = RBad UB /\
  wrun true (es ++ [SyncGet 0; Op (Push 7 []); SyncGet 0]) (wfresh 2 1) = RBad UB /\
  exists w rs, wrun true (es ++ [SyncGet 0; Op (Push 7 [8; 9]); SyncGet 0]) (wfresh 2 1) = ROk w (rs ++ [AVal 9]).
Proof.
  cbv zeta. split; [|split; [vm_compute; reflexivity|split; [vm_compute; reflexivity|]]].
  - eexists. eexists. eexists. eexists. split.
    + split; [lia|]. split; [lia|]. split; [reflexivity|]. eexists. vm_compute. reflexivity.
    + split; [reflexivity|]. split; [reflexivity|]. split; [vm_compute; reflexivity|].
      split; [vm_compute; discriminate|]. eexists. eexists. vm_compute. reflexivity.
  - eexists. exists [ARet RUnit; ADone; ARet RUnit; AThrown; ARet RUnit]. vm_compute. reflexivity.
Qed.

(** ** C12.  A get(), ++ or -- that returns or throws has thrown iff the stack was
    empty; either way the stack is unchanged and unlocked; and on an empty stack it
    does throw, outside the third hazard of C11.  Missing for the full claim: a use after
    an exception of an iterator that was not in the bottom page
    ([C11_after_throw_refuted] with no call in between). *)
Theorem C12_throws_iff_empty : forall (T : Type) debug ps pa es (w : world T) x e x' w' a,
  wreaches debug ps pa es w x -> sspec_step ps pa e x = Some x' -> uses_iter e = true ->
  wexec debug e w = ROk w' a ->
  (a = AThrown <-> ss_list x = []) /\ w_stack w' = w_stack w /\ locked (w_stack w') = false.
Proof. exact @sync_throw_iff. Qed.
Print Assumptions C12_throws_iff_empty.

Theorem C12_empty_throws_partial : forall (T : Type) debug ps pa es (w : world T) x e x',
  wreaches debug ps pa es w x -> sspec_step ps pa e x = Some x' -> uses_iter e = true ->
  ss_list x = [] -> hazard ps e w x = false -> exists w', wexec debug e w = ROk w' AThrown.
Proof. exact @sync_throw_empty. Qed.
Print Assumptions C12_empty_throws_partial.

Example C12_witness : exists w x, wreaches true 2 1 [Op (Push 1 [2; 3]); SyncBegin; Op (Discard 3)] w x /\
  ss_list x = [] /\ sspec_step 2 1 (SyncInc 0) x = Some x /\ hazard 2 (SyncInc 0) w x = false /\
  exists w', wexec true (SyncInc 0) w = ROk w' AThrown.
Proof.
  eexists. eexists. split.
  - split; [lia|]. split; [lia|]. split; [reflexivity|]. eexists. vm_compute. reflexivity.
  - split; [reflexivity|]. split; [reflexivity|]. split; [reflexivity|]. eexists. vm_compute. reflexivity.
Qed.

(** ** C13.  After every history, getStats() reports the pages, page in use and
    elements of the specification [sspec_step], in which a shrink with live iterators
    releases nothing and the pending one is served when the last iterator goes; that
    it never changes the contents is the stack-call clause of
    [C11_sync_iterators_partial]. *)
Theorem C13_deferred_shrink : forall (T : Type) debug ps pa es (w : world T) x,
  wreaches debug ps pa es w x ->
  getStats (w_stack w) = ROk (w_stack w) (ss_blocks x, ps, pages_for ps (length (ss_list x)),
     length (ss_list x) - (pages_for ps (length (ss_list x)) - 1) * ps).
Proof. exact @sync_stats. Qed.
Print Assumptions C13_deferred_shrink.

(** Two iterators, a shrink: five pages stay until the second iterator goes. *)
Example C13_witness : let es := [Op (Push 1 [2; 3; 4; 5]); SyncBegin; SyncEnd; Op (Discard 4); Op Shrink; SyncDestroy 0] in
  exists w x, wreaches true 1 1 es w x /\ ss_blocks x = 5 /\
  exists w' x', wreaches true 1 1 (es ++ [SyncDestroy 0]) w' x' /\ ss_blocks x' = 1 /\ ss_list x' = [1].
Proof.
  eexists. eexists. split.
  - split; [lia|]. split; [lia|]. split; [reflexivity|]. eexists. vm_compute. reflexivity.
  - split; [reflexivity|]. eexists. eexists. split.
    + split; [lia|]. split; [lia|]. split; [reflexivity|]. eexists. vm_compute. reflexivity.
    + split; reflexivity.
Qed.

(** ** C14 is false: on every reachable stack without live iterators, a copied iterator
    whose original is destroyed dangles once the top page has been removed and the
    stack shrunk; any use of it is undefined behaviour. *)
Theorem C14_copy_refuted : forall (T : Type) debug ps pa es (w : world T) x n,
  wreaches debug ps pa es w x -> ss_live x = 0 -> n <= length (ss_list x) ->
  pages_for ps (length (ss_list x) - n) < pages_for ps (length (ss_list x)) ->
  exists w', (exists rs, wrun debug [SyncBegin; SyncCopy 0; SyncDestroy 0; Op (Discard n); Op Shrink] w = ROk w' rs) /\
    length (w_live w') = 1 /\
    wexec debug (SyncGet 0) w' = RBad UB /\ wexec debug (SyncInc 0) w' = RBad UB /\
    wexec debug (SyncDec 0) w' = RBad UB.
Proof. exact @sync_copy_dangles. Qed.
Print Assumptions C14_copy_refuted.

Example C14_witness : exists w x, wreaches true 2 1 [Op (Push 1 [2; 3])] w x /\ ss_live x = 0 /\
  1 <= length (ss_list x) /\ pages_for 2 (length (ss_list x) - 1) < pages_for 2 (length (ss_list x)).
Proof.
  eexists. eexists. split.
  - split; [lia|]. split; [lia|]. split; [reflexivity|]. eexists. vm_compute. reflexivity.
  - vm_compute. lia.
Qed.

(** What can be relied on with copies.  [creaches] (PagedStackSyncCopySpec) is
    [wreaches] with copies allowed.  Every event other than the use of an iterator
    whose page has been released, and the three hazards of C11, completes without
    undefined behaviour; get() yields an element now in the stack; stack calls
    behave like the ideal list.  Missing for the full claim: the released pages. *)
Theorem C14_copies_partial : forall (T : Type) debug ps pa es (w : world T) x e x',
  creaches debug ps pa es w x -> cspec_step ps pa e x = Some x' -> chazard ps e w x = false ->
  exists w' a, wexec debug e w = ROk w' a /\ creaches debug ps pa (es ++ [e]) w' x' /\
    (forall k, e = SyncGet k -> cs_list x <> [] -> exists v, a = AVal v /\ In v (cs_list x)) /\
    (forall o, e = Op o -> exists r, a = ARet r /\ spec_step o (cs_list x) = Some (cs_list x', r)).
Proof. exact @copy_safe. Qed.
Print Assumptions C14_copies_partial.

(** ... those excluded are always undefined behaviour ... *)
Theorem C14_hazards_refuted : forall (T : Type) debug ps pa es (w : world T) x e x',
  creaches debug ps pa es w x -> cspec_step ps pa e x = Some x' -> chazard ps e w x = true ->
  wexec debug e w = RBad UB.
Proof. exact @copy_unsafe. Qed.
Print Assumptions C14_hazards_refuted.

(** ... no iterator's page is released in a history in which pages are released only
    when no iterator is left alive, in particular without shrink_to_fit, or without
    copies ... *)
Theorem C14_quiet : forall (T : Type) debug ps pa es (w : world T) x k,
  creaches debug ps pa es w x -> quiet ps pa es (cfresh pa) -> dangles w k = false.
Proof. exact @copy_quiet. Qed.
Print Assumptions C14_quiet.

Theorem C14_no_shrink : forall (T : Type) debug ps pa es (w : world T) x k,
  creaches debug ps pa es w x -> existsb is_shrink es = false \/ existsb is_copy es = false ->
  dangles w k = false.
Proof. exact @copy_no_dangling. Qed.
Print Assumptions C14_no_shrink.

(** ... and a release leaves exactly the iterators on pages above the top page
    without a page. *)
Theorem C14_release : forall (T : Type) debug ps pa es (w : world T) x e x' w' a it j,
  creaches debug ps pa es w x -> cspec_step ps pa e x = Some x' -> releases e x = true ->
  wexec debug e w = ROk w' a -> nth_error (ids (w_stack w)) j = Some (s_node it) ->
  dangling (w_stack w') it = (pages_for ps (length (cs_list x)) <=? j).
Proof. exact @copy_release. Qed.
Print Assumptions C14_release.

(** A copy used after its original is gone, with no shrink: get() finds the top. *)
Example C14_copies_witness : exists w x, creaches true 2 1
    [Op (Push 1 [2; 3; 4; 5]); SyncBegin; SyncCopy 0; SyncDestroy 0; Op (Discard 3)] w x /\
  cs_list x = [2; 1] /\ cspec_step 2 1 (SyncGet 0) x = Some x /\ chazard 2 (SyncGet 0) w x = false /\
  exists w', wexec true (SyncGet 0) w = ROk w' (AVal 2).
Proof.
  eexists. eexists. split.
  - split; [lia|]. split; [lia|]. split; [reflexivity|]. eexists. vm_compute. reflexivity.
  - split; [reflexivity|]. split; [reflexivity|]. split; [reflexivity|]. eexists. vm_compute. reflexivity.
Qed.

(** Destroying the copy, as when it is passed by value and the call returns, releases
    the page of the original: the deferred shrink is served while it is alive. *)
Example C14_by_value_refuted : exists w x, creaches true 2 1
    [Op (Push 1 [2; 3; 4; 5]); SyncBegin; SyncCopy 0; Op (Discard 3); Op Shrink] w x /\
  releases (SyncDestroy 1) x = true /\
  exists w', wexec true (SyncDestroy 1) w = ROk w' ADone /\ dangles w' 0 = true /\
    wexec true (SyncGet 0) w' = RBad UB.
Proof.
  eexists. eexists. split.
  - split; [lia|]. split; [lia|]. split; [reflexivity|]. eexists. vm_compute. reflexivity.
  - split; [reflexivity|]. eexists. split; [vm_compute; reflexivity|]. split; vm_compute; reflexivity.
Qed.
