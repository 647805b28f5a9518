(** * C122, C123: where the synchronised iterators of a PagedStack are, and what loops see. *)

From Coq Require Import List Arith Lia.
From Verif Require Import Base PagedStackModel PagedStackSpec PagedStackExec PagedStackSyncSpec PagedStackSyncThreadsSpec
  PagedStackSyncIdealSpec PagedStackSyncIdeal.
Import ListNotations.

(** ** C122 *)

(** A history of calls of the stack and of its synchronised iterators, from a new stack on.  As long as
    it is defined for ideal iterators, which are positions counted from the bottom of the stack, it
    runs: all the answers are those of the ideal iterators, and two iterators that are not lost
    compare equal exactly if they are at the same place.  Missing for the full claim: the uses for
    which the ideal is undefined (the end of a stack of more than a page, an iterator lost by an
    exception, -- beyond the last page: C11, C12), and copies (C14). *)
Theorem C122_ideal_iterators_partial : forall (T : Type) debug ps pa es x pls (rs : list (answer T)), 1 <= ps -> 1 <= pa ->
  irun ps pa es (sfresh pa) [] = Some (x, pls, rs) ->
  exists w, wrun debug es (wfresh ps pa) = ROk w rs /\ wreaches debug ps pa es w x /\ length (w_live w) = length pls /\
    forall i j p q, nth_error pls i = Some p -> nth_error pls j = Some q -> p <> Lost -> q <> Lost ->
      exists a b, nth_error (w_live w) i = Some a /\ nth_error (w_live w) j = Some b /\
        s_eq a b (w_stack w) = ROk (w_stack w) (place_eqb p q).
Proof. exact @ideal_iterators. Qed.
Print Assumptions C122_ideal_iterators_partial.

(** Two iterators and an end; the stack shrinks below one of them and grows again, so that it is
    at an element that was not there when it was created; then it meets the other one. *)
Example C122_witness :
  irun 2 1 [Op (Push 1 [2; 3; 4; 5]); SyncBegin; SyncBegin; SyncEnd; SyncInc 0; SyncGet 0; Op (Discard 3); Op (Push 8 [9]);
            SyncGet 0; SyncGet 1; SyncDec 2; SyncGet 2; SyncInc 0; SyncInc 1; SyncInc 1] (sfresh 1) [] =
  Some (mkSS [9; 8; 2; 1] 3 false 3, [At 2; At 1; At 0],
        [ARet RUnit; ADone; ADone; ADone; ADone; AVal 4; ARet RUnit; ARet RUnit;
         AVal 9; AVal 9; ADone; AVal 1; ADone; ADone; ADone]).
Proof. vm_compute. reflexivity. Qed.

(** ** C123 *)

(** The discipline of the usual loop, for any number of iterators, in the company of any calls of
    the stack: every call has a defined outcome, and the right one. *)
Theorem C123_loop : forall (T : Type) debug ps pa (cs : list (call T)), 1 <= ps -> 1 <= pa ->
  disciplined ps pa debug cs (wfresh ps pa) (sfresh pa) [] ->
  exists w x pls rs, crun debug cs (wfresh ps pa) = ROk w rs /\ irun ps pa (events cs) (sfresh pa) [] = Some (x, pls, answered rs) /\
    wreaches debug ps pa (events cs) w x /\ right_answers ps pa (events cs) (answered rs) (sfresh pa).
Proof. exact @disciplined_loop. Qed.
Print Assumptions C123_loop.

(** Three elements; others empty the stack while the loop is at the second: its get() throws. *)
Definition a_loop : list (call nat) :=
  [Do (Op (Push 1 [2; 3])); Do SyncBegin; Do SyncEnd; Compare 0 1; Do (SyncGet 0); Do (SyncInc 0); Compare 0 1;
   Do (Op Pop); Do (SyncGet 0); Do (Op (Discard 2)); Do (SyncGet 0); Do (SyncDestroy 0); Do (SyncDestroy 0)].

Example C123_witness : disciplined 2 1 false a_loop (wfresh 2 1) (sfresh 1) [] /\
  exists w, crun false a_loop (wfresh 2 1) =
    ROk w [Answered (ARet RUnit); Answered ADone; Answered ADone; Compared false; Answered (AVal 3); Answered ADone; Compared false;
           Answered (ARet RUnit); Answered (AVal 2); Answered (ARet RUnit); Answered AThrown; Answered ADone; Answered ADone].
Proof.
  split; [|eexists; vm_compute; reflexivity].
  cbn -[cexec wfresh sspec_run allowed learn].
  repeat (split; [vm_compute; reflexivity|]; eexists; split; [vm_compute; reflexivity|]; intros ? ? H; vm_compute in H; injection H as <- <-).
  exact Logic.I.
Qed.

(** A loop over a stack that others push on and pop from, but never below the contents it
    had when the loop began: get() yields exactly these contents, from the top to the bottom, each
    once, and then the iterator is at the end.  Whatever the others push is not seen. *)
Theorem C123_contents : forall (T : Type) debug ps pa es (w : world T) x envs, wreaches debug ps pa es w x ->
  length envs = length (ss_list x) ->
  keeps_base (ss_list x) (flat_map (fun env => fst env ++ snd env) envs) (ss_list x) ->
  exists w' rs it, wrun debug (SyncBegin :: loop_events (ss_live x) envs) w = ROk w' rs /\ values rs = ss_list x /\
    nth_error (w_live w') (ss_live x) = Some it /\ is_sync_end (w_stack w') it = true.
Proof. exact @loop_sees. Qed.
Print Assumptions C123_contents.

(** Five elements in three pages; others push and pop above them. *)
Definition busy : list (list (op nat) * list (op nat)) :=
  [([Push 6 []], [Push 7 [8]]); ([Discard 2], []); ([], [Pop]); ([Push 9 []; Pop], [Push 10 []]); ([], [])].

Example C123_contents_witness : exists w x, wreaches true 2 1 [Op (Push 1 [2; 3; 4; 5])] w x /\
  ss_list x = [5; 4; 3; 2; 1] /\ length busy = length (ss_list x) /\
  keeps_base (ss_list x) (flat_map (fun env => fst env ++ snd env) busy) (ss_list x).
Proof.
  eexists. eexists. split; [|split; [|split]].
  - split; [lia|]. split; [lia|]. split; [vm_compute; reflexivity|]. eexists. vm_compute. reflexivity.
  - reflexivity.
  - reflexivity.
  - cbn -[spec_step].
    exists [6]. eexists. split; [reflexivity|]. split; [reflexivity|].
    exists [8; 7; 6]. eexists. split; [reflexivity|]. split; [reflexivity|].
    exists [6]. eexists. split; [reflexivity|]. split; [reflexivity|].
    exists []. eexists. split; [reflexivity|]. split; [reflexivity|].
    exists [9]. eexists. split; [reflexivity|]. split; [reflexivity|].
    exists []. eexists. split; [reflexivity|]. split; [reflexivity|].
    exists [10]. eexists. split; [reflexivity|]. split; [reflexivity|]. exact Logic.I.
Qed.
