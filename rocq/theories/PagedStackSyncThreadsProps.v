(** * C121: synchronised iterators of threads that share a PagedStack<T, Futex>. *)

From Coq Require Import List Arith NArith Lia.
From Verif Require Import Base PagedStackModel PagedStackSpec PagedStackExec PagedStackSyncSpec FutexModel FutexSpec
  PagedStackThreadsSpec PagedStackSyncThreadsSpec PagedStackSyncThreads.
Import ListNotations.

(** Threads call a stack that is guarded by a futex and create, use and destroy synchronised
    iterators over it; the calls are executed in any number of steps; any schedule.  Whenever no
    call is in progress, there is one order of all the calls made so far: the order in which the
    lock was acquired, which has the calls of each thread in the thread's order.  If this one
    history is legal and free of the hazards of C11, then it runs; the stack is what it
    makes of a new stack, no undefined behaviour occurs, each get() has yielded an element that
    was in the stack at that moment, the uses of an iterator threw exactly if the stack was empty,
    the calls of the stack returned what an ideal stack returns, and each thread has received these
    answers.  Missing for the full claim: the hazards of C11, and those calls that are not a
    section under the lock (C94, and copying an iterator, C14). *)
Theorem C121_sync_threads_partial : forall (T : Type) (code : event T -> body (@shared T) (@own_data T)) spin ps pa
    (progs : list (list (event T))) s tr,
  (forall e, guarded_event e = true -> implements_event (code e) e) ->
  1 <= ps -> 1 <= pa -> Forall (fun p => forallb guarded_event p = true) progs ->
  freaches spin (Some (construct ps pa)) (map (fun p => (map code p, ([], []))) progs) s tr ->
  (forall t, ~ holds s t) ->
  exists order, acquisitions tr = event_sections code order /\
    (forall t p, nth_error progs t = Some p ->
       exists more th, nth_error (threads s) t = Some th /\ p = events_of t order ++ more /\ map code more = t_todo th) /\
    (hazard_free ps pa (global_history order []) (wfresh ps pa) (sfresh pa) ->
     exists w x rs, wreaches false ps pa (global_history order []) w x /\
       wrun false (global_history order []) (wfresh ps pa) = ROk w rs /\ data s = Some (w_stack w) /\
       right_answers ps pa (global_history order []) rs (sfresh pa) /\
       forall t th, nth_error (threads s) t = Some th -> snd (t_local th) = answers_of t order rs).
Proof. intros T code spin ps pa progs s tr C. exact (shared_sync code C spin ps pa progs s tr). Qed.
Print Assumptions C121_sync_threads_partial.

(** Two threads, calls in two steps each.  The first fills two pages, iterates from the top and
    destroys its iterator; between its calls the second, which has an iterator of its own, pops
    the elements the first was at: the first goes on from the new top. *)
Definition two_programs : list (list (event nat)) :=
  [[Op (Push 1 [2; 3; 4; 5]); SyncBegin; SyncGet 0; SyncGet 0; SyncInc 0; SyncGet 0; SyncDestroy 0];
   [SyncBegin; Op (Discard 3); SyncGet 0; SyncDestroy 0]].
Definition two_order : list (nat * event nat) :=
  [(0, Op (Push 1 [2; 3; 4; 5])); (1, SyncBegin); (0, SyncBegin); (0, SyncGet 0); (1, Op (Discard 3));
   (0, SyncGet 0); (1, SyncGet 0); (0, SyncInc 0); (1, SyncDestroy 0); (0, SyncGet 0); (0, SyncDestroy 0)].

Example C121_witness : exists s tr,
  freaches 0%N (Some (construct 2 1)) (map (fun p => (map event_in_two_steps p, ([], []))) two_programs) s tr /\
  all_done s /\ (forall e : event nat, implements_event (event_in_two_steps e) e) /\
  Forall (fun p => forallb guarded_event p = true) two_programs /\
  map fst (acquisitions tr) = map fst two_order /\
  global_history two_order [] =
    [Op (Push 1 [2; 3; 4; 5]); SyncBegin; SyncBegin; SyncGet 1; Op (Discard 3); SyncGet 1; SyncGet 0; SyncInc 1;
     SyncDestroy 0; SyncGet 0; SyncDestroy 0] /\
  hazard_free 2 1 (global_history two_order []) (wfresh 2 1) (sfresh 1) /\
  map (fun th => snd (t_local th)) (threads s) =
    [[ARet RUnit; ADone; AVal 5; AVal 2; ADone; AVal 1; ADone]; [ADone; ARet RUnit; AVal 2; ADone]].
Proof.
  eexists. eexists. split; [|split; [|split; [exact event_in_two_steps_ok|split; [|split; [|split; [reflexivity|split]]]]]].
  - exists (map (fun t => (t, false)) (concat (map (fun t => [t; t; t; t; t]) (map fst two_order)))). vm_compute. reflexivity.
  - intros th [<-|[<-|[]]]; split; reflexivity.
  - repeat constructor.
  - reflexivity.
  - cbn -[wexec hazard wfresh]; repeat (split; [vm_compute; reflexivity|]; intros w' a H; vm_compute in H; injection H as <- <-); exact Logic.I.
  - reflexivity.
Qed.
