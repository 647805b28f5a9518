(** * C94: a PagedStack<T, Futex> shared by threads. *)

From Coq Require Import List Arith NArith Lia.
From Verif Require Import Base PagedStackModel PagedStackSpec PagedStackExec FutexModel FutexSpec PagedStackThreadsSpec PagedStackThreads.
Import ListNotations.

(** Threads call a stack that is guarded by a futex; the calls are executed in any number of
    steps; any schedule.  Whenever no call is in progress, there is one order of all the calls
    made so far such that: it is the order in which the lock was acquired, so a call that returned
    before another began comes first; it has the calls of each thread in the thread's order;
    the stack is what this sequence of calls makes of a new stack; and each thread has received
    the results that an ideal stack gives in this sequence. *)
Theorem C94_linearizable : forall (T : Type) (code : op T -> body (@shared T) (@results T)) spin ps pa
    (progs : list (list (op T))) s tr,
  (forall o, guarded_op o = true -> implements (code o) o) ->
  1 <= pa -> Forall (fun p => forallb guarded_op p = true) progs ->
  freaches spin (Some (construct ps pa)) (map (fun p => (map code p, [])) progs) s tr ->
  (forall t, ~ holds s t) ->
  exists order, acquisitions tr = sections code order /\
    (forall t p, nth_error progs t = Some p ->
       exists more th, nth_error (threads s) t = Some th /\ p = calls_of t order ++ more /\ map code more = t_todo th) /\
    forall l rs, described ps (map snd order) -> spec_run (map snd order) [] = Some (l, rs) ->
      (exists st, data s = Some st /\ run false (map snd order) (construct ps pa) = ROk st rs) /\
      forall t th, nth_error (threads s) t = Some th -> t_local th = results_of t order rs.
Proof. intros T code spin ps pa progs s tr C. exact (shared_stack code C spin ps pa progs s tr). Qed.
Print Assumptions C94_linearizable.

(** Two threads, calls in two steps each; the second thread's calls come between those of the
    first and its first attempt fails. *)
Example C94_witness : exists s tr,
  freaches 0%N (Some (construct 3 1)) (map (fun p => (map in_two_steps p, [])) [[Push 1 [2; 3; 4]; Size]; [PopReverse 1; Push 7 []]]) s tr /\
  all_done s /\ (forall o : op nat, implements (in_two_steps o) o) /\
  map fst (acquisitions tr) = [0; 1; 1; 0] /\
  described 3 [Push 1 [2; 3; 4]; PopReverse 1; Push 7 []; Size] /\
  spec_run [Push 1 [2; 3; 4]; PopReverse 1; Push 7 []; Size] [] = Some ([7; 2; 1], [RUnit; RVals [3; 4]; RUnit; RNat 3]) /\
  map t_local (threads s) = [[RUnit; RNat 3]; [RVals [3; 4]; RUnit]].
Proof.
  eexists. eexists. split; [|split; [|split; [exact in_two_steps_ok|split; [|split; [|split; [reflexivity|]]]]]].
  - exists [(0, false); (0, false); (0, false); (1, false); (1, false); (1, false); (0, false); (0, false);
            (1, false); (1, false); (1, false); (1, false); (1, false); (1, false); (1, false); (1, false); (1, false);
            (0, false); (0, false); (0, false); (0, false); (0, false)]. vm_compute. reflexivity.
  - intros th [<-|[<-|[]]]; split; reflexivity.
  - reflexivity.
  - right. split; [lia|reflexivity].
  - reflexivity.
Qed.
