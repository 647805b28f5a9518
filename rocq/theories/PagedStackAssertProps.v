(** * C124: the assertions of a PagedStack<T, Futex> that threads share. *)

From Coq Require Import List Arith NArith Lia.
From Verif Require Import Base PagedStackModel PagedStackSpec PagedStackExec FutexModel FutexSpec PagedStackThreadsSpec
  PagedStackAssertModel PagedStackAssertSpec PagedStackAssert.
Import ListNotations.

(** A call in a build with assertions is its assertion and then the call of a build without. *)
Theorem C124_two_sections : forall (T : Type) (o : op T) (s : stack T), match o with DiscardFromTop _ => False | _ => True end ->
  exec true o s = match assertion o with
                  | None => exec false o s
                  | Some c => match c s with
                              | ROk s' true => exec false o s'
                              | ROk _ false => RBad AssertFail
                              | RThrow s' => match o with Discard _ => RBad Terminate | _ => RThrow s' end
                              | RBad b => RBad b
                              end
                  end.
Proof. intros T o s. exact (exec_true o s). Qed.
Print Assumptions C124_two_sections.

Example C124_two_sections_witness :
  exec true (Discard 2) (construct 3 1) = @RBad (stack nat) (retval nat) AssertFail /\ assertion (Discard 2) <> @None (M (stack nat) bool) /\
  exec true (PushEmplace 2) (construct 3 1) = exec false (PushEmplace 2) (construct 3 1).
Proof. split; [reflexivity|]. split; [discriminate|reflexivity]. Qed.

(** A build with assertions; threads call a stack that is guarded by a futex; any schedule.
    Each assertion and each call is a section under the lock.  Whenever the lock is free there is one
    order of all the sections made so far: the order in which the lock was acquired, which has
    those of each thread in the thread's order; and on an ideal stack they have, in this order,
    one of three results.  Either all is well: the process runs, the stack is what these calls
    make of a new one, and each thread has received the results of its own.  Or an assertion is
    the first that fails: the process was aborted, and the asserted call was outside its domain
    there.  Or a call was outside its domain though its assertion passed: [Missed], of which this
    theorem says nothing. *)
Theorem C124_assertions_partial : forall (T : Type) (code : piece T -> body (process T) (list (retval T))) spin ps pa
    (progs : list (list (op T))) s tr,
  (forall x, performs (code x) x) ->
  1 <= pa -> Forall (fun p => forallb core_op p = true) progs -> Forall (fun p => forallb guarded_op p = true) progs ->
  freaches spin (Running (construct ps pa)) (map (fun p => (map code (flat_map pieces p), [])) progs) s tr ->
  (forall t, ~ holds s t) ->
  exists order, acquisitions tr = map (fun x => (fst x, code (snd x))) order /\
    (forall t p, nth_error progs t = Some p ->
       exists more th, nth_error (threads s) t = Some th /\ flat_map pieces p = pieces_of t order ++ more /\ map code more = t_todo th) /\
    match judge (map snd order) [] with
    | Fine l rs => spec_run (acts (map snd order)) [] = Some (l, rs) /\
        (exists st, data s = Running st /\ run false (acts (map snd order)) (construct ps pa) = ROk st rs) /\
        forall t th, nth_error (threads s) t = Some th -> t_local th = results_of t (act_order order) rs
    | Alarm o l => data s = Aborted /\ spec_step o l = None
    | Missed _ _ => True
    end.
Proof. intros T code spin ps pa progs s tr C PA K _. exact (shared_assertions code C spin ps pa progs s tr PA K). Qed.
Print Assumptions C124_assertions_partial.

(** Sections of two steps.  The second thread's assertion comes first in one schedule, and between
    the calls of the first thread in another. *)
Example C124_witness :
  let code := fun x : piece nat => [(fun l d => (l, d)); effect x] in
  let progs := map (fun p => (map code (flat_map pieces p), @nil (retval nat))) [[Push 1 [2]; Size]; [PopN 0]] in
  (forall x, performs (code x) x) /\
  (exists s tr, freaches 0%N (Running (construct 3 1)) progs s tr /\ (forall t, ~ holds s t) /\
     map fst (acquisitions tr) = [1] /\ judge [Check (PopN 0)] [] = @Alarm nat (PopN 0) [] /\ data s = Aborted) /\
  (exists s tr, freaches 0%N (Running (construct 3 1)) progs s tr /\ all_done s /\
     map fst (acquisitions tr) = [0; 1; 1; 0] /\
     judge [Act (Push 1 [2]); Check (PopN 0); Act (PopN 0); Act Size] [] = Fine [1] [RUnit; RVals [2]; RNat 1] /\
     map t_local (threads s) = [[RUnit; RNat 1]; [RVals [2]]]).
Proof.
  cbv zeta. split; [intros x rs d; cbn; destruct (effect x rs d); reflexivity|]. split.
  - eexists. eexists. split; [|split; [|split; [|split]]].
    + exists (repeat (1, false) 5). vm_compute. reflexivity.
    + intros [|[|t]] (th & rest & A & B); cbn in A; [| |destruct t; discriminate]; injection A as <-; discriminate.
    + reflexivity.
    + reflexivity.
    + reflexivity.
  - eexists. eexists. split; [|split; [|split; [|split]]].
    + exists (repeat (0, false) 5 ++ repeat (1, false) 10 ++ repeat (0, false) 5). vm_compute. reflexivity.
    + intros th [<-|[<-|[]]]; split; reflexivity.
    + reflexivity.
    + reflexivity.
    + reflexivity.
Qed.

(** If one thread uses the stack, the assertions are enough: with the calls whose assertion is their
    domain, no undefined behaviour. *)
Theorem C124_alone : forall (T : Type) (code : piece T -> body (process T) (list (retval T))) spin ps pa (p : list (op T)) s tr,
  (forall x, performs (code x) x) -> 1 <= pa -> forallb core_op p = true -> forallb asserted p = true ->
  freaches spin (Running (construct ps pa)) [(map code (flat_map pieces p), [])] s tr -> (forall t, ~ holds s t) ->
  data s <> Undefined.
Proof. intros T code spin ps pa p s tr C. exact (alone code C spin ps pa p s tr). Qed.
Print Assumptions C124_alone.

Example C124_alone_witness : exists s tr,
  freaches 0%N (Running (construct 3 1)) [(map (fun x => [effect x]) (flat_map pieces [Push 1 []; Discard 2; Size]), @nil (retval nat))] s tr /\
  (forall t, ~ holds s t) /\ data s = Aborted.
Proof.
  eexists. eexists. split; [|split].
  - exists (repeat (0, false) 8). vm_compute. reflexivity.
  - intros [|t] (th & rest & A & B); cbn in A; [|destruct t; discriminate]. injection A as <-. discriminate.
  - reflexivity.
Qed.

(** Two threads: the assertions are not enough.  Whatever calls left one element in the stack: both
    threads may check that it is not empty, both assertions pass, and the second pop() then has
    undefined behaviour. *)
Theorem C124_shared_refuted : forall (T : Type) (code : piece T -> body (process T) (list (retval T))) spin ps pa (p : list (op T)) x rs,
  (forall x, performs (code x) x) -> 1 <= pa -> forallb core_op p = true -> spec_run p [] = Some ([x], rs) ->
  exists s tr, freaches spin (Running (construct ps pa)) (map (fun q => (map code (flat_map pieces q), [])) [p ++ [Pop]; [Pop]]) s tr /\
    acquisitions tr = map (fun y => (fst y, code (snd y))) (late_pops p ++ [(1, Act Pop)]) /\
    (forall t, ~ holds s t) /\ data s = Undefined.
Proof. intros T code spin ps pa p x rs C. exact (missed code C spin ps pa p x rs). Qed.
Print Assumptions C124_shared_refuted.

Example C124_shared_refuted_witness : spec_run [Push 1 [2]; PopN 0] [] = Some ([1], [RUnit; RVals [2]]) /\ forallb core_op [Push 1 [2]; PopN 0] = true.
Proof. split; reflexivity. Qed.

(** The assertion of pop(values) asks for one element only: popping more values than there
    are, from a stack that is not empty, is undefined in builds with assertions too. *)
Theorem C124_pop_values_refuted : forall (T : Type) ps pa (p : list (op T)) l rs n,
  1 <= pa -> forallb core_op p = true -> spec_run p [] = Some (l, rs) -> l <> [] -> length l <= n ->
  run true (p ++ [PopN n]) (construct ps pa) = RBad UB.
Proof. intros T ps pa p l rs n. exact (popn_missed ps pa p l rs n). Qed.
Print Assumptions C124_pop_values_refuted.

Example C124_pop_values_refuted_witness :
  spec_run [Push 1 [2]] [] = Some ([2; 1], [RUnit]) /\ run true [Push 1 [2]; PopN 2] (construct 3 1) = @RBad (stack nat) (list (retval nat)) UB /\
  run true [PopN 2] (construct 3 1) = @RBad (stack nat) (list (retval nat)) AssertFail.
Proof. repeat split; reflexivity. Qed.
