(** * From log statements to listeners and log lines: property C101.

    [wreaches compile rmatch min sn g ls progs others w tr]: threads that execute the log
    statements [progs], and threads that make the calls [others] of LogSystem directly; some
    schedule, with some behaviour of the callbacks, leads to [w] and shows the events [tr]. *)

From Coq Require Import ZArith String Bool List Arith Lia.
From Verif Require Import Base LogModel LogSpec LoggerModel LoggerSpec WholeModel WholeSpec WholeProofs WholeFair
  TextModel TextSpec LogStreamModel LogStreamSpec LogStreamProofs LogProps.
Import ListNotations.
Open Scope string_scope.
Open Scope list_scope.

(** At any time a thread has called log() for the messages of its statements, in order; after the
    last statement, for all of them.  The tests are the level tests that the thread made. *)
Theorem C101_statements_to_calls : forall (RE : Type) compile rmatch min sn g (ls : nat -> @listener RE) progs others w tr i p,
  wreaches compile rmatch min sn g ls progs others w tr -> nth_error progs i = Some (map embed p) ->
  prefix (logged_by (Client i) (logs tr)) (expect "" p (tests (LoggerSpec.of_thread i (stmts tr)))) /\
  (wfinished w i -> logged_by (Client i) (logs tr) = expect "" p (tests (LoggerSpec.of_thread i (stmts tr)))).
Proof. exact @whole_expected. Qed.
Print Assumptions C101_statements_to_calls.

(** If nobody changes the level and nobody else logs, a listener that was added before the first
    dispatch, with settings that are not changed, has received, when all the threads are done and
    nothing is left in the queue, the messages of all the statements that it wants: each once,
    and those of each thread in the order of its program. *)
Theorem C101_statements_to_listener : forall (RE : Type) compile rmatch min sn g (ls : nat -> @listener RE) plains others w tr l t1 t2,
  wreaches compile rmatch min sn g ls (map (map embed) plains) others w tr ->
  (forall i, i < List.length plains -> wfinished w i) -> served w ->
  (forall z, ~ In (EvLevel z) (logs tr)) -> only_below (List.length plains) (logs tr) ->
  logs tr = t1 ++ EvAdd l :: t2 -> begun t1 = [] -> ~ In (EvAdd l) (t1 ++ t2) -> ~ In l (changed (t1 ++ t2)) -> l_detached (ls l) = false ->
  exists ms, merge_of (map (messages min TRACE "") plains) ms /\ delivered_to l (logs tr) = filter (wants rmatch (ls l)) ms.
Proof. exact @whole_delivered. Qed.
Print Assumptions C101_statements_to_listener.

(** If that listener is a log stream that writes on [s], and [times] are the times at which it
    receives the messages, then these are the lines on [s]. *)
Theorem C101_statements_to_lines : forall (RE : Type) compile rmatch min sn g (ls : nat -> @listener RE) plains others w tr l t1 t2 s ext0 times,
  wreaches compile rmatch min sn g ls (map (map embed) plains) others w tr ->
  (forall i, i < List.length plains -> wfinished w i) -> served w ->
  (forall z, ~ In (EvLevel z) (logs tr)) -> only_below (List.length plains) (logs tr) ->
  logs tr = t1 ++ EvAdd l :: t2 -> begun t1 = [] -> ~ In (EvAdd l) (t1 ++ t2) -> ~ In l (changed (t1 ++ t2)) -> l_detached (ls l) = false ->
  List.length times = List.length (delivered_to l (logs tr)) ->
  exists k ms, srun (WriteOn (Some s) :: map (fun x => OnMessage (log_line (fst x) (snd x))) (combine times (delivered_to l (logs tr)))) (sink0 ext0) = ROk k tt /\
    merge_of (map (messages min TRACE "") plains) ms /\
    written k = map (fun x => (s, log_line (fst x) (snd x))) (combine times (filter (wants rmatch (ls l)) ms)) /\
    List.length (written k) = List.length (filter (wants rmatch (ls l)) ms).
Proof. exact @whole_lines. Qed.
Print Assumptions C101_statements_to_lines.

(** Two threads, one of which sets its category; a third one adds listener 1 (INFO, "net").  The
    message of the second thread comes between those of the first. *)
Definition demo_plains : list (list plain) :=
  [[SetCat "net"; LogLine "a.cpp" 1 INFO None ["a"; "b"]; LogBlock "a.cpp" 2 ERROR ["c"]];
   [LogLine "b.cpp" 4 INFO (Some "gui") ["y"]]].
Definition th (i n : nat) : list wchoice := repeat (WThread i) n.
Definition lt (n : nat) : list wchoice := repeat (WLogThread []) n.

Example C101_witness : exists w tr t1 t2, wreaches demo_compile demo_match TRACE true false demo_listeners (map (map embed) demo_plains) [[CAdd 1]] w tr /\
  (forall i, i < List.length demo_plains -> wfinished w i) /\ served w /\
  (forall z, ~ In (EvLevel z) (logs tr)) /\ only_below (List.length demo_plains) (logs tr) /\
  logs tr = t1 ++ EvAdd 1 :: t2 /\ begun t1 = [] /\ ~ In (EvAdd 1) (t1 ++ t2) /\ ~ In 1 (changed (t1 ++ t2)) /\ l_detached (demo_listeners 1) = false /\
  begun (logs tr) = [mkMsg "a.cpp" 1 INFO "net" "ab"; mkMsg "b.cpp" 4 INFO "gui" "y"; mkMsg "a.cpp" 2 ERROR "net" "c"] /\
  delivered_to 1 (logs tr) = [mkMsg "a.cpp" 1 INFO "net" "ab"; mkMsg "a.cpp" 2 ERROR "net" "c"] /\
  map (messages TRACE TRACE "") demo_plains =
    [[mkMsg "a.cpp" 1 INFO "net" "ab"; mkMsg "a.cpp" 2 ERROR "net" "c"]; [mkMsg "b.cpp" 4 INFO "gui" "y"]].
Proof.
  eexists. eexists. eexists []. eexists. split.
  { exists (th 2 1 ++ th 0 12 ++ th 1 9 ++ th 0 7 ++ lt 33). vm_compute. reflexivity. }
  split. { intros i Hi. destruct i as [|[|i]]; [| |cbn in Hi; lia]; (split; [eexists; reflexivity|reflexivity]). }
  split; [split; reflexivity|].
  split. { intros z. cbn. intuition discriminate. }
  split. { intros t m. cbn. intros I. repeat (destruct I as [I|I]; [try discriminate I|]); try (destruct I; fail); injection I as I _; eexists; (split; [symmetry; exact I|lia]). }
  split; [reflexivity|]. split; [reflexivity|]. split; [cbn; intuition discriminate|]. split; [cbn; intuition discriminate|].
  repeat split; reflexivity.
Qed.

(** Under any fair scheduler, with callbacks that neither stop or start the service nor throw: all
    the threads, whatever their statements, execute them all, and the last calls return. *)
Theorem C101_threads_finish : forall (RE : Type) compile rmatch min ws evs sn g (ls : nat -> @listener RE) progs others,
  wexecution compile rmatch min ws evs -> ws 0 = winit sn g ls progs others ->
  (forall n, modest_now (wh_log (ws n))) -> (forall t, wfair compile rmatch min t ws evs) ->
  forall n, exists k, n <= k /\ wall_done (ws k).
Proof. exact @all_finish. Qed.
Print Assumptions C101_threads_finish.

(** If moreover the service was started and nobody stops it: at some time all the threads are done, and
    at some later time everything they put in the queue has been dispatched. *)
Theorem C101_all_dispatched : forall (RE : Type) compile rmatch min ws evs sn g (ls : nat -> @listener RE) progs others,
  wexecution compile rmatch min ws evs -> ws 0 = winit sn g ls progs others ->
  (forall n, modest_now (wh_log (ws n))) -> (forall t, wfair compile rmatch min t ws evs) ->
  (forall n, terminated (w_sys (wh_log (ws n))) = false) -> sn = true ->
  exists N K, N <= K /\ wall_done (ws N) /\ prefix (accepted (logs (wshown evs N))) (ended (logs (wshown evs K))).
Proof. exact @whole_fair. Qed.
Print Assumptions C101_all_dispatched.

(** If moreover nobody changes the level, nobody else logs, and the listener was added before the first
    dispatch, with settings that are not changed: from some time on the threads are done, and the listener
    has received the messages of all the statements that it wants. *)
Theorem C101_eventually : forall (RE : Type) compile rmatch min ws evs g (ls : nat -> @listener RE) plains others l n0 t1,
  wexecution compile rmatch min ws evs -> ws 0 = winit true g ls (map (map embed) plains) others ->
  (forall n, modest_now (wh_log (ws n))) -> (forall n, terminated (w_sys (wh_log (ws n))) = false) ->
  (forall t, wfair compile rmatch min t ws evs) ->
  (forall n z, ~ In (EvLevel z) (logs (wshown evs n))) -> (forall n, only_below (List.length plains) (logs (wshown evs n))) ->
  begun t1 = [] -> l_detached (ls l) = false ->
  (forall n, n0 <= n -> exists t2, logs (wshown evs n) = t1 ++ EvAdd l :: t2 /\ ~ In (EvAdd l) (t1 ++ t2) /\ ~ In l (changed (t1 ++ t2))) ->
  exists K ms, merge_of (map (messages min TRACE "") plains) ms /\
    forall k, K <= k -> wall_done (ws k) /\ delivered_to l (logs (wshown evs k)) = filter (wants rmatch (ls l)) ms.
Proof. exact @whole_eventually. Qed.
Print Assumptions C101_eventually.

(** The schedule of [C101_witness]. *)
Definition demo_sched : list wchoice := th 2 1 ++ th 0 12 ++ th 1 9 ++ th 0 7 ++ lt 33.
Definition demo_start : @whole string := winit true false demo_listeners (map (map embed) demo_plains) [[CAdd 1]].

Example C101_eventually_witness : exists ws evs n0, wexecution demo_compile demo_match TRACE ws evs /\ ws 0 = demo_start /\
  (forall n, modest_now (wh_log (ws n))) /\ (forall n, terminated (w_sys (wh_log (ws n))) = false) /\
  (forall t, wfair demo_compile demo_match TRACE t ws evs) /\
  (forall n z, ~ In (EvLevel z) (logs (wshown evs n))) /\ (forall n, only_below (List.length demo_plains) (logs (wshown evs n))) /\
  (forall n, n0 <= n -> exists t2, logs (wshown evs n) = [] ++ EvAdd 1 :: t2 /\ ~ In (EvAdd 1) ([] ++ t2) /\ ~ In 1 (changed ([] ++ t2))) /\
  logs (wshown evs 2) = [EvAdd 1].
Proof.
  destruct (wrun demo_compile demo_match TRACE demo_sched demo_start) as [[w tr]|] eqn:E; [|vm_compute in E; discriminate].
  exists (wplay demo_compile demo_match TRACE demo_sched demo_start), (wplays demo_compile demo_match TRACE demo_sched demo_start), (List.length demo_sched).
  pose proof (wplay_prefix _ _ _ _ _ _ _ E) as Pre. pose proof (wplay_end _ _ _ _ _ _ _ E) as End.
  split; [apply wplay_execution|]. split; [reflexivity|].
  assert (A : forall n, (match logt (w_sys (wh_log (wplay demo_compile demo_match TRACE demo_sched demo_start n))) with
                         | TCall _ _ (mkC Idle []) => true | TCall _ _ _ => false | _ => true end
                         && negb (terminated (w_sys (wh_log (wplay demo_compile demo_match TRACE demo_sched demo_start n))))) = true).
  { apply (wplay_along _ _ _ (fun w => match logt (w_sys (wh_log w)) with
                         | TCall _ _ (mkC Idle []) => true | TCall _ _ _ => false | _ => true end && negb (terminated (w_sys (wh_log w))))).
    vm_compute. reflexivity. }
  split.
  { intros n. specialize (A n). apply andb_prop in A. destruct A as (A & _). unfold modest_now. destruct (logt _); auto.
    destruct c as [pc k]. destruct pc; try discriminate A. destruct k; try discriminate A. clear. unfold modest. cbn. intuition discriminate. }
  split. { intros n. specialize (A n). apply andb_prop in A. destruct A as (_ & A). destruct (terminated _); [discriminate A|reflexivity]. }
  vm_compute in E. injection E as Ew Et.
  split.
  { intros t. eapply wplay_fair; [vm_compute; reflexivity|]. intros ch Hc.
    destruct t as [i|]; destruct ch as [j|cb|]; cbn in Hc; try contradiction; [subst j|reflexivity].
    destruct i as [|[|[|i]]]; try reflexivity. destruct i; reflexivity. }
  assert (NL : forall z, ~ In (EvLevel z) (logs tr)) by (intros z; rewrite <- Et; cbn; intuition discriminate).
  assert (OB : only_below (List.length demo_plains) (logs tr)).
  { rewrite <- Et. intros t m. cbn. intros I. repeat (destruct I as [I|I]; [try discriminate I|]); try (destruct I; fail); injection I as I _; eexists; (split; [symmetry; exact I|lia]). }
  split. { intros n z I. destruct (Pre n) as (r & R). apply (NL z). rewrite R, logs_app. apply in_or_app. auto. }
  split. { intros n t m I. destruct (Pre n) as (r & R). apply (OB t m). rewrite R, logs_app. apply in_or_app. auto. }
  split; [|reflexivity].
  intros n L. destruct (End n L) as (_ & ->). rewrite <- Et. eexists. split; [reflexivity|]. cbn. split; intuition discriminate.
Qed.
