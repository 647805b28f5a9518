(** * Logger: properties C45 to C53.

    [lreaches min progs w tr]: threads that execute [progs], compiled with
    FALCON_MIN_LOG_LEVEL = [min], under some schedule lead to [w] and show the events [tr].
    [commits]: the messages handed to LogSystem::log; [accepts]: those that pass the level
    test there.  From there on C28 to C31 apply. *)

From Coq Require Import ZArith String Bool List Arith Lia.
From Verif Require Import Base LogModel LogSpec StreamModel LoggerModel LoggerSpec LoggerProofs LoggerFilter.
Import ListNotations.
Open Scope string_scope.
Open Scope list_scope.

Definition demo_line : plain := LogLine "a.cpp" 7 INFO (Some "net") ["x="; "12"].
Definition demo_prog : list plain :=
  [LogLine "a.cpp" 3 TRACE None ["no"]; SetCat "app"; demo_line; LogBlock "a.cpp" 9 WARN ["b"; "c"]; SetLevel WARN;
   LogLine "a.cpp" 11 INFO None ["quiet"]; LogLine "a.cpp" 12 CRITICAL None ["end"]].
Ltac lrun sched := eexists; eexists; split; [exists sched; vm_compute; reflexivity|].

(** ** C45 *)

(** Any number of threads, any schedule: thread [i] executes the statements [p] and the level
    tests it makes give the results [tests ...]; its messages are those [p] asks for; at most
    one, that of the statement under way, is still missing. *)
Theorem C45_one_message_each : forall min progs i p w tr, lreaches min progs w tr -> nth_error progs i = Some (map embed p) ->
  (exists cur, expect "" p (tests (of_thread i tr)) = commits (of_thread i tr) ++ cur /\ List.length cur <= 1) /\
  (forall q, between w i (map embed q) -> commits (of_thread i tr) = expect "" p (tests (of_thread i tr))).
Proof. exact thread_messages. Qed.
Print Assumptions C45_one_message_each.

(** The result of a level test: the level is not above the compile-time level and not above
    the level in force at that moment. *)
Theorem C45_test_meaning : forall min progs w t1 i v b t2, lreaches min progs w (t1 ++ (i, EvTest v b) :: t2) ->
  b = (v <=? min)%Z && (v <=? level_after t1 TRACE)%Z.
Proof. exact test_meaning. Qed.
Print Assumptions C45_test_meaning.

(** A message is dropped after composition only if its level is above the level in force when
    it is handed over. *)
Theorem C45_handed_over : forall min progs w t1 i m a t2, lreaches min progs w (t1 ++ (i, EvCommit m a) :: t2) ->
  a = (m_level m <=? level_after t1 TRACE)%Z.
Proof. exact commit_meaning. Qed.
Print Assumptions C45_handed_over.

(** A program that runs alone: its messages are exactly those of its statements, and the log
    system accepts them all. *)
Theorem C45_alone : forall min p w tr, lreaches min [map embed p] w tr -> lfinished w 0 ->
  commits (of_thread 0 tr) = messages min TRACE "" p /\ accepts (of_thread 0 tr) = messages min TRACE "" p.
Proof. exact alone_program. Qed.
Print Assumptions C45_alone.

(** A statement that is not enabled sends nothing, inserts nothing in the stream, whatever its
    operands' insertion would do, and changes nothing for the statements after it. *)
Theorem C45_disabled_no_trace : forall min cur f l v c texts k t, enabled min cur v = false ->
  exists n es, trun min n cur (IStmt (SLog f l v c (map (fun r => Op [] r) texts)) :: k) t = Some (k, t, es) /\ commits es = [] /\ puts es = [].
Proof. exact disabled_statement. Qed.
Print Assumptions C45_disabled_no_trace.

Example C45_witness : exists w tr, lreaches TRACE [map embed demo_prog] w tr /\ lfinished w 0 /\
  commits (of_thread 0 tr) = [mkMsg "a.cpp" 3 TRACE "" "no"; mkMsg "a.cpp" 7 INFO "net" "x=12"; mkMsg "a.cpp" 9 WARN "app" "bc"; mkMsg "a.cpp" 12 CRITICAL "app" "end"].
Proof. lrun (repeat 0 25). split; [eexists; reflexivity|reflexivity]. Qed.

Example C45_witness_disabled : enabled WARN TRACE INFO = false /\ enabled TRACE WARN INFO = false /\ enabled TRACE INFO INFO = true.
Proof. repeat split. Qed.

(** ** C46 *)

(** What a thread does depends only on its own program, its own variables and the levels it
    finds: any program, any other threads. *)
Theorem C46_own_run : forall min progs i p w tr, lreaches min progs w tr -> nth_error progs i = Some p ->
  exists curs code t, nth_error (lw_threads w) i = Some (code, t) /\ solo min curs (map IStmt p) tls0 = Some (code, t, of_thread i tr).
Proof. exact thread_solo. Qed.
Print Assumptions C46_own_run.

(** Each message of a thread has the file, line, level, text and temporary category of one of
    that thread's statements. *)
Theorem C46_own_content : forall min progs i p w tr m a, lreaches min progs w tr -> nth_error progs i = Some (map embed p) ->
  In (i, EvCommit m a) tr -> exists s, In s p /\ comes_from s m.
Proof. exact own_content. Qed.
Print Assumptions C46_own_content.

Example C46_witness : exists w tr, lreaches TRACE [map embed [demo_line; demo_line]; map embed [LogLine "b.cpp" 1 WARN None ["u"; "v"; "w"]]] w tr /\
  commits (of_thread 0 tr) = [mkMsg "a.cpp" 7 INFO "net" "x=12"; mkMsg "a.cpp" 7 INFO "net" "x=12"] /\
  commits (of_thread 1 tr) = [mkMsg "b.cpp" 1 WARN "" "uvw"] /\ map fst tr = [0; 1; 1; 0; 1; 0; 0; 1; 0; 1; 0; 0; 0].
Proof. lrun [0; 1; 0; 1; 0; 1; 0; 1; 0; 1; 0; 1; 0; 1; 0; 1; 0; 0; 0; 0; 0; 0]. repeat split. Qed.

(** ** C47 *)

(** LOG(v) << t1 << f() where f logs t2 at f2:l2 with level v2 and returns something rendered
    as t3, whatever these are: the outer statement's file, line and level are lost and its
    first operand goes into the inner message. *)
Theorem C47_nested_refuted : forall min f l v f2 l2 v2 (t1 t2 t3 : string) w tr, enabled min TRACE v = true -> enabled min TRACE v2 = true ->
  lreaches min [[SLog f l v None [Op [] [SPut t1]; Op [SLog f2 l2 v2 None [Op [] [SPut t2]]] [SPut t3]]]] w tr -> lfinished w 0 ->
  commits (of_thread 0 tr) = [mkMsg f2 l2 v2 "" (t1 ++ t2); mkMsg f2 l2 v2 "" t3].
Proof. exact nested_mixed. Qed.
Print Assumptions C47_nested_refuted.

(** What is left: however statements nest, no text is lost or repeated and its order is kept:
    all texts inserted by a thread, in order, are those of its messages, in order, followed by
    the text not sent yet.  Missing: the attribution to statements. *)
Theorem C47_text_kept_partial : forall min progs i w tr, lreaches min progs w tr -> i < List.length progs ->
  joined (puts (of_thread i tr)) = (joined (map m_text (commits (of_thread i tr))) ++ unsent w i)%string.
Proof. exact text_kept. Qed.
Print Assumptions C47_text_kept_partial.

Definition demo_nested : list stmt :=
  [SLog "a.cpp" 1 WARN None [Op [] [SPut "sum="]; Op [SLog "b.cpp" 2 TRACE None [Op [] [SPut "adding"]]] [SPut "3"]]].
Example C47_witness : exists w tr, lreaches TRACE [demo_nested] w tr /\ lfinished w 0 /\
  commits (of_thread 0 tr) = [mkMsg "b.cpp" 2 TRACE "" "sum=adding"; mkMsg "b.cpp" 2 TRACE "" "3"].
Proof. lrun (repeat 0 10). split; [eexists; reflexivity|reflexivity]. Qed.

(** ** C48 *)

(** A block that runs to its end sends exactly one message: with C45_one_message_each for any
    schedule; here for a program that runs alone. *)
Theorem C48_one_message : forall min p1 f l v texts p2 w tr,
  lreaches min [map embed (p1 ++ LogBlock f l v texts :: p2)] w tr -> lfinished w 0 ->
  accepts (of_thread 0 tr) =
    messages min TRACE "" p1 ++
    (if (v <=? min)%Z && (v <=? level_of TRACE p1)%Z then [mkMsg f l v (category_of min TRACE "" p1) (joined texts)] else []) ++
    messages min (level_of TRACE p1) (category_of min TRACE "" p1) p2.
Proof. intros min p1 f l v texts p2 w tr R F. rewrite (proj2 (alone_program _ _ _ _ R F)). apply messages_app. Qed.
Print Assumptions C48_one_message.

(** A block left early leaves its text to the next message, whatever the text and the level. *)
Theorem C48_early_exit_refuted : forall min f l v f2 l2 v2 (t1 t2 : string) w tr, enabled min TRACE v = true -> enabled min TRACE v2 = true ->
  lreaches min [[SBlock f l v [SPut t1] true; SLog f2 l2 v2 None [Op [] [SPut t2]]]] w tr -> lfinished w 0 ->
  commits (of_thread 0 tr) = [mkMsg f2 l2 v2 "" (t1 ++ t2)].
Proof. exact early_leak. Qed.
Print Assumptions C48_early_exit_refuted.

(** A block that is not enabled leaves no trace, even if its body would be left early. *)
Theorem C48_disabled_no_trace : forall min cur f l v body early k t, enabled min cur v = false ->
  trun min 2 cur (IStmt (SBlock f l v body early) :: k) t = Some (k, t, [EvTest v false; EvTest v false]).
Proof. exact disabled_block. Qed.
Print Assumptions C48_disabled_no_trace.

Example C48_witness : exists w tr, lreaches TRACE [[SBlock "a.cpp" 1 WARN [SPut "half"] true; SLog "a.cpp" 5 INFO None [Op [] [SPut "next"]]]] w tr /\
  lfinished w 0 /\ commits (of_thread 0 tr) = [mkMsg "a.cpp" 5 INFO "" "halfnext"].
Proof. lrun (repeat 0 7). split; [eexists; reflexivity|reflexivity]. Qed.

(** ** C49 *)

(** The temporary category [c] of a statement shows in its own message; the messages before
    and after do not depend on it. *)
Theorem C49_own_message_only : forall min p1 f l v texts p2, exists before after, forall c w tr,
  lreaches min [map embed (p1 ++ LogLine f l v c texts :: p2)] w tr -> lfinished w 0 ->
  accepts (of_thread 0 tr) =
    before ++ (if (v <=? min)%Z && (v <=? level_of TRACE p1)%Z then [mkMsg f l v (override c (category_of min TRACE "" p1)) (joined texts)] else []) ++ after.
Proof.
  intros min p1 f l v texts p2.
  exists (messages min TRACE "" p1), (messages min (level_of TRACE p1) (category_of min TRACE "" p1) p2). intros c w tr R F. rewrite (proj2 (alone_program _ _ _ _ R F)). apply messages_app.
Qed.
Print Assumptions C49_own_message_only.

Theorem C49_override : forall c cat, c <> "" -> override (Some c) cat = c /\ override (Some "") cat = cat /\ override None cat = cat.
Proof. intros c cat H. apply String.eqb_neq in H. unfold override. rewrite H. auto. Qed.
Print Assumptions C49_override.

Example C49_witness : exists w tr,
  lreaches TRACE [map embed [SetCat "app"; demo_line; LogLine "a.cpp" 8 INFO None ["y"]; LogLine "a.cpp" 9 INFO (Some "") ["z"]]] w tr /\ lfinished w 0 /\
  map m_cat (commits (of_thread 0 tr)) = ["net"; "app"; "app"].
Proof. lrun (repeat 0 17). split; [eexists; reflexivity|reflexivity]. Qed.

(** ** C50 *)

(** If the level is above the compile-time level, LOG_CATEGORY does nothing: the enabled
    statements after it carry the old category. *)
Theorem C50_takes_effect_refuted : forall min c f l v texts w tr, (v <= min < TRACE)%Z ->
  lreaches min [map embed [SetCat c; LogLine f l v None texts]] w tr -> lfinished w 0 ->
  accepts (of_thread 0 tr) = [mkMsg f l v "" (joined texts)].
Proof.
  intros min c f l v texts w tr L R F. rewrite (proj2 (alone_program _ _ _ _ R F)). cbn [messages].
  destruct (Z.leb_spec TRACE min); [lia|]. destruct (Z.leb_spec v min); [|lia]. destruct (Z.leb_spec v TRACE); [|lia]. reflexivity.
Qed.
Print Assumptions C50_takes_effect_refuted.

(** LOG_CATEGORY's test: the level in force is not above the compile-time level. *)
Theorem C50_guard_meaning : forall min progs w t1 i b t2, lreaches min progs w (t1 ++ (i, EvGuard b) :: t2) ->
  b = (level_after t1 TRACE <=? min)%Z.
Proof. exact guard_meaning. Qed.
Print Assumptions C50_guard_meaning.

(** When the test succeeds, which it always does at the default compile-time level, all the
    messages after it carry the category.  Missing: the other case, refuted above. *)
Theorem C50_takes_effect_partial : forall min p1 c p2 w tr, (level_of TRACE p1 <= min)%Z -> no_cats p2 ->
  lreaches min [map embed (p1 ++ SetCat c :: p2)] w tr -> lfinished w 0 ->
  accepts (of_thread 0 tr) = messages min TRACE "" p1 ++ messages min (level_of TRACE p1) c p2 /\
  Forall (fun m => m_cat m = c) (messages min (level_of TRACE p1) c p2).
Proof.
  intros min p1 c p2 w tr L N R F. rewrite (proj2 (alone_program _ _ _ _ R F)), messages_app. cbn [messages].
  apply Z.leb_le in L. rewrite L. split; auto. apply messages_category. auto.
Qed.
Print Assumptions C50_takes_effect_partial.

Example C50_witness_refuted : exists w tr, lreaches WARN [map embed [SetCat "app"; LogLine "a.cpp" 7 WARN None ["x"]]] w tr /\ lfinished w 0 /\
  map m_cat (commits (of_thread 0 tr)) = [""].
Proof. lrun (repeat 0 5). split; [eexists; reflexivity|reflexivity]. Qed.
Example C50_witness : exists w tr, lreaches WARN [map embed [SetLevel WARN; SetCat "app"; LogLine "a.cpp" 7 WARN None ["x"]]] w tr /\ lfinished w 0 /\
  map m_cat (commits (of_thread 0 tr)) = ["app"].
Proof. lrun (repeat 0 6). split; [eexists; reflexivity|reflexivity]. Qed.

(** ** C51 *)

(** Whatever the threads execute, nested or left early, and whatever the level is: no message
    has a level above the compile-time level. *)
Theorem C51_compile_time_filter : forall min progs w tr i m a, lreaches min progs w tr -> In (i, EvCommit m a) tr ->
  (m_level m <= min)%Z /\ exists v, In (i, EvTest v true) tr /\ (v <= min)%Z.
Proof. exact compile_time_filter. Qed.
Print Assumptions C51_compile_time_filter.

(** With LLDISABLE, which is -1 (logger.h L34), there is no message at all; the levels of the
    statements are those of LEVEL, not negative. *)
Theorem C51_disable : forall min progs w tr i m a, (min < 0)%Z -> lreaches min progs w tr ->
  (forall j v b, In (j, EvTest v b) tr -> (0 <= v)%Z) -> ~ In (i, EvCommit m a) tr.
Proof. exact disabled_all. Qed.
Print Assumptions C51_disable.

Example C51_witness : exists w tr, lreaches WARN [map embed demo_prog] w tr /\ lfinished w 0 /\ map m_level (commits (of_thread 0 tr)) = [WARN; CRITICAL].
Proof. lrun (repeat 0 22). split; [eexists; reflexivity|reflexivity]. Qed.
Example C51_witness_disable : exists w tr, lreaches (-1)%Z [map embed demo_prog] w tr /\ lfinished w 0 /\ commits (of_thread 0 tr) = [].
Proof. lrun (repeat 0 18). split; [eexists; reflexivity|reflexivity]. Qed.

(** ** C52 *)

(** The level after filters [fs] and clearFilter, from any state and with valid or invalid
    expressions: the greatest of the level before them and the levels of all filters but the
    last.  With one filter it is the level before it. *)
Theorem C52_cleared_level_partial : forall (RE : Type) (compile : string -> option RE) no_regex fs s, fs <> [] ->
  exists s', frun compile no_regex (filters fs ++ [FClear]) s = ROk s' tt /\
    f_level s' = fold_left Z.max (removelast (map snd fs)) (f_level s).
Proof. exact @clear_levels. Qed.
Print Assumptions C52_cleared_level_partial.

(** With two filters, of which the first raises the level, the level is not restored. *)
Theorem C52_restored_refuted : forall (RE : Type) (compile : string -> option RE) no_regex c1 l1 c2 l2 s, (f_level s < l1)%Z ->
  exists s', frun compile no_regex (filters [(c1, l1); (c2, l2)] ++ [FClear]) s = ROk s' tt /\ f_level s' = l1.
Proof.
  intros RE compile no_regex c1 l1 c2 l2 s L. destruct (clear_levels compile no_regex [(c1, l1); (c2, l2)] s) as (s' & R & E); [discriminate|].
  exists s'. split; auto. rewrite E. cbn. lia.
Qed.
Print Assumptions C52_restored_refuted.

(** clearFilter when there never was a filter dereferences a null pointer. *)
Theorem C52_no_filter_refuted : forall (RE : Type) (compile : string -> option RE) no_regex zs,
  frun compile no_regex (map FLevel zs ++ [FClear]) (fnew no_regex) = RBad UB.
Proof. exact @clear_without_filter. Qed.
Print Assumptions C52_no_filter_refuted.

(** clearFilter when the filter is already cleared overwrites the level set in between. *)
Theorem C52_cleared_twice_refuted : forall (RE : Type) (compile : string -> option RE) no_regex c l z s,
  exists s', frun compile no_regex [FFilter c l; FClear; FLevel z; FClear] s = ROk s' tt /\ f_level s' = f_level s.
Proof. exact @clear_twice. Qed.
Print Assumptions C52_cleared_twice_refuted.

Example C52_witness : exists s', frun Some "" (FLevel WARN :: filters [("net", INFO); ("gui", DEBUG)] ++ [FClear]) (fnew "") = ROk s' tt /\ f_level s' = INFO.
Proof. eexists. split; vm_compute; reflexivity. Qed.

(** ** C53 *)

(** At most one filter is in force. *)
Theorem C53_one_filter : forall (RE : Type) (compile : string -> option RE) no_regex ops s,
  frun compile no_regex ops (fnew no_regex) = ROk s tt -> List.length (in_force s) <= 1.
Proof. exact @one_filter. Qed.
Print Assumptions C53_one_filter.

(** categoryFilter(c, l) puts a filter for that category and level in force, in place of the
    previous one, and raises the general level to [l] if it is lower; clearFilter() leaves none. *)
Theorem C53_filter_in_force : forall (RE : Type) (compile : string -> option RE) no_regex ops s c l r,
  frun compile no_regex ops (fnew no_regex) = ROk s tt -> compile c = Some r ->
  exists s' k, categoryFilter compile no_regex c l s = ROk s' tt /\ in_force s' = [k] /\
    nth_error (f_listeners s') k = Some (mkL c r l true false) /\ f_level s' = Z.max l (f_level s).
Proof. exact @valid_filter. Qed.
Print Assumptions C53_filter_in_force.

Theorem C53_cleared : forall (RE : Type) (compile : string -> option RE) no_regex ops s s',
  frun compile no_regex ops (fnew no_regex) = ROk s tt -> clearFilter s = ROk s' tt -> in_force s' = [].
Proof. exact @cleared_filter. Qed.
Print Assumptions C53_cleared.

(** A filter that raises the level from [z]: every message above [z] and not above the filter's
    level is written by the default listener, once if it does not match the filter (it should
    not be written) and twice if it does. *)
Theorem C53_widened_refuted : forall (RE : Type) (compile : string -> option RE) rmatch no_regex z c l r m,
  compile c = Some r -> (z < m_level m <= l)%Z -> (l <= TRACE)%Z ->
  exists s, frun compile no_regex [FLevel z; FFilter c l] (fnew no_regex) = ROk s tt /\ (m_level m <= f_level s)%Z /\
    copies rmatch s m = if String.eqb (m_cat m) "" || String.eqb c "" || rmatch (m_cat m) r then 2 else 1.
Proof. exact @widened. Qed.
Print Assumptions C53_widened_refuted.

Example C53_witness : exists s, frun Some "" [FLevel WARN; FFilter "net" DEBUG] (fnew "") = ROk s tt /\
  copies String.eqb s (mkMsg "a" 1 DEBUG "gui" "x") = 1 /\ copies String.eqb s (mkMsg "a" 1 DEBUG "net" "x") = 2 /\ in_force s = [1].
Proof. eexists. split; [vm_compute; reflexivity|]. repeat split. Qed.

(** ** C99 *)

(** An invalid expression: InvalidCategory is thrown, but the previous filter is gone and the
    general level is raised all the same. *)
Theorem C99_invalid_filter_refuted : forall (RE : Type) (compile : string -> option RE) no_regex ops s c l,
  frun compile no_regex ops (fnew no_regex) = ROk s tt -> compile c = None ->
  exists s', categoryFilter compile no_regex c l s = RThrow s' /\ in_force s' = [] /\ f_level s' = Z.max l (f_level s).
Proof. exact @invalid_filter. Qed.
Print Assumptions C99_invalid_filter_refuted.

(** When no filter is in force and the level asked for is not above the general level, it
    throws and nothing changes.  Missing: the other cases, where the claim is false. *)
Theorem C99_no_filter_partial : forall (RE : Type) (compile : string -> option RE) no_regex ops s c l,
  frun compile no_regex ops (fnew no_regex) = ROk s tt -> compile c = None ->
  in_force s = [] -> (l <= f_level s)%Z ->
  exists s', categoryFilter compile no_regex c l s = RThrow s' /\ in_force s' = in_force s /\ f_level s' = f_level s.
Proof. exact @invalid_no_filter. Qed.
Print Assumptions C99_no_filter_partial.

Example C99_no_filter_witness : let comp := fun c => if String.eqb c "[" then None else Some c in
  exists s, frun comp "" [FFilter "net" INFO; FClear; FLevel WARN] (fnew "") = ROk s tt /\ in_force s = [] /\
  f_level s = WARN /\ comp "[" = None.
Proof. eexists. split; [vm_compute; reflexivity|]. repeat split. Qed.

Example C99_witness : let comp := fun c => if String.eqb c "[" then None else Some c in
  exists s, frun comp "" [FLevel WARN; FFilter "net" INFO] (fnew "") = ROk s tt /\ in_force s = [1] /\
  f_level s = INFO /\ comp "[" = None.
Proof. eexists. split; [vm_compute; reflexivity|]. repeat split. Qed.
