(** * The end of a LogSystem: properties C97 and C98.  For [reaches] and the material of the
    concrete cases see LogProps.v. *)

From Coq Require Import ZArith String Bool List Arith Lia.
From Verif Require Import Base LogModel LogSpec LogEndModel LogEnd LogProps.
Import ListNotations.
Open Scope string_scope.
Open Scope list_scope.

(** ** C97 *)

(** The destructor, when its stop() has returned, no start() came after it, and no thread is in
    a call: the log thread is gone, and all the message objects, those in the queue included,
    are deleted, none of them twice (this would be [RBad UB]). *)
Theorem C97_every_message_deleted_once : forall (RE : Type) compile rmatch sn g (ls : nat -> @listener RE) progs w t1 u t2,
  reaches compile rmatch sn g ls progs w (t1 ++ EvStopped u :: t2) ->
  (forall v, ~ In (EvStarted v) t2) -> (forall c, In c (w_clients w) -> c_pc c = Idle) ->
  logt (w_sys w) = TNone /\ exists s', destroy (w_sys w) = ROk s' tt /\ forall o, ~ live s' o.
Proof. exact @destroyed_all. Qed.
Print Assumptions C97_every_message_deleted_once.

(** What the destructor does not give back: for each message that went through
    log(file, line, level, cat, message), the strings of one message. *)
Theorem C97_strings_leak_refuted : forall (RE : Type) compile rmatch sn g (ls : nat -> @listener RE) progs w t1 u t2 s',
  reaches compile rmatch sn g ls progs w (t1 ++ EvStopped u :: t2) ->
  (forall v, ~ In (EvStarted v) t2) -> (forall c, In c (w_clients w) -> c_pc c = Idle) ->
  destroy (w_sys w) = ROk s' tt ->
  built s' + List.length (passes (t1 ++ EvStopped u :: t2)) = torn s' + List.length (accepted (t1 ++ EvStopped u :: t2)).
Proof. exact @destroyed_leak. Qed.
Print Assumptions C97_strings_leak_refuted.

(** Three messages; the system is stopped when the first was dispatched, then one more comes. *)
Example C97_witness : exists w t1 t2, demo true false demo_listeners [[CAdd 0; CLog hello; CLog bye; CPass bye; CStop; CLog hello]] w (t1 ++ EvStopped (Client 0) :: t2) /\
  (forall v, ~ In (EvStarted v) t2) /\ (forall c, In c (w_clients w) -> c_pc c = Idle) /\
  waiting w = [bye; bye; hello] /\ delivered_to 0 (t1 ++ EvStopped (Client 0) :: t2) = [hello] /\
  match destroy (w_sys w) with ROk s' _ => built s' - torn s' = 3 | _ => False end.
Proof.
  eexists.
  exists [EvAdd 0; EvLog (Client 0) hello true; EvAccept (Client 0) hello; EvLog (Client 0) bye true; EvAccept (Client 0) bye; EvPass (Client 0) bye;
          EvAccept (Client 0) bye; EvPop hello; EvBegin hello; EvSend hello; EvCheck 0 hello ""; EvDeliver 0 hello; EvEnd hello; EvClean].
  exists [EvLog (Client 0) hello true; EvAccept (Client 0) hello].
  split; [exists (cl 0 11 ++ lg 8 ++ cl 0 3 ++ lg 4 ++ cl 0 5); vm_compute; reflexivity|].
  split; [intros v [D|[D|[]]]; discriminate|]. split; [intros c [<-|[]]; reflexivity|].
  split; [reflexivity|]. split; [reflexivity|]. vm_compute. reflexivity.
Qed.

(** ** C98 *)

(** A callback about to throw: the log thread's next step ends the program, ... *)
Theorem C98_throw_terminates_refuted : forall (RE : Type) compile rmatch (w : @world RE) o rest k cb,
  crashed (w_sys w) = None -> logt (w_sys w) = TCall o rest (mkC Idle (CThrow :: k)) ->
  exists w', step compile rmatch (GoLog cb) w = Some (w', [EvThrown LogThread]) /\ crashed (w_sys w') = Some Terminate.
Proof. exact @throwing_ends. Qed.
Print Assumptions C98_throw_terminates_refuted.

(** ... and until then no other listener is called. *)
Theorem C98_nobody_else_called_refuted : forall (RE : Type) compile rmatch (w : @world RE) o rest k w' tr,
  logt (w_sys w) = TCall o rest (mkC Idle (CThrow :: k)) ->
  follows compile rmatch w w' tr -> (forall l m, ~ In (EvDeliver l m) tr) /\
  (logt (w_sys w') = TCall o rest (mkC Idle (CThrow :: k)) \/ crashed (w_sys w') = Some Terminate).
Proof. exact @throwing_silent. Qed.
Print Assumptions C98_nobody_else_called_refuted.

(** Nothing else ends the program: when it has ended, the last thing that happened is a
    callback that threw, or a callback was in stop() (C42).  A listener that returns harms
    no one. *)
Theorem C98_only_cause_partial : forall (RE : Type) compile rmatch sn g (ls : nat -> @listener RE) progs w tr b,
  reaches compile rmatch sn g ls progs w tr -> crashed (w_sys w) = Some b ->
  b = Terminate /\ exists o rest k,
    (logt (w_sys w) = TCall o rest (mkC Idle k) /\ exists t0, tr = t0 ++ [EvThrown LogThread]) \/
    logt (w_sys w) = TCall o rest (mkC StopJoin k).
Proof. exact @crash_cause. Qed.
Print Assumptions C98_only_cause_partial.

(** The first of two listeners logs, then throws. *)
Example C98_witness : exists w tr, demo true false demo_listeners [[CAdd 0; CAdd 3; CLog hello]] w tr /\
  crashed (w_sys w) = None /\ logt (w_sys w) = TCall 63 [3] (mkC Idle [CThrow]) /\ handed tr = [(0, hello)] /\ waiting w = [bye].
Proof. demo_run (cl 0 6 ++ lg 5 ++ [GoLog [CLog bye; CThrow]] ++ lg 4). repeat split; reflexivity. Qed.

(** ... and the program has ended. *)
Example C98_cause_witness : exists w tr, demo true false demo_listeners [[CAdd 0; CAdd 3; CLog hello]] w tr /\
  crashed (w_sys w) = Some Terminate /\ logt (w_sys w) = TCall 63 [3] (mkC Idle []) /\ last tr EvClean = EvThrown LogThread.
Proof. demo_run (cl 0 6 ++ lg 5 ++ [GoLog [CLog bye; CThrow]] ++ lg 5). repeat split; reflexivity. Qed.
