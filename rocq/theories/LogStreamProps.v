(** * Log stream and proxies: properties C54 to C56. *)

From Coq Require Import ZArith String Ascii Bool List Arith Lia.
From Verif Require Import Base LogModel LogSpec LogProps TextModel TextSpec LogStreamModel LogStreamSpec LogStreamProofs.
Import ListNotations.
Open Scope string_scope.
Open Scope list_scope.

(** ** C54 *)

(** The line starts with date and time in fixed width. *)
Theorem C54_date : forall t m, tm_ok t -> like "dddd-dd-dd dd:dd:dd [" (log_line t m).
Proof. exact date_shape. Qed.
Print Assumptions C54_date.

(** All the fields can be read back; [read_line] takes the line apart at its separators. *)
Theorem C54_readable : forall t m, tm_ok t -> ~ has ")" (m_cat m) -> ~ has ":" (base_name (m_file m)) ->
  (m_cat m = "" -> forall r, (base_name (m_file m) ++ ":")%string <> String "(" r) ->
  read_line (log_line t m) = Some (mkFields (tm_year t + 1900) (tm_mon t + 1) (tm_mday t) (tm_hour t) (tm_min t) (tm_sec t)
    (levelToString (m_level m)) (m_cat m) (base_name (m_file m)) (m_line m) (m_text m)).
Proof. exact read_back. Qed.
Print Assumptions C54_readable.

(** The file is the one of the message without its directory. *)
Theorem C54_file : forall f, without_directory f (base_name f).
Proof. exact base_name_spec. Qed.
Print Assumptions C54_file.

Definition demo_tm : tm := mkTm 126 10 7 8 5 0.
Example C54_witness : tm_ok demo_tm /\
  log_line demo_tm (mkMsg "src/net/a.cpp" 17 ERROR "net" "lost: (peer)") = ("2026-11-07 08:05:00 [ERR ] (net) a.cpp:17 lost: (peer)" ++ nl)%string /\
  log_line demo_tm (mkMsg "a.cpp" (-1) INFO "" "") = ("2026-11-07 08:05:00 [INFO] a.cpp:-1 " ++ nl)%string /\
  ~ has ")" "net" /\ ~ has ":" (base_name "src/net/a.cpp").
Proof.
  split; [unfold tm_ok; cbn; lia|]. split; [reflexivity|]. split; [reflexivity|].
  split; cbn; intros H; repeat (destruct H as [H|H]; [discriminate|]); auto.
Qed.

(** ** C55 *)

(** Each line is written to the stream set last, whichever of the three calls set it, and
    nowhere before the first one. *)
Theorem C55_latest : forall ext0 ops k, srun ops (sink0 ext0) = ROk k tt -> written k = writes Dummy ops.
Proof. intros ext0 ops k. exact (written_exact ops (sink0 ext0) k). Qed.
Print Assumptions C55_latest.

(** While the current sink is a stream passed by own() or share(), it is not destroyed and
    messages can be written to it, whatever the program does with its own pointers. *)
Theorem C55_not_destroyed : forall kd ext0 ops k s, proper kd ext0 [] ops -> srun ops (sink0 ext0) = ROk k tt -> kept None ops = Some s ->
  ~ In s (destroyed k) /\ forall line, exists k', srun (ops ++ [OnMessage line]) (sink0 ext0) = ROk k' tt /\ written k' = written k ++ [(s, line)].
Proof. exact sink_alive. Qed.
Print Assumptions C55_not_destroyed.

(** 1 and 2 are given away, 3 is shared, 4 stays with the program. *)
Definition demo_kind (s : nat) : kind := match s with 1 | 2 => Unique | 3 => Shared | _ => Plain end.
Definition demo_ops : list sop :=
  [OnMessage "a"; WriteOn (Some 4); OnMessage "b"; Own (Some 1); OnMessage "c"; Share (Some 3); Release 3; OnMessage "d"; Own (Some 2); Delete 4; OnMessage "e"].
Example C55_witness : proper demo_kind (fun _ => 1) [] demo_ops /\ kept None demo_ops = Some 2 /\
  exists k, srun demo_ops (sink0 (fun _ => 1)) = ROk k tt /\ written k = [(4, "b"); (1, "c"); (3, "d"); (2, "e")] /\ destroyed k = [4; 1].
Proof.
  split; [cbn; repeat split; auto; try lia; intros H; repeat (destruct H as [H|H]; [discriminate|]); auto|].
  split; [reflexivity|]. eexists. split; [vm_compute; reflexivity|]. split; reflexivity.
Qed.

(** ** C56 *)

(** [l] is a proxy, added once, whose settings are not changed; [t] is its target, or the
    target of its target and so on; a target is created before its proxies ([age]).  Through [l],
    the onMessage of [t] is called with exactly the messages that pass the settings of [l]: those
    of [t] and the changes made to them do not matter. *)
Theorem C56_own_filters_only : forall (RE : Type) compile rmatch sn g (lf : nat -> @listener RE) progs w t1 t2 l t other age n,
  reaches compile rmatch sn g lf progs w (t1 ++ EvAdd l :: t2) ->
  ~ In (EvAdd l) t1 -> ~ In (EvAdd l) t2 -> ~ In l (changed (t1 ++ t2)) -> l_detached (lf l) = false -> unended w = [] ->
  (forall a b, other a = Some b -> age b < age a) -> age l <= n -> leads_to other l t ->
  through other n l t (t1 ++ EvAdd l :: t2) = filter (wants rmatch (lf l)) (begun t2).
Proof. exact @proxy_messages. Qed.
Print Assumptions C56_own_filters_only.

(** No other listener is called through [l]. *)
Theorem C56_no_other : forall other n l t tr, ~ leads_to other l t -> through other n l t tr = [].
Proof. exact through_only. Qed.
Print Assumptions C56_no_other.

(** Listener 1 (INFO, "net") is a proxy of listener 2 (ERROR): the message at level INFO
    reaches 2 through 1. *)
Definition demo_other (l : nat) : option nat := match l with 1 => Some 2 | _ => None end.
Example C56_witness : exists w t1 t2, demo true false demo_listeners [[CAdd 1; CLog hello; CEnable 2 false; CLog hello; CLog bye]] w (t1 ++ EvAdd 1 :: t2) /\
  unended w = [] /\ leads_to demo_other 1 2 /\ wants demo_match (demo_listeners 2) hello = false /\ In 2 (changed t2) /\
  through demo_other 5 1 2 (t1 ++ EvAdd 1 :: t2) = [hello; hello].
Proof.
  eexists. exists []. eexists. split; [exists (cl 0 14 ++ lg 19); vm_compute; reflexivity|].
  split; [reflexivity|]. split; [eapply next; [reflexivity|apply here]|]. split; [reflexivity|]. split; [cbn; intuition auto|]. reflexivity.
Qed.
