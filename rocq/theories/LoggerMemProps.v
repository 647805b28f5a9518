(** * C108: a log statement when memory runs out. *)

From Coq Require Import ZArith String Ascii Bool List.
From Verif Require Import Base TextModel LogModel LogSpec StreamModel LoggerModel LoggerSpec LoggerMemModel LoggerMemSpec LoggerMem.
Import ListNotations.
Open Scope string_scope.
Open Scope list_scope.

(** A program of plain statements, each with its own handler, run with any failures: if the process is
    not terminated and no commit fails, each statement does what it says, or throws and does nothing, or
    throws and sends a message without its category and text, or sends a message cut short; a failure
    harms its own statement only.  Missing: failing commits, which the program need not survive (see the
    _refuted theorems). *)
Theorem C108_statements_partial : forall min lvl p fs es, ran min lvl p fs es -> ~ In FEnded es -> ~ In (Some FCommit) fs ->
  outcomes min lvl "" p (failures fs) (thrown es) (commits (did es)).
Proof. exact run_outcomes. Qed.
Print Assumptions C108_statements_partial.

(** Each of these outcomes, of each statement, is possible. *)
Theorem C108_all_possible : forall min lvl p n x ms, outcomes min lvl "" p n x ms ->
  exists fs es, ran min lvl p fs es /\ failures fs = n /\ thrown es = x /\ commits (did es) = ms /\ ~ In FEnded es /\ ~ In (Some FCommit) fs.
Proof. exact outcomes_run. Qed.
Print Assumptions C108_all_possible.

(** When nothing fails: no exception, and the messages of the program. *)
Theorem C108_no_failure : forall min lvl p fs es, ran min lvl p fs es -> failures fs = 0 ->
  ~ In FEnded es /\ thrown es = 0 /\ commits (did es) = messages min lvl "" p.
Proof. exact no_failure. Qed.
Print Assumptions C108_no_failure.

(** A block of any texts whose commit fails leaves them to the next message, whatever it is. *)
Theorem C108_block_leaks_refuted : forall min lvl f l v ts f2 l2 v2 c2 ts2, (v <= min)%Z -> (v <= lvl)%Z -> (v2 <= min)%Z -> (v2 <= lvl)%Z ->
  exists fs es, ran min lvl [LogBlock f l v ts; LogLine f2 l2 v2 c2 ts2] fs es /\ failures fs = 1 /\ ~ In FEnded es /\
    commits (did es) = [mkMsg f2 l2 v2 (override c2 "") (joined ts ++ joined ts2)].
Proof. exact block_leaks. Qed.
Print Assumptions C108_block_leaks_refuted.

(** Any line whose commit fails ends the process, although the program has a handler. *)
Theorem C108_line_terminates_refuted : forall min lvl f l v c ts p, (v <= min)%Z -> (v <= lvl)%Z ->
  exists fs es, ran min lvl (LogLine f l v c ts :: p) fs es /\ failures fs = 1 /\ In FEnded es /\ commits (did es) = [].
Proof. exact line_terminates. Qed.
Print Assumptions C108_line_terminates_refuted.

(** So may setting the category. *)
Theorem C108_category_terminates_refuted : forall min lvl c p, (lvl <= min)%Z ->
  exists fs es, ran min lvl (SetCat c :: p) fs es /\ failures fs = 1 /\ In FEnded es.
Proof. exact category_terminates. Qed.
Print Assumptions C108_category_terminates_refuted.

(** Any line may be cut anywhere, and the program is not told. *)
Theorem C108_cut_refuted : forall min lvl f l v c ts u r, (v <= min)%Z -> (v <= lvl)%Z -> joined ts = (u ++ r)%string -> r <> "" ->
  exists fs es, ran min lvl [LogLine f l v c ts] fs es /\ failures fs = 1 /\ ~ In FEnded es /\ thrown es = 0 /\
    commits (did es) = [mkMsg f l v (override c "") u].
Proof. exact short_line. Qed.
Print Assumptions C108_cut_refuted.

(** A line with a category may become an empty message without it. *)
Theorem C108_category_lost_refuted : forall min lvl f l v c ts, (v <= min)%Z -> (v <= lvl)%Z ->
  exists fs es, ran min lvl [LogLine f l v (Some c) ts] fs es /\ failures fs = 1 /\ ~ In FEnded es /\
    commits (did es) = [mkMsg f l v "" ""].
Proof. exact lost_category. Qed.
Print Assumptions C108_category_lost_refuted.

(** A width set for a text that fails is left to the next message. *)
Theorem C108_width_refuted : forall min lvl f l v s f2 l2 v2 u w, (v <= min)%Z -> (v <= lvl)%Z -> (v2 <= min)%Z -> (v2 <= lvl)%Z -> s <> "" ->
  exists fs lvl' t es, frun min fs lvl [IStmt (STry [SLog f l v None [Op [] [SPut (PManip (MSetw w))]; Op [] [SPut (PText s)]]]);
      IStmt (STry [SLog f2 l2 v2 None [Op [] [SPut (PText u)]]])] tls0 = Some (lvl', [], t, es) /\
    failures fs = 1 /\ ~ In FEnded es /\ thrown es = 0 /\
    commits (did es) = [mkMsg f l v "" ""; mkMsg f2 l2 v2 "" (padl w " "%char u)].
Proof. exact width_stays. Qed.
Print Assumptions C108_width_refuted.

(** The category is set; the first line is cut; the second loses its category; the third is not
    sent; the fourth is in order. *)
Example C108_witness :
  let p := [SetCat "net"; LogLine "a.cpp" 1 2 None ["abc"; "def"]; LogLine "a.cpp" 2 2 (Some "gui") ["x"];
            LogBlock "a.cpp" 3 2 ["y"]; LogLine "a.cpp" 4 2 None ["ok"]] in
  let fs := repeat None 8 ++ [Some (FText 2 true)] ++ repeat None 4 ++ [Some FCatArg] ++ repeat None 4 ++ [Some FBegin] ++ repeat None 7 in
  exists es, ran 5 5 p fs es /\ ~ In FEnded es /\ ~ In (Some FCommit) fs /\ failures fs = 3 /\ thrown es = 2 /\
    commits (did es) = [mkMsg "a.cpp" 1 2 "net" "abcde"; mkMsg "a.cpp" 2 2 "net" ""; mkMsg "a.cpp" 4 2 "net" "ok"].
Proof.
  cbv zeta. eexists. split; [do 2 eexists; vm_compute; reflexivity|].
  repeat split; try (vm_compute; reflexivity); cbn; intuition discriminate.
Qed.

(** A fault-free run of a non-trivial program. *)
Example C108_no_failure_witness :
  exists es, ran 5 5 [SetCat "net"; LogLine "a.cpp" 1 2 None ["ab"; "c"]] (repeat None 11) es /\
    commits (did es) = [mkMsg "a.cpp" 1 2 "net" "abc"].
Proof. eexists. split; [do 2 eexists; vm_compute; reflexivity|]. vm_compute. reflexivity. Qed.
