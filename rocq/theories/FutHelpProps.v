(** * C115: refused command lines are explained. *)
From Coq Require Import ZArith String Ascii Bool List Arith Lia.
From Verif Require Import Base TextModel FutModel FutSpec FutProofs FutClose FutHelpSpec FutHelp.
Import ListNotations.
Open Scope string_scope.
Open Scope list_scope.

(** C115: after any number of good options, the explanation is all that is written, and 1 is
    returned. *)
Theorem C115_explained : forall os args bad u, command_line decimal_level os args -> Forall (valid (u_byName u)) os ->
  refused (u_byName u) bad -> on_console u ->
  exists u', parseParams (args ++ bad) u = ROk u' 1%Z /\ output u u' (explanation bad).
Proof. exact refused_explained. Qed.
Print Assumptions C115_explained.

(** Nothing is written about a command line that is accepted. *)
Theorem C115_silent : forall args u u', parseParams args u = ROk u' 0%Z -> output u u' [].
Proof. exact accepted_silent. Qed.
Print Assumptions C115_silent.

(** Every option that is known has a line of its own in the help. *)
Theorem C115_complete : forall o, In o ["-q"; "-c"; "-e"; "-v"; "-t"; "-x"; "-n"; "-i"; "-h"] ->
  exists before rest, help = (before ++ new_line ++ tabulator ++ o ++ rest)%string.
Proof. exact help_options. Qed.
Print Assumptions C115_complete.

(** A command line that is accepted consists of such options only. *)
Theorem C115_accepted : forall args u u', parseParams args u = ROk u' 0%Z ->
  exists os, command_line lenient_level os args /\
    forall o a, In o os -> spells lenient_level o a -> exists x rest, a = x :: rest /\ in_help x.
Proof. exact accepted_in_help. Qed.
Print Assumptions C115_accepted.

Example C115_witness : on_console demo_unit /\
  command_line decimal_level [OQuiet; OLevel 3] (["-q"] ++ ["-v"; "3"] ++ []) /\
  refused (u_byName demo_unit) ["-t"; "Log::no"; "-q"] /\
  explanation ["-t"; "Log::no"; "-q"] = [mkChunk Out Framework ("Unknown test case Log::no" ++ new_line)%string].
Proof.
  split; [split; reflexivity|]. split; [apply cl_cons; [constructor|]; apply cl_cons; [now constructor|]; constructor|].
  split; [apply rf_test; vm_compute; reflexivity|]. reflexivity.
Qed.
