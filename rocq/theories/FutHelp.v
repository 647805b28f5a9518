(** * Proofs about refused command lines. *)
From Coq Require Import ZArith String Ascii Bool List Arith Lia.
From Verif Require Import Base TextModel TextSpec TextFacts FutModel FutSpec FutProofs FutRun FutMore FutArgs FutHelpSpec.
From Verif Require ItemModel ItemSpec ItemProofs.
Import ListNotations.
Open Scope string_scope.
Open Scope list_scope.

Lemma usage_help : usage_text = help.
Proof. vm_compute. reflexivity. Qed.

Lemma effects_world : forall os u, u_world (effects os u) = u_world u.
Proof.
  induction os as [|o os IH]; intro u; [reflexivity|]. cbn [effects fold_left]. fold (effects os (effect o u)). rewrite IH.
  destruct o; try reflexivity. cbn [effect]. destruct (lookup name (u_byName u)); reflexivity.
Qed.

Lemma tell_output : forall s u, on_console u -> output u (tell s u) [mkChunk Out Framework s].
Proof. intros s u [O R]. unfold output, tell, in_world, print. cbn [u_world set_world]. rewrite O. reflexivity. Qed.

Lemma invalid_output : forall u, on_console u -> exists u', invalid u = ROk u' 1%Z /\
  output u u' [mkChunk Err Framework ("Invalid options" ++ new_line)%string; mkChunk Out Framework help].
Proof.
  intros u C. unfold invalid. eexists. split; [reflexivity|]. unfold usage. rewrite usage_help.
  destruct C as [O R]. unfold output, tell, in_world. cbn [u_world set_world]. unfold print.
  rewrite R. unfold say. cbn [w_out]. rewrite O. cbn [w_console]. rewrite <- app_assoc. reflexivity.
Qed.

Lemma refused_explained : forall os args bad u, command_line decimal_level os args -> Forall (valid (u_byName u)) os ->
  refused (u_byName u) bad -> on_console u ->
  exists u', parseParams (args ++ bad) u = ROk u' 1%Z /\ output u u' (explanation bad).
Proof.
  intros os args bad u C F R K. apply decimal_command_line in C.
  rewrite (parse_prefix os args C u bad F). rewrite <- (byName_effects os u) in R.
  assert (G : exists u', parseParams bad (effects os u) = ROk u' 1%Z /\ output (effects os u) u' (explanation bad)).
  { assert (K' : on_console (effects os u)) by (unfold on_console; rewrite effects_world; exact K).
    set (v := effects os u) in *. clearbody v. clear - R K'. destruct R as [l|o l N|o I|n l U|z l Z].
    - cbn [parseParams explanation]. cbn [String.eqb Ascii.eqb Bool.eqb]. eexists. split; [reflexivity|].
      unfold usage. rewrite usage_help. apply tell_output. exact K'.
    - cbn [parseParams explanation]. cbn [In] in N.
      destruct (String.eqb_spec o "-q") as [->|N1]; [exfalso; apply N; tauto|].
      destruct (String.eqb_spec o "-c") as [->|N2]; [exfalso; apply N; tauto|].
      destruct (String.eqb_spec o "-e") as [->|N3]; [exfalso; apply N; tauto|].
      destruct (String.eqb_spec o "-h") as [->|N4]; [exfalso; apply N; tauto|].
      destruct l as [|arg l]; [apply invalid_output; exact K'|].
      destruct (String.eqb_spec o "-v") as [->|N5]; [exfalso; apply N; tauto|].
      destruct (String.eqb_spec o "-t") as [->|N6]; [exfalso; apply N; tauto|].
      destruct (String.eqb_spec o "-x") as [->|N7]; [exfalso; apply N; tauto|].
      destruct (String.eqb_spec o "-n") as [->|N8]; [exfalso; apply N; tauto|].
      destruct (String.eqb_spec o "-i") as [->|N9]; [exfalso; apply N; tauto|]. apply invalid_output; exact K'.
    - cbn [In] in I. destruct I as [<-|[<-|[<-|[<-|[<-|[]]]]]]; apply (invalid_output v K').
    - cbn [parseParams explanation]. cbn [String.eqb Ascii.eqb Bool.eqb]. rewrite U. eexists. split; [reflexivity|].
      apply tell_output. exact K'.
    - cbn [parseParams explanation]. cbn [String.eqb Ascii.eqb Bool.eqb]. rewrite (read_level_numeral _ _ _ (dec_numeral z)).
      assert (Q : ((0 <=? clip z)%Z && (clip z <=? 5)%Z) = false).
      { apply andb_false_iff. rewrite !Z.leb_gt. unfold clip. lia. }
      rewrite Q. apply invalid_output; exact K'. }
  destruct G as (u' & P & H). exists u'. split; [exact P|]. unfold output in *. rewrite H. f_equal. now rewrite effects_world.
Qed.

Lemma accepted_silent : forall args u u', parseParams args u = ROk u' 0%Z -> output u u' [].
Proof.
  intros args u u' H. destruct (parse_only args u u' H) as (os & _ & _ & ->). unfold output. now rewrite effects_world, app_nil_r.
Qed.

Lemma help_options : forall o, In o ["-q"; "-c"; "-e"; "-v"; "-t"; "-x"; "-n"; "-i"; "-h"] ->
  exists before rest, help = (before ++ new_line ++ tabulator ++ o ++ rest)%string.
Proof.
  intros o H. cbn [In] in H.
  destruct H as [<-|H]; [exists (substring 0 193 help), (substring 197 1000 help); vm_compute; reflexivity|].
  destruct H as [<-|H]; [exists (substring 0 31 help), (substring 35 1000 help); vm_compute; reflexivity|].
  destruct H as [<-|H]; [exists (substring 0 64 help), (substring 68 1000 help); vm_compute; reflexivity|].
  destruct H as [<-|H]; [exists (substring 0 284 help), (substring 288 1000 help); vm_compute; reflexivity|].
  destruct H as [<-|H]; [exists (substring 0 231 help), (substring 235 1000 help); vm_compute; reflexivity|].
  destruct H as [<-|H]; [exists (substring 0 334 help), (substring 338 1000 help); vm_compute; reflexivity|].
  destruct H as [<-|H]; [exists (substring 0 151 help), (substring 155 1000 help); vm_compute; reflexivity|].
  destruct H as [<-|H]; [exists (substring 0 96 help), (substring 100 1000 help); vm_compute; reflexivity|].
  destruct H as [<-|H]; [exists (substring 0 137 help), (substring 141 1000 help); vm_compute; reflexivity|].
  contradiction.
Qed.

Lemma accepted_in_help : forall args u u', parseParams args u = ROk u' 0%Z ->
  exists os, command_line lenient_level os args /\
    forall o a, In o os -> spells lenient_level o a -> exists x rest, a = x :: rest /\ in_help x.
Proof.
  intros args u u' H. destruct (parse_only args u u' H) as (os & C & _). exists os. split; auto.
  intros o a _ S. inversion S; subst; do 2 eexists; (split; [reflexivity|]); apply help_options; cbn; auto 12.
Qed.
