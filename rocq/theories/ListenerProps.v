(** * C118: a listener shared by threads. *)
From Coq Require Import ZArith String Bool List Arith Lia.
From Verif Require Import Base LogModel ListenerModel ListenerSpec ListenerProofs.
Import ListNotations.
Open Scope string_scope.
Open Scope list_scope.

(** Every verdict on a category is the one of the filter that was set last, however the calls of the
    threads interleave: no half-changed filter is ever used, and a filter that was refused has no
    effect. *)
Theorem C118_filter_whole : forall (RE : Type) (compile : string -> option RE) rmatch r0 progs s tr pre t cat ok post,
  lreaches compile rmatch r0 progs s tr -> tr = pre ++ (t, Checked cat ok) :: post ->
  ok = accepted_by compile rmatch (category_set pre) cat.
Proof. exact @checks_whole. Qed.
Print Assumptions C118_filter_whole.

(** level(), isEnabled() and isDetached() tell what was set last. *)
Theorem C118_getters : forall (RE : Type) (compile : string -> option RE) rmatch r0 progs s tr pre t e post,
  lreaches compile rmatch r0 progs s tr -> tr = pre ++ (t, e) :: post ->
  match e with
  | SawLevel z => z = level_set pre
  | SawEnabled b => b = enabled_set pre
  | SawDetached b => b = detached_set pre
  | _ => True
  end.
Proof. exact @getters. Qed.
Print Assumptions C118_getters.

(** The text that category() refers to is the one set last, as long as no thread is about to return
    from category(re), ... *)
Theorem C118_text_partial : forall (RE : Type) (compile : string -> option RE) rmatch r0 progs s tr t,
  lreaches compile rmatch r0 progs s tr -> reading s t ->
  (forall t' th re, nth_error (s_threads s) t' = Some th -> t_pc th <> SetDone re) ->
  exists s', lreaches compile rmatch r0 progs s' (tr ++ [(t, Used (category_set tr))]).
Proof.
  intros RE compile rmatch r0 progs s tr t H R Q. rewrite <- (text_quiet _ _ _ _ _ _ H Q). eapply reading_uses; eauto.
Qed.
Print Assumptions C118_text_partial.

(** ... and reading it is the only thing that can be a data race, with the assignment in
    category(re). *)
Theorem C118_only_race_partial : forall (RE : Type) (compile : string -> option RE) rmatch r0 progs s tr t1 t2,
  lreaches compile rmatch r0 progs s tr -> data_race s t1 t2 ->
  exists re, (reading s t1 /\ assigning s t2 re) \/ (reading s t2 /\ assigning s t1 re).
Proof. exact @race_kinds. Qed.
Print Assumptions C118_only_race_partial.

(** It is one whenever a thread that has called category() reads what it got while another calls
    category(re): the mutex is not held any more when the text is read. *)
Theorem C118_race_refuted : forall (RE : Type) (compile : string -> option RE) rmatch r0 progs s tr t1 t2 re r,
  lreaches compile rmatch r0 progs s tr -> t1 <> t2 -> reading s t1 -> entering s t2 re -> s_lock s = None -> compile re = Some r ->
  exists s', lreaches compile rmatch r0 progs s' (tr ++ [(t2, Tau); (t2, Tau); (t2, Tau)]) /\ data_race s' t1 t2.
Proof. exact @race_ahead. Qed.
Print Assumptions C118_race_refuted.

(** Expressions are compiled unless they are "[", and match what is equal.  Thread 0 sets "gui", in
    vain "[" and then "net"; thread 1 checks "net" between, and reads the filter. *)
Definition plain (re : string) : option string := if String.eqb re "[" then None else Some re.
Example C118_witness : exists s tr,
  lreaches plain String.eqb "" [[SetCategory "gui"; SetCategory "["; SetLevel ERROR; SetCategory "net"]; [GetCategory; Check "net"; UseCategory; GetLevel; UseCategory]] s tr /\
  map snd (filter (fun e => match snd e with Tau => false | _ => true end) tr) =
    [DidSet "gui"; Refused "["; Checked "net" false; DidLevel ERROR; Used "gui"; SawLevel ERROR; DidSet "net"] /\
  reading s 1 /\ s_text s = "net" /\ s_lock s = None.
Proof.
  eexists. eexists. split.
  - exists (repeat 0 6 ++ [1; 1; 1] ++ repeat 0 4 ++ repeat 1 5 ++ [0; 1; 1] ++ repeat 0 6)%nat. vm_compute. reflexivity.
  - split; [vm_compute; reflexivity|]. split; [|split; reflexivity]. do 2 eexists. repeat split.
Qed.

Example C118_race_witness : exists s tr,
  lreaches plain String.eqb "" [[SetCategory "gui"]; [GetCategory; UseCategory]] s tr /\
  reading s 1 /\ entering s 0 "gui" /\ s_lock s = None.
Proof.
  eexists. eexists. split.
  - exists [1; 1; 1; 0]%nat. vm_compute. reflexivity.
  - split; [do 2 eexists; repeat split|]. split; [eexists; repeat split|reflexivity].
Qed.
