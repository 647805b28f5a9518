(** * Code and Compiler: properties C57 to C59. *)

From Coq Require Import ZArith String Ascii Bool List Arith Lia Permutation.
From Verif Require Import Base CodeModel CodeSpec CodeProofs.
Import ListNotations.
Open Scope string_scope.
Open Scope list_scope.

(** ** C57 *)

(** Texts of fewer than 1000 characters without NUL come back unchanged; missing: the others. *)
Theorem C57_round_trip_partial : forall t, shorter 1000 t -> no_nul t -> exists s, crun [CNew 0 t; CToString 0] cs0 = ROk s [t].
Proof. intros t H N. destruct (text_trip t H) as (s & R). exists s. rewrite before_nul_id in R; auto. Qed.
Print Assumptions C57_round_trip_partial.

(** Longer texts are written past the end of the buffer, ... *)
Theorem C57_long_refuted : forall t x s, ~ shorter 1000 t -> find x (objs s) = None -> cstep (CNew x t) s = RBad UB.
Proof. intros t x s H F. cbn. rewrite F, construct_overflow; auto. Qed.
Print Assumptions C57_long_refuted.

(** ... and texts with a NUL character come back cut. *)
Theorem C57_nul_refuted : forall t, shorter 1000 t -> ~ no_nul t ->
  before_nul t <> t /\ exists s, crun [CNew 0 t; CToString 0] cs0 = ROk s [before_nul t].
Proof. intros t H N. split; [apply before_nul_short|apply text_trip]; auto. Qed.
Print Assumptions C57_nul_refuted.

Example C57_witness : shorter 1000 "x = 1" /\ no_nul "x = 1" /\ ~ no_nul (String "a" (String NUL "b")) /\
  ~ shorter 1000 (string_of_list_ascii (repeat "a"%char 1000)) /\ before_nul (String "a" (String NUL "b")) = "a".
Proof.
  split; [reflexivity|]. split; [intros H; repeat (destruct H as [H|H]; [discriminate|]); auto|].
  split; [intros H; apply H; cbn; auto|]. split; [|reflexivity]. unfold shorter. vm_compute. discriminate.
Qed.

(** ** C58 *)

(** Programs that create, move, read and destroy Code objects in any order, neither copy nor
    assign, and read no moved-from object: no undefined behaviour, toString() gives the text
    that was moved along, and every buffer not deleted belongs to exactly one object.
    Missing: copies, assignments and moved-from objects, refuted below. *)
Theorem C58_moves_partial : forall ops r, no_copies ops -> texts_fit ops -> ideal ops [] = Some r ->
  exists s, crun ops cs0 = ROk s (map before_nul r) /\ Permutation (live s) (pointed s) /\ NoDup (pointed s).
Proof. exact no_copy_safe. Qed.
Print Assumptions C58_moves_partial.

(** A copy and its original: the buffer is deleted twice, ... *)
Theorem C58_double_free_refuted : forall t, shorter 1000 t -> crun [CNew 0 t; CCopy 1 0; CDestroy 1; CDestroy 0] cs0 = RBad UB.
Proof. exact copy_double_free. Qed.
Print Assumptions C58_double_free_refuted.

(** ... used after it was deleted, ... *)
Theorem C58_use_after_free_refuted : forall t, shorter 1000 t -> crun [CNew 0 t; CCopy 1 0; CDestroy 1; CToString 0] cs0 = RBad UB.
Proof. exact copy_dangling. Qed.
Print Assumptions C58_use_after_free_refuted.

(** ... an assignment loses a buffer, ... *)
Theorem C58_leak_refuted : forall t u, shorter 1000 t -> shorter 1000 u -> exists s,
  crun [CNew 0 t; CNew 1 u; CAssign 0 1] cs0 = ROk s [] /\ In 0 (live s) /\ ~ In 0 (pointed s).
Proof. exact assign_leak. Qed.
Print Assumptions C58_leak_refuted.

(** ... and reading a moved-from object dereferences a null pointer. *)
Theorem C58_moved_from_refuted : forall t, shorter 1000 t -> crun [CNew 0 t; CMove 1 0; CToString 0] cs0 = RBad UB.
Proof. exact moved_from. Qed.
Print Assumptions C58_moved_from_refuted.

Example C58_witness : let ops := [CNew 0 "a"; CNew 1 "b"; CMove 2 0; CToString 2; CDestroy 0; CDestroy 1; CNew 1 "c"; CToString 1] in
  no_copies ops /\ texts_fit ops /\ ideal ops [] = Some ["a"; "c"] /\
  exists s, crun ops cs0 = ROk s ["a"; "c"] /\ live s = [0; 2] /\ pointed s = [2; 0].
Proof.
  cbv zeta. split; [repeat constructor|]. split; [repeat constructor|]. split; [reflexivity|].
  eexists. split; [vm_compute; reflexivity|]. split; reflexivity.
Qed.

(** ** C59 *)

(** From an input in good state, without exceptions(): the text of the Code is the first token
    and the input is left right after it, if the token has fewer than 1000 characters; longer
    tokens are written past the end of the buffer.  Missing: those, and NUL characters. *)
Theorem C59_first_token_partial : forall l s, exists t r, first_token l t r /\
  (shorter 1000 (string_of_list_ascii t) ->
   exists i' s' c, compile (mkIn l false false false) s = ROk (i', s') c /\ i_left i' = r /\
     toString c s' = ROk s' (before_nul (string_of_list_ascii t))) /\
  (~ shorter 1000 (string_of_list_ascii t) -> compile (mkIn l false false false) s = RBad UB).
Proof. exact compile_token. Qed.
Print Assumptions C59_first_token_partial.

(** There is only one such token. *)
Theorem C59_token_unique : forall l t r t' r', first_token l t r -> first_token l t' r' -> t = t' /\ r = r'.
Proof. exact first_token_unique. Qed.
Print Assumptions C59_token_unique.

(** With exceptions(failbit) on the input, an input without token ends the program. *)
Theorem C59_exceptions_refuted : forall l s, Forall (fun c => In c blanks) l -> compile (mkIn l false false true) s = RBad Terminate.
Proof. exact compile_throws. Qed.
Print Assumptions C59_exceptions_refuted.

(** An input in any state.  At end of file or after a failure: the text is empty, nothing is read, and
    the failure is set; with exceptions(failbit) the program ends.  In good state: how the input is
    left; with exceptions(failbit) and a token everything is as without. *)
Theorem C59_states_partial : forall i s,
  ((i_eof i = true \/ i_fail i = true) -> i_exc i = false ->
     exists s' c, compile i s = ROk (mkIn (i_left i) (i_eof i) true false, s') c /\ toString c s' = ROk s' "") /\
  ((i_eof i = true \/ i_fail i = true) -> i_exc i = true -> compile i s = RBad Terminate) /\
  (i_eof i = false -> i_fail i = false -> exists t r, first_token (i_left i) t r /\ forall i' s' c, compile i s = ROk (i', s') c ->
     i_left i' = r /\ (i_eof i' = true <-> r = []) /\ (i_fail i' = true <-> t = []) /\ i_exc i' = i_exc i) /\
  (i_eof i = false -> i_fail i = false -> forall t r, first_token (i_left i) t r -> t <> [] ->
     compile (mkIn (i_left i) false false true) s =
     match compile (mkIn (i_left i) false false false) s with
     | ROk (i', s') c => ROk (mkIn (i_left i') (i_eof i') (i_fail i') true, s') c
     | x => x
     end).
Proof. exact compile_states. Qed.
Print Assumptions C59_states_partial.

Example C59_states_witness : exists i' s' c, compile (mkIn (list_ascii_of_string " x") false false true) cs0 = ROk (i', s') c /\
  i_left i' = [] /\ i_eof i' = true /\ i_fail i' = false /\ toString c s' = ROk s' "x" /\ compile i' s' = RBad Terminate.
Proof. eexists. eexists. eexists. split; [vm_compute; reflexivity|]. repeat split; reflexivity. Qed.

Example C59_witness : exists i' s' c, compile (mkIn (list_ascii_of_string "  x+1 rest") false false false) cs0 = ROk (i', s') c /\
  string_of_list_ascii (i_left i') = " rest" /\ toString c s' = ROk s' "x+1".
Proof. eexists. eexists. eexists. split; [vm_compute; reflexivity|]. split; reflexivity. Qed.
