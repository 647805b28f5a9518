(** * Atomic counters: properties C85, C86, C89, C90. *)

From Coq Require Import ZArith List Arith Bool Lia.
From Verif Require Import Base AtomicModel AtomicSpec AtomicProofs.
Import ListNotations.
Open Scope Z_scope.

(** ** C85 *)

(** Threads incrementing, decrementing and adding under any schedule: the counter is the initial
    value plus everything added, reduced to 32 bits, ... *)
Theorem C85_no_lost_update : forall w0 progs sched, int32_range w0 -> all_ops counting progs ->
  let s := exec w0 progs sched in reduced (counter s) (w0 + total (log s)).
Proof. exact counting_final. Qed.
Print Assumptions C85_no_lost_update.

(** ... each operation returns the value right after its own update, ... *)
Theorem C85_own_value : forall w0 progs sched a e b, int32_range w0 -> all_ops counting progs ->
  log (exec w0 progs sched) = a ++ e :: b -> exists n, snd e = RInt n /\ reduced n (w0 + total a + amount0 (snd (fst e))).
Proof. exact counting_return. Qed.
Print Assumptions C85_own_value.

(** ... no two of up to 2^32 increments return the same value, ... *)
Theorem C85_distinct : forall w0 progs sched, int32_range w0 -> all_ops (fun op => op = AInc) progs ->
  Z.of_nat (length (log (exec w0 progs sched))) <= 2 ^ 32 -> NoDup (rets_of (log (exec w0 progs sched))).
Proof. exact incs_distinct. Qed.
Print Assumptions C85_distinct.

(** ... and every thread has done a first part of its program, in order. *)
Theorem C85_program_order : forall w0 progs sched t p, nth_error progs t = Some p ->
  exists rest, nth_error (todo (exec w0 progs sched)) t = Some rest /\ p = done_by t (log (exec w0 progs sched)) ++ rest.
Proof. exact exec_order. Qed.
Print Assumptions C85_program_order.

(** The reduction determines the value. *)
Theorem C85_reduced_unique : forall w w' z, reduced w z -> reduced w' z -> w = w'.
Proof. exact reduced_unique. Qed.
Print Assumptions C85_reduced_unique.

Example C85_witness : let progs := [[AInc; AInc]; [ADec; AAdd 5]] in let s := exec (2 ^ 31 - 2) progs [1; 0; 0; 1; 1]%nat in
  int32_range (2 ^ 31 - 2) /\ all_ops counting progs /\ counter s = - 2 ^ 31 + 4 /\
  rets_of (log s) = [RInt (2 ^ 31 - 3); RInt (2 ^ 31 - 2); RInt (2 ^ 31 - 1); RInt (- 2 ^ 31 + 4)].
Proof. split; [unfold int32_range; lia|]. split; [repeat constructor; discriminate|]. split; vm_compute; reflexivity. Qed.

(** ** C86 *)

(** All primitives agree with gcc's on 64 bit Windows, and all but atomicAdd on 32 bit Windows;
    missing: atomicAdd there, refuted next. *)
Theorem C86_agree_partial : forall op w, vc false op w = gcc op w /\ ((forall v, op <> AAdd v) -> vc true op w = gcc op w).
Proof. intros op w. split; [apply platforms|apply platforms_x86]. Qed.
Print Assumptions C86_agree_partial.

(** Adding anything but a multiple of 2^32: the old value instead of the new one is returned. *)
Theorem C86_add_refuted : forall v w, int32_range w -> reduced 0 v \/
  fst (vc true (AAdd v) w) = fst (gcc (AAdd v) w) /\ snd (vc true (AAdd v) w) = RInt w /\ snd (gcc (AAdd v) w) <> RInt w.
Proof. exact add_x86. Qed.
Print Assumptions C86_add_refuted.

Example C86_witness : vc true (AAdd 3) 4 = (7, RInt 4) /\ gcc (AAdd 3) 4 = (7, RInt 7) /\ ~ reduced 0 3.
Proof. split; [reflexivity|]. split; [reflexivity|]. intros (_ & k & K). lia. Qed.

(** ** C89 *)

(** Threads compare the same old value and store others: exactly one of the calls made succeeds,
    the first one, and its value stays. *)
Theorem C89_one_winner : forall old progs sched, all_ops (fun op => exists n, op = ACAS old n /\ n <> old) progs ->
  let s := exec old progs sched in
  log s = [] \/ exists t n rest, log s = (t, ACAS old n, RYes true) :: rest /\ counter s = n /\ Forall (fun r => r = RYes false) (rets_of rest).
Proof. exact cas_one. Qed.
Print Assumptions C89_one_winner.

Example C89_witness : let progs := [[ACAS 0 1; ACAS 0 1]; [ACAS 0 2]] in
  all_ops (fun op => exists n, op = ACAS 0 n /\ n <> 0) progs /\
  log (exec 0 progs [1; 0; 0]%nat) = [(1%nat, ACAS 0 2, RYes true); (0%nat, ACAS 0 1, RYes false); (0%nat, ACAS 0 1, RYes false)].
Proof. split; [repeat constructor; eexists; (split; [reflexivity|discriminate])|reflexivity]. Qed.

(** ** C90 *)

(** Threads exchange values: the initial value and those given, in order of execution, are the
    values returned followed by the final one. *)
Theorem C90_handed_over_once : forall w0 progs sched, all_ops (fun op => exists v, op = AExchange v) progs ->
  let s := exec w0 progs sched in w0 :: flat_map given (ops_of (log s)) = flat_map got (rets_of (log s)) ++ [counter s].
Proof. exact exchange_chain. Qed.
Print Assumptions C90_handed_over_once.

Example C90_witness : let progs := [[AExchange 1; AExchange 2]; [AExchange 3]] in
  all_ops (fun op => exists v, op = AExchange v) progs /\
  rets_of (log (exec 9 progs [0; 1; 0]%nat)) = [RInt 9; RInt 1; RInt 3] /\ counter (exec 9 progs [0; 1; 0]%nat) = 2.
Proof. split; [repeat constructor; eexists; reflexivity|]. split; reflexivity. Qed.
