(** * C116: waiting for a futex ends. *)
From Coq Require Import List Arith NArith Lia Bool.
From Verif Require Import Base FutexModel FutexSpec FutexFairSpec FutexFair.
Import ListNotations.

(** C116: any number of threads with any finite numbers of sections: every fair schedule
    brings all of them through all their sections, so that each lock() call
    returns.  Missing: a bound on the time a thread waits, next. *)
Theorem C116_fair_partial : forall (D L : Type) spin sg d0 (progs : list (list (body D L) * L)),
  fair (length progs) sg ->
  exists n, forall m, n <= m -> all_done (after spin sg m (finit d0 progs)) /\
    exists tr, freaches spin d0 progs (after spin sg m (finit d0 progs)) tr.
Proof. exact @fair_finishes. Qed.
Print Assumptions C116_fair_partial.

(** There is no such bound: a thread can be inside lock(), make any number of attempts and
    be overtaken that many times, although no attempt fails spuriously. *)
Theorem C116_overtaken_refuted : forall n, exists s tr,
  freaches 0 tt [(repeat [] n, tt); ([[]], tt)] s tr /\ trying s 1 /\
  length (acquired_by 0 tr) = n /\ acquired_by 1 tr = [] /\ length (call_yields 1 tr) = n.
Proof. exact overtaken. Qed.
Print Assumptions C116_overtaken_refuted.

(** Taking turns is fair, and so it is if one turn in twelve fails spuriously. *)
Example C116_witness : fair 2 (fun n => (n mod 2, (n mod 3 =? 0)%nat && (n mod 4 =? 1)%nat)) /\
  all_done (after 1 (fun n => (n mod 2, (n mod 3 =? 0)%nat && (n mod 4 =? 1)%nat)) 40 (finit 0 [([increment; increment], 0); ([increment], 7)])).
Proof.
  split.
  - intros t Ht N. assert (E : t = 0 \/ t = 1) by lia.
    destruct E as [->| ->].
    + exists (12 * N), (12 * N + 2). split; [lia|].
      assert (A : forall k, k < 12 -> (12 * N + k) mod 2 = k mod 2 /\ (12 * N + k) mod 3 = k mod 3 /\ (12 * N + k) mod 4 = k mod 4).
      { intros k _. repeat split.
        - replace (12 * N + k) with (k + (6 * N) * 2) by lia. apply Nat.mod_add. discriminate.
        - replace (12 * N + k) with (k + (4 * N) * 3) by lia. apply Nat.mod_add. discriminate.
        - replace (12 * N + k) with (k + (3 * N) * 4) by lia. apply Nat.mod_add. discriminate. }
      pose proof (A 0 ltac:(lia)) as A0. rewrite Nat.add_0_r in A0.
      destruct A0 as (A1 & A2 & A3), (A 2 ltac:(lia)) as (B1 & B2 & B3). rewrite A1, A2, A3, B1, B2, B3.
      repeat split. intros m Hm. assert (m = 12 * N + 1) as -> by lia. cbn [fst].
      destruct (A 1 ltac:(lia)) as (-> & _). discriminate.
    + exists (12 * N + 1), (12 * N + 3). split; [lia|].
      assert (A : forall k, k < 12 -> (12 * N + k) mod 2 = k mod 2 /\ (12 * N + k) mod 3 = k mod 3 /\ (12 * N + k) mod 4 = k mod 4).
      { intros k _. repeat split.
        - replace (12 * N + k) with (k + (6 * N) * 2) by lia. apply Nat.mod_add. discriminate.
        - replace (12 * N + k) with (k + (4 * N) * 3) by lia. apply Nat.mod_add. discriminate.
        - replace (12 * N + k) with (k + (3 * N) * 4) by lia. apply Nat.mod_add. discriminate. }
      destruct (A 1 ltac:(lia)) as (A1 & A2 & A3), (A 3 ltac:(lia)) as (B1 & B2 & B3). rewrite A1, A2, A3, B1, B2, B3.
      repeat split. intros m Hm. assert (m = 12 * N + 2) as -> by lia. cbn [fst].
      destruct (A 2 ltac:(lia)) as (-> & _). discriminate.
  - vm_compute. intros th [<-|[<-|[]]]; split; reflexivity.
Qed.
