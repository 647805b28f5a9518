(** * Property C96: Futex under the C++11 memory model. *)
From Coq Require Import List Arith Lia Bool.
From Verif Require Import FutexMemSpec FutexMemModel FutexMem.
Import ListNotations.

(** C96 "Whatever reorderings the memory model allows, threads that touch shared
    variables only between lock() and unlock() have no data race, and what they
    read is what they would read if the sections were executed one after the
    other."  In every execution that the standard admits: *)
Theorem C96_no_data_race : forall (X V : Type) (init : X -> V) (E : execution X V),
  consistent init E -> guarded E -> race_free E.
Proof. exact @no_race. Qed.
Print Assumptions C96_no_data_race.

(** There is an order of all the guarded sections, in which each thread's sections
    are in its program order, such that every read gives the value last written. *)
Theorem C96_serial : forall (X V : Type) (init : X -> V) (E : execution X V),
  consistent init E -> guarded E ->
  forall eqb : X -> X -> bool, (forall x y, eqb x y = true <-> x = y) ->
  exists secs : list (nat * list (label X V)),
    (forall t, map snd (filter (fun s => fst s =? t) secs) = sections (trace E t)) /\
    (forall t, concat (sections (trace E t)) = filter ordinary (trace E t)) /\
    one_at_a_time eqb init (concat (map snd secs)).
Proof. exact @serial. Qed.
Print Assumptions C96_serial.

(** Two threads that hand over a variable, the second one having found the futex
    taken (and having loaded a stale value when it was taken). *)
Definition handover : execution nat nat :=
  mkExecution
    [[Update false true AcqRel; Read 0 7; Write 0 8; Store false Release; Load false Acquire];
     [Load false Relaxed; Load true Relaxed; Update false true AcqRel; Read 0 8; Write 0 9]]
    (fun e => match e with
              | (0, 4) => Some (0, 3)
              | (1, 1) => Some (0, 0)
              | (1, 2) => Some (0, 3)
              | (1, 3) => Some (0, 2)
              | _ => None
              end)
    [(0, 0); (0, 3); (1, 2)].

Definition handover_rank (e : event) : nat :=
  match e with
  | (0, i) => 2 * i
  | (1, 0) => 0
  | (1, 1) => 1
  | (1, i) => 5 + i
  | (_, i) => i
  end.

Example C96_handover_consistent : consistent (fun _ => 7) handover.
Proof.
  assert (LA : forall e l, lab handover e = Some l ->
    In (e, l) [((0,0), Update false true AcqRel); ((0,1), Read 0 7); ((0,2), Write 0 8);
      ((0,3), Store false Release); ((0,4), Load false Acquire);
      ((1,0), Load false Relaxed); ((1,1), Load true Relaxed); ((1,2), Update false true AcqRel);
      ((1,3), Read 0 8); ((1,4), Write 0 9)]).
  { intros [[|[|t]] i] l H; cbn in H.
    - destruct i as [|[|[|[|[|i]]]]]; cbn in H; try (injection H as <-; cbn; tauto). destruct i; discriminate.
    - destruct i as [|[|[|[|[|i]]]]]; cbn in H; try (injection H as <-; cbn; tauto). destruct i; discriminate.
    - destruct t; destruct i; discriminate. }
  assert (ST : forall e v o, stores handover e v o ->
    In (e, v, o) [((0,0), true, AcqRel); ((0,3), false, Release); ((1,2), true, AcqRel)]).
  { intros e v o [H|(old & H)]; apply LA in H; cbn in H;
      repeat (destruct H as [H|H]; [try discriminate H; injection H as <-; subst; cbn; tauto|]); destruct H. }
  assert (LO : forall e v o, loads handover e v o ->
    In (e, v, o) [((0,0), false, AcqRel); ((0,4), false, Acquire); ((1,0), false, Relaxed);
      ((1,1), true, Relaxed); ((1,2), false, AcqRel)]).
  { intros e v o [H|(old & H)]; apply LA in H; cbn in H;
      repeat (destruct H as [H|H]; [try discriminate H; injection H as <-; subst; cbn; tauto|]); destruct H. }
  assert (RK : forall a b, hb handover a b -> handover_rank a < handover_rank b).
  { intros a b H. induction H as [t i j L N N'|w r v v' o o' W _ R _ F|a b c _ IH1 _ IH2].
    - destruct (lab handover (t, i)) as [l|] eqn:A; [|congruence].
      destruct (lab handover (t, j)) as [l'|] eqn:A'; [|congruence].
      apply LA in A. apply LA in A'. cbn in A, A'.
      repeat (destruct A as [A|A]; [injection A as <- <- _|]); try destruct A;
      repeat (destruct A' as [A'|A']; [first [discriminate A'|injection A' as <- _]; cbn; try lia|]); try destruct A'.
    - apply ST in W. apply LO in R. cbn in W, R.
      repeat (destruct R as [R|R]; [injection R as <- _ _; cbn in F; first [discriminate F|injection F as <-]; cbn; lia|]); destruct R.
    - lia. }
  constructor.
  - intros e H. apply RK in H. lia.
  - intros e. split.
    + intros [<-|[<-|[<-|[]]]].
      * exists true, AcqRel. right. exists false. reflexivity.
      * exists false, Release. left. reflexivity.
      * exists true, AcqRel. right. exists false. reflexivity.
    + intros (v & o & H). apply ST in H. cbn in *.
      repeat (destruct H as [H|H]; [injection H as <- _ _; tauto|]); destruct H.
  - cbn. repeat constructor; cbn; intuition discriminate.
  - intros a b Ha Hb H. apply RK in H.
    destruct Ha as [<-|[<-|[<-|[]]]]; destruct Hb as [<-|[<-|[<-|[]]]]; cbn in H; try lia.
    + exists [], [], [(1, 2)]. reflexivity.
    + exists [], [(0, 3)], []. reflexivity.
    + exists [(0, 0)], [], []. reflexivity.
  - intros r w v o H F. apply LO in H. cbn in H.
    repeat (destruct H as [H|H]; [injection H as <- <- <-; cbn in F; first [discriminate F|injection F as <-]|]);
      try destruct H.
    + exists Release. left. reflexivity.
    + exists AcqRel. right. exists false. reflexivity.
    + exists Release. left. reflexivity.
  - intros r v o H F. apply LO in H. cbn in H.
    repeat (destruct H as [H|H]; [injection H as <- <- <-; cbn in F; first [discriminate F|reflexivity]|]); destruct H.
  - intros r w old new o H F. apply LA in H. cbn in H.
    repeat (destruct H as [H|H]; [first [discriminate H|injection H as <- <- <- <-; cbn in F; first [discriminate F|injection F as <-]]|]);
      try destruct H.
    exists [(0, 0)], []. reflexivity.
  - intros r old new o H F. apply LA in H. cbn in H.
    repeat (destruct H as [H|H]; [first [discriminate H|injection H as <- <- <- <-; cbn in F; first [discriminate F|idtac]]|]);
      try destruct H.
    exists [(0, 3); (1, 2)]. reflexivity.
  - intros r w x v H F. apply LA in H. cbn in H.
    repeat (destruct H as [H|H]; [first [discriminate H|injection H as <- <- <-; cbn in F; first [discriminate F|injection F as <-]]|]);
      try destruct H.
    split; [reflexivity|]. split; [intros K; apply RK in K; cbn in K; lia|].
    intros w' (v' & W') K1 K2. apply RK in K1. apply RK in K2. apply LA in W'. cbn in W'.
    repeat (destruct W' as [W'|W']; [first [discriminate W'|injection W' as <- <-; cbn in K1, K2; lia]|]); destruct W'.
  - intros r x v H F. apply LA in H. cbn in H.
    repeat (destruct H as [H|H]; [first [discriminate H|injection H as <- <- <-; cbn in F; first [discriminate F|idtac]]|]);
      try destruct H.
    split; [reflexivity|]. intros w' (v' & W') K. apply RK in K. apply LA in W'. cbn in W'.
    repeat (destruct W' as [W'|W']; [first [discriminate W'|injection W' as <- <-; cbn in K; lia]|]); destruct W'.
Qed.

Example C96_handover_guarded : guarded handover.
Proof. intros [|[|t]]; cbn; try discriminate. destruct t; cbn; discriminate. Qed.
