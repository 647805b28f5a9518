(** * Property C95: PagedStack when elements or memory fail. *)
From Coq Require Import List Arith ZArith Lia Bool.
From Verif Require Import Base PagedStackModel PagedStackSpec PagedStackExec
  PagedStackThrowSpec PagedStackThrowModel PagedStackThrow.
Import ListNotations.

(** C95 "If an element cannot be stored or handed out (its copy throws, or there
    is no memory for its page), the exception reaches the caller, the lock is
    free again, the elements dealt with before it are in place, and every later
    call behaves as usual."  True of every history of calls and failures in
    which, after a push whose element failed on becoming the first of a new
    page, the next call other than size(), empty() and shrink_to_fit() is a push
    or a discard(n). *)
Theorem C95_exceptions_partial : forall (T : Type) debug ps pa (ops : list (xop T)),
  1 <= ps -> 1 <= pa -> wary ps false ops [] ->
  exists s rs l, run_x debug ops (construct ps pa) = ROk s rs /\ xhistory ops [] l rs /\
    locked s = false.
Proof. exact @exceptions. Qed.
Print Assumptions C95_exceptions_partial.

(** A history meeting the hypotheses: with pages of two, the third element
    fails on a new page, then a growth of two pages runs out of memory after
    one, then a target of pop fails. *)
Definition demo : list (xop nat) :=
  [XPush (mkArg 1 false None) [mkArg 2 false None; mkArg 3 true None; mkArg 9 false None];
   XCall Size; XPush (mkArg 4 false None) [mkArg 5 false None; mkArg 6 false (Some 1)];
   XPop false [true]; XCall Top].

Example C95_demo_wary : wary 2 false demo [].
Proof.
  unfold demo.
  split; [exact I|]. split; [discriminate|].
  intros l1 r1 H1. inversion H1 as [a more l F|a more d x r l E F K|a more d x r l E F K| | | | | |];
    subst; clear H1.
  { inversion F as [|? ? _ F1]; inversion F1 as [|? ? _ F2]; inversion F2 as [|? ? F3 _]; discriminate. }
  2:{ exfalso. destruct d as [|y1 [|y2 [|y3 [|y4 d]]]]; injection E; intros; subst; apply K; try reflexivity.
      destruct d; discriminate. }
  assert (D : d = [mkArg 1 false None; mkArg 2 false None]).
  { destruct d as [|y1 [|y2 [|y3 d]]]; injection E; intros; subst; try discriminate K; [reflexivity|].
    inversion F as [|? ? _ F1]; inversion F1 as [|? ? _ F2]; inversion F2 as [|? ? F3 _]; discriminate. }
  subst d. clear E F K.
  split; [split; [reflexivity|discriminate]|]. split; [reflexivity|].
  intros l2 r2 H2. inversion H2 as [| | | | | | | |o2 l2b l2c r2b E]; subst; clear H2.
  injection E as <- <-.
  split; [exact I|]. split; [reflexivity|].
  intros l3 r3 H3. inversion H3 as [a3 more3 l3b F|a3 more3 d x3 r3b l3b E F K|a3 more3 d x3 r3b l3b E F K| | | | | |];
    subst; clear H3.
  - split; [cbn; lia|]. split; [discriminate|].
    intros l4 r4 H4. inversion H4 as [| | | | | |a4 more4 l4b F1|a4 more4 d r4b l4b E F1|]; subst; clear H4.
    { inversion F1 as [|? ? _ F2]; inversion F2; discriminate. }
    assert (D : length d = 1).
    { destruct d as [|y1 [|y2 d]]; [discriminate|reflexivity|].
      destruct d; discriminate. }
    rewrite D. split; [split; [reflexivity|discriminate]|]. split; [discriminate|]. intros; exact I.
  - exfalso. destruct d as [|y1 [|y2 [|y3 d]]]; injection E; intros; subst; try discriminate K.
    destruct d; discriminate.
  - assert (D : d = [mkArg 4 false None; mkArg 5 false None]).
    { destruct d as [|y1 [|y2 [|y3 d]]]; injection E; intros; subst;
        try (exfalso; apply K; reflexivity); [reflexivity|]. destruct d; discriminate. }
    subst d. clear E F K.
    split; [cbn; lia|]. split; [discriminate|].
    intros l4 r4 H4. inversion H4 as [| | | | | |a4 more4 l4b F1|a4 more4 d r4b l4b E F1|]; subst; clear H4.
    { inversion F1 as [|? ? _ F2]; inversion F2; discriminate. }
    assert (D : length d = 1).
    { destruct d as [|y1 [|y2 d]]; [discriminate|reflexivity|].
      destruct d; discriminate. }
    rewrite D. split; [split; [reflexivity|discriminate]|]. split; [discriminate|]. intros; exact I.
Qed.

Example C95_demo_run :
  match run_x true demo (construct 2 2) with
  | ROk s rs => rs =
      [Raised ElementThrew []; Returned (RNat 2); Raised OutOfMemory [];
       Raised ElementThrew [5]; Returned (RVals [4])]
  | _ => False
  end.
Proof. reflexivity. Qed.

(** C95 is false as stated.  Whatever was done before, if the elements exactly
    fill their pages and the copy of the next element throws, the stack still
    reports its size and that it is not empty, but reading, replacing or popping
    its top element is undefined behaviour. *)
Theorem C95_full_page_refuted : forall (T : Type) debug ps pa ops s (l : list T) x, 1 <= ps ->
  reaches debug ps pa ops s l -> on_boundary ps (length l) = true ->
  exists s', exec_x debug (XPush (mkArg x true None) []) s = ROk s' (Raised ElementThrew []) /\
    exec debug Size s' = ROk s' (RNat (length l)) /\
    exec debug Empty s' = ROk s' (RBool false) /\
    exec debug Top s' = RBad UB /\ exec debug Pop s' = RBad UB /\
    (forall n, exec debug (PopN n) s' = RBad UB) /\
    (forall y, exec debug (SetTop y) s' = RBad UB).
Proof. exact @full_page_throw. Qed.
Print Assumptions C95_full_page_refuted.

Example C95_full_page_exists : exists s,
  reaches true 2 2 [Push 1 [2; 3; 4]; Pop; Pop] s [2; 1] /\ on_boundary 2 (length [2; 1]) = true.
Proof.
  exists (mkStack 2 2 [[1; 2]; []] [0; 1] 2 0 0%Z false false).
  split; [|reflexivity]. split; [lia|]. split; [reflexivity|].
  exists [RUnit; RUnit; RUnit]. split; vm_compute; reflexivity.
Qed.
