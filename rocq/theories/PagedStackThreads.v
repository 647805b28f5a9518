(** * Proofs: calls wait for the lock; a PagedStack<T, Futex> shared by threads (C18, C94). *)

From Coq Require Import List Arith NArith ZArith Lia Bool.
From Verif Require Import Base ListFacts PagedStackModel PagedStackSpec PagedStackExec PagedStackProofs PagedStackIter FutexModel FutexSpec FutexProofs FutexMore PagedStackThreadsSpec.
Import ListNotations.
Open Scope m_scope.

Section Blocked.
Context {T : Type}.

(** While the lock is held by somebody, every call waits for it before it does anything else. *)
Lemma blocked : forall debug (s : stack T), locked s = true ->
  (forall o, match o with DiscardAt _ => True | _ => exec debug o s = RBad Deadlock end) /\
  (forall it, discard_f it s = RBad Deadlock) /\ getStats s = RBad Deadlock /\
  sync_begin s = RBad Deadlock /\ sync_end s = RBad Deadlock /\
  forall it it', s_get it s = RBad Deadlock /\ s_inc it s = RBad Deadlock /\ s_dec it s = RBad Deadlock /\
    s_eq it it' s = RBad Deadlock /\ s_destroy it s = RBad Deadlock.
Proof.
  intros debug s L.
  assert (W : forall A (m : M (stack T) A), with_lock m s = RBad Deadlock) by (intros A m; unfold with_lock; now rewrite L).
  assert (N : forall A (m : M (stack T) A), m s = RBad Deadlock -> noexcept m s = RBad Deadlock) by (intros A m H; unfold noexcept; now rewrite H).
  assert (B : forall A C (m : M (stack T) A) (k : A -> M (stack T) C), m s = RBad Deadlock -> bind m k s = RBad Deadlock) by (intros A C m k H; unfold bind; now rewrite H).
  assert (Ss : @size T s = RBad Deadlock) by (apply N, W). assert (Se : @empty T s = RBad Deadlock) by (apply N, W).
  assert (C : forall A (c : M (stack T) bool) (m : M (stack T) A), c s = RBad Deadlock -> (debug = false -> m s = RBad Deadlock) -> bind (cassert debug c) (fun _ => m) s = RBad Deadlock).
  { intros A c m H1 H2. destruct debug; [apply B, B, H1|exact (H2 eq_refl)]. }
  split.
  { intro o; destruct o; try exact I; cbn [exec]; apply B; try (first [apply W | apply N, W | exact Ss | exact Se]).
    all: try apply N; unfold pop, pop_values, peek, peek_depth, peek_reverse, pop_reverse;
      apply C; [apply B; assumption|]; intro Db; first [apply W | rewrite Db; apply W]. }
  split; [intro it; apply N, W|]. split; [apply N, W|]. split; [apply N, W|]. split; [apply N, W|].
  intros it it'. repeat split; first [apply W | apply N, W].
Qed.
End Blocked.

Section Threads.
Context {T : Type}.

Lemma in_two_steps_ok : forall o : op T, implements (in_two_steps o) o.
Proof. intros o rs s s' r H. unfold in_two_steps. cbn [exec_body]. rewrite H. cbv beta iota. cbn [exec_body]. now rewrite H. Qed.

Variable code : op T -> body (@shared T) (@results T).

(** Recover the calls from the sections. *)
Lemma order_of : forall (acq : list (nat * body (@shared T) (@results T))) (prog : nat -> list (op T)) (rest : nat -> list (body (@shared T) (@results T))),
  (forall t, map code (prog t) = map snd (filter (fun x => fst x =? t) acq) ++ rest t) ->
  exists order, acq = sections code order /\ forall t, exists more, prog t = calls_of t order ++ more /\ map code more = rest t.
Proof.
  induction acq as [|[t b] acq IH]; intros prog rest H.
  - exists []. split; [reflexivity|]. intro t. exists (prog t). split; [reflexivity|]. apply (H t).
  - pose proof (H t) as Ht. cbn [filter fst] in Ht. rewrite Nat.eqb_refl in Ht. cbn [map snd app] in Ht.
    destruct (prog t) as [|o p] eqn:Pt; [discriminate Ht|]. cbn [map] in Ht. injection Ht as Hb Ht.
    destruct (IH (fun t' => if t' =? t then p else prog t') rest) as (order & A & B).
    + intro t'. destruct (Nat.eqb_spec t' t) as [->|N]; [exact Ht|]. rewrite (H t'). cbn [filter fst]. destruct (Nat.eqb_spec t t'); [congruence|reflexivity].
    + exists ((t, o) :: order). split; [unfold sections in *; cbn [map fst snd]; now rewrite <- A, Hb|].
      intro t'. destruct (B t') as (more & C & D). exists more. split; [|exact D]. unfold calls_of in *. cbn [filter fst].
      destruct (Nat.eqb_spec t' t) as [->|N].
      * rewrite Nat.eqb_refl. cbn [map snd app]. now rewrite Pt, C.
      * destruct (Nat.eqb_spec t t'); [congruence|exact C].
Qed.

Hypothesis code_ok : forall o, guarded_op o = true -> implements (code o) o.

(** Serial execution of sections is execution of the calls. *)
Lemma serial_run : forall order (s : stack T) s' rs (ls : list (@results T)),
  (forall t o, List.In (t, o) order -> t < length ls /\ guarded_op o = true) ->
  PagedStackExec.run false (map snd order) s = ROk s' rs ->
  exists ls', serial (sections code order) (Some s, ls) = (Some s', ls') /\ length ls' = length ls /\
    forall t l, nth_error ls t = Some l -> nth_error ls' t = Some (l ++ results_of t order rs).
Proof.
  induction order as [|[t o] order IH]; intros s s' rs ls B R.
  - cbn in R. injection R as <- <-. exists ls. split; [reflexivity|]. split; [reflexivity|]. intros t l H. now rewrite app_nil_r.
  - cbn [map snd PagedStackExec.run] in R. unfold bind in R. destruct (exec false o s) as [s1 r|s1|b] eqn:E; try discriminate R.
    destruct (PagedStackExec.run false (map snd order) s1) as [s2 rs'|s2|b] eqn:R'; try discriminate R. injection R as <- <-.
    destruct (B t o) as [Ht Go]; [left; reflexivity|].
    destruct (nth_error ls t) as [lt|] eqn:N; [|apply nth_error_None in N; lia].
    assert (S1 : run_section (t, code o) (Some s, ls) = (Some s1, upd t (fun _ => lt ++ [r]) ls)).
    { unfold run_section. cbn [fst snd]. rewrite N. now rewrite (code_ok o Go lt s s1 r E). }
    destruct (IH s1 s2 rs' (upd t (fun _ => lt ++ [r]) ls)) as (ls' & A & C & D).
    + intros t' o' I. rewrite upd_length. apply (B t' o'). now right.
    + exact R'.
    + exists ls'. split; [|split; [now rewrite C, upd_length|]].
      * unfold sections, serial in *. cbn [map fst snd fold_left]. rewrite S1. exact A.
      * intros t' l H. unfold results_of. cbn [map fst combine filter].
        destruct (Nat.eqb_spec t t') as [<-|NE].
        -- rewrite N in H. injection H as <-. rewrite (D t (lt ++ [r])).
           ++ cbn [map snd]. rewrite <- app_assoc. reflexivity.
           ++ now rewrite (nth_error_upd_eq _ _ _ _ N).
        -- apply D. rewrite nth_error_upd_neq; auto.
Qed.

Lemma frun_range : forall spin sched (s s' : fstate (@shared T) (@results T)) tr, frun spin sched s = Some (s', tr) ->
  length (threads s') = length (threads s) /\ Forall (fun te => fst te < length (threads s)) tr.
Proof.
  intros spin sched. induction sched as [|[t sp] sched IH]; intros s s' tr H; cbn [frun] in H.
  - injection H as <- <-. auto.
  - destruct (fstep spin t sp s) as [[s1 e]|] eqn:E; [|discriminate].
    destruct (frun spin sched s1) as [[s2 es]|] eqn:E2; [|discriminate]. injection H as <- <-.
    assert (G : length (threads s1) = length (threads s) /\ t < length (threads s)).
    { unfold fstep in E. destruct (nth_error (threads s) t) as [th|] eqn:Ht; [|discriminate].
      split; [|apply nth_error_Some; congruence].
      repeat match type of E with
             | context [match ?x with _ => _ end] => destruct x; try discriminate
             end; injection E as <- <-; cbn [threads]; apply upd_length. }
    destruct G as [G1 G2]. destruct (IH _ _ _ E2) as [A B]. rewrite G1 in *. split; [exact A|]. constructor; [exact G2|exact B].
Qed.

Lemma acquired_none : forall (tr : list (nat * fevent (@shared T) (@results T))) n t, Forall (fun te => fst te < n) tr -> n <= t -> acquired_by t tr = [].
Proof.
  intros tr n t F L. unfold acquired_by. induction F as [|[t' e] tr H F IH]; [reflexivity|]. cbn [fst] in H. destruct e; cbn [acquisitions]; try exact IH.
  cbn [filter fst]. destruct (Nat.eqb_spec t' t); [lia|exact IH].
Qed.

Lemma acquired_range : forall (tr : list (nat * fevent (@shared T) (@results T))) n t b, Forall (fun te => fst te < n) tr -> List.In (t, b) (acquisitions tr) -> t < n.
Proof.
  intros tr n t b F. induction F as [|[t' e] tr H F IH]; [intros []|]. cbn [fst] in H. destruct e; cbn [acquisitions]; try exact IH.
  intros [I|I]; [injection I as <- _; exact H|exact (IH I)].
Qed.

Lemma guarded_calls : forall order (progs : list (list (op T))), Forall (fun p => forallb guarded_op p = true) progs ->
  (forall t, exists more, nth t progs [] = calls_of t order ++ more) -> forall t o, List.In (t, o) order -> guarded_op o = true.
Proof.
  intros order progs F H t o' I.
  destruct (H t) as [more E].
  assert (I2 : List.In o' (nth t progs [])).
  { rewrite E. apply in_or_app. left. unfold calls_of. change o' with (snd (t, o')). apply in_map. apply filter_In. split; [exact I|]. apply Nat.eqb_refl. }
  destruct (nth_in_or_default t progs []) as [J|J].
  - rewrite Forall_forall in F. specialize (F _ J). rewrite forallb_forall in F. now apply F.
  - rewrite J in I2. destruct I2.
Qed.

Lemma shared_stack : forall spin ps pa (progs : list (list (op T))) (s : fstate (@shared T) (@results T)) tr,
  1 <= pa -> Forall (fun p => forallb guarded_op p = true) progs ->
  @freaches (@shared T) (@results T) spin (Some (construct ps pa)) (map (fun p => (map code p, [])) progs) s tr ->
  (forall t, ~ holds s t) ->
  exists order, acquisitions tr = sections code order /\
    (forall t p, nth_error progs t = Some p -> exists more th, nth_error (threads s) t = Some th /\ p = calls_of t order ++ more /\ map code more = t_todo th) /\
    forall l rs, described ps (map snd order) -> spec_run (map snd order) [] = Some (l, rs) ->
      (exists st, data s = Some st /\ PagedStackExec.run false (map snd order) (construct ps pa) = ROk st rs) /\
      forall t th, nth_error (threads s) t = Some th -> t_local th = results_of t order rs.
Proof.
  intros spin ps pa progs s tr PA CO R NH.
  set (fp := map (fun p => (map code p, [])) progs) in *.
  assert (PO : forall t p, nth_error progs t = Some p -> exists th, nth_error (threads s) t = Some th /\ map code p = acquired_by t tr ++ t_todo th).
  { intros t p H. apply (sections_in_order spin (Some (construct ps pa)) fp s tr t (map code p) []); [exact R|].
    unfold fp. rewrite nth_error_map, H. reflexivity. }
  assert (RG : length (threads s) = length progs /\ Forall (fun te => fst te < length progs) tr).
  { destruct R as [sched R]. destruct (frun_range _ _ _ _ _ R) as [A B]. unfold finit in A, B. cbn [threads] in A, B. unfold fp in A, B.
    rewrite !map_length in A. rewrite !map_length in B. split; [exact A|exact B]. }
  destruct RG as [RL RT].
  destruct (order_of (acquisitions tr) (fun t => nth t progs []) (fun t => match nth_error (threads s) t with Some th => t_todo th | None => [] end)) as (order & A & B).
  { intro t. destruct (nth_error progs t) as [p|] eqn:N.
    - destruct (PO t p N) as (th & H1 & H2). rewrite (nth_error_nth _ _ _ N), H1. exact H2.
    - apply nth_error_None in N. pose proof (acquired_none _ _ _ RT N) as AN. unfold acquired_by in AN. rewrite (nth_overflow _ _ N).
      destruct (nth_error (threads s) t) as [th|] eqn:N2; [|rewrite app_nil_r; symmetry; exact AN]. assert (t < length (threads s)) by (apply nth_error_Some; congruence). lia. }
  exists order. split; [exact A|]. split.
  { intros t p N. destruct (B t) as (more & C & E). destruct (PO t p N) as (th & H1 & _). exists more, th. split; [exact H1|].
    rewrite (nth_error_nth _ _ _ N) in C. split; [exact C|]. now rewrite H1 in E. }
  intros l rs De Sp.
  assert (CC : forall t o, List.In (t, o) order -> guarded_op o = true).
  { apply (guarded_calls order progs CO). intro t. destruct (B t) as (more & C & _). now exists more. }
  assert (Rn : exists st, PagedStackExec.run false (map snd order) (construct ps pa) = ROk st rs).
  { destruct De as [De|[P De]]; [exact (core_exists false ps pa _ l rs PA De Sp)|exact (careful_exists false ps pa _ l rs P PA De Sp)]. }
  destruct Rn as [st Rn].
  destruct (serialised (D := @shared T) (L := @results T) spin (Some (construct ps pa)) fp s tr R) as [SE _]. specialize (SE NH). rewrite A in SE.
  destruct (serial_run order (construct ps pa) st rs (map snd fp)) as (ls' & S1 & S2 & S3).
  - intros t o I. split; [|exact (CC t o I)]. unfold fp. rewrite !map_length. apply (acquired_range tr _ t (code o) RT). rewrite A. unfold sections.
    change (t, code o) with ((fun x => (fst x, code (snd x))) (t, o)). apply in_map. exact I.
  - exact Rn.
  - pose proof (eq_trans SE S1) as SE'. clear SE. rename SE' into SE. unfold memory in SE. injection SE as E1 E2. split.
    + exists st. split; [exact E1|exact Rn].
    + intros t th N. assert (N' : nth_error ls' t = Some (t_local th)) by (rewrite <- E2, nth_error_map, N; reflexivity).
      assert (Lt : t < length progs) by (rewrite <- RL; apply nth_error_Some; congruence).
      rewrite (S3 t []) in N'; [injection N' as N'; now rewrite N'|].
      unfold fp. rewrite map_map. cbn [snd]. rewrite nth_error_map. destruct (nth_error progs t) eqn:NP; [reflexivity|]. apply nth_error_None in NP. lia.
Qed.
End Threads.
