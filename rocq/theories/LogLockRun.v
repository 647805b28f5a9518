(** * LogSystem: critical sections statement by statement, whole runs *)
From Coq Require Import ZArith String Bool List Arith Lia.
From Verif Require Import Base ListFacts LogModel LogSpec LogAccess LogLockModel LogLockSpec LogProofs LogCount LogLock LogRace.
Import ListNotations.
Open Scope list_scope.

Section Log.
Context {RE : Type}.
Variable compile : string -> option RE.
Variable rmatch : string -> RE -> bool.
Notation sys := (@sys RE).
Notation world := (@world RE).
Notation fworld := (@fworld RE).
Notation cstep := (cstep compile).
Notation lstep := (lstep compile rmatch).
Notation step := (step compile rmatch).
Notation run := (run compile rmatch).
Notation fstep := (fstep compile rmatch).
Notation frun := (frun compile rmatch).
Implicit Types (s : sys) (w : world) (fw : fworld).

Lemma frun_app : forall a b fw fw1 t1, frun a fw = Some (fw1, t1) ->
  frun (a ++ b) fw = match frun b fw1 with Some (fw2, t2) => Some (fw2, t1 ++ t2) | None => None end.
Proof.
  induction a as [|ch a IH]; intros b fw fw1 t1 H; cbn in *.
  - injection H as <- <-. destruct (frun b fw) as [[]|]; reflexivity.
  - destruct (fstep ch fw) as [[fw0 es]|]; [|discriminate]. destruct (frun a fw0) as [[fw2 es2]|] eqn:E; [|discriminate]. injection H as <- <-.
    rewrite (IH _ _ _ _ E). destruct (frun b fw2) as [[]|]; [|reflexivity]. now rewrite app_assoc.
Qed.

Lemma finit_inv : forall w, finv (finit w).
Proof. intros w. constructor; cbn; [|discriminate]. unfold inside. cbn. split; [discriminate|intros (? & ?); discriminate]. Qed.
Lemma finit_settled : forall w, settled (finit w) = w.
Proof. intros [s cl]. reflexivity. Qed.

Lemma race_stuck : forall ch fw fw' es, race ch fw fw' es -> crashed (w_sys (f_world fw')) = Some UB.
Proof. intros ch fw fw' es (i & c & _ & _ & _ & _ & _ & _ & ->). reflexivity. Qed.

Lemma frun_crashed : forall sched fw fw' tr b, crashed (w_sys (f_world fw)) = Some b -> frun sched fw = Some (fw', tr) -> fw' = fw /\ tr = [].
Proof.
  intros [|ch sched] fw fw' tr b C H; cbn in H.
  - injection H as <- <-. auto.
  - unfold LogLockModel.fstep in H. rewrite C in H. discriminate.
Qed.

Lemma frun_sim : forall sched fw fw' tr, finv fw -> frun sched fw = Some (fw', tr) ->
  finv fw' /\
  ((exists sched', run sched' (settled fw) = Some (settled fw', tr)) \/
   (exists fw1 sched' i c, run sched' (settled fw) = Some (settled fw1, tr) /\ finv fw1 /\ nth_error (w_clients (f_world fw1)) i = Some c /\ looks c = true /\ copying fw1 = true /\
      fw' = mkF (mkWorld (set_crashed (Some UB) (w_sys (f_world fw1))) (w_clients (f_world fw1))) (f_held fw1) (f_sect fw1))).
Proof.
  induction sched as [|ch sched IH]; intros fw fw' tr V H.
  - cbn in H. injection H as <- <-. split; auto. left. exists []. reflexivity.
  - cbn in H. destruct (fstep ch fw) as [[fw1 es]|] eqn:E; [|discriminate]. destruct (frun sched fw1) as [[fw2 es2]|] eqn:E2; [|discriminate]. injection H as <- <-.
    destruct (fstep_sim _ _ _ _ _ _ V E) as [R|(V1 & S)].
    + pose proof (race_stuck _ _ _ _ R) as C. destruct (frun_crashed _ _ _ _ _ C E2) as (-> & ->). destruct R as (i & c & _ & A & B & D & -> & V' & ->).
      split; auto. right. exists fw, [], i, c. cbn. repeat split; auto; apply V.
    + destruct (IH _ _ _ V1 E2) as (V2 & D). split; auto. destruct S as [(-> & S & _)|S].
      * rewrite S in D. exact D.
      * destruct D as [(sched' & D)|(fw3 & sched' & i & c & D & X)].
        -- left. exists (ch :: sched'). cbn. now rewrite S, D.
        -- right. exists fw3, (ch :: sched'), i, c. split; auto. cbn. now rewrite S, D.
Qed.

(** The coarse model never gets to undefined behaviour. *)
Lemma step_not_ub : forall ch w w' es, step ch w = Some (w', es) -> crashed (w_sys w') <> Some UB.
Proof.
  assert (C : forall t c s c' s' es, cstep t c s = Some (c', s', es) -> crashed s = None -> crashed s' <> Some UB).
  { intros t [pc k] s c' s' es H N. unfold LogModel.cstep in H. cbn [c_pc c_todo] in H. destruct pc.
    - destruct k as [|[] k]; try discriminate; cbn in H; try (injection H as <- <- <-; cbn; congruence).
      + destruct (m_level m >? slevel s)%Z; injection H as <- <- <-; congruence.
      + destruct (set_category compile re (lst s l)); injection H as <- <- <-; cbn; congruence.
      + destruct t; injection H as <- <- <-; cbn; congruence.
    - destruct (pool s); injection H as <- <- <-; cbn; congruence.
    - injection H as <- <- <-; cbn; congruence.
    - injection H as <- <- <-; cbn; congruence.
    - injection H as <- <- <-; cbn; congruence.
    - injection H as <- <- <-. unfold notify. destruct (maxq s <? List.length (queue s ++ [o])); cbn; destruct (logt s); cbn; congruence.
    - injection H as <- <- <-. unfold notify. destruct (logt s); cbn; congruence.
    - destruct (mtx s); [discriminate|]. destruct (no_thread s); injection H as <- <- <-; cbn; congruence.
    - destruct t; [destruct (logt s); try discriminate|]; injection H as <- <- <-; cbn; congruence.
    - destruct (mtx s); [discriminate|]. injection H as <- <- <-. destruct (no_thread s); cbn; congruence.
    - destruct todo as [|[] fs]; injection H as <- <- <-; congruence.
    - destruct rest; injection H as <- <- <-; congruence. }
  intros ch w w' es H. unfold LogModel.step in H. destruct (crashed (w_sys w)) eqn:N; [discriminate|]. destruct ch as [i|cb|].
  - destruct (nth_error (w_clients w) i); [|discriminate]. destruct (cstep (Client i) c (w_sys w)) as [[[c' s'] es1]|] eqn:E; [|discriminate].
    injection H as <- <-. cbn. eapply C; eauto.
  - destruct (lstep cb (w_sys w)) as [[s' es1]|] eqn:E; [|discriminate]. injection H as <- <-. cbn. unfold LogModel.lstep in E.
    destruct (logt (w_sys w)); try discriminate; try (injection E as <- <-; cbn; congruence).
    + destruct (terminated (w_sys w)); [|destruct (queue (w_sys w))]; injection E as <- <-; cbn; congruence.
    + destruct rest; [|destruct (l_enabled (lst (w_sys w) n))]; injection E as <- <-; cbn; congruence.
    + destruct (_ >=? _)%Z; injection E as <- <-; cbn; congruence.
    + destruct (checkCategory rmatch _ _); injection E as <- <-; cbn; congruence.
    + destruct (c_pc c); destruct (c_todo c);
        try (destruct (cstep LogThread c (w_sys w)) as [[[c' s1] es2]|] eqn:E2; [|discriminate]; injection E as <- <-; cbn; eapply C; eauto).
      injection E as <- <-. cbn. congruence.
    + destruct todo; injection E as <- <-; cbn; congruence.
    + destruct (List.length (pool (w_sys w)) <? POOL); injection E as <- <-; cbn; congruence.
  - destruct (logt (w_sys w)); try discriminate. injection H as <- <-. cbn. congruence.
Qed.
Lemma reaches_not_ub : forall sn g lf progs w tr, reaches compile rmatch sn g lf progs w tr -> crashed (w_sys w) <> Some UB.
Proof.
  intros sn g lf progs w tr [sched H]. assert (G : forall sched w w' tr, crashed (w_sys w) <> Some UB -> run sched w = Some (w', tr) -> crashed (w_sys w') <> Some UB).
  { clear. induction sched as [|ch sched IH]; intros w w' tr N H; cbn in H; [congruence|]. destruct (step ch w) as [[w1 es]|] eqn:E; [|discriminate].
    destruct (run sched w1) as [[w2 es2]|] eqn:E2; [|discriminate]. injection H as <- <-. eapply IH; [|exact E2]. eapply step_not_ub; eauto. }
  eapply G; [|exact H]. cbn. destruct sn; discriminate.
Qed.

Lemma freaches_inv : forall sn g lf progs fw tr, freaches compile rmatch sn g lf progs fw tr -> finv fw.
Proof. intros sn g lf progs fw tr [sched H]. eapply frun_sim in H; [apply H|apply finit_inv]. Qed.

(** ** What the theorems of LogLockProps.v are *)
Lemma mutex : forall sn g lf progs fw tr k t, freaches compile rmatch sn g lf progs fw tr -> (f_held fw k = Some t <-> inside fw t k).
Proof. intros sn g lf progs fw tr k t H. apply (i_held _ (freaches_inv _ _ _ _ _ _ H)). Qed.

Lemma settled_quiet : forall fw, finv fw -> quiet fw -> settled fw = f_world fw.
Proof.
  intros fw V Q. assert (L : f_sect fw LogThread = None).
  { destruct (f_sect fw LogThread) as [[k q]|] eqn:E; auto. edestruct (Q LogThread k). exists q. exact E. }
  unfold settled, hold. rewrite L. destruct (f_held fw MMessage) as [t|] eqn:H.
  - apply (i_held _ V) in H. edestruct Q; eauto.
  - destruct (f_world fw). reflexivity.
Qed.

Lemma same_events : forall sn g lf progs fw tr, freaches compile rmatch sn g lf progs fw tr ->
  exists w, reaches compile rmatch sn g lf progs w tr /\ w_clients w = w_clients (f_world fw) /\ (defined fw -> quiet fw -> w = f_world fw).
Proof.
  intros sn g lf progs fw tr [sched H]. destruct (frun_sim _ _ _ _ (finit_inv _) H) as (V & D). rewrite finit_settled in D.
  destruct D as [(sched' & D)|(fw1 & sched' & i & c & D & _ & _ & _ & _ & ->)].
  - exists (settled fw). split; [exists sched'; exact D|]. split; auto. intros _ Q. now apply settled_quiet.
  - exists (settled fw1). split; [exists sched'; exact D|]. split; auto. intros N. exfalso. apply N. reflexivity.
Qed.

Lemma ub_only_looks : forall sn g lf progs fw tr, freaches compile rmatch sn g lf progs fw tr -> crashed (w_sys (f_world fw)) = Some UB ->
  exists i c, nth_error (w_clients (f_world fw)) i = Some c /\ looks c = true /\ copying fw = true.
Proof.
  intros sn g lf progs fw tr [sched H] C. destruct (frun_sim _ _ _ _ (finit_inv _) H) as (V & D). rewrite finit_settled in D.
  destruct D as [(sched' & D)|(fw1 & sched' & i & c & D & _ & A & B & E & ->)].
  - exfalso. assert (X : reaches compile rmatch sn g lf progs (settled fw) tr) by (exists sched'; exact D). apply reaches_not_ub in X. apply X. cbn. now rewrite fin_crashed.
  - exists i, c. auto.
Qed.

(** ** A section runs to its end *)
Fixpoint csecs (n : nat) (t : tid) (q : sect) (c : cthread) s : option (cthread * sys * list ev) :=
  match q with
  | SUnlock => Some (c, s, [])
  | _ =>
      match n with
      | O => None
      | S n' => match csec t q c s with
                | Some (c1, q1, s1, es) => match csecs n' t q1 c1 s1 with
                                           | Some (c2, s2, es2) => Some (c2, s2, es ++ es2)
                                           | None => None
                                           end
                | None => None
                end
      end
  end.

Lemma csecs_S : forall n t q c s, q <> SUnlock -> csecs (S n) t q c s =
  match csec t q c s with
  | Some (c1, q1, s1, es) => match csecs n t q1 c1 s1 with
                             | Some (c2, s2, es2) => Some (c2, s2, es ++ es2)
                             | None => None
                             end
  | None => None
  end.
Proof. intros. destruct q; (reflexivity || congruence). Qed.

Lemma csecs_0 : forall n t c s, csecs n t SUnlock c s = Some (c, s, []).
Proof. intros []; reflexivity. Qed.

Ltac sec := repeat (rewrite csecs_0 || (rewrite csecs_S by discriminate; cbn [LogLockModel.csec c_pc c_todo])).
Fixpoint tsecs (n : nat) (q : sect) s : option (sys * list ev) :=
  match q with
  | SUnlock => Some (s, [])
  | _ =>
      match n with
      | O => None
      | S n' => match tsec q s with
                | Some (Some q1, s1, es) => match tsecs n' q1 s1 with
                                            | Some (s2, es2) => Some (s2, es ++ es2)
                                            | None => None
                                            end
                | Some (None, s1, es) => Some (s1, es)
                | None => None
                end
      end
  end.

Lemma csec_crashed : forall t q c s c' q' s' es, csec t q c s = Some (c', q', s', es) -> crashed s' = crashed s.
Proof.
  intros t q [pc todo] s c' q' s' es H. destruct q; cbn in H; try discriminate;
    try (injection H as <- <- <- <-; unfold notify; cbn; try (destruct (logt s)); reflexivity);
    destruct pc; try discriminate; try (injection H as <- <- <- <-; reflexivity); try (destruct todo as [|[] todo]; try discriminate; injection H as <- <- <- <-; reflexivity).
  - destruct (pool s); injection H as <- <- <- <-; reflexivity.
  - destruct todo0; try discriminate. injection H as <- <- <- <-; reflexivity.
Qed.

(** What the end of a section leaves. *)
Definition freed (t : tid) (k : lock) fw fw' : Prop :=
  f_held fw' k = None /\ (forall k', k' <> k -> f_held fw' k' = f_held fw k') /\
  f_sect fw' t = None /\ (forall t', t' <> t -> f_sect fw' t' = f_sect fw t').

Lemma freed_next : forall t k q w fw fw', freed t k (next_sect t k (Some q) w fw) fw' -> freed t k fw fw'.
Proof.
  intros t k q w fw fw' (A & B & C & D). unfold freed. repeat split; auto; cbn in *.
  intros t' N. rewrite (D _ N). apply sect_ne. auto.
Qed.
Lemma freed_release : forall t k w fw, freed t k fw (next_sect t k None w fw).
Proof. intros t k w fw. unfold freed. cbn. repeat split; intros; rewrite ?held_eq, ?sect_eq; auto; [apply held_ne|apply sect_ne]; auto. Qed.

Lemma upd_upd : forall A i (x y : A) l, upd i (fun _ => y) (upd i (fun _ => x) l) = upd i (fun _ => y) l.
Proof. induction i; intros x y [|z l]; cbn; f_equal; auto. Qed.

Lemma run_csecs : forall n i k q c fw c' s' es, crashed (w_sys (f_world fw)) = None -> nth_error (w_clients (f_world fw)) i = Some c ->
  f_sect fw (Client i) = Some (k, q) -> csecs n (Client i) q c (w_sys (f_world fw)) = Some (c', s', es) ->
  exists m fw', frun (repeat (Go i) m) fw = Some (fw', es) /\ f_world fw' = mkWorld s' (upd i (fun _ => c') (w_clients (f_world fw))) /\ freed (Client i) k fw fw'.
Proof.
  assert (Z : forall i k c fw, crashed (w_sys (f_world fw)) = None -> nth_error (w_clients (f_world fw)) i = Some c -> f_sect fw (Client i) = Some (k, SUnlock) ->
    exists m fw', frun (repeat (Go i) m) fw = Some (fw', []) /\ f_world fw' = mkWorld (w_sys (f_world fw)) (upd i (fun _ => c) (w_clients (f_world fw))) /\ freed (Client i) k fw fw').
  { intros i k c fw N E F. exists 1. eexists. split; [cbn; unfold LogLockModel.fstep; rewrite N, E, F; reflexivity|]. split; [|apply freed_release].
    cbn. rewrite upd_self by auto. destruct (f_world fw). reflexivity. }
  induction n as [|n IH]; intros i k q c fw c' s' es N E F H.
  - destruct q; try discriminate. injection H as <- <- <-. eauto.
  - assert (D : q = SUnlock \/ q <> SUnlock) by (destruct q; auto; right; discriminate). destruct D as [->|D].
    { cbn in H. injection H as <- <- <-. eauto. }
    assert (H' : match csec (Client i) q c (w_sys (f_world fw)) with
                | Some (c1, q1, s1, es) => match csecs n (Client i) q1 c1 s1 with
                                           | Some (c2, s2, es2) => Some (c2, s2, es ++ es2)
                                           | None => None
                                           end
                | None => None
                end = Some (c', s', es)) by (rewrite <- H; destruct q; (reflexivity || congruence)).
    clear H. destruct (csec (Client i) q c (w_sys (f_world fw))) as [[[[c1 q1] s1] es1]|] eqn:Eq; [|discriminate].
    destruct (csecs n (Client i) q1 c1 s1) as [[[c2 s2] es2]|] eqn:En; [|discriminate]. injection H' as <- <- <-.
    set (fw1 := next_sect (Client i) k (Some q1) (mkWorld s1 (upd i (fun _ => c1) (w_clients (f_world fw)))) fw).
    destruct (IH i k q1 c1 fw1 c2 s2 es2) as (m & fw2 & R & W & X); auto.
    + subst fw1. cbn. rewrite (csec_crashed _ _ _ _ _ _ _ _ Eq). exact N.
    + subst fw1. cbn. apply nth_error_upd_eq with (f := fun _ => c1) in E. exact E.
    + subst fw1. cbn [next_sect f_sect]. apply sect_eq.
    + exists (S m), fw2. split.
      * cbn [repeat LogLockModel.frun]. assert (Y : fstep (Go i) fw = Some (fw1, es1)).
        { unfold LogLockModel.fstep. rewrite N, E, F. destruct q; rewrite ?Eq; (reflexivity || congruence). }
        rewrite Y, R. reflexivity.
      * split; [rewrite W; subst fw1; cbn; now rewrite upd_upd|]. eapply freed_next. exact X.
Qed.

Lemma run_csecs_log : forall n o rest k q c fw c' s' es, crashed (w_sys (f_world fw)) = None -> logt (w_sys (f_world fw)) = TCall o rest c ->
  f_sect fw LogThread = Some (k, q) -> ready k q c (w_sys (f_world fw)) \/ q = SUnlock -> csecs n LogThread q c (w_sys (f_world fw)) = Some (c', s', es) ->
  exists m fw', frun (repeat (GoLog []) m) fw = Some (fw', es) /\ f_world fw' = mkWorld (set_logt (TCall o rest c') s') (w_clients (f_world fw)) /\ freed LogThread k fw fw'.
Proof.
  assert (Z : forall o rest k c fw, crashed (w_sys (f_world fw)) = None -> logt (w_sys (f_world fw)) = TCall o rest c -> f_sect fw LogThread = Some (k, SUnlock) ->
    exists m fw', frun (repeat (GoLog []) m) fw = Some (fw', []) /\ f_world fw' = mkWorld (set_logt (TCall o rest c) (w_sys (f_world fw))) (w_clients (f_world fw)) /\ freed LogThread k fw fw').
  { intros o rest k c fw N E F. exists 1. eexists. split; [cbn; unfold LogLockModel.fstep; rewrite N, F; reflexivity|]. split; [|apply freed_release].
    cbn. destruct (f_world fw) as [[] ?]. cbn in E. subst. reflexivity. }
  induction n as [|n IH]; intros o rest k q c fw c' s' es N E F O H.
  - destruct q; try discriminate. injection H as <- <- <-. eauto.
  - assert (D : q = SUnlock \/ q <> SUnlock) by (destruct q; auto; right; discriminate). destruct D as [->|D].
    { cbn in H. injection H as <- <- <-. eauto. }
    assert (H' : match csec LogThread q c (w_sys (f_world fw)) with
                | Some (c1, q1, s1, es) => match csecs n LogThread q1 c1 s1 with
                                           | Some (c2, s2, es2) => Some (c2, s2, es ++ es2)
                                           | None => None
                                           end
                | None => None
                end = Some (c', s', es)) by (rewrite <- H; destruct q; (reflexivity || congruence)).
    clear H. destruct (csec LogThread q c (w_sys (f_world fw))) as [[[[c1 q1] s1] es1]|] eqn:Eq; [|discriminate].
    destruct (csecs n LogThread q1 c1 s1) as [[[c2 s2] es2]|] eqn:En; [|discriminate]. injection H' as <- <- <-. destruct O as [O|O]; [|congruence].
    destruct (csec_frame _ _ _ _ _ _ _ _ _ Eq O) as (_ & _ & _ & FR).
    set (fw1 := next_sect LogThread k (Some q1) (mkWorld (set_logt (TCall o rest c1) s1) (w_clients (f_world fw))) fw).
    assert (Q : exists s3, csecs n LogThread q1 c1 (set_logt (TCall o rest c1) s1) = Some (c2, s3, es2) /\ set_logt (TCall o rest c2) s3 = set_logt (TCall o rest c2) s2).
    { assert (G : forall n q c s c' s' es x, x <> TAsleep -> csecs n LogThread q c s = Some (c', s', es) -> logt s <> TAsleep ->
        exists s3, csecs n LogThread q c (set_logt x s) = Some (c', s3, es) /\ forall y, set_logt y s3 = set_logt y s').
      { clear. induction n as [|n IH]; intros q c s c' s' es x X H L.
        - destruct q; try discriminate. injection H as <- <- <-. eexists. split; reflexivity.
        - assert (D : q = SUnlock \/ q <> SUnlock) by (destruct q; auto; right; discriminate). destruct D as [->|D].
          { cbn in *. injection H as <- <- <-. eexists. split; reflexivity. }
          assert (K : forall s0, csecs (S n) LogThread q c s0 = match csec LogThread q c s0 with
                | Some (c1, q1, s1, es) => match csecs n LogThread q1 c1 s1 with
                                           | Some (c2, s2, es2) => Some (c2, s2, es ++ es2)
                                           | None => None
                                           end
                | None => None
                end) by (intros; destruct q; (reflexivity || congruence)).
          rewrite K in H. rewrite K. destruct (csec LogThread q c s) as [[[[c1 q1] s1] es1]|] eqn:Eq; [|discriminate].
          destruct (csecs n LogThread q1 c1 s1) as [[[c2 s2] es2]|] eqn:En; [|discriminate]. injection H as <- <- <-.
          assert (C : csec LogThread q c (set_logt x s) = Some (c1, q1, set_logt x s1, es1) /\ logt s1 <> TAsleep).
          { destruct c as [pc todo]. destruct q; cbn in *; try discriminate;
              try (injection Eq as <- <- <- <-; cbn; auto; fail);
              try (injection Eq as <- <- <- <-; unfold notify; cbn; destruct (logt s) eqn:EL; try congruence; destruct x eqn:EX; try congruence; cbn; rewrite ?EL; split; try reflexivity; congruence);
              try (destruct pc; try discriminate; try (destruct todo as [|[] todo]; try discriminate));
              try (injection Eq as <- <- <- <-; cbn; auto; fail).
            all: try (destruct (pool s); injection Eq as <- <- <- <-; auto; fail).
            all: try (destruct todo0; try discriminate; injection Eq as <- <- <- <-; auto; fail).
            all: try (match goal with H : match ?l with [] => None | _ => _ end = _ |- _ => destruct l; try discriminate end; injection Eq as <- <- <- <-; split; auto; destruct f; reflexivity). }
          destruct C as (C & L1). rewrite C. destruct (IH _ _ _ _ _ _ x X En L1) as (s3 & A & B). rewrite A. eauto. }
      destruct (csec_frame _ _ _ _ _ _ _ _ _ Eq O) as (_ & _ & FL & _).
      destruct (G n q1 c1 s1 c2 s2 es2 (TCall o rest c1)) as (s3 & A & B); auto; [discriminate| |].
      - destruct FL as [->|(FL & _)]; congruence.
      - eauto. }
    destruct Q as (s3 & Q1 & Q2).
    destruct (IH o rest k q1 c1 fw1 c2 s3 es2) as (m & fw2 & R & W & X); auto.
    + subst fw1. cbn. rewrite (csec_crashed _ _ _ _ _ _ _ _ Eq). exact N.
    + destruct FR as [FR|FR]; auto.
    + exists (S m), fw2. split.
      * cbn [repeat LogLockModel.frun]. assert (Y : fstep (GoLog []) fw = Some (fw1, es1)).
        { unfold LogLockModel.fstep. rewrite N, F, E. destruct q; rewrite ?Eq; (reflexivity || congruence). }
        rewrite Y, R. reflexivity.
      * split; [rewrite W; subst fw1; cbn; now rewrite Q2|]. eapply freed_next. exact X.
Qed.

Lemma run_tsecs : forall n k q fw s' es, crashed (w_sys (f_world fw)) = None ->
  f_sect fw LogThread = Some (k, q) -> tready k q (w_sys (f_world fw)) \/ q = SUnlock -> tsecs n q (w_sys (f_world fw)) = Some (s', es) ->
  exists m fw', frun (repeat (GoLog []) m) fw = Some (fw', es) /\ f_world fw' = mkWorld s' (w_clients (f_world fw)) /\ freed LogThread k fw fw'.
Proof.
  assert (Z : forall k fw, crashed (w_sys (f_world fw)) = None -> f_sect fw LogThread = Some (k, SUnlock) ->
    exists m fw', frun (repeat (GoLog []) m) fw = Some (fw', []) /\ f_world fw' = mkWorld (w_sys (f_world fw)) (w_clients (f_world fw)) /\ freed LogThread k fw fw').
  { intros k fw N F. exists 1. eexists. split; [cbn; unfold LogLockModel.fstep; rewrite N, F; reflexivity|]. split; [|apply freed_release].
    cbn. destruct (f_world fw). reflexivity. }
  induction n as [|n IH]; intros k q fw s' es N F O H.
  - destruct q; try discriminate. injection H as <- <-. eauto.
  - assert (D : q = SUnlock \/ q <> SUnlock) by (destruct q; auto; right; discriminate). destruct D as [->|D].
    { cbn in H. injection H as <- <-. eauto. }
    assert (H' : match tsec q (w_sys (f_world fw)) with
                | Some (Some q1, s1, es) => match tsecs n q1 s1 with
                                            | Some (s2, es2) => Some (s2, es ++ es2)
                                            | None => None
                                            end
                | Some (None, s1, es) => Some (s1, es)
                | None => None
                end = Some (s', es)) by (rewrite <- H; destruct q; (reflexivity || congruence)).
    clear H. destruct O as [O|O]; [|congruence]. destruct (tsec q (w_sys (f_world fw))) as [[[q1 s1] es1]|] eqn:Eq; [|discriminate].
    destruct (tsec_frame _ _ _ _ _ _ Eq O) as (_ & _ & FR & FC).
    assert (Y : fstep (GoLog []) fw = Some (next_sect LogThread k q1 (mkWorld s1 (w_clients (f_world fw))) fw, es1)).
    { unfold LogLockModel.fstep. rewrite N, F, Eq. destruct (tready_logt _ _ _ O) as (_ & _ & _ & NC). destruct q; try congruence; destruct (logt (w_sys (f_world fw))); try reflexivity; edestruct NC; reflexivity. }
    destruct q1 as [q1|].
    + destruct (tsecs n q1 s1) as [[s2 es2]|] eqn:En; [|discriminate]. injection H' as <- <-.
      destruct (IH k q1 (next_sect LogThread k (Some q1) (mkWorld s1 (w_clients (f_world fw))) fw) s2 es2) as (m & fw2 & R & W & X); auto.
      * cbn. congruence.
      * destruct q1; auto.
      * exists (S m), fw2. split; [cbn [repeat LogLockModel.frun]; rewrite Y, R; reflexivity|]. split; auto. eapply freed_next. exact X.
    + injection H' as <- <-. exists 1. eexists. split; [cbn [repeat LogLockModel.frun]; rewrite Y, app_nil_r; reflexivity|]. split; [reflexivity|apply freed_release].
Qed.

Lemma csecs_ready : forall t k q c s, ready k q c s -> exists c' s' es, csecs 4 t q c s = Some (c', s', es).
Proof.
  intros t k q c s R. destruct c as [pc todo]. destruct q; try (destruct R; fail); cbn [ready] in R.
  - apply needs_lock in R. destruct R as (-> & m & o & E). cbn in E. subst pc. sec.
    destruct (_ <? _); sec; eauto.
  - sec. destruct (_ <? _); sec; eauto.
  - sec. eauto.
  - sec. eauto.
  - apply needs_lock in R. destruct R as (-> & p & E1 & E2). cbn in E1, E2. subst pc todo. sec. eauto.
  - apply needs_lock in R. destruct R as (-> & l & p & E1 & E2). cbn in E1, E2. subst pc todo. sec. eauto.
  - apply needs_lock in R. destruct R as (-> & m & E). cbn in E. subst pc. sec. destruct (pool s); sec; eauto.
  - destruct R as (R & p & Ep). apply needs_lock in R. destruct R as (-> & m & E). cbn in E. subst pc. sec. eauto.
  - apply needs_lock in R. destruct R as (f & fs & E & R). cbn in E. subst pc. sec. eauto.
Qed.

Lemma tsecs_copy : forall m n s, m = List.length (pending s) - n ->
  tsecs (2 + m) (SCopy n) s = Some (set_pending [] (set_active (active s ++ skipn n (pending s)) s), []).
Proof.
  induction m as [|m IH]; intros n s H.
  - cbn. destruct (nth_error (pending s) n) eqn:E.
    + assert (n < List.length (pending s)) by (apply nth_error_Some; congruence). lia.
    + rewrite (skipn_past _ _ _ E), app_nil_r. destruct s; reflexivity.
  - destruct (nth_error (pending s) n) as [l|] eqn:E.
    + assert (n < List.length (pending s)) by (apply nth_error_Some; congruence).
      change (2 + S m) with (S (2 + m)). cbn [tsecs tsec]. rewrite E. cbn [tsec].
      replace (tsecs (2 + m) (SCopy (S n)) (set_active (active s ++ [l]) s)) with
        (Some (set_pending [] (set_active (active (set_active (active s ++ [l]) s) ++ skipn (S n) (pending (set_active (active s ++ [l]) s))) (set_active (active s ++ [l]) s)), @nil ev))
        by (symmetry; apply IH; cbn; lia).
      rewrite (skipn_step _ _ _ _ E). cbn. rewrite <- app_assoc. destruct s; reflexivity.
    + apply nth_error_None in E. lia.
Qed.

Lemma tsecs_go : forall n q s q1 s1 es s2 es2, q <> SUnlock -> tsec q s = Some (Some q1, s1, es) -> tsecs n q1 s1 = Some (s2, es2) -> tsecs (S n) q s = Some (s2, es ++ es2).
Proof. intros n q s q1 s1 es s2 es2 N H H2. destruct q; try congruence; cbn [tsecs]; rewrite H, H2; reflexivity. Qed.
Lemma tsecs_end : forall n q s s1 es, q <> SUnlock -> tsec q s = Some (None, s1, es) -> tsecs (S n) q s = Some (s1, es).
Proof. intros n q s s1 es N H. destruct q; try congruence; cbn [tsecs]; rewrite H; reflexivity. Qed.
Lemma tsecs_un : forall n s, tsecs n SUnlock s = Some (s, []).
Proof. destruct n; reflexivity. Qed.

Lemma tsecs_progress : forall n k q s, tready k q s -> (forall q1 s1 es, tsec q s = Some (Some q1, s1, es) -> q1 = SUnlock \/ exists s2 es2, tsecs n q1 s1 = Some (s2, es2)) ->
  exists s2 es2, tsecs (S n) q s = Some (s2, es2).
Proof.
  intros n k q s R H. assert (N : q <> SUnlock) by (intros ->; exact R). destruct (tsec q s) as [[[[q1|] s1] es]|] eqn:E.
  - destruct (H _ _ _ eq_refl) as [->|(s2 & es2 & K)]; [do 2 eexists; eapply tsecs_go; eauto; apply tsecs_un|do 2 eexists; eapply tsecs_go; eauto].
  - do 2 eexists. eapply tsecs_end; eauto.
  - exfalso. eapply tsec_live; eauto.
Qed.

Lemma tsecs_ready : forall k q s, tready k q s -> exists n s' es, tsecs n q s = Some (s', es).
Proof.
  intros k q s R.
  assert (T1 : forall k o s, tready k (SPopFront o) s -> exists s' es, tsecs 1 (SPopFront o) s = Some (s', es)).
  { clear. intros k o s (-> & E & Et & p & Eq). do 2 eexists. eapply tsecs_go; [discriminate|unfold tsec; rewrite E; reflexivity|reflexivity]. }
  assert (T2 : forall k s, tready k SFront s -> exists s' es, tsecs 2 SFront s = Some (s', es)).
  { clear - T1. intros k s R. eapply tsecs_progress; eauto. intros q1 s1 es H1. destruct (tsec_frame _ _ _ _ _ _ H1 R) as (_ & _ & R1 & _).
    destruct R as (_ & E & Q & _). unfold tsec in H1. rewrite E in H1. destruct (queue s) as [|o p]; [congruence|]. injection H1 as <- <- <-. right. eapply T1. exact R1. }
  assert (T3 : forall k s, tready k STerm s -> exists s' es, tsecs 3 STerm s = Some (s', es)).
  { clear - T2. intros k s R. eapply tsecs_progress; eauto. intros q1 s1 es H1. destruct (tsec_frame _ _ _ _ _ _ H1 R) as (_ & _ & R1 & _).
    destruct R as (_ & E & _). unfold tsec in H1. rewrite E in H1. destruct (terminated s); [discriminate|]. injection H1 as <- <- <-. right. eapply T2. exact R1. }
  destruct q; try (destruct R; fail).
  - exists 4. eapply tsecs_progress; eauto. intros q1 s1 es H1. destruct (tsec_frame _ _ _ _ _ _ H1 R) as (_ & _ & R1 & _).
    assert (q1 = STerm) as ->.
    { destruct R as (_ & E). unfold tsec in H1. rewrite E in H1. destruct (queue s); [destruct (terminated s)|]; congruence. }
    right. apply T3 with (k := k). exact R1.
  - exists 3. eapply T3. exact R.
  - exists 2. eapply T2. exact R.
  - exists 1. eapply T1. exact R.
  - exists (2 + (List.length (pending s) - n)). do 2 eexists. now apply tsecs_copy.
  - exists 1. cbn. eauto.
  - exists 2. eapply tsecs_progress; eauto. intros q1 s1 es H1. destruct R as (_ & o & E). unfold tsec in H1. rewrite E in H1.
    destruct (_ <? POOL) in H1; injection H1 as <- <- <-; auto. right. cbn. rewrite E. eauto.
  - exists 1. eapply tsecs_progress; eauto. intros q1 s1 es H1. destruct R as (_ & _ & o & E). unfold tsec in H1. rewrite E in H1. injection H1 as <- <- <-. auto.
Qed.

(** A thread that holds a mutex gets to release it on its own. *)
Lemma released : forall sn g lf progs fw tr t k, freaches compile rmatch sn g lf progs fw tr -> inside fw t k -> crashed (w_sys (f_world fw)) = None ->
  exists n fw' es, frun (repeat (own_move t) n) fw = Some (fw', es) /\ f_held fw' k = None /\ f_sect fw' t = None.
Proof.
  intros sn g lf progs fw tr t k H (q & F) N. pose proof (freaches_inv _ _ _ _ _ _ H) as V. pose proof (i_sect _ V _ _ _ F) as O. destruct t as [i|]; cbn in O.
  - destruct O as (c & E & O). assert (C : exists c' s' es, csecs 4 (Client i) q c (w_sys (f_world fw)) = Some (c', s', es)).
    { destruct O as [->|O]; [cbn; eauto|eapply csecs_ready; eauto]. }
    destruct C as (c' & s' & es & C). destruct (run_csecs _ _ _ _ _ _ _ _ _ N E F C) as (m & fw' & R & _ & (X1 & _ & X2 & _)). eauto 6.
  - destruct O as [->|[(o & rest & c & E & O)|O]].
    + assert (C : exists fw' es, frun (repeat (GoLog []) 1) fw = Some (fw', es) /\ f_held fw' k = None /\ f_sect fw' LogThread = None).
      { do 2 eexists. cbn. unfold LogLockModel.fstep. rewrite N, F. split; [reflexivity|]. cbn. rewrite held_eq. auto. }
      destruct C as (fw' & es & C). eauto.
    + destruct (csecs_ready LogThread _ _ _ _ O) as (c' & s' & es & C). destruct (run_csecs_log _ _ _ _ _ _ _ _ _ _ N E F (or_introl O) C) as (m & fw' & R & _ & (X1 & _ & X2 & _)). eauto 6.
    + destruct (tsecs_ready _ _ _ O) as (n & s' & es & C). destruct (run_tsecs _ _ _ _ _ _ N F (or_introl O) C) as (m & fw' & R & _ & (X1 & _ & X2 & _)). eauto 6.
Qed.

(** ** Nothing is lost *)
Lemma csecs_cstep : forall t c s c' s' es k q, needs c = Some (k, q) -> cstep t c s = Some (c', s', es) -> csecs 4 t q c s = Some (c', s', es).
Proof.
  intros t c s c' s' es k q R H. destruct c as [pc todo]. pose proof (needs_lock _ _ _ R) as K. unfold LogModel.cstep in H. destruct q; try contradiction.
  - destruct K as (-> & m & o & E). cbn in E. subst pc. cbn [c_pc c_todo] in H. injection H as <- <- <-. sec.
    cbn [queue set_queue maxq]. destruct (_ <? _); sec; reflexivity.
  - destruct K as (-> & p & E1 & E2). cbn in E1, E2. subst pc todo. cbn in H. injection H as <- <- <-. sec. reflexivity.
  - destruct K as (-> & l & p & E1 & E2). cbn in E1, E2. subst pc todo. cbn in H. injection H as <- <- <-. sec. reflexivity.
  - destruct K as (-> & m & E). cbn in E. subst pc. cbn in H. sec. destruct (pool s) eqn:Ep; injection H as <- <- <-; sec; rewrite ?Ep; reflexivity.
  - destruct K as (f & fs & E & K). cbn in E. subst pc. destruct K as [(-> & _)|[(-> & _)|(-> & _)]]; cbn in H; injection H as <- <- <-; sec; reflexivity.
Qed.

Definition asleep_all fw : Prop := (forall t, f_sect fw t = None) /\ (forall k, f_held fw k = None).

Lemma freed_all : forall t k q w fw fw' , asleep_all fw -> freed t k (mkF w (set_held k (Some t) (f_held fw)) (set_sect t (Some (k, q)) (f_sect fw))) fw' -> asleep_all fw'.
Proof.
  intros t k q w fw fw' (A & B) (C & D & E & F). split.
  - intros t'. destruct (tid_eqb_spec t t') as [<-|N]; auto. rewrite F by auto. cbn. rewrite sect_ne; auto.
  - intros k'. destruct (lock_eqb_spec k k') as [<-|N]; auto. rewrite D by auto. cbn. rewrite held_ne; auto.
Qed.

Lemma every_step : forall ch w w' es fw, step ch w = Some (w', es) -> f_world fw = w -> asleep_all fw ->
  exists sched fw', frun sched fw = Some (fw', es) /\ f_world fw' = w' /\ asleep_all fw'.
Proof.
  intros ch w w' es fw H W A. unfold LogModel.step in H. destruct (crashed (w_sys w)) eqn:N; [discriminate|]. pose proof A as (A1 & A2). destruct ch as [i|cb|].
  - destruct (nth_error (w_clients w) i) as [c|] eqn:E; [|discriminate]. destruct (cstep (Client i) c (w_sys w)) as [[[c' s'] es1]|] eqn:C; [|discriminate]. injection H as <- <-.
    destruct (needs c) as [[k q]|] eqn:En.
    + set (fw1 := mkF w (set_held k (Some (Client i)) (f_held fw)) (set_sect (Client i) (Some (k, q)) (f_sect fw))).
      assert (S : fstep (Go i) fw = Some (fw1, [])).
      { unfold LogLockModel.fstep. rewrite W, N, E, A1, En. unfold acquire. rewrite A2. reflexivity. }
      destruct (run_csecs 4 i k q c fw1 c' s' es1) as (m & fw2 & R & W2 & X); auto.
      * subst fw1. cbn [f_sect]. apply sect_eq.
      * subst fw1. cbn [f_world]. eapply csecs_cstep; eauto.
      * exists (Go i :: repeat (Go i) m), fw2. cbn [LogLockModel.frun]. rewrite S, R. repeat split; auto; eapply freed_all; eauto.
    + assert (S : fstep (Go i) fw = Some (mkF (mkWorld s' (upd i (fun _ => c') (w_clients w))) (f_held fw) (f_sect fw), es1)).
      { unfold LogLockModel.fstep, copying. rewrite W, N, E, A1, En, A1, andb_false_r, C. reflexivity. }
      exists [Go i]. eexists. cbn [LogLockModel.frun]. rewrite S, app_nil_r. split; [reflexivity|]. split; auto.
  - destruct (lstep cb (w_sys w)) as [[s' es1]|] eqn:C; [|discriminate]. injection H as <- <-.
    assert (S0 : forall k q, tneeds (w_sys w) = Some (k, q) -> (forall o, logt (w_sys w) <> TGot o) ->
      fstep (GoLog []) fw = Some (mkF w (set_held k (Some LogThread) (f_held fw)) (set_sect LogThread (Some (k, q)) (f_sect fw)), [])).
    { intros k q En ND. unfold LogLockModel.fstep. rewrite W, N, A1, En. unfold acquire. rewrite A2. destruct (logt (w_sys w)); try reflexivity. edestruct ND; reflexivity. }
    assert (ST : forall k q n, tneeds (w_sys w) = Some (k, q) -> (forall o, logt (w_sys w) <> TGot o) -> tready k q (w_sys w) -> tsecs n q (w_sys w) = Some (s', es1) ->
      exists sched fw', frun sched fw = Some (fw', es1) /\ f_world fw' = mkWorld s' (w_clients w) /\ asleep_all fw').
    { intros k q n En ND T TS. set (fw1 := mkF w (set_held k (Some LogThread) (f_held fw)) (set_sect LogThread (Some (k, q)) (f_sect fw))).
      destruct (run_tsecs n k q fw1 s' es1) as (m & fw2 & R & W2 & X); auto.
      exists (GoLog [] :: repeat (GoLog []) m), fw2. cbn [LogLockModel.frun]. rewrite (S0 _ _ En ND). fold fw1. rewrite R. repeat split; auto; eapply freed_all; eauto. }
    destruct (tneeds (w_sys w)) as [[k q]|] eqn:En.
    + unfold tneeds in En. unfold LogModel.lstep in C. destruct (logt (w_sys w)) eqn:El; try discriminate.
      * injection En as <- <-. apply (ST MMessage SWait 5); auto; [congruence|cbn; auto|].
        destruct (terminated (w_sys w)) eqn:Et; [|destruct (queue (w_sys w)) as [|o p] eqn:Eq]; injection C as <- <-.
        -- change (@nil ev) with (@nil ev ++ []). eapply tsecs_go with (q1 := STerm) (s1 := w_sys w); [discriminate| |].
           ++ unfold tsec. rewrite El, Et. destruct (queue (w_sys w)); reflexivity.
           ++ eapply tsecs_end; [discriminate|]. unfold tsec. rewrite El, Et. reflexivity.
        -- eapply tsecs_end; [discriminate|]. unfold tsec. rewrite El, Et, Eq. reflexivity.
        -- change ([EvPop (content (w_sys w) o)]) with ([] ++ [] ++ [] ++ [EvPop (content (w_sys w) o)] ++ []).
           eapply tsecs_go with (q1 := STerm) (s1 := w_sys w); [discriminate|unfold tsec; rewrite El, Eq; reflexivity|].
           eapply tsecs_go with (q1 := SFront) (s1 := w_sys w); [discriminate|unfold tsec; rewrite El, Et; reflexivity|].
           eapply tsecs_go with (q1 := SPopFront o) (s1 := w_sys w); [discriminate|unfold tsec; rewrite El, Eq; reflexivity|].
           eapply tsecs_go with (q1 := SUnlock); [discriminate|unfold tsec; rewrite El, Eq; reflexivity|reflexivity].
      * injection En as <- <-. injection C as <- <-.
        set (fw1 := mkF (mkWorld (set_logt (TCount o) (w_sys w)) (w_clients w)) (set_held MListeners (Some LogThread) (f_held fw)) (set_sect LogThread (Some (MListeners, SCopy 0)) (f_sect fw))).
        assert (S : fstep (GoLog []) fw = Some (fw1, [EvBegin (content (w_sys w) o)])).
        { unfold LogLockModel.fstep, tneeds. rewrite W, N, A1, El. unfold acquire. rewrite A2. reflexivity. }
        destruct (run_tsecs (2 + (List.length (pending (w_sys w)) - 0)) MListeners (SCopy 0) fw1
          (set_pending [] (set_active (active (set_logt (TCount o) (w_sys w)) ++ skipn 0 (pending (set_logt (TCount o) (w_sys w)))) (set_logt (TCount o) (w_sys w)))) []) as (m & fw2 & R & W2 & X); auto.
        { left. cbn. eauto. }
        { apply tsecs_copy. reflexivity. }
        exists (GoLog [] :: repeat (GoLog []) m), fw2. cbn [LogLockModel.frun]. rewrite S, R. repeat split; auto; eapply freed_all; eauto.
      * set (fw1 := mkF w (set_held k (Some LogThread) (f_held fw)) (set_sect LogThread (Some (k, q)) (f_sect fw))).
        assert (C' : exists c' s1, cstep LogThread c (w_sys w) = Some (c', s1, es1) /\ s' = set_logt (TCall o rest c') s1).
        { destruct (c_pc c) eqn:Ep; destruct (c_todo c) eqn:Ed; try (destruct (cstep LogThread c (w_sys w)) as [[[c' s1] es2]|]; [|discriminate]; injection C as <- <-; eauto).
          exfalso. unfold needs in En. rewrite Ep, Ed in En. discriminate. }
        destruct C' as (c' & s1 & C' & ->).
        destruct (run_csecs_log 4 o rest k q c fw1 c' s1 es1) as (m & fw2 & R & W2 & X); auto.
        { left. now apply needs_ready. }
        { eapply csecs_cstep; eauto. }
        exists (GoLog [] :: repeat (GoLog []) m), fw2. cbn [LogLockModel.frun]. rewrite (S0 k q); auto; [|congruence]. fold fw1. rewrite R. repeat split; auto; eapply freed_all; eauto.
      * injection En as <- <-. apply (ST MPool SDispose 3); auto; [congruence|cbn; eauto|].
        destruct (List.length (pool (w_sys w)) <? POOL) eqn:Ew; injection C as <- <-.
        -- change (@nil ev) with (@nil ev ++ [] ++ []). eapply tsecs_go with (q1 := SGive) (s1 := w_sys w); [discriminate|unfold tsec; rewrite El, Ew; reflexivity|].
           eapply tsecs_go with (q1 := SUnlock); [discriminate|unfold tsec; rewrite El; reflexivity|reflexivity].
        -- change (@nil ev) with (@nil ev ++ []). eapply tsecs_go with (q1 := SUnlock); [discriminate|unfold tsec; rewrite El, Ew; reflexivity|reflexivity].
    + assert (S : fstep (GoLog cb) fw = Some (mkF (mkWorld s' (w_clients w)) (f_held fw) (f_sect fw), es1)).
      { unfold LogLockModel.fstep. rewrite W, N, A1, En, C. reflexivity. }
      exists [GoLog cb]. eexists. cbn [LogLockModel.frun]. rewrite S, app_nil_r. split; [reflexivity|]. split; auto.
  - destruct (logt (w_sys w)) eqn:El; try discriminate. injection H as <- <-.
    assert (S : fstep Wake fw = Some (mkF (mkWorld (set_logt TCheck (w_sys w)) (w_clients w)) (f_held fw) (f_sect fw), [])).
    { unfold LogLockModel.fstep. rewrite W, N, El. reflexivity. }
    exists [Wake]. eexists. cbn [LogLockModel.frun]. rewrite S. split; [reflexivity|]. split; auto.
Qed.

Lemma every_run : forall sn g lf progs w tr, reaches compile rmatch sn g lf progs w tr ->
  exists fw, freaches compile rmatch sn g lf progs fw tr /\ f_world fw = w /\ quiet fw.
Proof.
  intros sn g lf progs w tr [sched H].
  assert (G : forall sched w w' tr fw, run sched w = Some (w', tr) -> f_world fw = w -> asleep_all fw ->
    exists sched' fw', frun sched' fw = Some (fw', tr) /\ f_world fw' = w' /\ asleep_all fw').
  { clear. induction sched as [|ch sched IH]; intros w w' tr fw H W A; cbn in H.
    - injection H as <- <-. exists [], fw. auto.
    - destruct (step ch w) as [[w1 es]|] eqn:E; [|discriminate]. destruct (run sched w1) as [[w2 es2]|] eqn:E2; [|discriminate]. injection H as <- <-.
      destruct (every_step _ _ _ _ _ E W A) as (s1 & fw1 & R1 & W1 & B1). destruct (IH _ _ _ _ E2 W1 B1) as (s2 & fw2 & R2 & W2 & B2).
      exists (s1 ++ s2), fw2. rewrite (frun_app _ _ _ _ _ R1), R2. auto. }
  destruct (G _ _ _ _ (finit (init sn g lf progs)) H eq_refl) as (sched' & fw & R & W & (A & B)); [split; reflexivity|].
  exists fw. split; [exists sched'; exact R|]. split; auto. intros t k (q & Q). rewrite A in Q. discriminate.
Qed.

Lemma traces : forall sn g lf progs tr, (exists fw, freaches compile rmatch sn g lf progs fw tr) <-> (exists w, reaches compile rmatch sn g lf progs w tr).
Proof.
  intros sn g lf progs tr. split.
  - intros (fw & H). destruct (same_events _ _ _ _ _ _ H) as (w & R & _). eauto.
  - intros (w & H). destruct (every_run _ _ _ _ _ _ H) as (fw & R & _). eauto.
Qed.

Lemma states : forall sn g lf progs w tr, reaches compile rmatch sn g lf progs w tr <->
  exists fw, freaches compile rmatch sn g lf progs fw tr /\ f_world fw = w /\ quiet fw /\ defined fw.
Proof.
  intros sn g lf progs w tr. split.
  - intros H. destruct (every_run _ _ _ _ _ _ H) as (fw & R & W & Q). exists fw. repeat split; auto. unfold defined. rewrite W. eapply reaches_not_ub; eauto.
  - intros (fw & H & <- & Q & D). destruct (same_events _ _ _ _ _ _ H) as (w & R & _ & E). rewrite <- E by auto. exact R.
Qed.

Lemma undefined_only : forall sn g lf progs fw tr, freaches compile rmatch sn g lf progs fw tr -> ~ defined fw -> (exists i, looking fw i) /\ appending fw.
Proof.
  intros sn g lf progs fw tr H D. assert (C : crashed (w_sys (f_world fw)) = Some UB).
  { unfold defined in D. destruct (crashed (w_sys (f_world fw))) as [[]|]; auto; exfalso; apply D; discriminate. }
  destruct (ub_only_looks _ _ _ _ _ _ H C) as (i & c & E & L & K). split.
  - exists i. unfold looks in L. destruct (c_pc c) as [| | | | | | | | | |[|[] fs]|n rs fs] eqn:Ec; try discriminate;
      try (left; do 2 eexists; (split; [exists c; split; [exact E|exact Ec]|auto]); fail). right. exists n, rs, fs, c. auto.
  - unfold copying in K. destruct (f_sect fw LogThread) as [[k []]|] eqn:Es; try discriminate. exists n.
    pose proof (i_sect _ (freaches_inv _ _ _ _ _ _ H) _ _ _ Es) as O. cbn in O. destruct O as [O|[(o & rest & c1 & _ & O)|O]]; try discriminate; try contradiction.
    destruct O as (-> & _). exact Es.
Qed.

(** No thread calls getDiags(), no undefined behaviour. *)
Lemma no_diags_defined : forall sn g lf progs fw tr, (forall p, In p progs -> ~ In CDiags p) ->
  freaches compile rmatch sn g lf progs fw tr -> defined fw.
Proof.
  intros sn g lf progs fw tr N H. destruct (same_events _ _ _ _ _ _ H) as (w & R & C & _).
  unfold defined. intros U. destruct (ub_only_looks _ _ _ _ _ _ H U) as (i & c & E & L & _).
  rewrite <- C in E. destruct (diags_called _ _ _ _ _ _ _ _ i R) as (p & Ep & I).
  - unfold looks in L. destruct (c_pc c) eqn:Ec; try discriminate; [left; eexists|right; do 3 eexists]; exists c; eauto.
  - apply nth_error_In in Ep. eapply N; eauto.
Qed.

Lemma no_lost_wakeup_fine : forall sn g lf progs fw tr, freaches compile rmatch sn g lf progs fw tr -> defined fw -> logt (w_sys (f_world fw)) = TAsleep ->
  (queue (w_sys (f_world fw)) <> [] -> will_notify fw) /\ (terminated (w_sys (f_world fw)) = true -> will_notify fw \/ exists i, at_pc (f_world fw) i StopNotify).
Proof.
  intros sn g lf progs fw tr [sched H] D L. destruct (frun_sim _ _ _ _ (finit_inv _) H) as (V & R). rewrite finit_settled in R.
  destruct R as [(sched' & R)|(fw1 & sched' & i & c & _ & _ & _ & _ & _ & ->)]; [|exfalso; apply D; reflexivity].
  assert (K : will_notify fw \/ logt (w_sys (settled fw)) = TAsleep).
  { unfold settled, fin. cbn [w_sys]. rewrite fl_logt. unfold hold. destruct (f_held fw MMessage) as [t|] eqn:Hm; [|auto]. destruct (proj1 (i_held _ V _ _) Hm) as (q & Hq).
    rewrite Hq. destruct q; auto; left; exists t; eexists; split; eauto. }
  destruct K as [K|K]; [tauto|]. destruct (no_lost_wakeup compile rmatch sn g lf progs (settled fw) tr (ex_intro _ sched' R) K) as (A & B). split.
  - intros Q. exfalso. apply Q. unfold waiting in A. apply map_eq_nil in A. unfold settled in A. cbn [w_sys] in A. now rewrite fin_queue in A.
  - intros T. right. destruct B as (i & B); [unfold settled; cbn [w_sys]; now rewrite fin_terminated|]. exists i. exact B.
Qed.

Lemma exclusive : forall sn g lf progs fw tr k t1 t2, freaches compile rmatch sn g lf progs fw tr -> inside fw t1 k -> inside fw t2 k -> t1 = t2.
Proof.
  intros sn g lf progs fw tr k t1 t2 H A B. apply (mutex _ _ _ _ _ _ _ _ H) in A. apply (mutex _ _ _ _ _ _ _ _ H) in B. congruence.
Qed.

End Log.
