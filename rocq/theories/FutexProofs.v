(** * Futex: proofs *)
From Coq Require Import List Arith NArith Lia Bool.
From Verif Require Import Base ListFacts FutexModel FutexSpec.
Import ListNotations.

Section Proofs.
Context {D L : Type}.
Notation fstate := (fstate D L).
Notation body := (body D L).
Implicit Types (s : fstate) (tr : list (nat * fevent D L)).

Lemma map_upd_same : forall {A B} (f : A -> B) t x y l, nth_error l t = Some x -> f y = f x ->
  map f (upd t (fun _ => y) l) = map f l.
Proof.
  intros A B f t x y l. revert t. induction l as [|a l IH]; intros [|t] H E; simpl in *; try discriminate.
  - injection H as ->. congruence.
  - f_equal. eauto.
Qed.

Lemma map_upd : forall {A B} (f : A -> B) t y l,
  map f (upd t (fun _ => y) l) = upd t (fun _ => f y) (map f l).
Proof. intros A B f t y l. revert t. induction l; intros [|t]; simpl; f_equal; auto. Qed.

Lemma upd_upd : forall {A} t (x y : A) l, upd t (fun _ => y) (upd t (fun _ => x) l) = upd t (fun _ => y) l.
Proof. intros A t x y l. revert t. induction l; intros [|t]; simpl; f_equal; auto. Qed.

Lemma upd_self : forall {A} t (x : A) l, nth_error l t = Some x -> upd t (fun _ => x) l = l.
Proof.
  intros A t x l. revert t. induction l; intros [|t] H; simpl in *; try discriminate; f_equal; auto. congruence.
Qed.

Lemma exec_body_app : forall (b c : body) l d,
  exec_body (b ++ c) l d = let (l', d') := exec_body b l d in exec_body c l' d'.
Proof.
  induction b as [|a b IH]; intros c l d; simpl; auto. destruct (a l d). apply IH.
Qed.

Lemma acquisitions_app : forall tr1 tr2, acquisitions (tr1 ++ tr2) = acquisitions tr1 ++ acquisitions tr2.
Proof. induction tr1 as [|[t []] tr1 IH]; intros; simpl; auto. rewrite IH. auto. Qed.

Lemma serial_snoc : forall log tb (x : D * list L), serial (log ++ [tb]) x = run_section tb (serial log x).
Proof. intros. unfold serial. rewrite fold_left_app. reflexivity. Qed.

(** Position of one thread: at most an outsider. *)
Definition waits (th : thread D L) : Prop :=
  match t_pc th with
  | Out => True
  | Cas o _ => o = false /\ t_todo th <> []
  | Failed _ => t_todo th <> []
  | In _ => False
  end.

Definition others_wait s t : Prop :=
  forall t' th, t' <> t -> nth_error (threads s) t' = Some th -> waits th.

Definition finv (x0 : D * list L) s tr : Prop :=
  (owned s = false /\ (forall t th, nth_error (threads s) t = Some th -> waits th) /\
   memory s = serial (acquisitions tr) x0) \/
  (owned s = true /\ exists t th rest done pre,
     nth_error (threads s) t = Some th /\ t_pc th = In rest /\ others_wait s t /\
     acquisitions tr = done ++ [(t, pre ++ rest)] /\
     memory s = run_section (t, pre) (serial done x0) /\
     exists l, nth_error (snd (serial done x0)) t = Some l).

Lemma memory_upd : forall s t th th', nth_error (threads s) t = Some th -> t_local th' = t_local th ->
  memory (mkF (owned s) (data s) (upd t (fun _ => th') (threads s))) = memory s.
Proof.
  intros s t th th' H E. unfold memory. cbn. f_equal. eapply map_upd_same; eauto.
Qed.

Lemma run_section_nil : forall t (x : D * list L), run_section (t, []) x = x.
Proof.
  intros t [d ls]. simpl. destruct (nth_error ls t) eqn:E; auto. f_equal. apply upd_self. auto.
Qed.

Lemma waits_upd : forall s t th', (forall t th, nth_error (threads s) t = Some th -> waits th) -> waits th' ->
  forall t1 th1, nth_error (upd t (fun _ => th') (threads s)) t1 = Some th1 -> waits th1.
Proof.
  intros s t th' H W t1 th1 E. destruct (Nat.eq_dec t1 t) as [->|N].
  - destruct (nth_error (threads s) t) as [x|] eqn:G.
    + rewrite (nth_error_upd_eq _ _ _ _ G) in E. congruence.
    + apply nth_error_None in G. assert (t < length (upd t (fun _ => th') (threads s))) by (apply nth_error_Some; congruence).
      rewrite upd_length in *. lia.
  - rewrite nth_error_upd_neq in E by auto. eauto.
Qed.

(** The step of a waiting thread that does not acquire keeps the invariant. *)
Lemma wait_step : forall x0 s tr t th th' e, finv x0 s tr -> nth_error (threads s) t = Some th -> waits th ->
  waits th' -> t_local th' = t_local th -> acquisitions [(t, e)] = [] ->
  finv x0 (mkF (owned s) (data s) (upd t (fun _ => th') (threads s))) (tr ++ [(t, e)]).
Proof.
  intros x0 s tr t th th' e I Ht W W' El Ea.
  assert (EA : acquisitions (tr ++ [(t, e)]) = acquisitions tr) by (rewrite acquisitions_app, Ea, app_nil_r; auto).
  destruct I as [(I1 & I2 & I3)|(I1 & t0 & th0 & rest & done & pre & J1 & J2 & J3 & J4 & J5 & J6)].
  - left. cbn [owned threads]. split; auto. split; [eapply waits_upd; eauto|].
    rewrite (memory_upd s t th th'), EA; auto.
  - right. cbn [owned threads]. split; auto.
    assert (N : t <> t0). { intros ->. rewrite Ht in J1. injection J1 as ->. unfold waits in W. rewrite J2 in W. auto. }
    exists t0, th0, rest, done, pre. rewrite nth_error_upd_neq by auto. repeat (split; auto).
    + intros t' th1 N' E. cbn [threads] in E. destruct (Nat.eq_dec t' t) as [->|N2].
      * rewrite (nth_error_upd_eq _ _ _ _ Ht) in E. congruence.
      * rewrite nth_error_upd_neq in E by auto. eauto.
    + rewrite EA. auto.
    + rewrite (memory_upd s t th th'); auto.
Qed.

Lemma fstep_inv : forall spin x0 s tr t sp s' e, finv x0 s tr -> fstep spin t sp s = Some (s', e) ->
  finv x0 s' (tr ++ [(t, e)]).
Proof.
  intros spin x0 s tr t sp s' e I H. unfold fstep in H.
  destruct (nth_error (threads s) t) as [th|] eqn:Ht; [|discriminate].
  destruct (t_pc th) as [|o sc|sc|[|a rest]] eqn:Hpc.
  - destruct (t_todo th) as [|b todo] eqn:Htd; [discriminate|]. injection H as <- <-.
    apply (wait_step x0 s tr t th); auto; unfold waits; cbn; rewrite ?Hpc; auto. split; auto. congruence.
  - unfold cas_weak in H. assert (W : waits th).
    { destruct I as [(I1 & I2 & I3)|(I1 & t0 & th0 & rest & done & pre & J1 & J2 & J3 & _)]; [eauto|].
      apply (J3 t); auto. intros ->. congruence. }
    pose proof W as W'. unfold waits in W'. rewrite Hpc in W'. destruct W' as [-> Htd].
    destruct (Bool.eqb (owned s) false && negb sp) eqn:Ec; cbn in H.
    + apply andb_true_iff in Ec. destruct Ec as [Ec _]. apply eqb_prop in Ec.
      destruct (t_todo th) as [|b todo] eqn:Htd'; [congruence|]. injection H as <- <-.
      destruct I as [(I1 & I2 & I3)|(I1 & _)]; [|congruence].
      right. cbn [owned threads]. split; auto.
      exists t, (mkT (In b) todo (t_local th)), b, (acquisitions tr), [].
      rewrite (nth_error_upd_eq _ _ _ _ Ht). split; auto. split; auto. split.
      { intros t' th1 N E. cbn [threads] in E. rewrite nth_error_upd_neq in E by auto. eauto. }
      split; [rewrite acquisitions_app; auto|]. rewrite run_section_nil.
      assert (Em : memory {| owned := true; data := data s; threads := upd t (fun _ => mkT (In b) todo (t_local th)) (threads s) |}
        = memory s).
      { unfold memory. cbn. f_equal. eapply map_upd_same; eauto. }
      split; [congruence|]. exists (t_local th). rewrite <- I3. unfold memory. cbn. rewrite nth_error_map, Ht. auto.
    + injection H as <- <-. apply (wait_step x0 s tr t th); auto; unfold waits; cbn; auto.
  - destruct (after_failure spin sc) as [sc' y]. injection H as <- <-.
    assert (W : waits th).
    { destruct I as [(I1 & I2 & I3)|(I1 & t0 & th0 & rest & done & pre & J1 & J2 & J3 & _)]; [eauto|].
      apply (J3 t); auto. intros ->. congruence. }
    assert (Htd : t_todo th <> []) by (unfold waits in W; rewrite Hpc in W; auto).
    apply (wait_step x0 s tr t th); auto; [unfold waits; cbn; auto|destruct y; auto].
  - (* unlock *)
    injection H as <- <-.
    destruct I as [(I1 & I2 & I3)|(I1 & t0 & th0 & rest0 & done & pre & J1 & J2 & J3 & J4 & J5 & J6)].
    { exfalso. specialize (I2 _ _ Ht). unfold waits in I2. rewrite Hpc in I2. auto. }
    assert (t0 = t) as ->.
    { destruct (Nat.eq_dec t0 t); auto. exfalso. specialize (J3 t th (not_eq_sym n) Ht). unfold waits in J3. rewrite Hpc in J3. auto. }
    rewrite Ht in J1. injection J1 as <-. rewrite Hpc in J2. injection J2 as <-.
    left. cbn [owned threads]. split; auto. split.
    + intros t1 th1 E. destruct (Nat.eq_dec t1 t) as [->|N].
      * rewrite (nth_error_upd_eq _ _ _ _ Ht) in E. injection E as <-. exact Logic.I.
      * rewrite nth_error_upd_neq in E by auto. eauto.
    + rewrite acquisitions_app, J4, app_nil_r in *. cbn [acquisitions]. rewrite app_nil_r, serial_snoc, <- J5.
      unfold memory. cbn. f_equal. eapply map_upd_same; eauto.
  - (* one action *)
    destruct (a (t_local th) (data s)) as [l' d'] eqn:Ea. injection H as <- <-.
    destruct I as [(I1 & I2 & I3)|(I1 & t0 & th0 & rest0 & done & pre & J1 & J2 & J3 & J4 & J5 & (l & J6))].
    { exfalso. specialize (I2 _ _ Ht). unfold waits in I2. rewrite Hpc in I2. auto. }
    assert (t0 = t) as ->.
    { destruct (Nat.eq_dec t0 t); auto. exfalso. specialize (J3 t th (not_eq_sym n) Ht). unfold waits in J3. rewrite Hpc in J3. auto. }
    rewrite Ht in J1. injection J1 as <-. rewrite Hpc in J2. injection J2 as <-.
    right. cbn [owned threads]. split; auto.
    exists t, (mkT (In rest) (t_todo th) l'), rest, done, (pre ++ [a]).
    rewrite (nth_error_upd_eq _ _ _ _ Ht). split; auto. split; auto. split.
    { intros t' th1 N E. cbn [threads] in E. rewrite nth_error_upd_neq in E by auto. eauto. }
    split; [rewrite acquisitions_app, J4; cbn [acquisitions]; rewrite app_nil_r, <- app_assoc; reflexivity|].
    split; [|eauto].
    unfold run_section in *. cbn [fst snd] in *. rewrite J6 in *. rewrite exec_body_app.
    destruct (exec_body pre l (fst (serial done x0))) as [l1 d1] eqn:E1.
    unfold memory in J5. injection J5 as J7 J8.
    assert (t_local th = l1) as El.
    { assert (G : nth_error (map t_local (threads s)) t = Some (t_local th)) by (rewrite nth_error_map, Ht; auto).
      rewrite J8, (nth_error_upd_eq _ _ _ _ J6) in G. congruence. }
    cbn [exec_body]. rewrite <- El, <- J7, Ea. unfold memory. cbn [data threads]. f_equal.
    rewrite map_upd, J8, upd_upd. reflexivity.
Qed.

Lemma frun_inv : forall spin x0 sched s tr0 s' tr, finv x0 s tr0 -> frun spin sched s = Some (s', tr) ->
  finv x0 s' (tr0 ++ tr).
Proof.
  intros spin x0 sched. induction sched as [|[t sp] sched IH]; intros s tr0 s' tr I H; simpl in H.
  - injection H as <- <-. rewrite app_nil_r. auto.
  - destruct (fstep spin t sp s) as [[s1 e]|] eqn:E; [|discriminate].
    destruct (frun spin sched s1) as [[s2 es]|] eqn:E2; [|discriminate]. injection H as <- <-.
    replace (tr0 ++ (t, e) :: es) with ((tr0 ++ [(t, e)]) ++ es) by (rewrite <- app_assoc; auto).
    eapply IH; eauto. eapply fstep_inv; eauto.
Qed.

Lemma finit_inv : forall d0 (progs : list (list body * L)), finv (memory (finit d0 progs)) (finit d0 progs) [].
Proof.
  intros d0 progs. left. split; auto. split; [|reflexivity].
  intros t th H. unfold finit in H. cbn in H. apply nth_error_In, in_map_iff in H.
  destruct H as (p & <- & _). exact Logic.I.
Qed.

Lemma freaches_inv : forall spin d0 progs s tr, freaches spin d0 progs s tr -> finv (d0, map snd progs) s tr.
Proof.
  intros spin d0 progs s tr [sched H]. replace tr with ([] ++ tr) by auto.
  eapply frun_inv; [|exact H].
  replace (d0, map snd progs) with (memory (finit d0 progs)); [apply finit_inv|].
  unfold memory, finit. cbn. rewrite map_map. reflexivity.
Qed.

(** ** Property-level lemmas *)

Lemma holds_unique : forall spin d0 progs s tr t1 t2, freaches spin d0 progs s tr ->
  holds s t1 -> holds s t2 -> t1 = t2.
Proof.
  intros spin d0 progs s tr t1 t2 H (th1 & r1 & A1 & B1) (th2 & r2 & A2 & B2).
  apply freaches_inv in H.
  destruct H as [(I1 & I2 & I3)|(I1 & t0 & th0 & rest & done & pre & J1 & J2 & J3 & _)].
  - exfalso. specialize (I2 _ _ A1). unfold waits in I2. rewrite B1 in I2. auto.
  - assert (G : forall t th r, nth_error (threads s) t = Some th -> t_pc th = In r -> t = t0).
    { intros t th r E1 E2. destruct (Nat.eq_dec t t0) as [|N]; auto. exfalso.
      specialize (J3 _ _ N E1). unfold waits in J3. rewrite E2 in J3. auto. }
    rewrite (G _ _ _ A1 B1), (G _ _ _ A2 B2). auto.
Qed.

Lemma isLocked_iff : forall spin d0 progs s tr, freaches spin d0 progs s tr ->
  (isLocked s = true <-> exists t, holds s t).
Proof.
  intros spin d0 progs s tr H. apply freaches_inv in H. unfold isLocked.
  destruct H as [(I1 & I2 & I3)|(I1 & t0 & th0 & rest & done & pre & J1 & J2 & J3 & _)]; rewrite I1.
  - split; [discriminate|]. intros (t & th & r & A & B). exfalso. specialize (I2 _ _ A). unfold waits in I2. rewrite B in I2. auto.
  - split; auto. intros _. exists t0, th0, rest. auto.
Qed.

Lemma acquire_when_free : forall spin d0 progs s tr t, freaches spin d0 progs s tr ->
  (forall t', ~ holds s t') -> trying s t ->
  exists s' b, fstep spin t false s = Some (s', Acquired b) /\ holds s' t.
Proof.
  intros spin d0 progs s tr t H Hn (th & o & sc & A & B). apply freaches_inv in H.
  destruct H as [(I1 & I2 & I3)|(I1 & t0 & th0 & rest & done & pre & J1 & J2 & J3 & _)].
  - pose proof (I2 _ _ A) as W. unfold waits in W. rewrite B in W. destruct W as [-> W].
    unfold fstep. rewrite A, B, I1. cbn. destruct (t_todo th) as [|b todo] eqn:E; [congruence|].
    eexists. exists b. split; [reflexivity|]. exists (mkT (In b) todo (t_local th)), b. cbn.
    rewrite (nth_error_upd_eq _ _ _ _ A). auto.
  - exfalso. apply (Hn t0). exists th0, rest. auto.
Qed.

Lemma no_acquire_when_held : forall spin d0 progs s tr t t' sp s' e, freaches spin d0 progs s tr ->
  holds s t' -> fstep spin t sp s = Some (s', e) -> (forall b, e <> Acquired b).
Proof.
  intros spin d0 progs s tr t t' sp s' e H Hh Hs b ->.
  assert (Hl : isLocked s = true) by (eapply isLocked_iff; eauto).
  apply freaches_inv in H. unfold fstep in Hs.
  destruct (nth_error (threads s) t) as [th|] eqn:Ht; [|discriminate].
  destruct (t_pc th) as [|o sc|sc|[|a rest]] eqn:Hpc; try discriminate.
  - destruct (t_todo th); discriminate.
  - destruct H as [(I1 & _)|(I1 & t0 & th0 & rest & done & pre & J1 & J2 & J3 & _)]; [unfold isLocked in Hl; congruence|].
    assert (N : t <> t0) by (intros ->; congruence).
    specialize (J3 _ _ N Ht). unfold waits in J3. rewrite Hpc in J3. destruct J3 as [-> _].
    rewrite I1 in Hs. cbn in Hs. discriminate.
  - destruct (after_failure spin sc) as [? []]; discriminate.
  - destruct (a (t_local th) (data s)). discriminate.
Qed.

Lemma serialised : forall spin d0 progs s tr, freaches spin d0 progs s tr ->
  ((forall t, ~ holds s t) -> memory s = serial (acquisitions tr) (d0, map snd progs)) /\
  (forall t th rest, nth_error (threads s) t = Some th -> t_pc th = In rest ->
     exists done pre, acquisitions tr = done ++ [(t, pre ++ rest)] /\
       memory s = run_section (t, pre) (serial done (d0, map snd progs))).
Proof.
  intros spin d0 progs s tr H. pose proof H as H0. apply freaches_inv in H.
  destruct H as [(I1 & I2 & I3)|(I1 & t0 & th0 & rest & done & pre & J1 & J2 & J3 & J4 & J5 & J6)].
  - split; auto. intros t th rest A B. exfalso. specialize (I2 _ _ A). unfold waits in I2. rewrite B in I2. auto.
  - split; [intros Hn; exfalso; apply (Hn t0); exists th0, rest; auto|].
    intros t th r A B. assert (t = t0) as ->.
    { eapply holds_unique; eauto; [exists th, r; auto|exists th0, rest; auto]. }
    rewrite A in J1. injection J1 as <-. rewrite B in J2. injection J2 as <-. eauto.
Qed.

(** Which sections are acquired: what a thread has acquired and what is left to it
    make up its program, in order. *)
Lemma frun_order : forall spin sched s s' tr t th, frun spin sched s = Some (s', tr) ->
  nth_error (threads s) t = Some th ->
  exists th', nth_error (threads s') t = Some th' /\ t_todo th = acquired_by t tr ++ t_todo th'.
Proof.
  intros spin sched. induction sched as [|[t1 sp] sched IH]; intros s s' tr t th H Ht; simpl in H.
  - injection H as <- <-. eauto.
  - destruct (fstep spin t1 sp s) as [[s1 e]|] eqn:E; [|discriminate].
    destruct (frun spin sched s1) as [[s2 es]|] eqn:E2; [|discriminate]. injection H as <- <-.
    assert (G : exists th1, nth_error (threads s1) t = Some th1 /\ t_todo th = acquired_by t [(t1, e)] ++ t_todo th1).
    { unfold fstep in E. destruct (nth_error (threads s) t1) as [th1|] eqn:Ht1; [|discriminate].
      destruct (Nat.eq_dec t t1) as [->|N].
      - rewrite Ht in Ht1. injection Ht1 as <-.
        destruct (t_pc th) as [|o sc|sc|[|a rest]]; cbn in E.
        + destruct (t_todo th) eqn:Etd; [discriminate|]. injection E as <- <-. cbn.
          rewrite (nth_error_upd_eq _ _ _ _ Ht). eexists. split; [reflexivity|]. auto.
        + destruct (cas_weak (owned s) o sp) as [[ok o'] flag']. destruct (negb ok || o').
          * injection E as <- <-. cbn. rewrite (nth_error_upd_eq _ _ _ _ Ht). eexists. split; [reflexivity|]. auto.
          * destruct (t_todo th) eqn:Etd; [discriminate|]. injection E as <- <-. cbn.
            rewrite (nth_error_upd_eq _ _ _ _ Ht). eexists. split; [reflexivity|]. unfold acquired_by. cbn.
            rewrite Nat.eqb_refl. auto.
        + destruct (after_failure spin sc) as [sc' y]. injection E as <- <-. cbn.
          rewrite (nth_error_upd_eq _ _ _ _ Ht). eexists. split; [reflexivity|]. destruct y; auto.
        + injection E as <- <-. cbn. rewrite (nth_error_upd_eq _ _ _ _ Ht). eexists. split; [reflexivity|]. auto.
        + destruct (a (t_local th) (data s)). injection E as <- <-. cbn.
          rewrite (nth_error_upd_eq _ _ _ _ Ht). eexists. split; [reflexivity|]. auto.
      - exists th.
        assert (A1 : acquired_by t [(t1, e)] = []).
        { unfold acquired_by. destruct e; auto. cbn. destruct (Nat.eqb_spec t1 t); [congruence|auto]. }
        rewrite A1. split; auto.
        destruct (t_pc th1) as [|o sc|sc|[|a rest]]; cbn in E.
        + destruct (t_todo th1); [discriminate|]. injection E as <- <-. cbn. rewrite nth_error_upd_neq; auto.
        + destruct (cas_weak (owned s) o sp) as [[ok o'] flag']. destruct (negb ok || o').
          * injection E as <- <-. cbn. rewrite nth_error_upd_neq; auto.
          * destruct (t_todo th1); [discriminate|]. injection E as <- <-. cbn. rewrite nth_error_upd_neq; auto.
        + destruct (after_failure spin sc) as [sc' y]. injection E as <- <-. cbn. rewrite nth_error_upd_neq; auto.
        + injection E as <- <-. cbn. rewrite nth_error_upd_neq; auto.
        + destruct (a (t_local th1) (data s)). injection E as <- <-. cbn. rewrite nth_error_upd_neq; auto. }
    destruct G as (th1 & G1 & G2). destruct (IH _ _ _ _ _ E2 G1) as (th2 & F1 & F2).
    exists th2. split; auto. rewrite G2, F2, app_assoc. f_equal. unfold acquired_by.
    replace ((t1, e) :: es) with ([(t1, e)] ++ es) by auto. rewrite acquisitions_app, filter_app, map_app. reflexivity.
Qed.

Lemma sections_in_order : forall spin d0 progs s tr t todo l, freaches spin d0 progs s tr ->
  nth_error progs t = Some (todo, l) ->
  exists th, nth_error (threads s) t = Some th /\ todo = acquired_by t tr ++ t_todo th.
Proof.
  intros spin d0 progs s tr t todo l [sched H] Hp.
  eapply (frun_order _ _ _ _ _ t (mkT Out todo l)) in H; auto.
  unfold finit. cbn. rewrite nth_error_map, Hp. reflexivity.
Qed.

(** ** Nothing is lost: sections acquired and sections left *)

Definition left_to_do s : nat := list_sum (map (fun th => length (t_todo th)) (threads s)).

Lemma sum_upd : forall {A} (f : A -> nat) t x y l, nth_error l t = Some x ->
  list_sum (map f (upd t (fun _ => y) l)) + f x = list_sum (map f l) + f y.
Proof.
  intros A f t x y l. revert t. induction l as [|a l IH]; intros [|t] H; simpl in *; try discriminate.
  - injection H as ->. lia.
  - specialize (IH _ H). lia.
Qed.

Lemma fstep_left : forall spin t sp s s' e, fstep spin t sp s = Some (s', e) ->
  left_to_do s = length (acquisitions [(t, e)]) + left_to_do s' /\ length (threads s') = length (threads s) /\
  t < length (threads s).
Proof.
  intros spin t sp s s' e H. unfold fstep in H.
  destruct (nth_error (threads s) t) as [th|] eqn:Ht; [|discriminate].
  assert (t < length (threads s)) by (apply nth_error_Some; congruence).
  assert (S : forall th' fl d, left_to_do (mkF fl d (upd t (fun _ => th') (threads s))) + length (t_todo th) =
     left_to_do s + length (t_todo th')).
  { intros. unfold left_to_do. cbn [threads]. apply (sum_upd (fun th => length (t_todo th))). auto. }
  destruct (t_pc th) as [|o sc|sc|[|a rest]]; cbn in H.
  - destruct (t_todo th) eqn:Etd; [discriminate|]. injection H as <- <-. cbn [threads]. rewrite upd_length.
    specialize (S (mkT (Cas false spin) (t_todo th) (t_local th)) (owned s) (data s)). rewrite Etd in S. cbn in *. lia.
  - destruct (cas_weak (owned s) o sp) as [[ok o'] flag']. destruct (negb ok || o').
    + injection H as <- <-. cbn [threads]. rewrite upd_length.
      specialize (S (mkT (Failed sc) (t_todo th) (t_local th)) flag' (data s)). cbn in *. lia.
    + destruct (t_todo th) as [|b todo] eqn:Etd; [discriminate|]. injection H as <- <-. cbn [threads]. rewrite upd_length.
      specialize (S (mkT (In b) todo (t_local th)) flag' (data s)). cbn in *. lia.
  - destruct (after_failure spin sc) as [sc' y]. injection H as <- <-. cbn [threads]. rewrite upd_length.
    specialize (S (mkT (Cas false sc') (t_todo th) (t_local th)) (owned s) (data s)). destruct y; cbn in *; lia.
  - injection H as <- <-. cbn [threads]. rewrite upd_length.
    specialize (S (mkT Out (t_todo th) (t_local th)) false (data s)). cbn in *. lia.
  - destruct (a (t_local th) (data s)) as [l' d']. injection H as <- <-. cbn [threads]. rewrite upd_length.
    specialize (S (mkT (In rest) (t_todo th) l') (owned s) d'). cbn in *. lia.
Qed.

Lemma frun_left : forall spin sched s s' tr, frun spin sched s = Some (s', tr) ->
  left_to_do s = length (acquisitions tr) + left_to_do s' /\ length (threads s') = length (threads s) /\
  Forall (fun tb => fst tb < length (threads s)) (acquisitions tr).
Proof.
  intros spin sched. induction sched as [|[t sp] sched IH]; intros s s' tr H; simpl in H.
  - injection H as <- <-. simpl. auto.
  - destruct (fstep spin t sp s) as [[s1 e]|] eqn:E; [|discriminate].
    destruct (frun spin sched s1) as [[s2 es]|] eqn:E2; [|discriminate]. injection H as <- <-.
    apply fstep_left in E. apply IH in E2. destruct E as (A1 & A2 & A3), E2 as (B1 & B2 & B3).
    replace ((t, e) :: es) with ([(t, e)] ++ es) by auto. rewrite acquisitions_app, app_length.
    split; [lia|]. split; [congruence|]. apply Forall_app. rewrite A2 in B3. split; auto.
    destruct e; simpl; auto.
Qed.

(** ** The threads can always finish *)

Lemma frun_app : forall spin sc1 sc2 s s1 tr1, frun spin sc1 s = Some (s1, tr1) ->
  frun spin (sc1 ++ sc2) s = match frun spin sc2 s1 with Some (s2, tr2) => Some (s2, tr1 ++ tr2) | None => None end.
Proof.
  intros spin sc1. induction sc1 as [|[t sp] sc1 IH]; intros sc2 s s1 tr1 H; simpl in *.
  - injection H as <- <-. destruct (frun spin sc2 s) as [[? ?]|]; auto.
  - destruct (fstep spin t sp s) as [[s2 e]|]; [|discriminate].
    destruct (frun spin sc1 s2) as [[s3 es]|] eqn:E; [|discriminate]. injection H as <- <-.
    rewrite (IH sc2 _ _ _ E). destruct (frun spin sc2 s3) as [[? ?]|]; auto.
Qed.

Lemma finish_section : forall spin rest s t th, nth_error (threads s) t = Some th -> t_pc th = In rest ->
  exists sched s' tr, frun spin sched s = Some (s', tr) /\ acquisitions tr = [] /\ owned s' = false /\
    exists th', threads s' = upd t (fun _ => th') (threads s) /\ t_pc th' = Out /\ t_todo th' = t_todo th.
Proof.
  intros spin rest. induction rest as [|a rest IH]; intros s t th Ht Hpc.
  - exists [(t, false)]. simpl. unfold fstep. rewrite Ht, Hpc. eexists. eexists. split; [reflexivity|].
    split; auto. split; auto. eexists. split; [reflexivity|]. auto.
  - destruct (a (t_local th) (data s)) as [l' d'] eqn:Ea.
    set (s1 := mkF (owned s) d' (upd t (fun _ => mkT (In rest) (t_todo th) l') (threads s))).
    destruct (IH s1 t (mkT (In rest) (t_todo th) l')) as (sched & s' & tr & A1 & A2 & A3 & th' & A4 & A5 & A6); auto.
    { cbn. rewrite (nth_error_upd_eq _ _ _ _ Ht). auto. }
    exists ((t, false) :: sched), s', ((t, Tau) :: tr). split.
    + simpl. unfold fstep. rewrite Ht, Hpc, Ea. fold s1. rewrite A1. auto.
    + split; auto. split; auto. exists th'. split; auto. rewrite A4. cbn. apply upd_upd.
Qed.

Lemma start_section : forall spin s t th, owned s = false -> nth_error (threads s) t = Some th -> waits th ->
  t_todo th <> [] ->
  exists sched s' tr b th', frun spin sched s = Some (s', tr) /\ nth_error (threads s') t = Some th' /\
    t_pc th' = In b /\ acquisitions tr <> [].
Proof.
  intros spin s t th Ho Ht W Htd.
  assert (C : forall s1 th1 sc, owned s1 = false -> nth_error (threads s1) t = Some th1 -> t_pc th1 = Cas false sc ->
     t_todo th1 <> [] -> exists s' b th', frun spin [(t, false)] s1 = Some (s', [(t, Acquired b)]) /\
       nth_error (threads s') t = Some th' /\ t_pc th' = In b).
  { intros s1 th1 sc E1 E2 E3 E4. simpl. unfold fstep. rewrite E2, E3, E1. cbn.
    destruct (t_todo th1) as [|b todo] eqn:E; [congruence|]. eexists. exists b. eexists. split; [reflexivity|].
    cbn. rewrite (nth_error_upd_eq _ _ _ _ E2). auto. }
  assert (C2 : forall s1 th1 e, fstep spin t false s = Some (s1, e) -> owned s1 = false ->
     nth_error (threads s1) t = Some th1 -> (exists sc, t_pc th1 = Cas false sc) -> t_todo th1 <> [] ->
     exists sched s' tr b th', frun spin sched s = Some (s', tr) /\ nth_error (threads s') t = Some th' /\
    t_pc th' = In b /\ acquisitions tr <> []).
  { intros s1 th1 e E0 E1 E2 [sc E3] E4. destruct (C s1 th1 sc E1 E2 E3 E4) as (s' & b & th' & G1 & G2 & G3).
    exists [(t, false); (t, false)], s', [(t, e); (t, Acquired b)], b, th'.
    split; [|split; auto; split; auto; destruct e; discriminate].
    change (frun spin [(t, false); (t, false)] s) with
      (match fstep spin t false s with None => None | Some (s', e) =>
        match frun spin [(t, false)] s' with None => None | Some (s'', es) => Some (s'', (t, e) :: es) end end).
    rewrite E0, G1. auto. }
  unfold waits in W. destruct (t_pc th) as [|o sc|sc|] eqn:Hpc; [| | |contradiction].
  - eapply (C2 (mkF (owned s) (data s) (upd t (fun _ => mkT (Cas false spin) (t_todo th) (t_local th)) (threads s)))
              (mkT (Cas false spin) (t_todo th) (t_local th)) Tau).
    + unfold fstep. rewrite Ht, Hpc. destruct (t_todo th) eqn:E; [congruence|]. reflexivity.
    + auto.
    + cbn [threads]. rewrite (nth_error_upd_eq _ _ _ _ Ht). auto.
    + cbn. eauto.
    + auto.
  - destruct W as [-> _]. destruct (C s th sc Ho Ht Hpc Htd) as (s' & b & th' & G1 & G2 & G3).
    eexists _, s', _, b, th'. split; [exact G1|]. split; auto. split; auto. discriminate.
  - destruct (after_failure spin sc) as [sc' y] eqn:Ea.
    eapply (C2 _ (mkT (Cas false sc') (t_todo th) (t_local th))).
    + unfold fstep. rewrite Ht, Hpc, Ea. reflexivity.
    + auto.
    + cbn [threads]. rewrite (nth_error_upd_eq _ _ _ _ Ht). auto.
    + cbn. eauto.
    + auto.
Qed.

Lemma can_finish_from : forall spin x0 n s tr0, left_to_do s <= n -> finv x0 s tr0 ->
  exists sched s' tr, frun spin sched s = Some (s', tr) /\ all_done s'.
Proof.
  intros spin x0. induction n as [|n IH]; intros s tr0 Hn I.
  all: assert (Free : exists sched s' tr, frun spin sched s = Some (s', tr) /\ acquisitions tr = [] /\
      owned s' = false /\ finv x0 s' (tr0 ++ tr)) by
   (pose proof I as I0; destruct I as [(I1 & _)|(I1 & t0 & th0 & rest & done & pre & J1 & J2 & J3 & _)];
    [exists [], s, []; rewrite app_nil_r; simpl; auto
    |destruct (finish_section spin rest s t0 th0 J1 J2) as (sched & s' & tr & A1 & A2 & A3 & A4);
     exists sched, s', tr; split; auto; split; auto; split; auto; eapply frun_inv; eauto]).
  all: destruct Free as (sched & s1 & tr & F1 & F2 & F3 & F4).
  all: pose proof (frun_left _ _ _ _ _ F1) as (G1 & G2 & G3); rewrite F2 in G1; cbn [length] in G1.
  all: assert (W : forall t th, nth_error (threads s1) t = Some th -> waits th) by
    (destruct F4 as [(_ & X & _)|(X & _)]; [exact X|congruence]).
  all: destruct (Exists_dec (fun th : thread D L => t_todo th <> []) (threads s1)) as [Ex|Nx];
    [intros th; destruct (t_todo th); [right; auto|left; discriminate]| |].
  1,3: apply Exists_exists in Ex; destruct Ex as (th & Hin & Htd); apply In_nth_error in Hin; destruct Hin as [t Ht];
       destruct (start_section spin s1 t th F3 Ht (W _ _ Ht) Htd) as (sc2 & s2 & tr2 & b & th2 & B1 & B2 & B3 & B4);
       pose proof (frun_left _ _ _ _ _ B1) as (C1 & C2 & C3).
  - assert (length (acquisitions tr2) <> 0) by (destruct (acquisitions tr2); simpl; congruence). lia.
  - assert (length (acquisitions tr2) <> 0) by (destruct (acquisitions tr2); simpl; congruence).
    pose proof (frun_inv _ _ _ _ _ _ _ F4 B1) as I2.
    destruct (IH s2 _ ltac:(lia) I2) as (sc3 & s3 & tr3 & D1 & D2).
    exists (sched ++ sc2 ++ sc3), s3. eexists. split; [|exact D2].
    rewrite (frun_app _ _ _ _ _ _ F1), (frun_app _ _ _ _ _ _ B1), D1. reflexivity.
  - exists sched, s1, tr. split; auto. intros th Hin. rewrite <- Forall_Exists_neg, Forall_forall in Nx.
    assert (T : t_todo th = []) by (specialize (Nx th Hin); destruct (t_todo th); auto; exfalso; apply Nx; discriminate).
    split; auto. apply In_nth_error in Hin. destruct Hin as [t Ht]. specialize (W _ _ Ht). unfold waits in W.
    destruct (t_pc th); auto; [destruct W|..]; contradiction.
  - exists sched, s1, tr. split; auto. intros th Hin. rewrite <- Forall_Exists_neg, Forall_forall in Nx.
    assert (T : t_todo th = []) by (specialize (Nx th Hin); destruct (t_todo th); auto; exfalso; apply Nx; discriminate).
    split; auto. apply In_nth_error in Hin. destruct Hin as [t Ht]. specialize (W _ _ Ht). unfold waits in W.
    destruct (t_pc th); auto; [destruct W|..]; contradiction.
Qed.

Lemma can_finish : forall spin d0 progs s tr, freaches spin d0 progs s tr ->
  exists sched s' tr', frun spin sched s = Some (s', tr') /\ all_done s'.
Proof. intros spin d0 progs s tr H. apply freaches_inv in H. eapply can_finish_from; eauto. Qed.

Lemma done_free : forall s, all_done s -> forall t, ~ holds s t.
Proof.
  intros s H t (th & r & A & B). apply nth_error_In in A. apply H in A. destruct A. congruence.
Qed.

Lemma done_left : forall s, all_done s -> left_to_do s = 0.
Proof.
  intros [o d ths] H. unfold left_to_do, all_done in *. cbn in *. induction ths as [|th ths IH]; auto. simpl.
  rewrite IH by (intros; apply H; right; auto). destruct (H th) as [_ ->]; [left|]; auto.
Qed.

(** ** Yields *)


Lemma call_yields_snoc : forall t tr te, call_yields t (tr ++ [te]) =
  if fst te =? t then match snd te with Acquired _ => [] | Yielded => call_yields t tr ++ [true]
     | Retried => call_yields t tr ++ [false] | _ => call_yields t tr end else call_yields t tr.
Proof. intros. unfold call_yields. rewrite fold_left_app. reflexivity. Qed.

(** Counter of a waiting thread after [n] failed attempts. *)
Definition sc_after (spin : N) (n : nat) : N :=
  if (spin =? 0)%N then 0%N else ((spin + N.of_nat n * (two32 - 1)) mod two32)%N.

Definition yinv (spin : N) s tr : Prop := forall t th, nth_error (threads s) t = Some th ->
  let n := length (call_yields t tr) in
  call_yields t tr = map (code_yield spin) (attempts n) /\
  match t_pc th with
  | Cas _ sc | Failed sc => sc = sc_after spin n
  | Out | In _ => n = 0
  end.

Lemma two32_pos : (0 < two32)%N. Proof. reflexivity. Qed.

Lemma sc_after_S : forall spin n, (spin < two32)%N -> (spin =? 0)%N = false -> u32_dec (sc_after spin n) = sc_after spin (S n).
Proof.
  intros spin n H E. unfold u32_dec, sc_after. rewrite E. rewrite N.add_mod_idemp_l by discriminate.
  f_equal. lia.
Qed.

Lemma sc_after_zero : forall spin n, (spin < two32)%N -> (spin =? 0)%N = false ->
  (sc_after spin n =? 0)%N = (N.of_nat n mod two32 =? spin)%N.
Proof.
  intros spin n H E. unfold sc_after. rewrite E.
  assert (two32 <> 0)%N by discriminate.
  pose proof (N.div_mod (N.of_nat n) two32 H0) as Hd. pose proof (N.mod_lt (N.of_nat n) two32 H0) as Hl.
  set (m := (N.of_nat n mod two32)%N) in *. set (q := (N.of_nat n / two32)%N) in *.
  assert (A : ((spin + N.of_nat n * (two32 - 1)) mod two32 = (spin + (two32 - m)) mod two32)%N).
  { rewrite <- (N.mod_add (spin + N.of_nat n * (two32 - 1)) 1 two32) by auto.
    rewrite <- (N.mod_add (spin + (two32 - m)) (q * (two32 - 1) + m) two32) by auto.
    f_equal. rewrite Hd at 1. clearbody m q. clear - Hl. unfold two32 in *. lia. }
  rewrite A. destruct (N.eqb_spec m spin) as [->|Hm].
  - replace (spin + (two32 - spin))%N with two32 by lia. rewrite N.mod_same by auto. reflexivity.
  - apply N.eqb_neq. intros C. destruct (N.ltb_spec spin m).
    + rewrite N.mod_small in C by lia. lia.
    + replace (spin + (two32 - m))%N with ((spin - m) + 1 * two32)%N in C by lia.
      rewrite N.mod_add in C by auto. rewrite N.mod_small in C by lia. lia.
Qed.

End Proofs.
