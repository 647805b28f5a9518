(** * LogSystem: the number of enabled listeners in getDiags *)
From Coq Require Import ZArith String Bool List Arith Lia.
From Verif Require Import Base ListFacts LogModel LogSpec LogProofs LogOrder LogCount LogStop LogFilter LogSettings.
Import ListNotations.
Open Scope list_scope.

Section Diag.
Context {RE : Type}.
Variable compile : string -> option RE.
Variable rmatch : string -> RE -> bool.
Notation sys := (@sys RE).
Notation world := (@world RE).
Notation cs := (@cs RE compile).
Notation ls := (@ls RE compile rmatch).
Notation st := (@st RE compile rmatch).
Notation reaches := (reaches compile rmatch).
Notation follows := (follows compile rmatch).
Notation run := (run compile rmatch).
Notation settings := (settings compile).
Notation asked := (asked compile).
Implicit Types (s : sys) (w : world).

Definition no_read (u : tid) (d : list ev) : Prop := forall f v, ~ In (EvRead u f v) d.

Lemma moments_prefix : forall ts a b, moments a ts b -> prefix a b.
Proof.
  induction ts as [|t ts IH]; intros a b H; auto. destruct H as ((c & ->) & H). destruct (IH _ _ H) as (d & ->).
  exists (c ++ d). rewrite app_assoc. auto.
Qed.

Lemma moments_more : forall ts a b es, moments a ts b -> moments a ts (b ++ es).
Proof.
  induction ts as [|t ts IH]; intros a b es H; cbn in *.
  - destruct H as (c & ->). exists (c ++ es). rewrite app_assoc. auto.
  - destruct H. auto.
Qed.

Lemma moments_now : forall ts a b, moments a ts b -> moments a (ts ++ [b]) b.
Proof.
  induction ts as [|t ts IH]; intros a b H; cbn in *.
  - split; auto. exists []. rewrite app_nil_r. auto.
  - destruct H. auto.
Qed.

Lemma moments_in : forall ts a b t, moments a ts b -> In t ts -> prefix a t /\ prefix t b.
Proof.
  induction ts as [|t0 ts IH]; intros a b t H I; [contradiction|]. destruct H as (P & H). destruct I as [<-|I].
  - split; auto. eapply moments_prefix; eauto.
  - destruct (IH _ _ _ H I) as ((c & ->) & Q). split; auto. destruct P as (p & ->). exists (p ++ c). rewrite app_assoc. auto.
Qed.

Lemma follows_more : forall w w1 w2 t1 t2, follows w w1 t1 -> follows w1 w2 t2 -> follows w w2 (t1 ++ t2).
Proof. intros w w1 w2 t1 t2 (s1 & R1) (s2 & R2). exists (s1 ++ s2). rewrite (run_app _ _ _ _ _ _ _ R1), R2. auto. Qed.

Lemma follows_refl : forall w, follows w w [].
Proof. intros. exists []. reflexivity. Qed.

(** Induction over a run, with the step itself. *)
Lemma reaches_inv_f : forall sn g lf progs (I : world -> list ev -> Prop),
  I (init sn g lf progs) [] ->
  (forall w w' tr es, reaches sn g lf progs w tr -> I w tr -> st w w' es -> follows w w' es -> I w' (tr ++ es)) ->
  forall w tr, reaches sn g lf progs w tr -> I w tr.
Proof.
  intros sn g lf progs I H0 Hs w tr [sched H].
  assert (Y : reaches sn g lf progs w tr /\ I w tr); [|apply Y].
  change tr with ([] ++ tr). eapply (run_inv compile rmatch (fun w tr => reaches sn g lf progs w tr /\ I w tr)); [| |exact H].
  - clear - Hs. intros ch w w' tr es (R & A) S.
    assert (F : follows w w' es) by (exists [ch]; cbn; rewrite S, app_nil_r; auto).
    split; [|eapply Hs; eauto; eapply step_st; eauto]. exact (follows_more _ _ _ _ _ R F).
  - split; auto. exists []. reflexivity.
Qed.

(** A thread that has counted [n] enabled listeners and has to ask [rest]. *)
Definition counting sn g lf progs (u : tid) (n : nat) (rest : list nat) w (tr : list ev) : Prop :=
  exists t0 d w0 done times, tr = t0 ++ d /\ reaches sn g lf progs w0 t0 /\ follows w0 w d /\ no_read u d /\
    active (w_sys w0) = done ++ rest /\ List.length times = List.length done /\
    moments t0 times tr /\ n = asked lf done times.

Definition count_all sn g lf progs w tr : Prop :=
  forall u c n rest fs, thread_of w u = Some c -> c_pc c = DiagCount n rest fs -> counting sn g lf progs u n rest w tr.

Lemma counting_more : forall sn g lf progs u n rest w w' tr es, counting sn g lf progs u n rest w tr -> follows w w' es -> no_read u es ->
  counting sn g lf progs u n rest w' (tr ++ es).
Proof.
  intros sn g lf progs u n rest w w' tr es (t0 & d & w0 & done & times & -> & R & F & N & A & L & T & E) Fe Ne.
  exists t0, (d ++ es), w0, done, times. rewrite app_assoc. split; [auto|]. split; [auto|]. split; [eapply follows_more; eauto|]. split.
  - intros f v I. apply in_app_iff in I. destruct I; [eapply N|eapply Ne]; eauto.
  - split; [auto|]. split; [auto|]. split; [|auto]. apply moments_more. auto.
Qed.

Lemma cs_no_read : forall t u c s c' s' es, cs t c s c' s' es -> (u <> t \/ exists n r fs, c_pc c' = DiagCount n r fs) -> no_read u es.
Proof.
  intros t u c s c' s' es H U f v I. destruct (in_split _ _ I) as (q & r & E). 
  destruct U as [U|(n & rs & fs & U)].
  - eapply cs_read_ev in E; eauto. destruct E as (_ & _ & E & _). auto.
  - destruct H; cbn in *; try discriminate; try contradiction.
Qed.

Lemma combine_app : forall (A B : Type) (a : list A) (b : list B) a' b', List.length b = List.length a ->
  combine (a ++ a') (b ++ b') = combine a b ++ combine a' b'.
Proof. intros A B a. induction a as [|x a IH]; intros [|y b] a' b' E; try discriminate; cbn; auto. rewrite IH; auto. Qed.

(** A step of the thread itself. *)
Lemma cs_counting : forall sn g lf progs t u c s c' s' es tr w w', cs t c s c' s' es ->
  (forall n rest fs, c_pc c = DiagCount n rest fs -> counting sn g lf progs u n rest w tr) ->
  reaches sn g lf progs w tr -> w_sys w = s -> follows w w' es ->
  forall n rest fs, c_pc c' = DiagCount n rest fs -> counting sn g lf progs u n rest w' (tr ++ es).
Proof.
  intros sn g lf progs t u c s c' s' es tr w w' H I R E F n rest fs P.
  destruct H; cbn [c_pc] in *; try discriminate.
  - injection P as <- <- <-. exists tr, [], w, [], []. rewrite !app_nil_r, E. split; [auto|]. split; [auto|]. split; [auto|]. split; [intros ? ? []|].
    split; [auto|]. split; [auto|]. split; [|auto]. exists []. rewrite app_nil_r. auto.
  - injection P as <- <- <-. destruct (I _ _ _ eq_refl) as (t0 & d & w1 & done & times & -> & R1 & F1 & N & A & L & T & V).
    exists t0, d, w1, (done ++ [l]), (times ++ [t0 ++ d]). rewrite app_nil_r. split; [auto|]. split; [auto|].
    split; [rewrite <- (app_nil_r d); eapply follows_more; eauto|]. split; [auto|]. split; [rewrite A, <- app_assoc; auto|].
    split; [rewrite !app_length, L; auto|]. split; [apply moments_now; auto|].
    unfold LogSpec.asked in *. rewrite combine_app by auto. rewrite filter_app, app_length, <- V. cbn [combine filter fst snd].
    rewrite <- (settings_now compile rmatch _ _ _ _ _ _ l R), E. destruct (l_enabled (lst s l)); cbn; lia.
Qed.

Lemma reaches_counting : forall sn g lf progs w tr, reaches sn g lf progs w tr -> count_all sn g lf progs w tr.
Proof.
  intros sn g lf progs w tr H. eapply (reaches_inv_f _ _ _ _ (count_all sn g lf progs)); [| |exact H].
  - intros [i|] c n rest fs E P; cbn in E.
    + rewrite nth_error_map in E. destruct (nth_error progs i); [|discriminate]. injection E as <-. discriminate.
    + destruct sn; discriminate.
  - clear w tr H. intros w w' tr es R I H F u d n rest fs Hu Hp.
    destruct H as [w i c c' s' es Hc Hi H | w s' es Hc H | w Hc Hs].
    + destruct u as [j|]; cbn [thread_of w_clients w_sys] in Hu.
      * destruct (Nat.eq_dec i j) as [->|Nj].
        -- rewrite (nth_error_upd_eq _ _ _ _ Hi) in Hu. injection Hu as <-.
           eapply cs_counting; eauto; intros n0 r0 f0 E0; apply (I (Client j) c n0 r0 f0); auto.
        -- rewrite nth_error_upd_neq in Hu by auto. eapply counting_more; [eapply (I (Client j)); eauto|exact F|].
           eapply cs_no_read; eauto. left. congruence.
      * assert (E : logt s' = logt (w_sys w)).
        { destruct (cs_logt _ _ _ _ _ _ _ H) as [E|[E1 _]]; auto. pose proof (cs_held _ _ _ _ _ _ _ H) as E.
          destruct (logt (w_sys w)), (logt s'); try discriminate; auto. }
        rewrite E in Hu. eapply counting_more; [eapply (I LogThread); eauto|exact F|]. eapply cs_no_read; eauto. left. discriminate.
    + assert (K : (forall j, u = Client j -> no_read u es)).
      { intros j -> f v X. destruct H; cbn in X; try contradiction; repeat (destruct X as [X|X]; try discriminate; try contradiction).
        match goal with H : cs _ _ _ _ _ _ |- _ => exact (cs_no_read _ _ _ _ _ _ _ H (or_introl (fun E : Client j = LogThread => ltac:(discriminate E))) _ _ X) end. }
      destruct u as [j|]; cbn [thread_of w_clients w_sys] in Hu.
      * eapply counting_more; eauto.
      * destruct w as [s cl]. cbn [w_sys w_clients] in *. destruct H; sfields; try discriminate.
        -- injection Hu as <-. discriminate.
        -- injection Hu as <-. eapply cs_counting; eauto. intros n0 r0 f0 E0. eapply (I LogThread); eauto. cbn. match goal with H : logt _ = _ |- _ => rewrite H end. auto.
    + destruct u as [j|]; cbn [thread_of w_clients w_sys] in Hu; [|discriminate].
      eapply counting_more; [eapply (I (Client j)); eauto|exact F|intros ? ? []].
Qed.

Lemma counted_at : forall sn g lf progs w t1 u v t2, reaches sn g lf progs w (t1 ++ EvRead u FEnabled v :: t2) ->
  exists w1, reaches sn g lf progs w1 t1 /\ follows w1 w (EvRead u FEnabled v :: t2) /\
    exists c fs, thread_of w1 u = Some c /\ c_pc c = DiagCount v [] fs.
Proof.
  intros sn g lf progs w t1 u v t2 [sched H].
  destruct (run_split _ _ _ _ _ _ H _ _ _ eq_refl) as (s1 & ch & s2 & w1 & w2 & p & q & r & _ & R & S & E & R2 & F).
  pose proof (step_st _ _ _ _ _ _ S) as S'.
  assert (X : q = [] /\ r = [] /\ exists c fs, thread_of w1 u = Some c /\ c_pc c = DiagCount v [] fs).
  { inversion S'; subst.
    - eapply cs_read_ev in H2; eauto. destruct H2 as (E1 & E2 & -> & _ & E5). split; auto. split; auto. destruct (E5 eq_refl) as (fs & E). exists c, fs. auto.
    - inversion H1; subst; try (destruct q as [|? [|? [|? ?]]]; discriminate).
      match goal with H : cs _ _ _ _ _ _ |- _ => eapply cs_read_ev in H; eauto; destruct H as (E1 & E2 & -> & _ & E5) end.
      split; auto. split; auto. destruct (E5 eq_refl) as (fs & E). exists c, fs. split; auto. cbn. match goal with H : logt _ = _ |- _ => rewrite H end. auto.
    - destruct q; discriminate. }
  destruct X as (-> & -> & X). rewrite app_nil_r in E. subst t1. exists w1. split; [eexists; eauto|]. split; [|exact X].
  exists (ch :: s2). cbn [LogModel.run]. rewrite S. cbn [List.length skipn] in R2. rewrite R2. reflexivity.
Qed.

Lemma enabled_asked : forall sn g lf progs w t1 u v t2, reaches sn g lf progs w (t1 ++ EvRead u FEnabled v :: t2) ->
  exists t0 d w0 times, t1 = t0 ++ d /\ (forall f v', ~ In (EvRead u f v') d) /\
    reaches sn g lf progs w0 t0 /\ follows w0 w (d ++ EvRead u FEnabled v :: t2) /\
    List.length times = List.length (active (w_sys w0)) /\ moments t0 times t1 /\ v = asked lf (active (w_sys w0)) times.
Proof.
  intros sn g lf progs w t1 u v t2 H. apply counted_at in H. destruct H as (w1 & R & F1 & c & fs & E1 & E2).
  destruct (reaches_counting _ _ _ _ _ _ R _ _ _ _ _ E1 E2) as (t0 & d & w0 & done & times & -> & R0 & F & N & A & L & T & E).
  rewrite app_nil_r in A. subst done. exists t0, d, w0, times. pose proof (follows_more _ _ _ _ _ F F1). auto 10.
Qed.

Lemma taken_more : forall b a p, List.length a <= List.length (taken b a p).
Proof.
  induction b as [|e b IH]; intros a p; cbn; auto. destruct e; cbn; auto.
  eapply Nat.le_trans; [|apply IH]. rewrite app_length. lia.
Qed.

Lemma asked_le : forall lf ks ts, asked lf ks ts <= List.length ks.
Proof.
  intros. unfold LogSpec.asked. eapply Nat.le_trans; [apply filter_len_le|]. rewrite combine_length. lia.
Qed.

Lemma unchanged : forall l t L, changed t = [] -> settings l t L = L.
Proof. intros l t. induction t as [|e t IH]; intros L E; auto. destruct e; cbn in *; auto. discriminate. Qed.

Lemma asked_steady : forall lf ks ts, List.length ts = List.length ks -> (forall t, In t ts -> changed t = []) ->
  asked lf ks ts = List.length (filter (fun l => l_enabled (lf l)) ks).
Proof.
  intros lf ks. induction ks as [|k ks IH]; intros [|t ts] L N; try discriminate; auto.
  unfold LogSpec.asked in *. cbn [combine filter fst snd]. rewrite (unchanged k t) by (apply N; left; auto).
  specialize (IH ts). destruct (l_enabled (lf k)); cbn [List.length]; rewrite IH; auto; intros; apply N; right; auto.
Qed.

Lemma diag_listeners : forall sn g lf progs w t1 u f v t2, reaches sn g lf progs w (t1 ++ EvRead u f v :: t2) ->
  match f with
  | FActive => v <= List.length (taken t1 [] []) /\
      (detached t1 = [] -> (forall l, l_detached (lf l) = false) -> v = List.length (taken t1 [] []))
  | FEnabled => v <= List.length (taken t1 [] []) /\
      (changed t1 = [] -> detached t1 = [] -> (forall l, l_detached (lf l) = false) ->
         exists t0 d, t1 = t0 ++ d /\ (forall f v', ~ In (EvRead u f v') d) /\
           v = List.length (filter (fun l => l_enabled (lf l)) (taken t0 [] [])))
  | _ => True
  end.
Proof.
  intros sn g lf progs w t1 u f v t2 H. destruct f; auto.
  - apply read_at in H. destruct H as (w1 & R & V & _). rewrite V by discriminate.
    destruct (reaches_act _ _ _ _ _ _ _ _ R) as (A & B & C & D). cbn [read_field].
    split; [exact B|]. intros N F. now destruct (D N F) as [-> _].
  - apply enabled_asked in H. destruct H as (t0 & d & w0 & times & -> & Nr & R & _ & L & T & ->).
    destruct (reaches_act _ _ _ _ _ _ _ _ R) as (A & B & C & D). split.
    + eapply Nat.le_trans; [apply asked_le|]. eapply Nat.le_trans; [exact B|]. rewrite taken_app. apply taken_more.
    + intros N1 N2 F. exists t0, d. split; auto. split; auto.
      rewrite changed_app in N1. rewrite detached_app in N2. apply app_eq_nil in N1, N2. destruct N1 as [N1 M1], N2 as [N2 M2].
      destruct (D N2 F) as [<- _]. apply asked_steady; auto. intros t I. destruct (moments_in _ _ _ _ T I) as (_ & b & Eb).
      assert (M : changed (t0 ++ d) = []) by (rewrite changed_app, N1, M1; auto).
      rewrite Eb, changed_app in M. apply app_eq_nil in M. apply M.
Qed.

End Diag.
