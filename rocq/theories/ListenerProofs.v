(** * Proofs about a listener shared by threads. *)
From Coq Require Import ZArith String Bool List Arith Lia.
From Verif Require Import Base ListFacts LogModel ListenerModel ListenerSpec.
Import ListNotations.
Open Scope list_scope.

Section P.
Context {RE : Type}.
Variable compile : string -> option RE.
Variable rmatch : string -> RE -> bool.
Notation lstate := (lstate RE).
Notation lthread := (lthread RE).
Notation lpc := (lpc RE).

Lemma latest_snoc : forall A (f : levent -> option A) tr a t e,
  latest f a (tr ++ [(t, e)]) = match f e with Some b => b | None => latest f a tr end.
Proof. intros A f tr. induction tr as [|[t' e'] tr IH]; intros a t e; cbn; auto. Qed.

Definition holds (p : lpc) : bool :=
  match p with Out | SetLock _ | GetLock | ChkLock _ => false | _ => true end.

Definition base (s : lstate) (c : string) : Prop := s_text s = c /\ (c = "" \/ compile c = Some (s_regex s)).

Definition good (p : option lpc) (s : lstate) (c : string) : Prop :=
  match p with
  | Some (SetRegex re r) => compile re = Some r /\ base s c
  | Some (SetText re) => compile re = Some (s_regex s) /\ s_text s = c
  | Some (SetDone re) => compile re = Some (s_regex s) /\ s_text s = re
  | Some (ChkText cat) => base s c /\ cat <> ""
  | Some (ChkMatch cat) => base s c /\ cat <> "" /\ s_text s <> ""
  | Some (ChkDone cat ok) => base s c /\ ok = accepted_by compile rmatch c cat
  | _ => base s c
  end.

Definition inside (s : lstate) : option lpc :=
  match s_lock s with
  | None => None
  | Some t => match nth_error (s_threads s) t with Some th => Some (t_pc th) | None => None end
  end.

Definition told (tr : list (nat * levent)) (e : levent) : Prop :=
  match e with
  | Checked cat ok => ok = accepted_by compile rmatch (category_set tr) cat
  | SawLevel z => z = level_set tr
  | SawEnabled b => b = enabled_set tr
  | SawDetached b => b = detached_set tr
  | _ => True
  end.

Record inv (s : lstate) (tr : list (nat * levent)) : Prop := mkInv {
  i_holds : forall t th, nth_error (s_threads s) t = Some th -> holds (t_pc th) = true -> s_lock s = Some t;
  i_lock : forall t, s_lock s = Some t -> exists th, nth_error (s_threads s) t = Some th /\ holds (t_pc th) = true;
  i_chk : forall t th cat, nth_error (s_threads s) t = Some th -> t_pc th = ChkLock cat -> cat <> "";
  i_good : good (inside s) s (category_set tr);
  i_level : s_level s = level_set tr;
  i_enabled : s_enabled s = enabled_set tr;
  i_detached : s_detached s = detached_set tr;
  i_past : forall pre t e post, tr = pre ++ (t, e) :: post -> told pre e }.

Lemma nth_upd : forall (l : list lthread) t x th n, nth_error l t = Some th ->
  nth_error (upd t (fun _ => x) l) n = if Nat.eqb n t then Some x else nth_error l n.
Proof.
  intros l t x th n H. destruct (Nat.eqb_spec n t) as [->|N].
  - erewrite nth_error_upd_eq; eauto.
  - rewrite nth_error_upd_neq; auto.
Qed.

(** A thread that is neither before nor after the step in a section leaves the rest alone. *)
Lemma past_snoc : forall tr t e, (forall pre t e post, tr = pre ++ (t, e) :: post -> told pre e) -> told tr e ->
  forall pre t' e' post, tr ++ [(t, e)] = pre ++ (t', e') :: post -> told pre e'.
Proof.
  intros tr t e H T pre t' e' post E. destruct (snoc_cases post) as [->|(post' & x & ->)].
  - apply app_inj_tail in E. destruct E as [<- E]. injection E as <- <-. auto.
  - rewrite app_comm_cons, app_assoc in E. apply app_inj_tail in E. destruct E as [E _]. eapply H. exact E.
Qed.

Lemma inv_step : forall s tr t s' e, inv s tr -> lstep compile rmatch t s = Some (s', e) -> inv s' (tr ++ [(t, e)]).
Proof.
  intros s tr t s' e [H1 H2 H3 H4 H5 H6 H7 H8] H. unfold lstep in H.
  destruct (nth_error (s_threads s) t) as [[p todo rf]|] eqn:Hn; [|discriminate]. cbn [t_pc t_todo t_ref] in H.
  assert (Hp : holds p = true -> s_lock s = Some t) by (intros X; exact (H1 _ _ Hn X)).
  assert (Hin : holds p = true -> inside s = Some p) by (intros X; unfold inside; rewrite (Hp X), Hn; reflexivity).
  assert (Hno : s_lock s = None -> inside s = None) by (intros X; unfold inside; rewrite X; reflexivity).
  assert (Hoth : holds p = false -> forall x, holds (t_pc x) = false -> forall tx rx lv en de,
    inside (mkLS (s_lock s) tx rx lv en de (upd t (fun _ => x) (s_threads s))) = inside s).
  { intros X x Y tx rx lv en de. unfold inside. cbn [s_lock s_threads]. destruct (s_lock s) as [u|] eqn:L; auto.
    rewrite (nth_upd _ _ _ _ _ Hn). destruct (Nat.eqb_spec u t) as [->|]; auto.
    destruct (H2 _ eq_refl) as (th & A & B). rewrite A in Hn. injection Hn as ->. cbn in B. congruence. }
  assert (Hown : forall x tx rx lv en de, 
    inside (mkLS (Some t) tx rx lv en de (upd t (fun _ => x) (s_threads s))) = Some (t_pc x)).
  { intros. unfold inside. cbn [s_lock s_threads]. rewrite (nth_upd _ _ _ _ _ Hn), Nat.eqb_refl. reflexivity. }
  assert (Hrel : forall ths tx rx lv en de, inside (mkLS None tx rx lv en de ths) = None) by reflexivity.
  assert (F1 : forall x lk tx rx lv en de, (holds (t_pc x) = true -> lk = Some t) ->
    (forall n th, n <> t -> nth_error (s_threads s) n = Some th -> holds (t_pc th) = true -> lk = Some n) ->
    forall n th, nth_error (s_threads (mkLS lk tx rx lv en de (upd t (fun _ => x) (s_threads s)))) n = Some th -> holds (t_pc th) = true -> lk = Some n).
  { intros x lk tx rx lv en de X Y n th. cbn [s_threads]. rewrite (nth_upd _ _ _ _ _ Hn). destruct (Nat.eqb_spec n t) as [->|N].
    - intros E. injection E as <-. auto.
    - intros E Z. eapply Y; eauto. }
  assert (F2 : forall x lk tx rx lv en de, (lk = Some t -> holds (t_pc x) = true) ->
    (forall n, n <> t -> lk = Some n -> s_lock s = Some n) ->
    forall n, s_lock (mkLS lk tx rx lv en de (upd t (fun _ => x) (s_threads s))) = Some n ->
    exists th, nth_error (s_threads (mkLS lk tx rx lv en de (upd t (fun _ => x) (s_threads s)))) n = Some th /\ holds (t_pc th) = true).
  { intros x lk tx rx lv en de X Y n. cbn [s_threads s_lock]. rewrite (nth_upd _ _ _ _ _ Hn). destruct (Nat.eqb_spec n t) as [->|N].
    - intros E. eauto.
    - intros E. apply H2. auto. }
  assert (F3 : forall x lk tx rx lv en de, (forall cat, t_pc x = ChkLock cat -> cat <> "") ->
    forall n th cat, nth_error (s_threads (mkLS lk tx rx lv en de (upd t (fun _ => x) (s_threads s)))) n = Some th -> t_pc th = ChkLock cat -> cat <> "").
  { intros x lk tx rx lv en de X n th cat. cbn [s_threads]. rewrite (nth_upd _ _ _ _ _ Hn). destruct (Nat.eqb_spec n t) as [->|N]; eauto.
    intros E. injection E as <-. eauto. }
  assert (Hx : forall n th, n <> t -> holds p = true -> nth_error (s_threads s) n = Some th -> holds (t_pc th) = true -> False).
  { intros n th N X A B. pose proof (H1 _ _ A B). rewrite (Hp X) in H0. congruence. }
  assert (Hf : s_lock s = None -> forall n th, nth_error (s_threads s) n = Some th -> holds (t_pc th) = true -> False).
  { intros X n th A B. rewrite (H1 _ _ A B) in X. discriminate. }
  assert (Hself : holds p = false -> s_lock s <> Some t).
  { intros X Y. destruct (H2 _ Y) as (th & A & B). rewrite A in Hn. injection Hn as ->. cbn in B. congruence. }
  assert (C : forall e', category_set (tr ++ [(t, e')]) = match e' with DidSet re => re | _ => category_set tr end).
  { intros []; unfold category_set; rewrite latest_snoc; reflexivity. }
  assert (Cl : forall e', level_set (tr ++ [(t, e')]) = match e' with DidLevel z => z | _ => level_set tr end).
  { intros []; unfold level_set; rewrite latest_snoc; reflexivity. }
  assert (Ce : forall e', enabled_set (tr ++ [(t, e')]) = match e' with DidEnable b => b | _ => enabled_set tr end).
  { intros []; unfold enabled_set; rewrite latest_snoc; reflexivity. }
  assert (Cd : forall e', detached_set (tr ++ [(t, e')]) = match e' with DidDetach => true | _ => detached_set tr end).
  { intros []; unfold detached_set; rewrite latest_snoc; reflexivity. }
  destruct p; cbn [holds] in *;
    repeat match type of H with
    | context [match s_lock s with None => true | Some _ => false end] => destruct (s_lock s) eqn:?; try discriminate
    | match ?x with _ => _ end = _ => destruct x eqn:?; try discriminate
    | (if ?x then _ else _) = _ => destruct x eqn:?; try discriminate
    end;
    injection H as <- <-;
    (constructor;
      [ apply F1; cbn [t_pc holds]; [intros X; first [discriminate X | apply Hp; exact X | reflexivity] | intros n th N A B; first [exfalso; eapply Hx; eauto; fail | exfalso; eapply Hf; eauto; fail | eapply H1; eauto; fail]]
      | apply F2; cbn [t_pc holds]; [intros X; first [reflexivity | discriminate X | exfalso; apply Hself; auto] | intros n N X; first [discriminate X | exact X | congruence]]
      | apply F3; cbn [t_pc]; intros; try discriminate
      | rewrite C
      | rewrite Cl; cbn [s_level]; auto
      | rewrite Ce; cbn [s_enabled]; auto
      | rewrite Cd; cbn [s_detached]; auto
      | apply past_snoc; [exact H8|cbn [told]; auto] ]).
  all: try (rewrite Hoth by reflexivity; exact H4).
  all: try (match goal with |- ?c <> "" => match goal with Q : ChkLock _ = ChkLock _ |- _ => injection Q as <- end; apply String.eqb_neq; assumption end).
  all: try (rewrite (Hin eq_refl) in H4; cbn [good] in H4).
  all: try (rewrite (Hno eq_refl) in H4; cbn [good] in H4).
  all: try (first [rewrite Hown | rewrite (Hp eq_refl), Hown | rewrite Hrel]; cbn [good t_pc] in *).
  all: try (unfold base in *; cbn [s_text s_regex] in *).
  all: try (match goal with Q : String.eqb _ _ = true |- _ => apply String.eqb_eq in Q | Q : String.eqb _ _ = false |- _ => apply String.eqb_neq in Q end).
  all: try (first [tauto | intuition congruence | (intuition auto; fail)]).
  - subst cat. unfold accepted_by. reflexivity.
  - split; [exact H4|]. eapply H3; [exact Hn|reflexivity].
  - destruct H4 as ((A & B) & D). split; [split; auto|]. unfold accepted_by. rewrite <- A, Heqb. cbn. rewrite orb_true_r. reflexivity.
  - destruct H4 as ((A & B) & D & N). split; [split; auto|]. unfold accepted_by.
    rewrite (proj2 (String.eqb_neq _ _) D). rewrite <- A at 1. rewrite (proj2 (String.eqb_neq _ _) N). cbn [orb].
    destruct B as [B|B]; [congruence|]. rewrite B. reflexivity.
Qed.

Lemma inv_init : forall r0 progs, inv (linit r0 progs) [].
Proof.
  intros r0 progs.
  assert (A : forall t th, nth_error (map (fun p => mkLT (@Out RE) p false) progs) t = Some th -> t_pc th = Out).
  { intros t th H. apply nth_error_In, in_map_iff in H. destruct H as (p & <- & _). reflexivity. }
  unfold linit. constructor; cbn [s_threads s_lock s_level s_enabled s_detached]; auto.
  - intros t th H. rewrite (A _ _ H). discriminate.
  - discriminate.
  - intros t th cat H. rewrite (A _ _ H). discriminate.
  - cbn. split; auto.
  - intros [|? ?] t e post H; discriminate H.
Qed.

Lemma inv_run : forall sched s tr s' tr', inv s tr -> lrun compile rmatch sched s = Some (s', tr') -> inv s' (tr ++ tr').
Proof.
  induction sched as [|t sched IH]; intros s tr s' tr' I H; cbn [lrun] in H.
  - injection H as <- <-. rewrite app_nil_r. exact I.
  - destruct (lstep compile rmatch t s) as [[s1 e]|] eqn:S; [|discriminate].
    destruct (lrun compile rmatch sched s1) as [[s2 es]|] eqn:R; [|discriminate]. injection H as <- <-.
    pose proof (inv_step _ _ _ _ _ I S) as I1. pose proof (IH _ _ _ _ I1 R) as I2. rewrite <- app_assoc in I2. exact I2.
Qed.

Lemma reaches_inv : forall r0 progs s tr, lreaches compile rmatch r0 progs s tr -> inv s tr.
Proof. intros r0 progs s tr (sched & H). exact (inv_run _ _ _ _ _ (inv_init _ _) H). Qed.

(** ** The properties *)

Lemma checks_whole : forall r0 progs s tr pre t cat ok post,
  lreaches compile rmatch r0 progs s tr -> tr = pre ++ (t, Checked cat ok) :: post ->
  ok = accepted_by compile rmatch (category_set pre) cat.
Proof. intros. exact (i_past _ _ (reaches_inv _ _ _ _ H) _ _ _ _ H0). Qed.

Lemma getters : forall r0 progs s tr pre t e post,
  lreaches compile rmatch r0 progs s tr -> tr = pre ++ (t, e) :: post ->
  match e with
  | SawLevel z => z = level_set pre
  | SawEnabled b => b = enabled_set pre
  | SawDetached b => b = detached_set pre
  | _ => True
  end.
Proof. intros. pose proof (i_past _ _ (reaches_inv _ _ _ _ H) _ _ _ _ H0) as P. destruct e; auto. Qed.

Lemma race_kinds : forall r0 progs s tr t1 t2, lreaches compile rmatch r0 progs s tr -> data_race s t1 t2 ->
  exists re, (reading s t1 /\ assigning s t2 re) \/ (reading s t2 /\ assigning s t1 re).
Proof.
  intros r0 progs s tr t1 t2 H (N & th1 & th2 & a & b & A & B & Ia & Ib & L & W & K).
  apply reaches_inv in H. destruct H as [H1 _ _ _ _ _ _ _].
  pose proof (H1 _ _ A) as L1. pose proof (H1 _ _ B) as L2. 
  destruct th1 as [p1 todo1 r1], th2 as [p2 todo2 r2]. unfold laccesses in *. cbn [t_pc t_todo t_ref] in *.
  assert (X : forall p (todo : list lcall) (rf : bool) a, In a match p with
    | Out => match todo with UseCategory :: _ => if rf then [mkLA AText false false] else [] | _ => [] end
    | SetRegex _ _ => [mkLA ARegex true true] | SetText _ => [mkLA AText true true]
    | ChkText _ => [mkLA AText false true] | ChkMatch _ => [mkLA ARegex false true] | _ => [] end ->
    (a = mkLA AText false false /\ p = @Out RE /\ rf = true /\ exists todo', todo = UseCategory :: todo') \/
    (la_locked a = true /\ holds p = true /\ (a = mkLA AText true true -> exists re, p = SetText re))).
  { intros p todo rf x Hx. destruct p; cbn in Hx; try tauto;
      try (destruct Hx as [<-|[]]; right; split; [reflexivity|]; split; [reflexivity|]; intros Y; try discriminate Y; eauto; fail).
    destruct todo as [|[] todo]; cbn in Hx; try tauto. destruct rf; cbn in Hx; [|tauto]. destruct Hx as [<-|[]]. left. eauto. }
  destruct (X _ _ _ _ Ia) as [(-> & -> & -> & (todo1' & ->))|(La & Ha & Fa)];
    destruct (X _ _ _ _ Ib) as [(-> & -> & -> & (todo2' & ->))|(Lb & Hb & Fb)]; cbn in *.
  - destruct W; discriminate.
  - destruct b as [lb wb kb]. cbn in *. subst. destruct W as [W|W]; [discriminate|]. subst wb. destruct (Fb eq_refl) as (re & ->).
    exists re. left. split; [do 2 eexists; split; [exact A|cbn; eauto]|eexists; split; [exact B|cbn; eauto]].
  - destruct a as [lb wb kb]. cbn in *. subst. destruct W as [W|W]; [|discriminate]. subst wb. destruct (Fa eq_refl) as (re & ->).
    exists re. right. split; [do 2 eexists; split; [exact B|cbn; eauto]|eexists; split; [exact A|cbn; eauto]].
  - rewrite L1 in L2 by assumption. exfalso. apply N. apply L2 in Hb. congruence.
Qed.

Lemma text_quiet : forall r0 progs s tr, lreaches compile rmatch r0 progs s tr ->
  (forall t th re, nth_error (s_threads s) t = Some th -> t_pc th <> SetDone re) -> s_text s = category_set tr.
Proof.
  intros r0 progs s tr H Q. apply reaches_inv in H. destruct H as [H1 H2 _ H4 _ _ _ _].
  unfold inside in H4. destruct (s_lock s) as [t|]; [|exact (proj1 H4)].
  destruct (H2 _ eq_refl) as (th & A & B). rewrite A in H4.
  destruct th as [p todo rf]. cbn [t_pc] in *.
  destruct p; cbn [good] in H4; unfold base in H4; try tauto. exfalso. eapply (Q t); [exact A|reflexivity].
Qed.

(** From any state in which one thread is about to read through a reference and another is entering
    category(re), with the mutex free, a race is three steps away. *)
Lemma race_ahead : forall r0 progs s tr t1 t2 re r, lreaches compile rmatch r0 progs s tr ->
  t1 <> t2 -> reading s t1 -> entering s t2 re -> s_lock s = None -> compile re = Some r ->
  exists s', lreaches compile rmatch r0 progs s' (tr ++ [(t2, Tau); (t2, Tau); (t2, Tau)]) /\ data_race s' t1 t2.
Proof.
  intros r0 progs s tr t1 t2 re r (sched & H) N (th1 & todo1 & A & P1 & T1 & R1) (th2 & B & P2) L C.
  assert (App : forall a b s0 s1 s2 e1 e2, lrun compile rmatch a s0 = Some (s1, e1) -> lrun compile rmatch b s1 = Some (s2, e2) ->
    lrun compile rmatch (a ++ b) s0 = Some (s2, e1 ++ e2)).
  { induction a as [|x a IH]; intros b s0 s1 s2 e1 e2 X Y; cbn [lrun app] in *.
    - injection X as <- <-. exact Y.
    - destruct (lstep compile rmatch x s0) as [[u e]|]; [|discriminate].
      destruct (lrun compile rmatch a u) as [[v es]|] eqn:Z; [|discriminate]. injection X as <- <-.
      rewrite (IH _ _ _ _ _ _ Z Y). reflexivity. }
  assert (Hu : forall (l : list lthread) x th, nth_error l t2 = Some th -> nth_error (upd t2 (fun _ => x) l) t2 = Some x)
    by (intros; erewrite nth_error_upd_eq; eauto).
  set (l1 := upd t2 (fun _ => mkLT (SetCompile re) (t_todo th2) (t_ref th2)) (s_threads s)).
  set (l2 := upd t2 (fun _ => mkLT (SetRegex re r) (t_todo th2) (t_ref th2)) l1).
  set (l3 := upd t2 (fun _ => mkLT (SetText re) (t_todo th2) (t_ref th2)) l2).
  assert (B1 : nth_error l1 t2 = Some (mkLT (SetCompile re) (t_todo th2) (t_ref th2))) by (eapply Hu; exact B).
  assert (B2 : nth_error l2 t2 = Some (mkLT (SetRegex re r) (t_todo th2) (t_ref th2))) by (eapply Hu; exact B1).
  assert (B3 : nth_error l3 t2 = Some (mkLT (SetText re) (t_todo th2) (t_ref th2))) by (eapply Hu; exact B2).
  exists (mkLS (Some t2) (s_text s) r (s_level s) (s_enabled s) (s_detached s) l3). split.
  - exists (sched ++ [t2; t2; t2]). eapply App; [exact H|]. cbn [lrun].
    unfold lstep at 1. rewrite B, P2, L. cbn [lrun]. fold l1.
    unfold lstep at 1. cbn [s_threads]. rewrite B1. cbn [t_pc t_todo t_ref]. rewrite C. cbn [s_lock s_text s_regex s_level s_enabled s_detached]. fold l2.
    unfold lstep at 1. cbn [s_threads]. rewrite B2. cbn [t_pc t_todo t_ref s_lock s_text s_regex s_level s_enabled s_detached]. reflexivity.
  - split; [exact N|]. exists th1, (mkLT (SetText re) (t_todo th2) (t_ref th2)), (mkLA AText false false), (mkLA AText true true).
    cbn [s_threads]. split; [unfold l3, l2, l1; rewrite !nth_error_upd_neq; auto|]. split; [exact B3|].
    split; [unfold laccesses; rewrite P1, T1, R1; left; reflexivity|]. split; [left; reflexivity|]. cbn. auto.
Qed.

(** What is read through the reference is not what category() returned. *)
Lemma reading_uses : forall r0 progs s tr t, lreaches compile rmatch r0 progs s tr -> reading s t ->
  exists s', lreaches compile rmatch r0 progs s' (tr ++ [(t, Used (s_text s))]).
Proof.
  intros r0 progs s tr t (sched & H) (th & todo & A & P & T & R).
  assert (App : forall a b s0 s1 s2 e1 e2, lrun compile rmatch a s0 = Some (s1, e1) -> lrun compile rmatch b s1 = Some (s2, e2) ->
    lrun compile rmatch (a ++ b) s0 = Some (s2, e1 ++ e2)).
  { induction a as [|x a IH]; intros b s0 s1 s2 e1 e2 X Y; cbn [lrun app] in *.
    - injection X as <- <-. exact Y.
    - destruct (lstep compile rmatch x s0) as [[u e]|]; [|discriminate].
      destruct (lrun compile rmatch a u) as [[v es]|] eqn:Z; [|discriminate]. injection X as <- <-.
      rewrite (IH _ _ _ _ _ _ Z Y). reflexivity. }
  eexists. exists (sched ++ [t]). eapply App; [exact H|]. cbn [lrun]. unfold lstep. rewrite A, P, T, R. reflexivity.
Qed.
End P.
