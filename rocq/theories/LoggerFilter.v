(** * Proofs about Logger, part 2: filters (C52, C53) and facts about [messages]. *)

From Coq Require Import ZArith String Bool List Arith Lia.
From Verif Require Import Base ListFacts LogModel LogSpec LogProofs LoggerModel LoggerSpec LoggerProofs.
Import ListNotations.
Open Scope string_scope.
Open Scope list_scope.

Lemma messages_app : forall min p1 p2 lvl cat,
  messages min lvl cat (p1 ++ p2) = messages min lvl cat p1 ++ messages min (level_of lvl p1) (category_of min lvl cat p1) p2.
Proof.
  intros min p1. induction p1 as [|[f l v c ts|f l v ts|c|z] p1 IH]; intros p2 lvl cat0; cbn [app messages level_of category_of]; auto.
  - rewrite IH, app_assoc. auto.
  - rewrite IH, app_assoc. auto.
Qed.

Lemma messages_category : forall min p lvl c, no_cats p -> Forall (fun m => m_cat m = c) (messages min lvl c p).
Proof.
  intros min p. induction p as [|[f l v c ts|f l v ts|c|z] p IH]; intros lvl c0 N; inversion N as [|? ? N1 N2]; subst; cbn [messages]; auto.
  - apply Forall_app. split; auto. destruct (_ && _); repeat constructor.
  - apply Forall_app. split; auto. destruct (_ && _); repeat constructor.
  - contradiction.
Qed.

Lemma expect_category : forall p ts c, no_cats p -> Forall (fun m => m_cat m = c) (expect c p ts).
Proof.
  intros p. induction p as [|[f l v c ts|f l v ts|c|z] p IH]; intros bs c0 N; inversion N as [|? ? N1 N2]; subst; cbn [expect]; auto.
  - destruct bs as [|b bs]; auto. apply Forall_app. split; auto. destruct b; repeat constructor.
  - destruct bs as [|b [|b' bs]]; auto. apply Forall_app. split; auto. destruct (b && b'); repeat constructor.
  - contradiction.
Qed.

Section Filter.
Context {RE : Type}.
Variable compile : string -> option RE.
Variable rmatch : string -> RE -> bool.
Variable no_regex : RE.
Notation categoryFilter := (categoryFilter compile no_regex).
Notation frun := (frun compile no_regex).

Lemma frun_app : forall a b s s', frun a s = ROk s' tt -> frun (a ++ b) s = frun b s'.
Proof.
  intros a. induction a as [|op a IH]; intros b s s' H; cbn [app LoggerModel.frun] in *; [congruence|].
  destruct (match op with FFilter _ _ => _ | FClear => _ | FLevel _ => _ end); auto; discriminate.
Qed.

Lemma categoryFilter_levels : forall c l s, exists s', (categoryFilter c l s = ROk s' tt \/ categoryFilter c l s = RThrow s') /\
  f_level s' = Z.max (f_level s) l /\ f_base s' = f_level s /\ f_proxy s' = Some (List.length (f_listeners s)).
Proof.
  intros c l s. unfold LoggerModel.categoryFilter.
  assert (E : f_level (detach_proxy s) = f_level s) by (unfold detach_proxy; destruct (f_proxy s); auto).
  assert (E2 : List.length (f_listeners (detach_proxy s)) = List.length (f_listeners s)).
  { unfold detach_proxy. destruct (f_proxy s); auto. cbn. apply upd_length. }
  rewrite E, E2.
  assert (M : (if (l >? f_level s)%Z then l else f_level s) = Z.max (f_level s) l).
  { rewrite Z.gtb_ltb. destruct (Z.ltb_spec (f_level s) l); lia. }
  destruct (set_category compile c (new_listener no_regex)); eexists; split; eauto.
Qed.

Lemma filters_levels : forall fs s, exists s', frun (filters fs) s = ROk s' tt /\
  f_level s' = fold_left Z.max (map snd fs) (f_level s) /\
  (fs <> [] -> f_base s' = fold_left Z.max (removelast (map snd fs)) (f_level s) /\ f_proxy s' <> None).
Proof.
  intros fs. induction fs as [|[c l] fs IH]; intros s.
  - exists s. split; auto. split; auto. intros N. contradiction.
  - cbn [filters map LoggerModel.frun fst snd]. destruct (categoryFilter_levels c l s) as (s1 & E & L & B & P).
    destruct (IH s1) as (s2 & R & L2 & B2). exists s2. split; [destruct E as [-> | ->]; auto|]. rewrite L in *.
    cbn [fold_left]. split; auto. intros _. destruct fs as [|f fs].
    + cbn in R. injection R as <-. cbn. rewrite B, P. split; auto. discriminate.
    + destruct B2 as (B2 & P2); [discriminate|]. rewrite B2. split; auto.
Qed.

Lemma clear_levels : forall fs s, fs <> [] -> exists s', frun (filters fs ++ [FClear]) s = ROk s' tt /\
  f_level s' = fold_left Z.max (removelast (map snd fs)) (f_level s).
Proof.
  intros fs s N. destruct (filters_levels fs s) as (s1 & R & L & B). destruct (B N) as (B1 & P).
  rewrite (frun_app _ _ _ _ R). cbn [LoggerModel.frun]. unfold clearFilter. destruct (f_proxy s1) eqn:E; [|contradiction].
  eexists. split; [reflexivity|]. cbn. auto.
Qed.

Lemma levels_no_proxy : forall zs s, exists s', frun (map FLevel zs) s = ROk s' tt /\ f_proxy s' = f_proxy s.
Proof.
  intros zs. induction zs as [|z zs IH]; intros s; [exists s; auto|]. cbn [map LoggerModel.frun].
  destruct (IH (set_f_level z s)) as (s' & R & P). exists s'. split; auto.
Qed.

Lemma clear_without_filter : forall zs, frun (map FLevel zs ++ [FClear]) (fnew no_regex) = RBad UB.
Proof.
  intros zs. destruct (levels_no_proxy zs (fnew no_regex)) as (s' & R & P). rewrite (frun_app _ _ _ _ R).
  cbn. unfold clearFilter. rewrite P. auto.
Qed.

(** A second clearFilter undoes level(z). *)
Lemma clear_twice : forall c l z s, exists s', frun [FFilter c l; FClear; FLevel z; FClear] s = ROk s' tt /\ f_level s' = f_level s.
Proof.
  intros c l z s. cbn [LoggerModel.frun]. destruct (categoryFilter_levels c l s) as (s1 & E & L & B & P).
  assert (X : exists s', frun [FClear; FLevel z; FClear] s1 = ROk s' tt /\ f_level s' = f_level s).
  { cbn. unfold clearFilter. rewrite P. cbn. unfold detach_proxy. rewrite P. cbn. rewrite P. eexists. split; [reflexivity|]. cbn. auto. }
  cbn in X. destruct E as [-> | ->]; auto.
Qed.

(** ** C53 *)
(** The default listener is number 0; every proxy but the last is detached; the last one may
    have been added. *)
Definition finv (s : @fstate RE) : Prop :=
  (exists n, NoDup (f_added s) /\ Forall (fun k => k < n) (f_added s) /\ n = List.length (f_listeners s)) /\
  (exists L0, nth_error (f_listeners s) 0 = Some L0 /\ L0 = new_listener no_regex) /\
  (match f_proxy s with Some k => 0 < k /\ k < List.length (f_listeners s) | None => True end) /\
  (forall k L, nth_error (f_listeners s) k = Some L -> 0 < k -> l_detached L = false -> f_proxy s = Some k).

Lemma finv_new : finv (fnew no_regex).
Proof.
  split; [|split; [|split]].
  - exists 1. cbn. repeat constructor. intros [].
  - exists (new_listener no_regex). cbn. auto.
  - exact I.
  - intros [|[|k]] L H P D; cbn in *; try lia; discriminate.
Qed.

Lemma finv_detach : forall s, finv s -> finv (detach_proxy s) /\
  (forall k L, nth_error (f_listeners (detach_proxy s)) k = Some L -> 0 < k -> l_detached L = true).
Proof.
  intros s ((n & N1 & N2 & N3) & (L0 & D1 & D2) & P & Q). unfold detach_proxy. destruct (f_proxy s) as [k|] eqn:E.
  - destruct P as (P1 & P2). split.
    + unfold upd_listener. split; [|split; [|split]]; cbn [f_level f_base f_proxy f_listeners f_added].
      * exists n. rewrite upd_length. auto.
      * exists L0. split; auto. rewrite nth_error_upd_neq; auto. lia.
      * rewrite E, upd_length. auto.
      * intros j L H J D. destruct (Nat.eq_dec j k) as [->|N]; [auto|]. rewrite nth_error_upd_neq in H by auto. rewrite E. eauto.
    + cbn. intros j L H J. destruct (Nat.eq_dec j k) as [->|N].
      * apply nth_error_Some in P2. destruct (nth_error (f_listeners s) k) as [L1|] eqn:F; [|congruence].
        rewrite (nth_error_upd_eq set_detached _ _ _ F) in H. injection H as <-. auto.
      * rewrite nth_error_upd_neq in H by auto. destruct (l_detached L) eqn:F; auto. exfalso.
        specialize (Q _ _ H J F). congruence.
  - split; [split; [exists n; auto|split; [exists L0; auto|split; [rewrite E; auto|intros; rewrite E; eauto]]]|].
    intros k L H J. destruct (l_detached L) eqn:F; auto. specialize (Q _ _ H J F). discriminate.
Qed.

Lemma finv_step : forall op s s', finv s ->
  (match op with FFilter c l => categoryFilter c l s | FClear => clearFilter s | FLevel z => ROk (set_f_level z s) tt end = ROk s' tt \/
   match op with FFilter c l => categoryFilter c l s | FClear => clearFilter s | FLevel z => ROk (set_f_level z s) tt end = RThrow s') -> finv s'.
Proof.
  intros op s s' I H. destruct op as [c l| |z].
  - destruct (finv_detach s I) as (((n & N1 & N2 & N3) & (L0 & D1 & D2) & P & Q) & X). unfold LoggerModel.categoryFilter in H.
    set (s1 := detach_proxy s) in *. clearbody s1.
    assert (G : forall lev base L ad, (ad = [] \/ ad = [List.length (f_listeners s1)]) ->
      finv (mkFS lev base (Some (List.length (f_listeners s1))) (f_listeners s1 ++ [L]) (f_added s1 ++ ad))).
    { intros lev base L ad A. assert (Z0 : 0 < List.length (f_listeners s1)) by (apply nth_error_Some; congruence).
      split; [|split; [|split]]; cbn [f_level f_base f_proxy f_listeners f_added].
      - exists (S n). rewrite app_length. cbn. split; [|split; [|lia]].
        + destruct A as [-> | ->]; [rewrite app_nil_r; auto|].
          apply NoDup_rev in N1. rewrite <- (rev_involutive (f_added s1 ++ _)). apply NoDup_rev. rewrite rev_app_distr. cbn.
          constructor; auto. rewrite <- in_rev. intros J. rewrite Forall_forall in N2. specialize (N2 _ J). lia.
        + apply Forall_app. split; [eapply Forall_impl; [|exact N2]; cbn; intros; lia|]. destruct A as [-> | ->]; constructor; auto; lia.
      - exists L0. rewrite nth_error_app1 by auto. auto.
      - rewrite app_length. cbn. lia.
      - intros k L' H' K D. destruct (lt_dec k (List.length (f_listeners s1))) as [J|J].
        + rewrite nth_error_app1 in H' by auto. specialize (X _ _ H' K). congruence.
        + f_equal. assert (k < List.length (f_listeners s1 ++ [L])) by (apply nth_error_Some; congruence). rewrite app_length in *. cbn in *. lia. }
    cbv zeta in H. destruct (set_category compile c (new_listener no_regex)); destruct H as [H|H]; try discriminate; injection H as <-.
    + apply G. auto.
    + specialize (G (if (l >? f_level s1)%Z then l else f_level s1) (f_level s1) (new_listener no_regex) []). rewrite app_nil_r in G. auto.
  - unfold clearFilter in H. destruct (f_proxy s) eqn:E; destruct H as [H|H]; try discriminate. injection H as <-.
    destruct (finv_detach s I) as (X & _). exact X.
  - destruct H as [H|H]; [|discriminate]. injection H as <-. exact I.
Qed.

Lemma finv_run : forall ops s s', finv s -> frun ops s = ROk s' tt -> finv s'.
Proof.
  intros ops. induction ops as [|op ops IH]; intros s s' I H; cbn [LoggerModel.frun] in H; [injection H as <-; auto|].
  pose proof (finv_step op s) as St.
  destruct (match op with FFilter c l => categoryFilter c l s | FClear => clearFilter s | FLevel z => ROk (set_f_level z s) tt end) as [s1 []|s1|];
    [| |discriminate]; (eapply IH; [|exact H]; apply St; auto).
Qed.

Lemma one_filter : forall ops s, frun ops (fnew no_regex) = ROk s tt -> List.length (in_force s) <= 1.
Proof.
  intros ops s H. apply finv_run in H; [|apply finv_new]. destruct H as ((n & N1 & _) & _ & _ & Q).
  unfold in_force. set (f := fun k => _).
  assert (A : forall k, In k (filter f (f_added s)) -> f_proxy s = Some k).
  { intros k J. apply filter_In in J. destruct J as (_ & J). unfold f in J. apply andb_true_iff in J. destruct J as (J1 & J2).
    apply Nat.ltb_lt in J1. destruct (nth_error (f_listeners s) k) as [L|] eqn:E; [|discriminate]. eapply Q; eauto.
    destruct (l_detached L); auto; discriminate. }
  assert (B : NoDup (filter f (f_added s))) by (apply NoDup_filter; auto).
  destruct (filter f (f_added s)) as [|a [|b r]]; cbn; auto. exfalso.
  assert (Ea := A a (or_introl eq_refl)). assert (Eb := A b (or_intror (or_introl eq_refl))).
  inversion B as [|? ? X _]; subst. apply X. left. congruence.
Qed.

Lemma force_none : forall s1 lev base p L, finv s1 -> (forall k L, nth_error (f_listeners s1) k = Some L -> 0 < k -> l_detached L = true) ->
  in_force (mkFS lev base p (f_listeners s1 ++ [L]) (f_added s1)) = [] /\ in_force s1 = [].
Proof.
  intros s1 lev base p L ((n & N1 & N2 & N3) & _) X. unfold in_force. cbn [f_listeners f_added]. split.
  - induction (f_added s1) as [|k ks IH]; cbn [filter]; auto. inversion N1; inversion N2; subst.
    rewrite nth_error_app1 by auto. destruct k as [|k]; cbn [andb Nat.ltb Nat.leb]; [auto|].
    destruct (nth_error (f_listeners s1) (S k)) as [M|] eqn:E; [|auto]. rewrite (X _ _ E) by lia. auto.
  - induction (f_added s1) as [|k ks IH]; cbn [filter]; auto. inversion N1; inversion N2; subst.
    destruct k as [|k]; cbn [andb Nat.ltb Nat.leb]; [auto|].
    destruct (nth_error (f_listeners s1) (S k)) as [M|] eqn:E; [|auto]. rewrite (X _ _ E) by lia. auto.
Qed.

Lemma detach_level : forall s : @fstate RE, f_level (detach_proxy s) = f_level s.
Proof. intros s. unfold detach_proxy. destruct (f_proxy s); auto. Qed.

Lemma invalid_filter : forall ops s c l, frun ops (fnew no_regex) = ROk s tt -> compile c = None ->
  exists s', categoryFilter c l s = RThrow s' /\ in_force s' = [] /\ f_level s' = Z.max l (f_level s).
Proof.
  intros ops s c l H C. apply finv_run in H; [|apply finv_new]. destruct (finv_detach s H) as (I & X).
  unfold LoggerModel.categoryFilter, set_category. rewrite C. eexists. split; [reflexivity|]. split; [exact (proj1 (force_none (detach_proxy s) _ _ _ _ I X))|].
  rewrite detach_level, Z.gtb_ltb. cbn [f_level]. destruct (Z.ltb_spec (f_level s) l); lia.
Qed.

Lemma invalid_no_filter : forall ops s c l, frun ops (fnew no_regex) = ROk s tt -> compile c = None ->
  in_force s = [] -> (l <= f_level s)%Z ->
  exists s', categoryFilter c l s = RThrow s' /\ in_force s' = in_force s /\ f_level s' = f_level s.
Proof.
  intros ops s c l H C F L. destruct (invalid_filter ops s c l H C) as (s' & E1 & E2 & E3).
  exists s'. rewrite E2, F, E3. repeat split; auto. lia.
Qed.

Lemma valid_filter : forall ops s c l r, frun ops (fnew no_regex) = ROk s tt -> compile c = Some r ->
  exists s' k, categoryFilter c l s = ROk s' tt /\ in_force s' = [k] /\ nth_error (f_listeners s') k = Some (mkL c r l true false) /\
    f_level s' = Z.max l (f_level s).
Proof.
  intros ops s c l r H C. apply finv_run in H; [|apply finv_new]. destruct (finv_detach s H) as (I & X).
  unfold LoggerModel.categoryFilter, set_category. rewrite C. eexists. exists (List.length (f_listeners (detach_proxy s))).
  split; [reflexivity|]. set (s1 := detach_proxy s) in *.
  assert (Z0 : 0 < List.length (f_listeners s1)).
  { destruct I as (_ & (L0 & D1 & _) & _). apply nth_error_Some. congruence. }
  assert (E : forall M, nth_error (f_listeners s1 ++ [M]) (List.length (f_listeners s1)) = Some M).
  { intros M. rewrite nth_error_app2, Nat.sub_diag by auto. auto. }
  split; [|split; [apply E|]].
  - pose proof (fun L => proj1 (force_none s1 0%Z 0%Z None L I X)) as F. unfold in_force in *. cbn [f_listeners f_added] in *.
    rewrite filter_app, F. cbn [filter app]. rewrite (proj2 (Nat.ltb_lt _ _)), E by auto. auto.
  - unfold s1. rewrite detach_level, Z.gtb_ltb. cbn [f_level]. destruct (Z.ltb_spec (f_level s) l); lia.
Qed.

Lemma cleared_filter : forall ops s s', frun ops (fnew no_regex) = ROk s tt -> clearFilter s = ROk s' tt -> in_force s' = [].
Proof.
  intros ops s s' H C. apply finv_run in H; [|apply finv_new]. destruct (finv_detach s H) as (I & X).
  unfold clearFilter in C. destruct (f_proxy s); [|discriminate]. injection C as <-.
  destruct (force_none (detach_proxy s) 0%Z 0%Z None (new_listener no_regex) I X) as (_ & F). exact F.
Qed.

(** The default listener writes what the filter was not meant to let pass, and writes twice
    what the filter lets pass. *)
Lemma widened : forall z c l r m, compile c = Some r -> (z < m_level m <= l)%Z -> (l <= TRACE)%Z ->
  exists s, frun [FLevel z; FFilter c l] (fnew no_regex) = ROk s tt /\ (m_level m <= f_level s)%Z /\
    copies rmatch s m = if String.eqb (m_cat m) "" || String.eqb c "" || rmatch (m_cat m) r then 2 else 1.
Proof.
  intros z c l r m C Z1 Z2. cbn [LoggerModel.frun]. unfold LoggerModel.categoryFilter, set_category. rewrite C. cbn.
  eexists. split; [reflexivity|]. cbn. rewrite Z.gtb_ltb. destruct (Z.ltb_spec z l); [|lia]. split; [lia|].
  unfold copies. cbn. unfold wants. cbn.
  assert (A : (m_level m <=? TRACE)%Z = true) by (apply Z.leb_le; lia). assert (B : (m_level m <=? l)%Z = true) by (apply Z.leb_le; lia).
  rewrite A, B. cbn. rewrite orb_true_r. cbn. destruct (_ || _ || _); auto.
Qed.

End Filter.
