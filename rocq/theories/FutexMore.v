(** * Futex: yields, guarded counter; RFutex *)
From Coq Require Import List Arith NArith Lia Bool.
From Verif Require Import Base ListFacts FutexModel FutexSpec FutexProofs.
Import ListNotations.

Section Yields.
Context {D L : Type}.
Implicit Types (s : fstate D L) (tr : list (nat * fevent D L)).

Lemma attempts_S : forall n, attempts (S n) = attempts n ++ [N.of_nat (S n)].
Proof. intros. unfold attempts. rewrite seq_S, map_app. reflexivity. Qed.

Lemma code_yield_eq : forall spin i, code_yield spin i = (negb (spin =? 0)%N && (i mod two32 =? spin)%N).
Proof. reflexivity. Qed.
Lemma sc_after_0 : forall spin, (spin < two32)%N -> spin = sc_after spin 0.
Proof.
  intros spin H. unfold sc_after. destruct (N.eqb_spec spin 0); auto.
  rewrite N.mul_0_l, N.add_0_r, N.mod_small; auto.
Qed.

Lemma fstep_yinv : forall spin s tr t sp s' e, (spin < two32)%N -> yinv spin s tr ->
  fstep spin t sp s = Some (s', e) -> yinv spin s' (tr ++ [(t, e)]).
Proof.
  intros spin s tr t sp s' e Hsp I H. unfold fstep in H.
  destruct (nth_error (threads s) t) as [th|] eqn:Ht; [|discriminate].
  assert (Go : forall th' fl d,
     (let cy := call_yields t (tr ++ [(t, e)]) in
      cy = map (code_yield spin) (attempts (length cy)) /\
      match t_pc th' with Cas _ sc | Failed sc => sc = sc_after spin (length cy) | Out | In _ => length cy = 0 end) ->
     yinv spin (mkF fl d (upd t (fun _ => th') (threads s))) (tr ++ [(t, e)])).
  { intros th' fl d G t1 th1 E. cbn [threads] in E. destruct (Nat.eq_dec t1 t) as [->|N].
    - rewrite (nth_error_upd_eq _ _ _ _ Ht) in E. injection E as <-. exact G.
    - rewrite nth_error_upd_neq in E by auto. rewrite call_yields_snoc. cbn [fst snd].
      destruct (Nat.eqb_spec t t1); [congruence|]. apply (I t1 th1 E). }
  pose proof (I t th Ht) as (I1 & I2). cbn zeta in *.
  destruct (t_pc th) as [|o sc|sc|[|a rest]] eqn:Hpc; cbn in H.
  - destruct (t_todo th); [discriminate|]. injection H as <- <-. apply Go.
    rewrite call_yields_snoc. cbn [fst snd t_pc]. rewrite Nat.eqb_refl. split; auto. rewrite I2. apply sc_after_0. auto.
  - destruct (cas_weak (owned s) o sp) as [[ok o'] flag']. destruct (negb ok || o').
    + injection H as <- <-. apply Go. rewrite call_yields_snoc. cbn [fst snd t_pc]. rewrite Nat.eqb_refl. auto.
    + destruct (t_todo th); [discriminate|]. injection H as <- <-. apply Go.
      rewrite call_yields_snoc. cbn [fst snd t_pc]. rewrite Nat.eqb_refl. auto.
  - destruct (after_failure spin sc) as [sc' y] eqn:Ea. injection H as <- <-. apply Go.
    assert (E : call_yields t (tr ++ [(t, if y then Yielded else Retried)]) = call_yields t tr ++ [y]).
    { rewrite call_yields_snoc. cbn [fst]. rewrite Nat.eqb_refl. destruct y; reflexivity. }
    rewrite E, app_length. cbn [length t_pc]. rewrite Nat.add_1_r, attempts_S, map_app.
    set (n := length (call_yields t tr)) in *. rewrite <- I1. cbn [map].
    unfold after_failure in Ea. rewrite code_yield_eq. destruct (spin =? 0)%N eqn:E0.
    + injection Ea as <- <-. split; auto. unfold sc_after in *. rewrite E0 in *. auto.
    + injection Ea as <- <-. rewrite I2, sc_after_S by auto. rewrite sc_after_zero by auto. auto.
  - injection H as <- <-. apply Go. rewrite call_yields_snoc. cbn [fst snd t_pc]. rewrite Nat.eqb_refl. auto.
  - destruct (a (t_local th) (data s)). injection H as <- <-. apply Go.
    rewrite call_yields_snoc. cbn [fst snd t_pc]. rewrite Nat.eqb_refl. auto.
Qed.

Lemma frun_yinv : forall spin sched s tr0 s' tr, (spin < two32)%N -> yinv spin s tr0 ->
  frun spin sched s = Some (s', tr) -> yinv spin s' (tr0 ++ tr).
Proof.
  intros spin sched. induction sched as [|[t sp] sched IH]; intros s tr0 s' tr Hs I H; simpl in H.
  - injection H as <- <-. rewrite app_nil_r. auto.
  - destruct (fstep spin t sp s) as [[s1 e]|] eqn:E; [|discriminate].
    destruct (frun spin sched s1) as [[s2 es]|] eqn:E2; [|discriminate]. injection H as <- <-.
    replace (tr0 ++ (t, e) :: es) with ((tr0 ++ [(t, e)]) ++ es) by (rewrite <- app_assoc; auto).
    eapply IH; eauto. eapply fstep_yinv; eauto.
Qed.

Lemma yields_actual : forall spin d0 progs s tr t, (spin < two32)%N -> freaches spin d0 progs s tr ->
  t < length progs ->
  call_yields t tr = map (code_yield spin) (attempts (length (call_yields t tr))).
Proof.
  intros spin d0 progs s tr t Hs [sched H] Ht. pose proof H as H0.
  apply (frun_yinv _ _ _ [] _ _ Hs) in H.
  - apply frun_left in H0. destruct H0 as (_ & Hl & _). unfold finit in Hl. cbn in Hl. rewrite map_length in Hl.
    destruct (nth_error (threads s) t) as [th|] eqn:E; [|apply nth_error_None in E; lia].
    apply (H t th E).
  - intros t1 th E. unfold finit in E. cbn in E. apply nth_error_In, in_map_iff in E. destruct E as (p & <- & _).
    cbn. auto.
Qed.

(** The first [2 * spin - 1] failed attempts follow the documentation. *)
Lemma documented_prefix : forall spin i, (0 < spin < two32)%N -> (1 <= i < 2 * spin)%N ->
  code_yield spin i = documented_yield spin i.
Proof.
  intros spin i H Hi. rewrite code_yield_eq. unfold documented_yield. f_equal.
  destruct (N.eqb_spec (i mod two32) spin) as [E|E]; symmetry.
  - assert (i = spin).
    { pose proof (N.div_mod i two32 ltac:(discriminate)) as Hd. rewrite E in Hd.
      destruct (N.eq_dec (i / two32) 0) as [Z|Z]; [lia|]. nia. }
    rewrite H0. apply N.eqb_eq. apply N.mod_same. lia.
  - apply N.eqb_neq. intros C. apply E. apply N.mod_divide in C; [|lia]. destruct C as [k C].
    assert (k = 1)%N by nia. subst. rewrite N.mul_1_l. apply N.mod_small. lia.
Qed.

Lemma documented_zero : forall i, code_yield 0 i = documented_yield 0 i.
Proof. reflexivity. Qed.

Lemma not_documented : forall spin, (0 < spin < two32)%N ->
  code_yield spin (2 * spin) = false /\ documented_yield spin (2 * spin) = true.
Proof.
  intros spin H. rewrite code_yield_eq. unfold documented_yield.
  destruct (N.eqb_spec spin 0); [lia|]. cbn [negb andb]. split.
  - apply N.eqb_neq. intros C. destruct (N.ltb_spec (2 * spin) two32).
    + rewrite N.mod_small in C by auto. lia.
    + replace (2 * spin)%N with ((2 * spin - two32) + 1 * two32)%N in C by lia.
      rewrite N.mod_add, N.mod_small in C by (discriminate || lia). lia.
  - rewrite N.mul_comm, N.mul_comm. apply N.eqb_eq. apply N.mod_mul. auto.
Qed.

End Yields.

(** Two threads: the first holds the lock, the second has failed [k] times. *)
Definition spinning (sc : N) : fstate unit unit :=
  mkF true tt [mkT (In []) [] tt; mkT (Cas false sc) [[]] tt].

Fixpoint fail_sched (k : nat) : list (nat * bool) :=
  match k with O => [] | S k' => (1, false) :: (1, false) :: fail_sched k' end.

Lemma spin_fails : forall spin k sc, exists s tr, frun spin (fail_sched k) (spinning sc) = Some (s, tr) /\
  forall tr0, length (call_yields 1 (tr0 ++ tr)) = length (call_yields 1 tr0) + k.
Proof.
  intros spin k. induction k as [|k IH]; intros sc.
  - eexists _, []. split; [reflexivity|]. intros. rewrite app_nil_r. lia.
  - cbn [fail_sched frun]. unfold fstep at 1. cbn [spinning threads nth_error t_pc owned cas_weak Bool.eqb andb negb orb upd].
    unfold fstep at 1. cbn [threads nth_error t_pc]. destruct (after_failure spin sc) as [sc' y].
    cbn [upd t_todo t_local data owned]. destruct (IH sc') as (s & tr & E & F).
    change (data (spinning sc)) with tt. fold (spinning sc'). rewrite E. eexists. eexists. split; [reflexivity|]. intros tr0.
    replace (tr0 ++ (1, Tau) :: (1, if y then Yielded else Retried) :: tr) with
      (((tr0 ++ [(1, Tau)]) ++ [(1, if y then Yielded else Retried)]) ++ tr) by (rewrite <- !app_assoc; reflexivity).
    rewrite F, !call_yields_snoc. cbn [fst Nat.eqb snd]. destruct y; cbn [snd]; rewrite app_length; simpl; lia.
Qed.

Lemma reach_failures : forall spin k, exists s tr,
  freaches spin tt [([[]], tt); ([[]], tt)] s tr /\ length (call_yields 1 tr) = k.
Proof.
  intros spin k. destruct (spin_fails spin k spin) as (s & tr & E & F).
  exists s, ([(0, Tau); (0, Acquired []); (1, Tau)] ++ tr). split.
  - exists ((0, false) :: (0, false) :: (1, false) :: fail_sched k).
    cbn [frun]. unfold fstep at 1. cbn [finit map threads nth_error t_pc fst snd t_todo upd t_local owned data].
    unfold fstep at 1. cbn [threads nth_error t_pc t_todo upd t_local owned data cas_weak Bool.eqb andb negb orb].
    unfold fstep at 1. cbn [threads nth_error t_pc t_todo upd t_local owned data].
    match goal with |- context [frun spin (fail_sched k) ?x] => change x with (spinning spin) end.
    rewrite E. reflexivity.
  - rewrite F. reflexivity.
Qed.

Lemma yields_refuted : forall spin, (0 < spin < two32)%N -> exists s tr,
  freaches spin tt [([[]], tt); ([[]], tt)] s tr /\
  exists i, nth_error (call_yields 1 tr) (i - 1) = Some false /\ documented_yield spin (N.of_nat i) = true /\ 1 <= i.
Proof.
  intros spin H. destruct (reach_failures spin (N.to_nat (2 * spin))) as (s & tr & R & E).
  exists s, tr. split; auto. exists (N.to_nat (2 * spin)). rewrite N2Nat.id.
  destruct (not_documented spin H) as [A B]. split; [|split; auto; lia].
  rewrite (yields_actual spin _ _ _ _ 1 ltac:(lia) R) by (simpl; lia). rewrite E.
  rewrite nth_error_map. unfold attempts. rewrite nth_error_map.
  assert (Hn : nth_error (seq 1 (N.to_nat (2 * spin))) (N.to_nat (2 * spin) - 1) = Some (N.to_nat (2 * spin))).
  { rewrite (nth_error_nth' _ 0) by (rewrite seq_length; lia). f_equal. rewrite seq_nth by lia. lia. }
  rewrite Hn. cbn [option_map]. rewrite N2Nat.id, A. reflexivity.
Qed.

(** ** A guarded counter *)

Lemma serial_increments : forall log (d : nat) (ls : list nat),
  Forall (fun tb => fst tb < length ls /\ snd tb = increment) log ->
  fst (serial log (d, ls)) = d + length log.
Proof.
  intros log. induction log as [|[t b] log IH]; intros d ls H; [simpl; lia|].
  inversion H as [|x y [Hlt Hb] Hf]; subst. cbn in Hlt, Hb. subst b. unfold serial. cbn [fold_left].
  unfold run_section at 2. cbn [fst snd]. destruct (nth_error ls t) as [l|] eqn:E; [|apply nth_error_None in E; lia].
  cbn [increment exec_body load store_inc]. fold (serial log (S d, upd t (fun _ => d) ls)).
  change (fold_left (fun x tb => run_section tb x) log (S d, upd t (fun _ => d) ls)) with (serial log (S d, upd t (fun _ => d) ls)).
  rewrite IH; [simpl; lia|]. rewrite upd_length. auto.
Qed.

Lemma acquired_increment : forall spin d0 progs (s : fstate nat nat) tr,
  freaches spin d0 progs s tr -> Forall (fun p => Forall (fun b => b = increment) (fst p)) progs ->
  Forall (fun tb => fst tb < length progs /\ snd tb = increment) (acquisitions tr).
Proof.
  intros spin d0 progs s tr R F. pose proof R as [sched H]. apply frun_left in H. destruct H as (_ & _ & H).
  unfold finit in H. cbn in H. rewrite map_length in H.
  rewrite Forall_forall in *. intros [t b] Hin. specialize (H _ Hin). cbn in H. cbn. split; auto.
  destruct (nth_error progs t) as [[todo l]|] eqn:E; [|apply nth_error_None in E; lia].
  destruct (sections_in_order _ _ _ _ _ _ _ _ R E) as (th & A & B).
  specialize (F _ (nth_error_In _ _ E)). cbn in F. rewrite B, Forall_app, Forall_forall in F. apply F.
  unfold acquired_by. apply in_map_iff. exists (t, b). split; auto. apply filter_In. split; auto. cbn. apply Nat.eqb_refl.
Qed.

Lemma counter_exact : forall spin d0 progs (s : fstate nat nat) tr,
  freaches spin d0 progs s tr -> Forall (fun p => Forall (fun b => b = increment) (fst p)) progs ->
  all_done s -> data s = d0 + list_sum (map (fun p => length (fst p)) progs).
Proof.
  intros spin d0 progs s tr R F Hd. pose proof (acquired_increment _ _ _ _ _ R F) as A.
  pose proof (proj1 (serialised _ _ _ _ _ R) (done_free _ Hd)) as M.
  pose proof R as [sched H]. apply frun_left in H. destruct H as (Hl & _ & _).
  rewrite (done_left _ Hd), Nat.add_0_r in Hl. unfold left_to_do, finit in Hl. cbn [threads] in Hl.
  rewrite map_map in Hl. cbn [t_todo] in Hl. rewrite Hl.
  assert (E : data s = fst (memory s)) by reflexivity. rewrite E, M. apply serial_increments.
  rewrite map_length. auto.
Qed.

(** ** RFutex *)

(** Threads that have received an identity. *)
Definition has_id (th : rthread) : bool := negb (r_id th =? 0)%N.

Record rinv (s : rstate) : Prop := {
  ri_ids : r_ids s = N.of_nat (length (filter has_id (r_threads s)));
  ri_small : (N.of_nat (length (r_threads s)) < two32)%N;
  ri_le : forall t th, nth_error (r_threads s) t = Some th -> (r_id th <= r_ids s)%N;
  ri_uniq : forall t1 t2 th1 th2, nth_error (r_threads s) t1 = Some th1 -> nth_error (r_threads s) t2 = Some th2 ->
     r_id th1 = r_id th2 -> r_id th1 <> 0%N -> t1 = t2;
  ri_pc : forall t th, nth_error (r_threads s) t = Some th -> r_returns th = 0 /\
     match r_pc th with ROut => r_id th = 0%N | RCas f => f = 0%N /\ r_id th <> 0%N | RLoop _ => r_id th <> 0%N | RCount => False end;
  ri_count : r_count s = 0%N;
  ri_owner : r_owner s <> 0%N -> exists t th, nth_error (r_threads s) t = Some th /\ r_id th = r_owner s;
  ri_won : forall t th, nth_error (r_threads s) t = Some th -> (r_won th = true <-> r_id th <> 0%N /\ r_owner s = r_id th)
}.

Lemma filter_upd : forall {A} (f : A -> bool) t x y l, nth_error l t = Some x ->
  length (filter f (upd t (fun _ => y) l)) + (if f x then 1 else 0) = length (filter f l) + (if f y then 1 else 0).
Proof.
  intros A f t x y l. revert t. induction l as [|a l IH]; intros [|t] H; simpl in *; try discriminate.
  - injection H as ->. destruct (f x), (f y); simpl; lia.
  - specialize (IH _ H). destruct (f a); simpl; lia.
Qed.

Lemma filter_length_le : forall {A} (f : A -> bool) l, length (filter f l) <= length l.
Proof. intros A f l. induction l; simpl; [lia|]. destruct (f a); simpl; lia. Qed.

Lemma nth_upd_cases : forall {A} t (y : A) l t1 z, nth_error (upd t (fun _ => y) l) t1 = Some z ->
  (t1 = t /\ z = y) \/ (t1 <> t /\ nth_error l t1 = Some z).
Proof.
  intros A t y l t1 z H. destruct (Nat.eq_dec t1 t) as [->|N].
  - left. split; auto. destruct (nth_error l t) as [x|] eqn:E.
    + rewrite (nth_error_upd_eq _ _ _ _ E) in H. congruence.
    + apply nth_error_None in E. assert (t < length (upd t (fun _ => y) l)) by (apply nth_error_Some; congruence).
      rewrite upd_length in *. lia.
  - right. rewrite nth_error_upd_neq in H by auto. auto.
Qed.

(** A thread with an identity moves without touching the identities. *)
Lemma rinv_move : forall s t th pc' own won, rinv s -> nth_error (r_threads s) t = Some th -> r_id th <> 0%N ->
  (match pc' with RCas f => f = 0%N | RLoop _ => True | _ => False end) ->
  ((own = r_owner s /\ won = r_won th) \/ (r_owner s = 0%N /\ own = r_id th /\ won = true)) ->
  rinv (mkR (r_ids s) own (r_count s) (upd t (fun _ => mkRT (r_id th) pc' (r_returns th) won) (r_threads s))).
Proof.
  intros s t th pc' own won [I1 I2 I3 I4 I5 I6 I7 I8] Ht Hid Hpc Hown. constructor; cbn [r_ids r_threads r_owner r_count].
  - rewrite I1. f_equal.
    pose proof (filter_upd has_id t th (mkRT (r_id th) pc' (r_returns th) won) _ Ht) as F. unfold has_id in *. cbn [r_id] in F.
    destruct (r_id th =? 0)%N; simpl in F; lia.
  - rewrite upd_length. auto.
  - intros t1 th1 E. apply nth_upd_cases in E. destruct E as [[-> ->]|[N E]]; cbn; eauto.
  - intros t1 t2 th1 th2 E1 E2 E3 E4. apply nth_upd_cases in E1. apply nth_upd_cases in E2.
    destruct E1 as [[-> ->]|[N1 E1]], E2 as [[-> ->]|[N2 E2]]; cbn in *; auto.
    + eapply I4; eauto.
    + eapply I4; eauto.
    + eapply I4; eauto.
  - intros t1 th1 E. apply nth_upd_cases in E. destruct E as [[-> ->]|[N E]]; [|eauto]. cbn.
    split; [apply (I5 _ _ Ht)|]. destruct pc'; try contradiction; auto.
  - auto.
  - intros Ho. destruct Hown as [[-> ->]|(O1 & -> & ->)].
    + destruct (I7 Ho) as (t1 & th1 & A & B). destruct (Nat.eq_dec t1 t) as [->|N].
      * rewrite Ht in A. injection A as <-. exists t. eexists. rewrite (nth_error_upd_eq _ _ _ _ Ht). split; [reflexivity|]. auto.
      * exists t1, th1. rewrite nth_error_upd_neq by auto. auto.
    + exists t. eexists. rewrite (nth_error_upd_eq _ _ _ _ Ht). split; [reflexivity|]. auto.
  - intros t1 th1 E. apply nth_upd_cases in E. destruct E as [[-> ->]|[N E]]; cbn [r_won r_id].
    + destruct Hown as [[-> ->]|(O1 & -> & ->)]; [apply (I8 _ _ Ht)|]. split; auto.
    + destruct Hown as [[-> ->]|(O1 & -> & ->)]; [apply (I8 _ _ E)|]. rewrite (I8 _ _ E), O1. split.
      * intros [G1 G2]. congruence.
      * intros [G1 G2]. exfalso. apply N. symmetry. eapply I4; eauto.
Qed.

Lemma rstep_inv : forall s t c s', rinv s -> rstep t c s = Some s' -> rinv s'.
Proof.
  intros s t c s' I H. unfold rstep in H. destruct (nth_error (r_threads s) t) as [th|] eqn:Ht; [|discriminate].
  pose proof (ri_pc _ I _ _ Ht) as [Hr Hpc]. destruct (r_pc th) as [|f|f|] eqn:Epc; [| | |contradiction].
  - destruct c.
    + rewrite Hpc in H. cbn in H. injection H as <-. destruct I as [I1 I2 I3 I4 I5 I6 I7 I8].
      pose proof (filter_upd has_id t th (mkRT 1 (RCas 0) (r_returns th) (r_won th)) _ Ht) as F0.
      unfold has_id in F0 at 2 4. cbn [r_id] in F0. rewrite Hpc in F0. cbn in F0.
      pose proof (filter_length_le has_id (upd t (fun _ => mkRT 1 (RCas 0) (r_returns th) (r_won th)) (r_threads s))) as Le.
      rewrite upd_length in Le.
      assert (Hs : (r_ids s + 1 < two32)%N) by lia.
      assert (Ei : u32_inc (r_ids s) = (r_ids s + 1)%N) by (unfold u32_inc; apply N.mod_small; auto).
      rewrite Ei. constructor; cbn [r_ids r_threads r_owner r_count].
      * pose proof (filter_upd has_id t th (mkRT (r_ids s + 1) (RCas 0) (r_returns th) (r_won th)) _ Ht) as F.
        unfold has_id in F at 2 4. cbn [r_id] in F. rewrite Hpc in F.
        destruct (N.eqb_spec (r_ids s + 1) 0); [lia|]. cbn in F. lia.
      * rewrite upd_length. auto.
      * intros t1 th1 E. apply nth_upd_cases in E. destruct E as [[-> ->]|[N E]]; cbn; [lia|]. specialize (I3 _ _ E). lia.
      * intros t1 t2 th1 th2 E1 E2 E3 E4. apply nth_upd_cases in E1. apply nth_upd_cases in E2.
        destruct E1 as [[-> ->]|[N1 E1]], E2 as [[-> ->]|[N2 E2]]; cbn in *; auto.
        -- specialize (I3 _ _ E2). lia.
        -- specialize (I3 _ _ E1). lia.
        -- eapply I4; eauto.
      * intros t1 th1 E. apply nth_upd_cases in E. destruct E as [[-> ->]|[N E]]; [|eauto]. cbn. split; auto. split; auto. lia.
      * auto.
      * intros Ho. destruct (I7 Ho) as (t1 & th1 & A & B). destruct (Nat.eq_dec t1 t) as [->|N].
        -- rewrite Ht in A. injection A as <-. congruence.
        -- exists t1, th1. rewrite nth_error_upd_neq by auto. auto.
      * intros t1 th1 E. apply nth_upd_cases in E. destruct E as [[-> ->]|[N E]]; [|apply (I8 _ _ E)]. cbn [r_won r_id].
        rewrite (I8 _ _ Ht), Hpc. split; [intros [G _]; congruence|]. intros [G1 G2]. exfalso.
        destruct (I7 ltac:(congruence)) as (t2 & th2 & A & B). specialize (I3 _ _ A). lia.
    + rewrite (ri_count _ I) in H. cbn in H. injection H as <-. rewrite upd_self by auto.
      destruct s. cbn in *. rewrite <- (ri_count _ I). exact I.
  - destruct Hpc as [-> Hid]. destruct (N.eqb_spec (r_owner s) 0) as [Eo|Eo].
    + destruct (N.eqb_spec 0 (r_id th)) as [Z|Z]; [congruence|]. injection H as <-.
      apply rinv_move; auto.
    + injection H as <-. apply rinv_move; auto.
  - injection H as <-. apply rinv_move; auto.
Qed.

Lemma rinit_inv : forall n, (N.of_nat n < two32)%N -> rinv (rinit n).
Proof.
  intros n Hn.
  assert (E : forall t th, nth_error (r_threads (rinit n)) t = Some th -> th = mkRT 0 ROut 0 false).
  { intros t th H. apply nth_error_In in H. apply repeat_spec in H. auto. }
  constructor; cbn [rinit r_ids r_owner r_count].
  - cbn [rinit r_threads]. induction n as [|n IH]; auto. simpl. rewrite <- IH; auto. lia.
    intros t th H. apply nth_error_In in H. apply repeat_spec in H. auto.
  - cbn. rewrite repeat_length. auto.
  - intros t th H. apply E in H. subst. cbn. lia.
  - intros t1 t2 th1 th2 H1 H2 H3 H4. apply E in H1. subst. cbn in H4. congruence.
  - intros t th H. apply E in H. subst. cbn. auto.
  - auto.
  - congruence.
  - intros t th H. apply E in H. subst. cbn. split; [discriminate|]. intros [G _]. congruence.
Qed.

Lemma rrun_inv : forall sched s s', rinv s -> rrun sched s = Some s' -> rinv s'.
Proof.
  induction sched as [|[t c] sched IH]; intros s s' I H; simpl in H; [congruence|].
  destruct (rstep t c s) as [s1|] eqn:E; [|discriminate]. apply (IH s1); auto. eapply rstep_inv; eauto.
Qed.

Lemma rrun_reach : forall n sched s, (N.of_nat n < two32)%N -> rrun sched (rinit n) = Some s -> rinv s.
Proof. intros n sched s Hn H. eapply rrun_inv; eauto. apply rinit_inv; auto. Qed.

Lemma lock_never_returns : forall n sched s t th, (N.of_nat n < two32)%N -> rrun sched (rinit n) = Some s ->
  nth_error (r_threads s) t = Some th -> r_returns th = 0.
Proof. intros n sched s t th Hn H Ht. apply (rrun_reach n) in H; auto. apply (ri_pc _ H _ _ Ht). Qed.

Lemma rstep_owner : forall s t c s', rinv s -> rstep t c s = Some s' -> r_owner s <> 0%N -> r_owner s' = r_owner s.
Proof.
  intros s t c s' I H Ho. unfold rstep in H. destruct (nth_error (r_threads s) t) as [th|] eqn:Ht; [|discriminate].
  pose proof (ri_pc _ I _ _ Ht) as [Hr Hpc]. destruct (r_pc th) as [|f|f|] eqn:Epc; [| | |contradiction].
  - destruct c.
    + destruct (r_id th =? 0)%N; injection H as <-; auto.
    + rewrite (ri_count _ I) in H. cbn in H. injection H as <-. auto.
  - destruct Hpc as [-> Hid]. destruct (N.eqb_spec (r_owner s) 0) as [Eo|Eo]; [contradiction|]. injection H as <-. auto.
  - injection H as <-. auto.
Qed.

Lemma rrun_owner : forall sched s s', rinv s -> rrun sched s = Some s' -> r_owner s <> 0%N -> r_owner s' = r_owner s.
Proof.
  induction sched as [|[t c] sched IH]; intros s s' I H Ho; simpl in H; [congruence|].
  destruct (rstep t c s) as [s1|] eqn:E; [|discriminate].
  pose proof (rstep_owner _ _ _ _ I E Ho) as E1. rewrite <- E1. eapply IH; eauto; [eapply rstep_inv; eauto|congruence].
Qed.

(** Once a thread has won, the futex is locked for ever. *)
Lemma locked_for_ever : forall n sched s sched' s', (N.of_nat n < two32)%N -> rrun sched (rinit n) = Some s ->
  r_isLocked s = true -> rrun sched' s = Some s' -> r_isLocked s' = true /\ r_owner s' = r_owner s.
Proof.
  intros n sched s sched' s' Hn H Hl H'. apply (rrun_reach n) in H; auto. unfold r_isLocked in *.
  destruct (N.eqb_spec (r_owner s) 0) as [E|E]; [discriminate|].
  rewrite (rrun_owner _ _ _ H H' E). destruct (N.eqb_spec (r_owner s) 0); auto.
Qed.

Lemma won_unique : forall n sched s, (N.of_nat n < two32)%N -> rrun sched (rinit n) = Some s ->
  (r_isLocked s = true <-> exists t th, nth_error (r_threads s) t = Some th /\ r_won th = true) /\
  (forall t1 t2 th1 th2, nth_error (r_threads s) t1 = Some th1 -> nth_error (r_threads s) t2 = Some th2 ->
     r_won th1 = true -> r_won th2 = true -> t1 = t2).
Proof.
  intros n sched s Hn H. apply (rrun_reach n) in H; auto. split.
  - unfold r_isLocked. destruct (N.eqb_spec (r_owner s) 0) as [E|E]; cbn; split; try discriminate; auto.
    + intros (t & th & A & B). apply (ri_won _ H _ _ A) in B. destruct B. congruence.
    + intros _. destruct (ri_owner _ H E) as (t & th & A & B). exists t, th. split; auto.
      apply (ri_won _ H _ _ A). split; congruence.
  - intros t1 t2 th1 th2 A1 A2 B1 B2. apply (ri_won _ H _ _ A1) in B1. apply (ri_won _ H _ _ A2) in B2.
    destruct B1, B2. eapply (ri_uniq _ H); eauto. congruence.
Qed.

Lemma isOwner_won : forall n sched s t th, (N.of_nat n < two32)%N -> rrun sched (rinit n) = Some s ->
  nth_error (r_threads s) t = Some th -> r_id th <> 0%N -> (r_isOwner t s = true <-> r_won th = true).
Proof.
  intros n sched s t th Hn H Ht Hid. apply (rrun_reach n) in H; auto. unfold r_isOwner. rewrite Ht, N.eqb_eq.
  rewrite (ri_won _ H _ _ Ht). tauto.
Qed.

Lemma isOwner_wrong : forall n sched s t th, (N.of_nat n < two32)%N -> rrun sched (rinit n) = Some s ->
  r_isLocked s = false -> nth_error (r_threads s) t = Some th -> r_pc th = ROut ->
  r_isOwner t s = true /\ r_won th = false.
Proof.
  intros n sched s t th Hn H Hl Ht Hpc. apply (rrun_reach n) in H; auto.
  pose proof (ri_pc _ H _ _ Ht) as [_ Hi]. rewrite Hpc in Hi. unfold r_isLocked in Hl. apply negb_false_iff, N.eqb_eq in Hl.
  unfold r_isOwner. rewrite Ht, Hl, Hi. split; auto. destruct (r_won th) eqn:E; auto. apply (ri_won _ H _ _ Ht) in E. tauto.
Qed.

(** A lone call on a free futex: it wins, and is still inside after any number of steps. *)
Lemma lock_alone : forall n sched s t th, (N.of_nat n < two32)%N -> rrun sched (rinit n) = Some s ->
  r_isLocked s = false -> nth_error (r_threads s) t = Some th -> r_pc th = ROut ->
  forall k, exists s' th', rrun (repeat (t, CLock) (2 + k)) s = Some s' /\ r_isOwner t s' = true /\ r_isLocked s' = true /\
    nth_error (r_threads s') t = Some th' /\ r_won th' = true /\ r_pc th' <> ROut.
Proof.
  intros n sched s t th Hn H Hl Ht Hpc k. apply (rrun_reach n) in H; auto.
  pose proof (ri_pc _ H _ _ Ht) as [_ Hi]. rewrite Hpc in Hi.
  assert (Total : forall m s1, nth_error (r_threads s1) t <> None -> exists s2, rrun (repeat (t, CLock) m) s1 = Some s2).
  { induction m as [|m IHm]; intros s1 N1; [eexists; reflexivity|].
    cbn [repeat rrun].
    assert (X : exists s2, rstep t CLock s1 = Some s2 /\ nth_error (r_threads s2) t <> None).
    { unfold rstep. destruct (nth_error (r_threads s1) t) as [th1|] eqn:E1; [|congruence].
      destruct (r_pc th1); [destruct (r_id th1 =? 0)%N| destruct (r_owner s1 =? free)%N| |];
        (eexists; split; [reflexivity|]; cbn [r_threads]; rewrite (nth_error_upd_eq _ _ _ _ E1); discriminate). }
    destruct X as (s2 & X1 & X2). rewrite X1. apply IHm. auto. }
  destruct (rstep t CLock s) as [s1|] eqn:E1.
  2:{ unfold rstep in E1. rewrite Ht, Hpc, Hi in E1. discriminate. }
  pose proof (rstep_inv _ _ _ _ H E1) as I1.
  assert (P1 : exists th1, nth_error (r_threads s1) t = Some th1 /\ r_pc th1 = RCas 0 /\ r_owner s1 = 0%N).
  { unfold rstep in E1. rewrite Ht, Hpc, Hi in E1. cbn in E1. injection E1 as <-. cbn [r_threads r_owner].
    eexists. rewrite (nth_error_upd_eq _ _ _ _ Ht). split; [reflexivity|]. split; auto.
    unfold r_isLocked in Hl. apply negb_false_iff, N.eqb_eq in Hl. auto. }
  destruct P1 as (th1 & Q1 & Q2 & Q3).
  pose proof (ri_pc _ I1 _ _ Q1) as [_ Q4]. rewrite Q2 in Q4. destruct Q4 as [_ Q4].
  destruct (rstep t CLock s1) as [s2|] eqn:E2.
  2:{ unfold rstep in E2. rewrite Q1, Q2, Q3 in E2. discriminate. }
  pose proof (rstep_inv _ _ _ _ I1 E2) as I2.
  assert (P2 : nth_error (r_threads s2) t = Some (mkRT (r_id th1) (RLoop 0) (r_returns th1) true) /\ r_owner s2 = r_id th1).
  { unfold rstep in E2. rewrite Q1, Q2, Q3 in E2. rewrite N.eqb_refl in E2. destruct (N.eqb_spec 0 (r_id th1)); [congruence|].
    injection E2 as <-. cbn [r_threads r_owner]. rewrite (nth_error_upd_eq _ _ _ _ Q1). auto. }
  destruct P2 as [P2 P3].
  destruct (Total k s2 ltac:(congruence)) as [s3 E3].
  pose proof (rrun_inv _ _ _ I2 E3) as I3.
  assert (Ho : r_owner s3 = r_id th1) by (rewrite (rrun_owner _ _ _ I2 E3); congruence).
  assert (P4 : exists th3, nth_error (r_threads s3) t = Some th3 /\ r_id th3 = r_id th1).
  { clear -E3 P2 Q4. assert (G : exists th2, nth_error (r_threads s2) t = Some th2 /\ r_id th2 = r_id th1) by eauto.
    clear P2. revert s2 E3 G. induction k as [|k IH]; intros s2 E3 (th2 & G1 & G2); cbn [repeat rrun] in E3.
    - injection E3 as <-. eauto.
    - destruct (rstep t CLock s2) as [s4|] eqn:E4; [|discriminate]. apply (IH s4 E3).
      unfold rstep in E4. rewrite G1 in E4. destruct (r_pc th2).
      + destruct (N.eqb_spec (r_id th2) 0); [congruence|]. injection E4 as <-. cbn [r_threads].
        rewrite (nth_error_upd_eq _ _ _ _ G1). eexists. split; [reflexivity|]. auto.
      + destruct (r_owner s2 =? free)%N; injection E4 as <-; cbn [r_threads];
          rewrite (nth_error_upd_eq _ _ _ _ G1); eexists; (split; [reflexivity|]); auto.
      + injection E4 as <-. cbn [r_threads]. rewrite (nth_error_upd_eq _ _ _ _ G1). eexists. split; [reflexivity|]. auto.
      + injection E4 as <-. cbn [r_threads]. rewrite (nth_error_upd_eq _ _ _ _ G1). eexists. split; [reflexivity|]. auto. }
  destruct P4 as (th3 & P4 & P5).
  exists s3, th3. split; [cbn [repeat rrun Nat.add]; rewrite E1, E2; exact E3|].
  assert (r_won th3 = true) by (apply (ri_won _ I3 _ _ P4); split; congruence).
  unfold r_isOwner, r_isLocked. rewrite P4, Ho, P5, N.eqb_refl.
  split; auto. split; [destruct (N.eqb_spec (r_id th1) 0); [congruence|reflexivity]|]. split; auto. split; auto.
  pose proof (ri_pc _ I3 _ _ P4) as [_ Q]. intros G. rewrite G in Q. congruence.
Qed.
