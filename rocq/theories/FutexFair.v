(** * Futex: fair schedules finish; no bound on overtaking. *)
From Coq Require Import List Arith NArith Lia Bool.
From Verif Require Import Base ListFacts FutexModel FutexSpec FutexProofs FutexFairSpec.
Import ListNotations.

Section Fair.
Context {D L : Type}.
Implicit Types (s : fstate D L) (th : thread D L).

(** What a thread has still to do, not counting attempts. *)
Definition work th : nat :=
  list_sum (map (fun b : body D L => length b + 2) (t_todo th)) +
  match t_pc th with In rest => length rest + 1 | _ => 0 end.
Definition total s : nat := list_sum (map work (threads s)).

(** A waiting thread that tries again. *)
Definition still (t : nat) s s' : Prop :=
  owned s' = owned s /\
  (forall t', t' <> t -> nth_error (threads s') t' = nth_error (threads s) t') /\
  exists th th', nth_error (threads s) t = Some th /\ nth_error (threads s') t = Some th' /\
    t_todo th' = t_todo th /\ (forall r, t_pc th <> In r) /\
    match t_pc th with
    | Cas _ _ => exists c, t_pc th' = Failed c
    | _ => exists c, t_pc th' = Cas false c
    end.

Lemma step_total : forall spin t sp s s' e x0 tr, finv x0 s tr -> fstep spin t sp s = Some (s', e) ->
  total s' < total s \/ (total s' = total s /\ still t s s').
Proof.
  intros spin t sp s s' e x0 tr I H. unfold fstep in H.
  destruct (nth_error (threads s) t) as [th|] eqn:Ht; [|discriminate].
  assert (U : forall th' o d, total (mkF o d (upd t (fun _ => th') (threads s))) + work th = total s + work th').
  { intros. unfold total. cbn [threads]. apply sum_upd. exact Ht. }
  assert (V : forall th' d, t_todo th' = t_todo th -> (forall r, t_pc th <> In r) -> (forall r, t_pc th' <> In r) ->
     match t_pc th with Cas _ _ => exists c, t_pc th' = Failed c | _ => exists c, t_pc th' = Cas false c end ->
     total (mkF (owned s) d (upd t (fun _ => th') (threads s))) = total s /\
     still t s (mkF (owned s) d (upd t (fun _ => th') (threads s)))).
  { intros th' d E N N' M. split.
    - specialize (U th' (owned s) d). unfold work in U. rewrite E in U.
      destruct (t_pc th); destruct (t_pc th'); try lia; try (exfalso; eapply N'; reflexivity); try (exfalso; eapply N; reflexivity).
    - split; auto. split; [intros t' Nt; cbn [threads]; apply nth_error_upd_neq; auto|].
      exists th, th'. cbn [threads]. rewrite (nth_error_upd_eq _ _ _ _ Ht). repeat split; auto. }
  destruct (t_pc th) as [|o sc|sc|[|a rest]] eqn:Hpc.
  - destruct (t_todo th) as [|b todo] eqn:Htd; [discriminate|]. injection H as <- <-.
    right. apply V; cbn; auto; try discriminate. eauto.
  - unfold cas_weak in H. assert (W : waits th).
    { destruct I as [(I1 & I2 & I3)|(I1 & t0 & th0 & rest & done & pre & J1 & J2 & J3 & _)]; [eauto|].
      apply (J3 t); auto. intros ->. congruence. }
    unfold waits in W. rewrite Hpc in W. destruct W as [-> Htd].
    destruct (Bool.eqb (owned s) false && negb sp) eqn:Ec; cbn in H.
    + destruct (t_todo th) as [|b todo] eqn:Htd'; [congruence|]. injection H as <- <-. left.
      specialize (U (mkT (In b) todo (t_local th)) true (data s)). unfold work in U.
      cbn [t_todo t_pc] in U. rewrite Htd', Hpc in U. cbn [map list_sum fold_right] in U.
      unfold list_sum in U. lia.
    + injection H as <- <-. right. apply V; cbn; auto; try discriminate. eauto.
  - destruct (after_failure spin sc) as [sc' y]. injection H as <- <-.
    right. apply V; cbn; auto; try discriminate. eauto.
  - injection H as <- <-. left. specialize (U (mkT Out (t_todo th) (t_local th)) false (data s)).
    unfold work in U. cbn [t_todo t_pc] in U. rewrite Hpc in U. cbn [length] in U. lia.
  - destruct (a (t_local th) (data s)) as [l' d']. injection H as <- <-. left.
    specialize (U (mkT (In rest) (t_todo th) l') (owned s) d').
    unfold work in U. cbn [t_todo t_pc] in U. rewrite Hpc in U. cbn [length] in U. lia.
Qed.

Section Run.
Variables (spin : N) (sg : schedule) (d0 : D) (progs : list (list (body D L) * L)).
Let st (n : nat) : fstate D L := after spin sg n (finit d0 progs).

Lemma after_reaches : forall n, exists tr, freaches spin d0 progs (st n) tr.
Proof using.
  induction n as [|n (tr & sched & IH)]; [exists []; exists []; reflexivity|].
  unfold st. cbn [after]. fold (st n).
  destruct (fstep spin (fst (sg n)) (snd (sg n)) (st n)) as [[s' e]|] eqn:E.
  - exists (tr ++ [(fst (sg n), e)]), (sched ++ [(fst (sg n), snd (sg n))]).
    rewrite (frun_app _ _ _ _ _ _ IH). cbn [frun]. rewrite E. reflexivity.
  - exists tr, sched. exact IH.
Qed.

Lemma st_inv : forall n, exists x0 tr, finv x0 (st n) tr.
Proof using. intros n. destruct (after_reaches n) as [tr H]. apply freaches_inv in H. eauto. Qed.

Lemma st_threads : forall n, length (threads (st n)) = length progs.
Proof using.
  intros n. destruct (after_reaches n) as (tr & sched & H). apply frun_left in H. destruct H as (_ & H & _).
  rewrite H. unfold finit. cbn. apply map_length.
Qed.

Lemma st_step : forall n, st (S n) = st n \/ total (st (S n)) < total (st n) \/
  (total (st (S n)) = total (st n) /\ still (fst (sg n)) (st n) (st (S n))).
Proof using.
  intros n. assert (E0 : st (S n) = match fstep spin (fst (sg n)) (snd (sg n)) (st n) with Some (s'', _) => s'' | None => st n end) by reflexivity.
  destruct (fstep spin (fst (sg n)) (snd (sg n)) (st n)) as [[s' e]|] eqn:E; rewrite E0; auto.
  destruct (st_inv n) as (x0 & tr & I). right. eapply step_total; eauto.
Qed.

Lemma total_down : forall n m, n <= m -> total (st m) <= total (st n).
Proof using.
  induction 1; auto. destruct (st_step m) as [->|[X|[X _]]]; lia.
Qed.

(** While the work does not get less, the flag and the lists of sections do not change. *)
Lemma quiet : forall n m t, n <= m -> total (st m) = total (st n) ->
  owned (st m) = owned (st n) /\
  option_map t_todo (nth_error (threads (st m)) t) = option_map t_todo (nth_error (threads (st n)) t).
Proof using.
  intros n m t H. induction H as [|m H IH]; auto. intros E.
  pose proof (total_down n m H) as X1. pose proof (total_down m (S m) ltac:(lia)) as X2.
  destruct IH as [A B]; [lia|].
  destruct (st_step m) as [->|[X|(_ & Y1 & Y2 & th & th' & Z1 & Z2 & Z3 & _)]]; auto; [lia|].
  split; [congruence|]. destruct (Nat.eq_dec t (fst (sg m))) as [->|N].
  - rewrite Z2, <- B, Z1. cbn. congruence.
  - rewrite Y2; auto.
Qed.

(** A thread that has no turn does not change. *)
Lemma untouched : forall n m t, n <= m -> (forall i, n <= i < m -> fst (sg i) <> t) ->
  nth_error (threads (st m)) t = nth_error (threads (st n)) t.
Proof using.
  intros n m t H. induction H as [|m H IH]; auto. intros F.
  rewrite <- IH by (intros; apply F; lia). specialize (F m ltac:(lia)).
  assert (E0 : st (S m) = match fstep spin (fst (sg m)) (snd (sg m)) (st m) with Some (s'', _) => s'' | None => st m end) by reflexivity.
  destruct (fstep spin (fst (sg m)) (snd (sg m)) (st m)) as [[s' e]|] eqn:E; rewrite E0; auto. clear E0.
  unfold fstep in E. destruct (nth_error (threads (st m)) (fst (sg m))) as [th|]; [|discriminate].
  assert (G : forall f o d, nth_error (threads (mkF o d (upd (fst (sg m)) f (threads (st m))))) t = nth_error (threads (st m)) t)
    by (intros; cbn [threads]; apply nth_error_upd_neq; auto).
  destruct (t_pc th) as [|o sc|sc|[|a rest]].
  - destruct (t_todo th); [discriminate|]. injection E as <- _. apply G.
  - destruct (cas_weak _ _ _) as [[k o'] g]. destruct (negb k || o'); [injection E as <- _; apply G|].
    destruct (t_todo th); [discriminate|]. injection E as <- _. apply G.
  - destruct (after_failure spin sc). injection E as <- _. apply G.
  - injection E as <- _. apply G.
  - destruct (a _ _). injection E as <- _. apply G.
Qed.

(** A non-spurious attempt on a free futex succeeds. *)
Lemma attempt : forall n t th o c, sg n = (t, false) -> owned (st n) = false ->
  nth_error (threads (st n)) t = Some th -> t_pc th = Cas o c -> total (st (S n)) < total (st n).
Proof using.
  intros n t th o c G F A B. destruct (st_inv n) as (x0 & tr & I).
  assert (W : waits th).
  { destruct I as [(I1 & I2 & _)|(I1 & _)]; [eauto|congruence]. }
  unfold waits in W. rewrite B in W. destruct W as [-> W].
  assert (E0 : st (S n) = match fstep spin t false (st n) with Some (s'', _) => s'' | None => st n end).
  { unfold st. cbn [after]. rewrite G. reflexivity. }
  destruct (t_todo th) as [|b todo] eqn:Td; [congruence|].
  assert (E : exists s', fstep spin t false (st n) = Some (s', Acquired b)).
  { unfold fstep. rewrite A, B, F, Td. cbn. eauto. }
  destruct E as [s' E]. rewrite E in E0. rewrite E0.
  destruct (step_total spin t false (st n) s' _ x0 tr I E) as [X|(X & Y1 & _)]; auto.
  exfalso. unfold fstep in E. rewrite A, B, F, Td in E. cbn in E. injection E as <-. cbn in Y1. congruence.
Qed.

Lemma progress : forall n, fair (length progs) sg -> ~ all_done (st n) -> exists m, n < m /\ total (st m) < total (st n).
Proof using.
  intros n FA ND. destruct (st_inv n) as (x0 & tr & I).
  destruct I as [(I1 & I2 & _)|(I1 & t & th & rest & done & pre & J1 & J2 & _)].
  - (* free: somebody has something to do *)
    assert (X : exists t th, nth_error (threads (st n)) t = Some th /\ t_todo th <> []).
    { destruct (Exists_dec (fun th : thread D L => t_todo th <> []) (threads (st n))) as [Ex|Nx].
      - intros th; destruct (t_todo th); [right; auto|left; discriminate].
      - apply Exists_exists in Ex. destruct Ex as (th & H1 & H2). apply In_nth_error in H1. destruct H1. eauto.
      - exfalso. apply ND. intros th Hin. rewrite <- Forall_Exists_neg, Forall_forall in Nx.
        assert (T : t_todo th = []) by (specialize (Nx th Hin); destruct (t_todo th); auto; exfalso; apply Nx; discriminate).
        split; auto. apply In_nth_error in Hin. destruct Hin as [t Ht]. specialize (I2 _ _ Ht). unfold waits in I2.
        destruct (t_pc th); auto; [destruct I2|..]; contradiction. }
    destruct X as (t & th & Ht & Htd).
    assert (Lt : t < length progs) by (rewrite <- (st_threads n); apply nth_error_Some; congruence).
    destruct (FA t Lt n) as (i & j & Hij & Gi & Gj & Gm).
    exists (S j). split; [lia|].
    pose proof (total_down n i ltac:(lia)) as D1. pose proof (total_down i (S i) ltac:(lia)) as D2.
    pose proof (total_down (S i) j ltac:(lia)) as D3. pose proof (total_down j (S j) ltac:(lia)) as D4.
    destruct (Nat.eq_dec (total (st j)) (total (st n))) as [Ej|Ej]; [|lia].
    destruct (quiet n i t ltac:(lia) ltac:(lia)) as [A1 A2]. destruct (quiet n j t ltac:(lia) Ej) as [B1 B2].
    rewrite Ht in A2, B2. destruct (nth_error (threads (st i)) t) as [thi|] eqn:Hi; [|discriminate].
    destruct (nth_error (threads (st j)) t) as [thj|] eqn:Hj; [|discriminate]. cbn in A2, B2.
    destruct (t_pc thi) as [|o c|c|r] eqn:Pi.
    + assert (Cj : exists c, t_pc thj = Cas false c).
      { rewrite (untouched (S i) j t) in Hj; [|lia|intros; apply Gm; lia].
        destruct (st_step i) as [X|[X|(_ & _ & _ & u & v & Z1 & Z2 & Z3 & _ & Z5)]]; [|lia|].
        - exfalso. assert (E0 : st (S i) = match fstep spin t false (st i) with Some (s'', _) => s'' | None => st i end).
          { unfold st. cbn [after]. rewrite Gi. reflexivity. }
          unfold fstep in E0. rewrite Hi, Pi in E0. destruct (t_todo thi) eqn:Q; [congruence|].
          rewrite X in E0. apply (f_equal (fun s => nth_error (threads s) t)) in E0. cbn [threads] in E0.
          rewrite (nth_error_upd_eq _ _ _ _ Hi), Hi in E0. injection E0 as E0. rewrite E0 in Pi. discriminate.
        - rewrite Gi in *. cbn [fst] in *. rewrite Hi in Z1. injection Z1 as <-. rewrite Pi in Z5.
          rewrite Z2 in Hj. injection Hj as <-. exact Z5. }
      destruct Cj as [c Cj]. pose proof (attempt j t thj false c Gj ltac:(congruence) Hj Cj). lia.
    + pose proof (attempt i t thi o c Gi ltac:(congruence) Hi Pi). lia.
    + assert (Cj : exists c, t_pc thj = Cas false c).
      { rewrite (untouched (S i) j t) in Hj; [|lia|intros; apply Gm; lia].
        destruct (st_step i) as [X|[X|(_ & _ & _ & u & v & Z1 & Z2 & Z3 & _ & Z5)]]; [|lia|].
        - exfalso. assert (E0 : st (S i) = match fstep spin t false (st i) with Some (s'', _) => s'' | None => st i end).
          { unfold st. cbn [after]. rewrite Gi. reflexivity. }
          unfold fstep in E0. rewrite Hi, Pi in E0. destruct (after_failure spin c).
          rewrite X in E0. apply (f_equal (fun s => nth_error (threads s) t)) in E0. cbn [threads] in E0.
          rewrite (nth_error_upd_eq _ _ _ _ Hi), Hi in E0. injection E0 as E0. rewrite E0 in Pi. discriminate.
        - rewrite Gi in *. cbn [fst] in *. rewrite Hi in Z1. injection Z1 as <-. rewrite Pi in Z5.
          rewrite Z2 in Hj. injection Hj as <-. exact Z5. }
      destruct Cj as [c' Cj]. pose proof (attempt j t thj false c' Gj ltac:(congruence) Hj Cj). lia.
    + exfalso. destruct (st_inv i) as (x1 & tr1 & [(_ & K2 & _)|(K1 & _)]); [|congruence].
      specialize (K2 _ _ Hi). unfold waits in K2. rewrite Pi in K2. exact K2.
  - (* held: the holder has its turn *)
    assert (Lt : t < length progs) by (rewrite <- (st_threads n); apply nth_error_Some; congruence).
    destruct (FA t Lt n) as (i & j & Hij & Gi & _).
    exists (S i). split; [lia|]. pose proof (total_down n i ltac:(lia)) as D1.
    assert (Hn : total (st i) < total (st n) \/ exists th', nth_error (threads (st i)) t = Some th' /\ t_pc th' = In rest).
    { clear Gi. destruct Hij as [Hij _]. clear - Hij J1 J2. induction Hij as [|i H IH]; [right; eauto|].
      pose proof (total_down i (S i) ltac:(lia)) as D2.
      destruct IH as [IH|(th' & A & B)]; [left; lia|].
      destruct (st_step i) as [->|[X|(_ & _ & Y2 & u & v & Z1 & _ & _ & Z4 & _)]]; [right; eauto|left; pose proof (total_down n i H); lia|].
      right. destruct (Nat.eq_dec t (fst (sg i))) as [->|N]; [|rewrite (Y2 _ N); eauto].
      rewrite A in Z1. injection Z1 as <-. exfalso. eapply Z4; eauto. }
    destruct Hn as [Hn|(th' & A & B)]; [pose proof (total_down i (S i) ltac:(lia)); lia|].
    destruct (st_step i) as [X|[X|(_ & _ & _ & u & v & Z1 & _ & _ & Z4 & _)]]; [|lia|].
    + exfalso. assert (E0 : st (S i) = match fstep spin t false (st i) with Some (s'', _) => s'' | None => st i end).
      { unfold st. cbn [after]. rewrite Gi. reflexivity. }
      unfold fstep in E0. rewrite A, B in E0. rewrite X in E0. destruct rest as [|a rest].
      * apply (f_equal (fun s => nth_error (threads s) t)) in E0. cbn [threads] in E0.
        rewrite (nth_error_upd_eq _ _ _ _ A), A in E0. injection E0 as E0. rewrite E0 in B. discriminate.
      * destruct (a _ _). apply (f_equal (fun s => nth_error (threads s) t)) in E0. cbn [threads] in E0.
        rewrite (nth_error_upd_eq _ _ _ _ A), A in E0. injection E0 as E0. rewrite E0 in B. cbn in B. injection B as B.
        apply (f_equal (@length _)) in B. cbn in B. lia.
    + rewrite Gi in Z1. cbn [fst] in Z1. rewrite A in Z1. injection Z1 as <-. exfalso. eapply Z4; eauto.
Qed.

Lemma done_dec : forall s, all_done s \/ ~ all_done s.
Proof using.
  intros s. destruct (Forall_Exists_dec (fun th : thread D L => t_pc th = Out /\ t_todo th = [])) with (l := threads s) as [F|X].
  - intros th. destruct (t_pc th); [|right; intros [? _]; discriminate..].
    destruct (t_todo th); [left; auto|right; intros [_ ?]; discriminate].
  - left. intros th H. rewrite Forall_forall in F. auto.
  - right. intros A. apply Exists_exists in X. destruct X as (th & H & N). apply N. auto.
Qed.

Lemma done_stays : forall n m, n <= m -> all_done (st n) -> st m = st n.
Proof using.
  induction 1 as [|m H IH]; auto. intros A. specialize (IH A).
  assert (E0 : st (S m) = match fstep spin (fst (sg m)) (snd (sg m)) (st m) with Some (s'', _) => s'' | None => st m end) by reflexivity.
  rewrite E0. rewrite IH in *. unfold fstep. destruct (nth_error (threads (st n)) (fst (sg m))) as [th|] eqn:E; auto.
  apply nth_error_In in E. destruct (A th E) as [-> ->]. reflexivity.
Qed.

Lemma fair_finishes : fair (length progs) sg -> exists n, forall m, n <= m ->
  all_done (after spin sg m (finit d0 progs)) /\ exists tr, freaches spin d0 progs (after spin sg m (finit d0 progs)) tr.
Proof using.
  intros FA.
  assert (X : forall k n, total (st n) <= k -> exists m, all_done (st m)).
  { induction k as [|k IH]; intros n H; destruct (done_dec (st n)) as [A|A]; eauto.
    - destruct (progress n FA A) as (m & _ & P). lia.
    - destruct (progress n FA A) as (m & _ & P). apply (IH m). lia. }
  destruct (X _ 0 (le_n _)) as [n A]. exists n. intros m H. split; [|apply after_reaches].
  pose proof (done_stays n m H A) as E. unfold st in E. rewrite E. exact A.
Qed.
End Run.

(** ** Overtaking *)

End Fair.

(** One round: thread 1 tries and fails while thread 0 is in its section. *)
Definition over_round : list (nat * bool) := [(0, false); (0, false); (1, false); (0, false); (1, false)].

Lemma overtaken_round : forall n,
  frun 0 over_round (mkF false tt [mkT Out (repeat [] (S n)) tt; mkT (Cas false 0) [[]] tt])
  = Some (mkF false tt [mkT Out (repeat [] n) tt; mkT (Cas false 0) [[]] tt],
          [(0, Tau); (0, Acquired []); (1, Tau); (0, Released); (1, Retried)]).
Proof. intros n. cbn [repeat]. reflexivity. Qed.

Lemma overtaken_rounds : forall n, exists sched tr,
  frun (D := unit) (L := unit) 0 sched (mkF false tt [mkT Out (repeat [] n) tt; mkT (Cas false 0) [[]] tt])
  = Some (mkF false tt [mkT Out [] tt; mkT (Cas false 0) [[]] tt], tr) /\
  length (acquired_by 0 tr) = n /\ acquired_by 1 tr = [] /\
  (forall acc, length (fold_left (fun acc te =>
    if fst te =? 1 then
      match snd te with
      | Acquired _ => []
      | Yielded => acc ++ [true]
      | Retried => acc ++ [false]
      | _ => acc
      end
    else acc) tr acc) = length acc + n).
Proof.
  induction n as [|n (sched & tr & A & B & C & E)].
  - exists [], []. repeat split; auto.
  - exists (over_round ++ sched). eexists. split.
    { rewrite (frun_app _ _ _ _ _ _ (overtaken_round n)), A. reflexivity. }
    split; [|split].
    + unfold acquired_by in *. cbn [app acquisitions filter fst Nat.eqb map length]. f_equal. exact B.
    + unfold acquired_by in *. cbn [app acquisitions filter fst Nat.eqb map length]. exact C.
    + intros acc. cbn [app fold_left fst snd Nat.eqb]. rewrite E, app_length. cbn [length]. lia.
Qed.

Lemma overtaken : forall n, exists s tr,
  freaches 0 tt [(repeat [] n, tt); ([[]], tt)] s tr /\ trying s 1 /\
  length (acquired_by 0 tr) = n /\ acquired_by 1 tr = [] /\ length (call_yields 1 tr) = n.
Proof.
  intros n. destruct (overtaken_rounds n) as (sched & tr & A & B & C & E).
  eexists. exists ((1, Tau) :: tr). split.
  - exists ((1, false) :: sched). unfold finit. cbn [map fst snd frun fstep threads nth_error t_pc t_todo t_local owned data upd].
    rewrite A. reflexivity.
  - split; [exists (mkT (Cas false 0) [[]] tt), false, 0%N; split; reflexivity|].
    split; [exact B|]. split; [exact C|]. unfold call_yields. cbn [fold_left fst snd Nat.eqb]. rewrite E. reflexivity.
Qed.
