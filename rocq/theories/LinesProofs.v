(** * Proofs about lines written by several threads (C119). *)
From Coq Require Import ZArith String Ascii Bool List Arith Lia.
From Verif Require Import Base ListFacts LogModel TextModel TextSpec TextFacts StreamModel LogStreamModel LogStreamSpec LogStreamProofs LogFmt LinesModel LinesSpec.
Import ListNotations.
Open Scope string_scope.
Open Scope list_scope.

Lemma nth_upd : forall (l : list mthread) t x th n, nth_error l t = Some th ->
  nth_error (upd t (fun _ => x) l) n = if (n =? t)%nat then Some x else nth_error l n.
Proof.
  intros l t x th n H. destruct (Nat.eqb_spec n t) as [->|N].
  - erewrite nth_error_upd_eq; eauto.
  - rewrite nth_error_upd_neq; auto.
Qed.

Lemma put_same : forall A x (a : A) f, put_at x a f x = a.
Proof. intros. unfold put_at. rewrite Nat.eqb_refl. reflexivity. Qed.
Lemma put_other : forall A x (a : A) f y, y <> x -> put_at x a f y = f y.
Proof. intros. unfold put_at. destruct (Nat.eqb_spec y x); congruence. Qed.

Lemma written_app : forall k a b, written_on k (a ++ b) = written_on k a ++ written_on k b.
Proof.
  intros k a b. induction a as [|[t []] a IH]; cbn [app written_on]; auto.
  destruct s as [s|]; auto. destruct (s =? k)%nat; cbn [app]; congruence.
Qed.

Section Whole.
Variables l k : nat.

Definition flat (x : list (tm * msg)) : list ins := flat_map (fun p => line_ins (fst p) (snd p)) x.

Definition pc_ok (w : mstate) (t : nat) (p : mpc) : Prop :=
  match p with
  | Away => True
  | MTime _ now _ => tm_ok now
  | MCopy _ _ _ => True
  | MLock _ _ x _ => tm_ok x
  | MPut l' s _ x _ _ => tm_ok x /\ (s = Some k -> l' = l) /\ ms_lock w l' = Some t
  end.

Definition todo_ok (c : mcall) : Prop :=
  match c with OnMsg _ now _ => tm_ok now | Direct l' s => s = k -> l' = l end.

Definition at_work (p : mpc) : option (tm * msg * list ins) :=
  match p with MPut _ (Some s) _ x m rest => if (s =? k)%nat then Some (x, m, rest) else None | _ => None end.

Record inv (w : mstate) (tr : list (nat * mevent)) (done : list ins) : Prop := mkInv {
  i_tm : tm_ok (ms_tm w);
  i_pout : forall l', ms_pout w l' = Some k -> l' = l;
  i_pc : forall t th, nth_error (ms_threads w) t = Some th -> pc_ok w t (m_pc th);
  i_todo : forall t th, nth_error (ms_threads w) t = Some th -> Forall todo_ok (m_todo th);
  i_str : ms_str w k = emit (flat (written_on k tr) ++ done) os0;
  i_done : forall t th x m rest, nth_error (ms_threads w) t = Some th -> at_work (m_pc th) = Some (x, m, rest) -> done ++ rest = line_ins x m;
  i_none : (forall t th, nth_error (ms_threads w) t = Some th -> at_work (m_pc th) = None) -> done = [];
  i_past : Forall (fun p => tm_ok (fst p)) (written_on k tr) }.

Lemma at_work_holds : forall w t th p, pc_ok w t (m_pc th) -> at_work (m_pc th) = Some p -> ms_lock w l = Some t.
Proof.
  intros w t [p todo] q A B. cbn [m_pc] in *. destruct p; try discriminate. cbn in *. destruct s as [s|]; [|discriminate].
  destruct (Nat.eqb_spec s k) as [->|]; [|discriminate]. destruct A as (_ & A & C). rewrite <- (A eq_refl). exact C.
Qed.

Lemma emit_snoc : forall a i o, emit (a ++ [i]) o = ((fst (emit a o) ++ fst (insert i (snd (emit a o))))%string, snd (insert i (snd (emit a o)))).
Proof.
  intros. rewrite emit_app. cbn [emit]. destruct (insert i (snd (emit a o))). cbn [fst snd]. rewrite str_app_nil_r. reflexivity.
Qed.

Lemma inv_step : forall w tr done t w' e, inv w tr done -> mstep t w = Some (w', e) -> exists done', inv w' (tr ++ [(t, e)]) done'.
Proof.
  intros w tr done t w' e [H1 H2 H3 H4 H5 H6 H7 H8] H. unfold mstep in H.
  destruct (nth_error (ms_threads w) t) as [[p todo]|] eqn:Hn; [|discriminate]. cbn [m_pc m_todo] in H.
  pose proof (H3 _ _ Hn) as Hp. pose proof (H4 _ _ Hn) as Ht. cbn [m_pc m_todo] in Hp, Ht.
  assert (Q : written_on k (tr ++ [(t, Quiet)]) = written_on k tr) by (rewrite written_app; cbn; apply app_nil_r).
  (* steps that neither start, nor go on with, nor end a line on [k] *)
  assert (G : forall p' todo' x lk po st e', tm_ok x -> (forall l', po l' = Some k -> l' = l) ->
    at_work p = None -> at_work p' = None ->
    (forall n q, n <> t -> pc_ok w n q -> pc_ok (mkMS x lk po st (upd t (fun _ => mkMT p' todo') (ms_threads w))) n q) ->
    pc_ok (mkMS x lk po st (upd t (fun _ => mkMT p' todo') (ms_threads w))) t p' ->
    Forall todo_ok todo' -> st k = ms_str w k -> written_on k (tr ++ [(t, e')]) = written_on k tr ->
    inv (mkMS x lk po st (upd t (fun _ => mkMT p' todo') (ms_threads w))) (tr ++ [(t, e')]) done).
  { intros p' todo' x lk po st e' A1 A2 A3 A3' A4 A5 A6 A7 A8. constructor; cbn [ms_tm ms_pout ms_threads ms_str]; auto.
    - intros n th. rewrite (nth_upd _ _ _ _ _ Hn). destruct (Nat.eqb_spec n t) as [->|N]; intros E.
      + injection E as <-. exact A5.
      + apply A4; auto.
    - intros n th. rewrite (nth_upd _ _ _ _ _ Hn). destruct (Nat.eqb_spec n t) as [->|N]; intros E; eauto.
      injection E as <-. exact A6.
    - rewrite A7, A8. exact H5.
    - intros n th y m rest. rewrite (nth_upd _ _ _ _ _ Hn). destruct (Nat.eqb_spec n t) as [->|N]; intros E; eauto.
      injection E as <-. cbn [m_pc]. rewrite A3'. discriminate.
    - intros A. apply H7. intros n th E. destruct (Nat.eq_dec n t) as [->|N].
      + rewrite Hn in E. injection E as <-. exact A3.
      + apply (A n). rewrite (nth_upd _ _ _ _ _ Hn). destruct (Nat.eqb_spec n t); congruence.
    - rewrite A8. exact H8. }
  (* the other threads are not writing on [k] *)
  assert (O : forall n th, ms_lock w l = None \/ ms_lock w l = Some t -> n <> t -> nth_error (ms_threads w) n = Some th -> at_work (m_pc th) = None).
  { intros n th L N E. destruct (at_work (m_pc th)) eqn:W; auto. pose proof (at_work_holds _ _ _ _ (H3 _ _ E) W). destruct L; congruence. }
  destruct p as [|l' now m|l' now m|l' now x m|l' s now x m rest].
  - destruct todo as [|c todo]; [discriminate|]. pose proof (Forall_inv Ht) as Hc. pose proof (Forall_inv_tail Ht) as Ht'. destruct c as [l' now m|l' s].
    + injection H as <- <-. exists done. apply G; auto; try (let q := fresh in let A := fresh in intros ? q _ A; destruct q; exact A); try exact I.
    + destruct (ms_lock w l') eqn:L; [discriminate|]. injection H as <- <-. exists done. apply G; auto; try (let q := fresh in let A := fresh in intros ? q _ A; destruct q; exact A); try exact I.
      intros l2. unfold put_at. destruct (Nat.eqb_spec l2 l') as [->|]; auto. intros E. injection E as E. exact (Hc E).
  - injection H as <- <-. exists done. apply G; auto; try (let q := fresh in let A := fresh in intros ? q _ A; destruct q; exact A); try exact I.
  - injection H as <- <-. exists done. apply G; auto; try (let q := fresh in let A := fresh in intros ? q _ A; destruct q; exact A); try exact I.
  - destruct (ms_lock w l') eqn:L; [discriminate|]. injection H as <- <-. cbn [pc_ok] in Hp.
    assert (K : forall n q, n <> t -> pc_ok w n q ->
      pc_ok (mkMS (ms_tm w) (put_at l' (Some t) (ms_lock w)) (ms_pout w) (ms_str w) (upd t (fun _ => mkMT (MPut l' (ms_pout w l') now x m (line_ins x m)) todo) (ms_threads w))) n q).
    { intros n q N. destruct q; cbn [pc_ok ms_lock]; auto. intros (A & B & C). split; [exact A|split; [exact B|]]. rewrite put_other; auto. congruence. }
    destruct (at_work (MPut l' (ms_pout w l') now x m (line_ins x m))) eqn:W.
    + assert (El : ms_pout w l' = Some k).
      { cbn in W. destruct (ms_pout w l') as [s|]; [|discriminate]. destruct (Nat.eqb_spec s k); [congruence|discriminate]. }
      pose proof (H2 _ El). subst l'.
      assert (D : done = []).
      { apply H7. intros n th E. destruct (Nat.eq_dec n t) as [->|N]; [rewrite Hn in E; injection E as <-; reflexivity|eauto]. }
      subst done. exists []. constructor; cbn [ms_tm ms_pout ms_threads ms_str]; auto.
      * intros n th. rewrite (nth_upd _ _ _ _ _ Hn). destruct (Nat.eqb_spec n t) as [->|N]; intros E.
        -- injection E as <-. cbn. rewrite put_same. auto.
        -- apply K; auto.
      * intros n th. rewrite (nth_upd _ _ _ _ _ Hn). destruct (Nat.eqb_spec n t) as [->|N]; intros E; eauto. injection E as <-. exact Ht.
      * rewrite Q. exact H5.
      * intros n th y m' rest. rewrite (nth_upd _ _ _ _ _ Hn). destruct (Nat.eqb_spec n t) as [->|N]; intros E; eauto.
        injection E as <-. cbn [m_pc]. rewrite W. intros E. rewrite E in W. cbn in W. rewrite El, Nat.eqb_refl in W. injection W as <- <- <-. reflexivity.
      * rewrite Q. exact H8.
    + exists done. apply G; auto; try (let q := fresh in let A := fresh in intros ? q _ A; destruct q; exact A); try exact I. cbn. rewrite put_same. auto.
  - destruct Hp as (Hx & Hs & Hl). destruct rest as [|i rest].
    + injection H as <- <-. 
      assert (K : forall st ths n q, n <> t -> pc_ok w n q -> pc_ok (mkMS (ms_tm w) (put_at l' None (ms_lock w)) (ms_pout w) st ths) n q).
      { intros st ths n q N. destruct q; cbn [pc_ok ms_lock]; auto. intros (A & B & C). split; [exact A|split; [exact B|]]. rewrite put_other; auto. congruence. }
      destruct (at_work (MPut l' s now x m [])) eqn:W.
      * assert (s = Some k). { cbn in W. destruct s as [s|]; [|discriminate]. destruct (Nat.eqb_spec s k); [congruence|discriminate]. }
        subst s. specialize (Hs eq_refl). subst l'. cbn in W. rewrite Nat.eqb_refl in W. injection W as <-.
        assert (D : done ++ [] = line_ins x m). { eapply H6; [exact Hn|]. cbn. rewrite Nat.eqb_refl. reflexivity. }
        rewrite app_nil_r in D. subst done.
        assert (Q' : written_on k (tr ++ [(t, Wrote l (Some k) now x m)]) = written_on k tr ++ [(x, m)]).
        { rewrite written_app. cbn. rewrite Nat.eqb_refl. reflexivity. }
        exists []. constructor; cbn [ms_tm ms_pout ms_threads ms_str]; auto.
        -- intros n th. rewrite (nth_upd _ _ _ _ _ Hn). destruct (Nat.eqb_spec n t) as [->|N]; intros E; [injection E as <-; exact I|]. apply K; auto.
        -- intros n th. rewrite (nth_upd _ _ _ _ _ Hn). destruct (Nat.eqb_spec n t) as [->|N]; intros E; eauto. injection E as <-. exact Ht.
        -- rewrite Q'. unfold flat. rewrite flat_map_app. cbn [flat_map fst snd]. rewrite !app_nil_r. exact H5.
        -- intros n th y m' rest. rewrite (nth_upd _ _ _ _ _ Hn). destruct (Nat.eqb_spec n t) as [->|N]; intros E; [injection E as <-; discriminate|].
           rewrite (O n th); auto. discriminate.
        -- rewrite Q'. apply Forall_app. auto.
      * exists done. apply G; auto; try (let q := fresh in let A := fresh in intros ? q _ A; destruct q; exact A); try exact I; try exact I. rewrite written_app. cbn. destruct s as [s|]; cbn in W; [destruct (Nat.eqb_spec s k); [discriminate|]|]; apply app_nil_r.
    + injection H as <- <-. destruct (at_work (MPut l' s now x m (i :: rest))) eqn:W.
      * assert (s = Some k). { cbn in W. destruct s as [s|]; [|discriminate]. destruct (Nat.eqb_spec s k); [congruence|discriminate]. }
        subst s. pose proof (Hs eq_refl). subst l'. cbn in W. rewrite Nat.eqb_refl in W. injection W as <-.
        assert (D : done ++ i :: rest = line_ins x m). { eapply H6; [exact Hn|]. cbn. rewrite Nat.eqb_refl. reflexivity. }
        exists (done ++ [i]). constructor; cbn [ms_tm ms_pout ms_threads ms_str]; auto.
        -- intros n th. rewrite (nth_upd _ _ _ _ _ Hn). destruct (Nat.eqb_spec n t) as [->|N]; intros E; [injection E as <-; cbn; auto|].
           apply H3 in E. destruct (m_pc th); exact E.
        -- intros n th. rewrite (nth_upd _ _ _ _ _ Hn). destruct (Nat.eqb_spec n t) as [->|N]; intros E; eauto. injection E as <-. exact Ht.
        -- rewrite Q, app_assoc, emit_snoc, <- H5. unfold insert_at. destruct (insert i (snd (ms_str w k))). rewrite put_same. reflexivity.
        -- intros n th y m' rest'. rewrite (nth_upd _ _ _ _ _ Hn). destruct (Nat.eqb_spec n t) as [->|N]; intros E.
           ++ injection E as <-. cbn. rewrite Nat.eqb_refl. intros E. injection E as <- <- <-. rewrite <- app_assoc. exact D.
           ++ rewrite (O n th); auto. discriminate.
        -- intros A. exfalso. specialize (A t _ (eq_trans (nth_upd _ _ _ _ t Hn) ltac:(rewrite Nat.eqb_refl; reflexivity))). cbn in A. rewrite Nat.eqb_refl in A. discriminate.
        -- rewrite Q. exact H8.
      * exists done. apply G; auto; try (let q := fresh in let A := fresh in intros ? q _ A; destruct q; exact A); try exact I; [|cbn; auto|].
        -- cbn in W |- *. destruct s as [s|]; auto. destruct (s =? k)%nat; [discriminate|reflexivity].
        -- unfold insert_at. destruct s as [s|]; auto. destruct (insert i (snd (ms_str w s))). apply put_other.
           cbn in W. destruct (Nat.eqb_spec s k); [discriminate|auto].
Qed.

Lemma inv_run : forall sched w tr done w' tr', inv w tr done -> mrun sched w = Some (w', tr') -> exists done', inv w' (tr ++ tr') done'.
Proof.
  induction sched as [|t sched IH]; intros w tr done w' tr' I H; cbn [mrun] in H.
  - injection H as <- <-. rewrite app_nil_r. eauto.
  - destruct (mstep t w) as [[w1 e]|] eqn:E; [|discriminate].
    destruct (mrun sched w1) as [[w2 es]|] eqn:R; [|discriminate]. injection H as <- <-.
    destruct (inv_step _ _ _ _ _ _ I E) as (d1 & I1). destruct (IH _ _ _ _ _ I1 R) as (d2 & I2). rewrite <- app_assoc in I2. eauto.
Qed.

Lemma inv_init : forall x progs, tm_ok x -> times_ok progs -> only_through l k progs -> inv (minit x progs) [] [].
Proof.
  intros x progs T A B.
  assert (N : forall t th, nth_error (map (mkMT Away) progs) t = Some th -> exists p, In p progs /\ th = mkMT Away p).
  { intros t th E. apply nth_error_In, in_map_iff in E. destruct E as (p & <- & E). eauto. }
  constructor; cbn [minit ms_tm ms_pout ms_threads ms_str]; auto; try discriminate.
  - intros t th E. destruct (N _ _ E) as (p & _ & ->). exact I.
  - intros t th E. destruct (N _ _ E) as (p & I & ->). cbn. apply Forall_forall. intros [l' now m|l' s] J; cbn.
    + eapply A; eauto.
    + intros ->. eapply B; eauto.
  - intros t th y m rest E. destruct (N _ _ E) as (p & _ & ->). discriminate.
  - constructor.
Qed.

Lemma lines_emit : forall ls o, Forall (fun p => tm_ok (fst p)) ls -> usual o -> fst (emit (flat ls) o) = lines ls /\ usual (snd (emit (flat ls) o)).
Proof.
  induction ls as [|[x m] ls IH]; intros o F U; cbn [flat flat_map fst snd lines fold_right].
  - auto.
  - pose proof (Forall_inv F) as Fx. pose proof (Forall_inv_tail F) as Ft. cbn [fst] in Fx.
    change (flat_map (fun p => line_ins (fst p) (snd p)) ls) with (flat ls).
    rewrite emit_app, (same_line x m o Fx U). cbn [fst snd].
    assert (U' : usual (left_behind o)). { destruct U as (B1 & B2 & B3 & B4 & B5). repeat split; auto with arith. }
    destruct (IH _ Ft U') as (E1 & E2). rewrite E1. split; auto.
Qed.

Lemma usual0 : usual os0.
Proof. repeat split; cbn; auto with arith. discriminate. Qed.

Theorem whole_lines : forall x progs w tr, mreaches x progs w tr -> tm_ok x -> times_ok progs -> only_through l k progs ->
  (~ writing w k -> fst (ms_str w k) = lines (written_on k tr)) /\
  (forall t th l' now y m rest, nth_error (ms_threads w) t = Some th -> m_pc th = MPut l' (Some k) now y m rest ->
     exists a b, log_line y m = (a ++ b)%string /\ fst (ms_str w k) = (lines (written_on k tr) ++ a)%string).
Proof.
  intros x progs w tr (sched & R) T A B. destruct (inv_run _ _ _ _ _ _ (inv_init _ _ T A B) R) as (done & [H1 H2 H3 H4 H5 H6 H7 H8]). cbn [app] in *.
  destruct (lines_emit _ os0 H8 usual0) as (E1 & E2). split.
  - intros N. rewrite H5, H7; [rewrite app_nil_r; exact E1|]. intros t th E. destruct (m_pc th) eqn:P; cbn; auto.
    destruct s as [s|]; auto. destruct (Nat.eqb_spec s k) as [->|]; auto. exfalso. apply N. repeat eexists; eauto.
  - intros t th l' now y m rest E P.
    assert (D : done ++ rest = line_ins y m). { eapply H6; [exact E|]. rewrite P. cbn. rewrite Nat.eqb_refl. reflexivity. }
    pose proof (H3 _ _ E) as Y. rewrite P in Y. destruct Y as (Y & _).
    pose proof (same_line y m _ Y E2) as L. rewrite <- D, emit_app in L. injection L as L _.
    eexists _, _. split; [symmetry; exact L|]. rewrite H5, emit_app. cbn [fst]. rewrite E1. reflexivity.
Qed.

End Whole.

(** ** The time *)

Section Time.
Variable t0 : nat.

Definition time_ok (w : mstate) (p : mpc) : Prop :=
  match p with
  | MCopy _ now _ => ms_tm w = now
  | MLock _ now x _ | MPut _ _ now x _ _ => x = now
  | _ => True
  end.
Definition is_msg (c : mcall) : bool := match c with OnMsg _ _ _ => true | _ => false end.

Record tinv (w : mstate) (tr : list (nat * mevent)) : Prop := mkT {
  t_other : forall t th, nth_error (ms_threads w) t = Some th -> t <> t0 -> m_pc th = Away /\ Forall (fun c => is_msg c = false) (m_todo th);
  t_own : forall th, nth_error (ms_threads w) t0 = Some th -> time_ok w (m_pc th);
  t_past : forall t l s now x m, In (t, Wrote l s now x m) tr -> x = now }.

Lemma tinv_step : forall w tr t w' e, tinv w tr -> mstep t w = Some (w', e) -> tinv w' (tr ++ [(t, e)]).
Proof.
  intros w tr t w' e [H1 H2 H3] H. unfold mstep in H.
  destruct (nth_error (ms_threads w) t) as [[p todo]|] eqn:Hn; [|discriminate]. cbn [m_pc m_todo] in H.
  assert (P : forall e', (forall l s now x m, e' = Wrote l s now x m -> x = now) -> forall t' l s now x m, In (t', Wrote l s now x m) (tr ++ [(t, e')]) -> x = now).
  { intros e' E t' l s now x m I. apply in_app_iff in I. destruct I as [I|[I|[]]]; eauto. injection I as _ I. eauto. }
  assert (G : forall p' todo' x lk po st e',
    (t <> t0 -> p' = Away /\ Forall (fun c => is_msg c = false) todo' /\ x = ms_tm w) ->
    (t = t0 -> time_ok (mkMS x lk po st (upd t (fun _ => mkMT p' todo') (ms_threads w))) p') ->
    (forall l s now x m, e' = Wrote l s now x m -> x = now) ->
    tinv (mkMS x lk po st (upd t (fun _ => mkMT p' todo') (ms_threads w))) (tr ++ [(t, e')])).
  { intros p' todo' x lk po st e' A1 A2 A3. constructor; cbn [ms_threads]; eauto.
    - intros n th. rewrite (nth_upd _ _ _ _ _ Hn). destruct (Nat.eqb_spec n t) as [->|N]; intros E; eauto.
      injection E as <-. cbn. intros X. destruct (A1 X) as (B1 & B2 & _). auto.
    - intros th. rewrite (nth_upd _ _ _ _ _ Hn). destruct (Nat.eqb_spec t0 t) as [->|N]; intros E.
      + injection E as <-. auto.
      + destruct A1 as (_ & _ & ->); auto. apply H2 in E. destruct (m_pc th); auto. }
  destruct (Nat.eq_dec t t0) as [->|N].
  - pose proof (H2 _ Hn) as O. cbn [m_pc] in O.
    destruct p as [|l' now m|l' now m|l' now x m|l' s now x m [|i rest]]; [destruct todo as [|[l' now m|l' s] todo]; [discriminate| |]| | | | |];
      try (destruct (ms_lock w l'); [discriminate|]); injection H as <- <-; apply G; try (intros X; congruence); try (intros _; cbn; auto; fail).
  - destruct (H1 _ _ Hn N) as (E & F). cbn [m_pc m_todo] in E, F. subst p. destruct todo as [|[l' now m|l' s] todo]; [discriminate| |].
    + apply Forall_inv in F. discriminate.
    + destruct (ms_lock w l'); [discriminate|]. injection H as <- <-. apply G; try congruence. intros _. apply Forall_inv_tail in F. auto.
Qed.

Lemma tinv_run : forall sched w tr w' tr', tinv w tr -> mrun sched w = Some (w', tr') -> tinv w' (tr ++ tr').
Proof.
  induction sched as [|t sched IH]; intros w tr w' tr' I H; cbn [mrun] in H.
  - injection H as <- <-. rewrite app_nil_r. exact I.
  - destruct (mstep t w) as [[w1 e]|] eqn:E; [|discriminate].
    destruct (mrun sched w1) as [[w2 es]|] eqn:R; [|discriminate]. injection H as <- <-.
    pose proof (tinv_step _ _ _ _ _ I E) as I1. pose proof (IH _ _ _ _ I1 R) as I2. rewrite <- app_assoc in I2. exact I2.
Qed.

Theorem own_time : forall x progs w tr, mreaches x progs w tr -> one_caller t0 progs ->
  forall t l s now y m, In (t, Wrote l s now y m) tr -> y = now.
Proof.
  intros x progs w tr (sched & R) A. apply (t_past w tr). apply (tinv_run _ _ [] _ _) with (2 := R).
  assert (N : forall t th, nth_error (map (mkMT Away) progs) t = Some th -> exists p, nth_error progs t = Some p /\ th = mkMT Away p).
  { intros t th E. rewrite nth_error_map in E. destruct (nth_error progs t) as [p|]; [|discriminate]. injection E as <-. eauto. }
  constructor; cbn [minit ms_threads].
  - intros t th E D. destruct (N _ _ E) as (p & I & ->). cbn. split; auto. apply Forall_forall. intros [l now m|l s] J; auto.
    exfalso. apply D. eapply A; eauto.
  - intros th E. destruct (N _ _ E) as (p & _ & ->). exact I.
  - intros t l s now y m [].
Qed.
End Time.

(** ** What can go wrong *)

Lemma mrun_app : forall a b w w1 tr1, mrun a w = Some (w1, tr1) ->
  mrun (a ++ b) w = match mrun b w1 with Some (w2, tr2) => Some (w2, tr1 ++ tr2) | None => None end.
Proof.
  induction a as [|t a IH]; intros b w w1 tr1 H; cbn [app mrun] in *.
  - injection H as <- <-. destruct (mrun b w) as [[? ?]|]; auto.
  - destruct (mstep t w) as [[w0 e]|]; [|discriminate]. destruct (mrun a w0) as [[w2 es]|] eqn:R; [|discriminate]. injection H as <- <-.
    rewrite (IH _ _ _ _ R). destruct (mrun b w2) as [[? ?]|]; auto.
Qed.

Lemma put_seq : forall z r1 r2, merge r1 r2 z -> forall x lk po st t1 t2 m1 m2, 
  exists sched st' tr, mrun sched (mkMS x lk po st [mkMT (MPut 0 (Some 0) t1 t1 m1 r1) []; mkMT (MPut 1 (Some 0) t2 t2 m2 r2) []]) =
    Some (mkMS x lk po st' [mkMT (MPut 0 (Some 0) t1 t1 m1 []) []; mkMT (MPut 1 (Some 0) t2 t2 m2 []) []], tr) /\
  st' 0 = ((fst (st 0) ++ fst (emit z (snd (st 0))))%string, snd (emit z (snd (st 0)))).
Proof.
  intros z r1 r2 M. induction M as [|i r1 r2 z M IH|i r1 r2 z M IH]; intros x lk po st t1 t2 m1 m2.
  - exists [], st, []. split; [reflexivity|]. cbn. rewrite str_app_nil_r. apply surjective_pairing.
  - destruct (IH x lk po (insert_at (Some 0) i st) t1 t2 m1 m2) as (sched & st' & tr & R & E).
    exists (0 :: sched), st', ((0, Quiet) :: tr). split.
    + cbn [mrun mstep ms_threads nth_error m_pc m_todo upd]. cbn [ms_tm ms_lock ms_pout ms_str]. rewrite R. reflexivity.
    + rewrite E. cbn [emit insert_at]. destruct (insert i (snd (st 0))) as [s o]. rewrite put_same. cbn [fst snd].
      destruct (emit z o). cbn [fst snd]. rewrite str_app_assoc. reflexivity.
  - destruct (IH x lk po (insert_at (Some 0) i st) t1 t2 m1 m2) as (sched & st' & tr & R & E).
    exists (1 :: sched), st', ((1, Quiet) :: tr). split.
    + cbn [mrun mstep ms_threads nth_error m_pc m_todo upd]. cbn [ms_tm ms_lock ms_pout ms_str]. rewrite R. reflexivity.
    + rewrite E. cbn [emit insert_at]. destruct (insert i (snd (st 0))) as [s o]. rewrite put_same. cbn [fst snd].
      destruct (emit z o). cbn [fst snd]. rewrite str_app_assoc. reflexivity.
Qed.

Theorem any_merge : forall x t1 t2 m1 m2 z, merge (line_ins t1 m1) (line_ins t2 m2) z ->
  exists w tr, mreaches x (two_writers t1 t2 m1 m2) w tr /\ fst (ms_str w 0) = fst (emit z os0) /\
    In (t1, m1) (written_on 0 tr) /\ In (t2, m2) (written_on 0 tr) /\ ~ writing w 0.
Proof.
  intros x t1 t2 m1 m2 z M.
  pose (a := [0; 0; 0; 0; 0; 1; 1; 1; 1; 1]).
  assert (R1 : exists tr, mrun a (minit x (two_writers t1 t2 m1 m2)) =
    Some (mkMS t2 (put_at 1 (Some 1) (put_at 0 (Some 0) (fun _ => None))) (put_at 1 (Some 0) (put_at 0 (Some 0) (fun _ => None))) (fun _ => ("", os0))
      [mkMT (MPut 0 (Some 0) t1 t1 m1 (line_ins t1 m1)) []; mkMT (MPut 1 (Some 0) t2 t2 m2 (line_ins t2 m2)) []], tr)).
  { eexists. unfold a, minit, two_writers. cbn -[line_ins os0 put_at]. reflexivity. }
  destruct R1 as (tr1 & R1).
  destruct (put_seq _ _ _ M t2 (put_at 1 (Some 1) (put_at 0 (Some 0) (fun _ => None))) (put_at 1 (Some 0) (put_at 0 (Some 0) (fun _ => None))) (fun _ => ("", os0)) t1 t2 m1 m2)
    as (b & st' & tr2 & R2 & E).
  eexists _, _. split; [exists (a ++ b ++ [0; 1])|].
  - rewrite (mrun_app _ _ _ _ _ R1), (mrun_app _ _ _ _ _ R2). cbn -[put_at]. reflexivity.
  - cbn [ms_str]. rewrite E. cbn [fst snd append]. split; [reflexivity|]. rewrite !written_app. cbn [written_on Nat.eqb].
    split; [|split]; try (apply in_app_iff; right; apply in_app_iff; right; cbn; auto; fail).
    intros (t & th & l & now & y & m & rest & A & B). cbn in A. destruct t as [|[|t]]; [| |destruct t; discriminate A]; injection A as <-; discriminate B.
Qed.

Lemma merge_left_all : forall A (x : list A), merge x [] x.
Proof. induction x; constructor; auto. Qed.
Lemma merge_right_all : forall A (x : list A), merge [] x x.
Proof. induction x; constructor; auto. Qed.
Lemma merge_seq : forall A (x y : list A), merge x y (x ++ y).
Proof. induction x; intros y; cbn; [apply merge_right_all|constructor; auto]. Qed.

Theorem mixed : forall x t1 t2 m1 m2, tm_ok t1 -> tm_ok t2 ->
  exists w tr, mreaches x (two_writers t1 t2 m1 m2) w tr /\ ~ writing w 0 /\ In (t1, m1) (written_on 0 tr) /\ In (t2, m2) (written_on 0 tr) /\
    forall y m rest, tm_ok y -> fst (ms_str w 0) <> (log_line y m ++ rest)%string.
Proof.
  intros x t1 t2 m1 m2 T1 T2.
  assert (C : forall t m, exists r, line_ins t m = PInt (tm_year t + 1900) :: r) by (intros; unfold line_ins; cbn [app]; eauto).
  destruct (C t1 m1) as (r1 & E1). destruct (C t2 m2) as (r2 & E2).
  assert (M : merge (line_ins t1 m1) (line_ins t2 m2) (PInt (tm_year t1 + 1900) :: PInt (tm_year t2 + 1900) :: r1 ++ r2)).
  { rewrite E1, E2. apply merge_left, merge_right, merge_seq. }
  destruct (any_merge x _ _ _ _ _ M) as (w & tr & R & E & A & B & N). exists w, tr.
  split; [exact R|]. split; [exact N|]. split; [exact A|]. split; [exact B|].
  intros y m rest Y F. pose proof (date_shape y m Y) as L.
  assert (L5 : like "dddd-" (log_line y m ++ rest)%string).
  { assert (P : forall p q s r, like (p ++ q)%string s -> like p (s ++ r)%string).
    { induction p as [|a p IH]; intros q [|b s] r; cbn [append like]; auto; [intros []|]. intros (X1 & X2). split; [exact X1|]. eapply IH. exact X2. }
    apply (P "dddd-" "dd-dd dd:dd:dd ["). exact L. }
  rewrite <- F, E in L5. cbn [emit] in L5.
  change os0 with (mkOS (o_fmt os0) false) in L5. rewrite !insert_int in L5. cbn [set_width] in L5.
  destruct (emit (r1 ++ r2) _) as [rr oo]. cbn [fst] in L5. rewrite !shown_dec in L5 by reflexivity.
  destruct T1 as (Y1 & _). destruct T2 as (Y2 & _).
  pose proof (year_length _ Y1) as W1. pose proof (year_length _ Y2) as W2.
  destruct (dec (tm_year t1 + 1900)) as [|c1 [|c2 [|c3 [|c4 [|]]]]] eqn:D1; try discriminate W1.
  destruct (dec (tm_year t2 + 1900)) as [|d1 d2] eqn:D2; [discriminate W2|].
  cbn [append like] in L5. destruct L5 as (_ & _ & _ & _ & L5 & _). cbn in L5. subst d1.
  assert (H : has "-" (dec (tm_year t2 + 1900))) by (rewrite D2; cbn; auto).
  pose proof (dec_nonneg "-" (tm_year t2 + 1900) ltac:(lia) H) as Q.
  unfold digit in Q. change (nat_of_ascii "-") with 45 in Q. lia.
Qed.

(** Thread 0 shows the time of thread 1. *)
Lemma put_alone : forall rest x lk po st l s now y m th2, exists n st' tr,
  mrun (repeat 0 n) (mkMS x lk po st [mkMT (MPut l s now y m rest) []; th2]) =
    Some (mkMS x (put_at l None lk) po st' [mkMT Away []; th2], tr ++ [(0, Wrote l s now y m)]).
Proof.
  induction rest as [|i rest IH]; intros x lk po st l s now y m th2.
  - exists 1, st, []. reflexivity.
  - destruct (IH x lk po (insert_at s i st) l s now y m th2) as (n & st' & tr & R). exists (S n), st', ((0, Quiet) :: tr).
    cbn [repeat mrun mstep ms_threads nth_error m_pc m_todo upd]. cbn [ms_tm ms_lock ms_pout ms_str]. rewrite R. reflexivity.
Qed.

Theorem wrong_time : forall x t1 t2 m1 m2,
  exists w tr, mreaches x (two_writers t1 t2 m1 m2) w tr /\ In (0, Wrote 0 (Some 0) t1 t2 m1) tr.
Proof.
  intros x t1 t2 m1 m2.
  assert (R1 : exists w tr, mrun [0; 0; 0; 1; 1; 1; 0; 0] (minit x (two_writers t1 t2 m1 m2)) = Some (w, tr) /\
    exists lk po st th2, w = mkMS t2 lk po st [mkMT (MPut 0 (Some 0) t1 t2 m1 (line_ins t2 m1)) []; th2]).
  { unfold minit, two_writers. cbn -[line_ins os0 put_at]. eexists _, _. split; [reflexivity|]. repeat eexists. }
  destruct R1 as (w & tr & R1 & lk & po & st & th2 & ->).
  destruct (put_alone (line_ins t2 m1) t2 lk po st 0 (Some 0) t1 t2 m1 th2) as (n & st' & tr2 & R2).
  eexists _, _. split.
  - eexists. rewrite (mrun_app _ (repeat 0 n) _ _ _ R1), R2. reflexivity.
  - apply in_app_iff. right. apply in_app_iff. right. left. reflexivity.
Qed.
