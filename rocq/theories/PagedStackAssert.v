(** * Proofs about the assertions of a shared stack. *)

From Coq Require Import List Arith NArith ZArith Lia Bool.
From Verif Require Import Base ListFacts PagedStackModel PagedStackSpec PagedStackExec PagedStackProofs PagedStackIter FutexModel FutexSpec FutexProofs FutexMore
  PagedStackThreadsSpec PagedStackThreads PagedStackAssertModel PagedStackAssertSpec.
Import ListNotations.
Open Scope m_scope.

(** ** Orders of sections, for any data *)
Section Orders.
Context {D L E : Type}.
Variable code : E -> body D L.

Definition coded (order : list (nat * E)) : list (nat * body D L) := map (fun x => (fst x, code (snd x))) order.
Definition own_part (t : nat) (order : list (nat * E)) : list E := map snd (filter (fun x => fst x =? t) order).

Lemma decode : forall (acq : list (nat * body D L)) (prog : nat -> list E) (rest : nat -> list (body D L)),
  (forall t, map code (prog t) = map snd (filter (fun x => fst x =? t) acq) ++ rest t) ->
  exists order, acq = coded order /\ forall t, exists more, prog t = own_part t order ++ more /\ map code more = rest t.
Proof.
  induction acq as [|[t b] acq IH]; intros prog rest H.
  - exists []. split; [reflexivity|]. intro t. exists (prog t). split; [reflexivity|]. apply (H t).
  - pose proof (H t) as Ht. cbn [filter fst] in Ht. rewrite Nat.eqb_refl in Ht. cbn [map snd app] in Ht.
    destruct (prog t) as [|o p] eqn:Pt; [discriminate Ht|]. cbn [map] in Ht. injection Ht as Hb Ht.
    destruct (IH (fun t' => if t' =? t then p else prog t') rest) as (order & A & B).
    + intro t'. destruct (Nat.eqb_spec t' t) as [->|N]; [exact Ht|]. rewrite (H t'). cbn [filter fst]. destruct (Nat.eqb_spec t t'); [congruence|reflexivity].
    + exists ((t, o) :: order). split; [unfold coded in *; cbn [map fst snd]; now rewrite <- A, Hb|].
      intro t'. destruct (B t') as (more & C & F). exists more. split; [|exact F]. unfold own_part in *. cbn [filter fst].
      destruct (Nat.eqb_spec t' t) as [->|N].
      * rewrite Nat.eqb_refl. cbn [map snd app]. now rewrite Pt, C.
      * destruct (Nat.eqb_spec t t'); [congruence|exact C].
Qed.

Lemma frun_bounds : forall spin sched (s s' : fstate D L) tr, frun spin sched s = Some (s', tr) ->
  length (threads s') = length (threads s) /\ Forall (fun te => fst te < length (threads s)) tr.
Proof.
  intros spin sched. induction sched as [|[t sp] sched IH]; intros s s' tr H; cbn [frun] in H.
  - injection H as <- <-. auto.
  - destruct (fstep spin t sp s) as [[s1 e]|] eqn:F; [|discriminate].
    destruct (frun spin sched s1) as [[s2 es]|] eqn:E2; [|discriminate]. injection H as <- <-.
    assert (G : length (threads s1) = length (threads s) /\ t < length (threads s)).
    { unfold fstep in F. destruct (nth_error (threads s) t) as [th|] eqn:Ht; [|discriminate].
      split; [|apply nth_error_Some; congruence].
      repeat match type of F with
             | context [match ?x with _ => _ end] => destruct x; try discriminate
             end; injection F as <- <-; cbn [threads]; apply upd_length. }
    destruct G as [G1 G2]. destruct (IH _ _ _ E2) as [A B]. rewrite G1 in *. split; [exact A|]. constructor; [exact G2|exact B].
Qed.

Lemma acq_bound : forall (tr : list (nat * fevent D L)) n t b, Forall (fun te => fst te < n) tr -> List.In (t, b) (acquisitions tr) -> t < n.
Proof.
  intros tr n t b F. induction F as [|[t' e] tr H F IH]; [intros []|]. cbn [fst] in H. destruct e; cbn [acquisitions]; try exact IH.
  intros [I|I]; [injection I as <- _; exact H|exact (IH I)].
Qed.

(** When the lock is free, the memory is what the sections, executed one after the other in the order of
    their acquisitions, make of the initial one. *)
Lemma one_order : forall spin d0 (l0 : L) (progs : list (list E)) (s : fstate D L) tr,
  freaches spin d0 (map (fun p => (map code p, l0)) progs) s tr -> (forall t, ~ holds s t) ->
  exists order, acquisitions tr = coded order /\
    (forall t p, nth_error progs t = Some p -> exists more th, nth_error (threads s) t = Some th /\ p = own_part t order ++ more /\ map code more = t_todo th) /\
    (forall t e, List.In (t, e) order -> t < length progs) /\
    memory s = serial (coded order) (d0, map (fun _ => l0) progs) /\ length (threads s) = length progs.
Proof.
  intros spin d0 l0 progs s tr R NH. set (fp := map (fun p => (map code p, l0)) progs) in *.
  assert (PO : forall t p, nth_error progs t = Some p -> exists th, nth_error (threads s) t = Some th /\ map code p = acquired_by t tr ++ t_todo th).
  { intros t p H. apply (sections_in_order spin d0 fp s tr t (map code p) l0); [exact R|]. unfold fp. rewrite nth_error_map, H. reflexivity. }
  assert (RG : length (threads s) = length progs /\ Forall (fun te => fst te < length progs) tr).
  { destruct R as [sched R]. destruct (frun_bounds _ _ _ _ _ R) as [A B]. unfold finit in A, B. cbn [threads] in A, B. unfold fp in A, B.
    rewrite !map_length in A. rewrite !map_length in B. split; [exact A|exact B]. }
  destruct RG as [RL RT].
  destruct (decode (acquisitions tr) (fun t => nth t progs []) (fun t => match nth_error (threads s) t with Some th => t_todo th | None => [] end)) as (order & A & B).
  { intro t. destruct (nth_error progs t) as [p|] eqn:N.
    - destruct (PO t p N) as (th & H1 & H2). rewrite (nth_error_nth _ _ _ N), H1. exact H2.
    - apply nth_error_None in N. rewrite (nth_overflow _ _ N).
      assert (AN : map snd (filter (fun x => fst x =? t) (acquisitions tr)) = []).
      { assert (Fl : filter (fun x => fst x =? t) (acquisitions tr) = []); [|now rewrite Fl].
        assert (X : forall x, List.In x (acquisitions tr) -> (fst x =? t) = false).
        { intros [t' b] I. cbn [fst]. apply Nat.eqb_neq. pose proof (acq_bound _ _ _ _ RT I). lia. }
        clear -X. induction (acquisitions tr) as [|x r IH]; [reflexivity|]. cbn [filter]. rewrite X by (left; reflexivity). apply IH. intros y I. apply X. now right. }
      rewrite AN. destruct (nth_error (threads s) t) as [th|] eqn:N2; [|reflexivity]. assert (t < length (threads s)) by (apply nth_error_Some; congruence). lia. }
  exists order. split; [exact A|]. split.
  { intros t p N. destruct (B t) as (more & C & F). destruct (PO t p N) as (th & H1 & _). exists more, th. split; [exact H1|].
    rewrite (nth_error_nth _ _ _ N) in C. split; [exact C|]. now rewrite H1 in F. }
  split.
  { intros t e I. apply (acq_bound tr _ t (code e) RT). rewrite A. unfold coded.
    change (t, code e) with ((fun x => (fst x, code (snd x))) (t, e)). apply in_map. exact I. }
  split; [|exact RL].
  destruct (serialised (D := D) (L := L) spin d0 fp s tr R) as [SE _]. specialize (SE NH). rewrite A in SE.
  unfold fp in SE. rewrite map_map in SE. exact SE.
Qed.

(** Every order is possible. *)
Lemma whole_section : forall spin (s : fstate D L) t b todo l, owned s = false -> nth_error (threads s) t = Some (mkT Out (b :: todo) l) ->
  exists sched s' tr, frun spin sched s = Some (s', tr) /\ acquisitions tr = [(t, b)] /\ owned s' = false /\
    exists th', threads s' = upd t (fun _ => th') (threads s) /\ t_pc th' = Out /\ t_todo th' = todo.
Proof.
  intros spin s t b todo l Ho Ht.
  set (s1 := mkF false (data s) (upd t (fun _ => mkT (Cas false spin) (b :: todo) l) (threads s))).
  set (s2 := mkF true (data s) (upd t (fun _ => mkT (In b) todo l) (threads s))).
  assert (F1 : fstep spin t false s = Some (s1, Tau)) by (unfold fstep; rewrite Ht; cbn [t_pc t_todo t_local]; rewrite Ho; reflexivity).
  assert (F2 : fstep spin t false s1 = Some (s2, Acquired b)).
  { unfold fstep. unfold s1 at 1. cbn [threads]. rewrite (nth_error_upd_eq _ _ _ _ Ht). cbn [t_pc t_todo t_local]. unfold s1. cbn [owned cas_weak Bool.eqb negb andb orb data threads].
    rewrite upd_upd. reflexivity. }
  destruct (finish_section spin b s2 t (mkT (In b) todo l)) as (sched & s' & tr & A1 & A2 & A3 & th' & A4 & A5 & A6).
  { unfold s2. cbn [threads]. rewrite (nth_error_upd_eq _ _ _ _ Ht). reflexivity. }
  { reflexivity. }
  exists ((t, false) :: (t, false) :: sched), s', ((t, Tau) :: (t, Acquired b) :: tr). split.
  - cbn [frun]. rewrite F1, F2, A1. reflexivity.
  - split; [cbn [acquisitions]; now rewrite A2|]. split; auto. exists th'. split; auto. rewrite A4. unfold s2. cbn [threads]. apply upd_upd.
Qed.

Lemma own_part_cons : forall t x (order : list (nat * E)), own_part t (x :: order) = (if fst x =? t then [snd x] else []) ++ own_part t order.
Proof. intros t x order. unfold own_part. cbn [filter]. destruct (fst x =? t); reflexivity. Qed.

Lemma any_order_from : forall spin order (s : fstate D L), owned s = false ->
  (forall t th, nth_error (threads s) t = Some th -> t_pc th = Out /\ exists more, t_todo th = map code (own_part t order) ++ more) ->
  (forall t e, List.In (t, e) order -> t < length (threads s)) ->
  exists sched s' tr, frun spin sched s = Some (s', tr) /\ acquisitions tr = coded order /\ forall t, ~ holds s' t.
Proof.
  intros spin order. induction order as [|[t e] order IH]; intros s Ho Ht Hb.
  - exists [], s, []. split; [reflexivity|]. split; [reflexivity|]. intros t (th & rest & A & B). destruct (Ht t th A) as [C _]. congruence.
  - destruct (nth_error (threads s) t) as [th|] eqn:N.
    2:{ apply nth_error_None in N. specialize (Hb t e (or_introl eq_refl)). lia. }
    destruct (Ht t th N) as (P1 & more & P2). rewrite own_part_cons in P2. cbn [fst snd] in P2. rewrite Nat.eqb_refl in P2. cbn [app map] in P2.
    destruct th as [pc todo l]. cbn [t_pc t_todo] in P1, P2. subst pc todo.
    destruct (whole_section spin s t _ _ _ Ho N) as (sc1 & s1 & tr1 & A1 & A2 & A3 & th' & A4 & A5 & A6).
    destruct (IH s1) as (sc2 & s2 & tr2 & B1 & B2 & B3); auto.
    + intros t2 th2 N2. rewrite A4 in N2. destruct (Nat.eq_dec t2 t) as [->|NE].
      * rewrite (nth_error_upd_eq _ _ _ _ N) in N2. injection N2 as <-. split; auto. exists more. exact A6.
      * rewrite nth_error_upd_neq in N2 by auto. destruct (Ht t2 th2 N2) as (Q1 & m2 & Q2). split; auto. exists m2. rewrite Q2, own_part_cons. cbn [fst].
        destruct (Nat.eqb_spec t t2); [congruence|reflexivity].
    + intros t2 e2 I. rewrite A4, upd_length. apply (Hb t2 e2). now right.
    + exists (sc1 ++ sc2), s2, (tr1 ++ tr2). split; [rewrite (frun_app _ _ _ _ _ _ A1), B1; reflexivity|]. split; [|exact B3].
      rewrite acquisitions_app, A2, B2. reflexivity.
Qed.

Lemma any_order : forall spin d0 (l0 : L) (progs : list (list E)) order,
  (forall t p, nth_error progs t = Some p -> exists more, p = own_part t order ++ more) -> (forall t e, List.In (t, e) order -> t < length progs) ->
  exists s tr, freaches spin d0 (map (fun p => (map code p, l0)) progs) s tr /\ acquisitions tr = coded order /\ (forall t, ~ holds s t) /\
    memory s = serial (coded order) (d0, map (fun _ => l0) progs).
Proof.
  intros spin d0 l0 progs order Hp Hb.
  destruct (any_order_from spin order (finit d0 (map (fun p => (map code p, l0)) progs))) as (sched & s & tr & A & B & C).
  - reflexivity.
  - intros t th N. unfold finit in N. cbn [threads] in N. rewrite !nth_error_map in N. destruct (nth_error progs t) as [p|] eqn:P; [|discriminate].
    injection N as <-. split; [reflexivity|]. cbn [t_todo fst]. destruct (Hp t p P) as (more & ->). rewrite map_app. eauto.
  - intros t e I. unfold finit. cbn [threads]. rewrite !map_length. eauto.
  - assert (R : freaches spin d0 (map (fun p => (map code p, l0)) progs) s tr) by (exists sched; exact A).
    exists s, tr. split; auto. split; auto. split; auto.
    destruct (serialised (D := D) (L := L) spin d0 _ s tr R) as [SE _]. specialize (SE C). rewrite B, map_map in SE. exact SE.
Qed.
End Orders.

Section Assertions.
Context {T : Type}.
Implicit Types (s : stack T) (l : list T).

(** ** The sequential model *)

Lemma bind_assoc_at : forall {S A B C} (m : M S A) (f : A -> M S B) (g : B -> M S C) (x : S), bind (bind m f) g x = bind m (fun a => bind (f a) g) x.
Proof. intros. unfold bind. destruct (m x); reflexivity. Qed.

(** A build with assertions makes the assertion and then the call of a build without. *)
Lemma exec_true : forall (o : op T) s, match o with DiscardFromTop _ => False | _ => True end ->
  exec true o s = match assertion o with
                  | None => exec false o s
                  | Some c => match c s with
                              | ROk s' true => exec false o s'
                              | ROk _ false => RBad AssertFail
                              | RThrow s' => match o with Discard _ => RBad Terminate | _ => RThrow s' end
                              | RBad b => RBad b
                              end
                  end.
Proof.
  intros o s N. destruct o; try contradiction; cbn [assertion exec]; try reflexivity.
  - unfold pop, cassert, bind, ret, fail. destruct (empty s) as [s1 []|s1|b]; reflexivity.
  - unfold pop_values, cassert, bind, ret, fail. destruct (empty s) as [s1 []|s1|b]; reflexivity.
  - unfold discard, noexcept, cassert, bind, ret, fail. destruct (size s) as [s1 z|s1|b]; try reflexivity. destruct (_ <=? z); reflexivity.
  - unfold peek, cassert, bind, ret, fail. destruct (size s) as [s1 z|s1|b]; try reflexivity. destruct (_ <=? z); reflexivity.
  - unfold peek_depth, cassert, bind, ret, fail. destruct (size s) as [s1 z|s1|b]; try reflexivity.
    destruct (d <=? z); cbn [andb]; [|reflexivity]. destruct (_ <=? d); reflexivity.
  - unfold peek_reverse, cassert, bind, ret, fail. destruct (size s) as [s1 z|s1|b]; try reflexivity. destruct (_ <=? z); reflexivity.
  - unfold pop_reverse, cassert, bind, ret, fail. destruct (size s) as [s1 z|s1|b]; try reflexivity. destruct (_ <=? z); reflexivity.
Qed.

(** ** Sections one after the other *)

Lemma assertion_ok : forall (o : op T) s l c, rep s l -> assertion o = Some c -> c s = ROk s (negb (alarm o l)).
Proof.
  intros o s l c R H.
  assert (Em : @empty T s = ROk s (match l with [] => true | _ => false end)) by (apply (empty_ok (cap := True)); exact R).
  assert (Sz : @size T s = ROk s (length l)) by (apply (size_ok (cap := True)); exact R).
  destruct o; cbn [assertion] in H; try discriminate; injection H as <-; cbn [alarm]; unfold bind; rewrite ?Em, ?Sz; unfold ret; f_equal.
  all: rewrite ?Nat.ltb_antisym, ?negb_orb, ?negb_involutive; try reflexivity; destruct l; reflexivity.
Qed.

Lemma alarm_right : forall (o : op T) l, alarm o l = true -> spec_step o l = None.
Proof.
  intros o l H. destruct o; cbn [alarm] in H; try discriminate; cbn [spec_step].
  all: try (destruct l; [reflexivity|discriminate]).
  all: try apply orb_true_iff in H; try (destruct H as [H|H]); apply Nat.ltb_lt in H.
  all: repeat match goal with |- context [?a <=? ?b] => destruct (Nat.leb_spec a b); try reflexivity; try lia end.
Qed.

Variable code : piece T -> body (process T) (list (retval T)).
Hypothesis code_ok : forall x, performs (code x) x.

Lemma stopped : forall (order : list (nat * piece T)) d ls, match d with Running _ => False | _ => True end -> fst (serial (coded code order) (d, ls)) = d.
Proof.
  intros order. induction order as [|[t x] order IH]; intros d ls H; [reflexivity|].
  unfold serial, coded in *. cbn [map fold_left]. unfold run_section at 2. cbn [fst snd]. destruct (nth_error ls t) as [lt|]; [|apply IH; exact H].
  rewrite code_ok. assert (Ef : effect x lt d = (lt, d)) by (destruct d; [contradiction|reflexivity|reflexivity]). rewrite Ef. apply IH. exact H.
Qed.

Lemma results_cons : forall t t1 o (order : list (nat * op T)) r rs,
  results_of t ((t1, o) :: order) (r :: rs) = (if t1 =? t then [r] else []) ++ results_of t order rs.
Proof. intros. unfold results_of. cbn [map fst combine filter]. destruct (t1 =? t); reflexivity. Qed.

Lemma judged : forall (order : list (nat * piece T)) s l (ls : list (list (retval T))), rep s l -> clean s ->
  forallb core_op (acts (map snd order)) = true -> (forall t x, List.In (t, x) order -> t < length ls) ->
  match judge (map snd order) l with
  | Fine l' rs => exists s', fst (serial (coded code order) (Running s, ls)) = Running s' /\ rep s' l' /\ run false (acts (map snd order)) s = ROk s' rs /\
      spec_run (acts (map snd order)) l = Some (l', rs) /\
      forall t lt, nth_error ls t = Some lt -> nth_error (snd (serial (coded code order) (Running s, ls))) t = Some (lt ++ results_of t (act_order order) rs)
  | Alarm o l' => fst (serial (coded code order) (Running s, ls)) = Aborted /\ alarm o l' = true
  | Missed _ _ => True
  end.
Proof.
  induction order as [|[t x] order IH]; intros s l ls R C K B.
  - cbn. exists s. repeat split; auto. intros t lt H. now rewrite app_nil_r.
  - destruct (nth_error ls t) as [lt|] eqn:N; [|apply nth_error_None in N; specialize (B t x (or_introl eq_refl)); lia].
    assert (ST : serial (coded code ((t, x) :: order)) (Running s, ls) =
                 serial (coded code order) (snd (effect x lt (Running s)), upd t (fun _ => fst (effect x lt (Running s))) ls)).
    { unfold serial, coded. cbn [map fold_left]. unfold run_section at 2. cbn [fst snd]. rewrite N, code_ok. destruct (effect x lt (Running s)); reflexivity. }
    rewrite ST. clear ST. cbn [map snd judge]. destruct x as [o|o].
    + cbn [effect]. destruct (assertion o) as [c|] eqn:As.
      * rewrite (assertion_ok o s l c R As). destruct (alarm o l) eqn:Al; cbn [negb].
        -- split; [apply stopped; exact Logic.I|exact Al].
        -- cbn [fst snd]. rewrite (upd_self _ _ _ N).
           specialize (IH s l ls R C K (fun t' x' I => B t' x' (or_intror I))).
           change (acts (Check o :: map snd order)) with (acts (map snd order)).
           change (act_order ((t, Check o) :: order)) with (act_order order). exact IH.
      * assert (Al : alarm o l = false) by (destruct o; cbn [assertion] in As; try discriminate; reflexivity). rewrite Al. cbn [fst snd]. rewrite (upd_self _ _ _ N).
        specialize (IH s l ls R C K (fun t' x' I => B t' x' (or_intror I))).
        change (acts (Check o :: map snd order)) with (acts (map snd order)).
        change (act_order ((t, Check o) :: order)) with (act_order order). exact IH.
    + change (acts (map snd ((t, Act o) :: order))) with (o :: acts (map snd order)) in K. cbn [forallb] in K. apply andb_prop in K. destruct K as [K1 K2].
      destruct (spec_step o l) as [[l1 r]|] eqn:Sp; [|exact Logic.I].
      destruct (exec_ok (cap := True) false o s l l1 r R) as (s1 & H1 & H2 & H3 & H4 & _); auto.
      { intros ->. discriminate. }
      cbn [effect]. rewrite H1. cbn [fst snd].
      specialize (IH s1 l1 (upd t (fun _ => lt ++ [r]) ls) H2).
      assert (C1 : clean s1) by (apply H4; auto; left; exact K1). specialize (IH C1 K2).
      assert (B1 : forall t0 x, List.In (t0, x) order -> t0 < length (upd t (fun _ => lt ++ [r]) ls)).
      { intros t0 x I. rewrite upd_length. apply (B t0 x). now right. }
      specialize (IH B1). change (acts (Act o :: map snd order)) with (o :: acts (map snd order)).
      change (act_order ((t, Act o) :: order)) with ((t, o) :: act_order order).
      destruct (judge (map snd order) l1) as [l2 rs|o2 l2|o2 l2]; [|exact IH|exact Logic.I].
      destruct IH as (s2 & I1 & I2 & I3 & I4 & I5). exists s2. split; [exact I1|]. split; [exact I2|].
      split; [cbn [run]; erewrite bind_ok by exact H1; erewrite bind_ok by exact I3; reflexivity|].
      split; [cbn [spec_run]; rewrite Sp, I4; reflexivity|].
      intros t' lt' N'. rewrite results_cons. destruct (Nat.eqb_spec t t') as [<-|NE].
      * rewrite N in N'. injection N' as <-. rewrite (I5 t (lt ++ [r])) by (rewrite (nth_error_upd_eq _ _ _ _ N); reflexivity). now rewrite <- app_assoc.
      * apply I5. rewrite nth_error_upd_neq by auto. exact N'.
Qed.

Lemma core_acts : forall (progs : list (list (op T))) order,
  Forall (fun p => forallb core_op p = true) progs ->
  (forall t x, List.In (t, x) order -> t < length progs) ->
  (forall t p, nth_error progs t = Some p -> exists more, flat_map pieces p = pieces_of t order ++ more) ->
  forallb core_op (acts (map snd order)) = true.
Proof.
  intros progs order F B P. apply forallb_forall. intros o I. unfold acts in I. apply in_flat_map in I. destruct I as (x & I1 & I2).
  destruct x as [o'|o']; [destruct I2|]. destruct I2 as [->|[]].
  apply in_map_iff in I1. destruct I1 as ([t x] & E & I1). cbn [snd] in E. subst x.
  pose proof (B t _ I1) as L. destruct (nth_error progs t) as [p|] eqn:N; [|apply nth_error_None in N; lia].
  destruct (P t p N) as (more & Q).
  assert (I3 : List.In (Act o) (flat_map pieces p)).
  { rewrite Q. apply in_or_app. left. unfold pieces_of. change (Act o) with (snd (t, Act o)). apply in_map. apply filter_In. split; [exact I1|]. apply Nat.eqb_refl. }
  apply in_flat_map in I3. destruct I3 as (o2 & J1 & J2). unfold pieces in J2.
  assert (o2 = o) as -> by (destruct (assertion o2); cbn in J2; intuition congruence).
  rewrite Forall_forall in F. specialize (F p (nth_error_In _ _ N)). rewrite forallb_forall in F. auto.
Qed.

Lemma shared_assertions : forall spin ps pa (progs : list (list (op T))) (s : fstate (process T) (list (retval T))) tr, 1 <= pa -> Forall (fun p => forallb core_op p = true) progs ->
  freaches spin (Running (construct ps pa)) (map (fun p => (map code (flat_map pieces p), [])) progs) s tr -> (forall t, ~ holds s t) ->
  exists order, acquisitions tr = map (fun x => (fst x, code (snd x))) order /\
    (forall t p, nth_error progs t = Some p -> exists more th, nth_error (threads s) t = Some th /\ flat_map pieces p = pieces_of t order ++ more /\ map code more = t_todo th) /\
    match judge (map snd order) [] with
    | Fine l rs => spec_run (acts (map snd order)) [] = Some (l, rs) /\
        (exists st, data s = Running st /\ run false (acts (map snd order)) (construct ps pa) = ROk st rs) /\
        forall t th, nth_error (threads s) t = Some th -> t_local th = results_of t (act_order order) rs
    | Alarm o l => data s = Aborted /\ spec_step o l = None
    | Missed _ _ => True
    end.
Proof.
  intros spin ps pa progs s tr PA F R NH.
  replace (map (fun p => (map code (flat_map pieces p), [])) progs) with (map (fun p => (map code p, @nil (retval T))) (map (flat_map pieces) progs)) in R
    by (rewrite map_map; reflexivity).
  destruct (one_order code spin (Running (construct ps pa)) [] (map (flat_map pieces) progs) s tr R NH) as (order & A & B & C & M & LN).
  assert (B' : forall t p, nth_error progs t = Some p -> exists more th, nth_error (threads s) t = Some th /\ flat_map pieces p = pieces_of t order ++ more /\ map code more = t_todo th).
  { intros t p N. apply B. rewrite nth_error_map, N. reflexivity. }
  exists order. split; [exact A|]. split; [exact B'|].
  rewrite map_length in C, LN.
  destruct (construct_rep (T := T) ps pa PA) as [R0 C0].
  pose proof (judged order (construct ps pa) [] (map (fun _ => []) (map (flat_map pieces) progs)) R0 C0) as J.
  rewrite !map_length in J. specialize (J (core_acts progs order F C (fun t p N => match B' t p N with ex_intro _ more (ex_intro _ th (conj _ (conj X _))) => ex_intro _ more X end))).
  specialize (J C). rewrite <- M in J. unfold memory in J. cbn [fst snd] in J.
  destruct (judge (map snd order) []) as [l rs|o l|o l]; [|split; [apply J|apply alarm_right; apply J]|exact Logic.I].
  destruct J as (s' & J1 & J2 & J3 & J4 & J5). split; [exact J4|]. split; [exists s'; auto|].
  intros t th N. assert (Lt : t < length progs) by (rewrite <- LN; apply nth_error_Some; congruence).
  destruct (nth_error progs t) as [p|] eqn:NP; [|apply nth_error_None in NP; lia].
  specialize (J5 t []). rewrite !nth_error_map, NP in J5. specialize (J5 eq_refl). rewrite N in J5. cbn [option_map app] in J5. congruence.
Qed.

(** ** One thread *)

Lemma exact_alarm : forall (o : op T) l, asserted o = true -> alarm o l = false -> spec_step o l <> None.
Proof.
  intros o l H Al. destruct o; cbn [alarm asserted spec_step] in *; try discriminate; try (destruct l; discriminate).
  all: try (apply orb_false_iff in Al; destruct Al as [Al Al2]; apply Nat.ltb_ge in Al2); try apply Nat.ltb_ge in Al.
  all: repeat match goal with |- context [?a <=? ?b] => destruct (Nat.leb_spec a b); try lia end; discriminate.
Qed.

Lemma alone_fine : forall (p : list (op T)) l, forallb asserted p = true ->
  match judge (flat_map pieces p) l with Missed _ _ => False | _ => True end.
Proof.
  induction p as [|o p IH]; intros l H; [exact Logic.I|].
  cbn [forallb] in H. apply andb_prop in H. destruct H as [H1 H2]. cbn [flat_map].
  assert (X : alarm o l = false -> match judge (Act o :: flat_map pieces p) l with Missed _ _ => False | _ => True end).
  { intro Al. pose proof (exact_alarm o l H1 Al) as X. cbn [judge]. destruct (spec_step o l) as [[l' v]|]; [|congruence].
    specialize (IH l' H2). destruct (judge (flat_map pieces p) l'); auto. }
  unfold pieces at 1. destruct (assertion o) as [c|] eqn:As; cbn [app].
  - change (judge (Check o :: Act o :: flat_map pieces p) l) with (if alarm o l then Alarm o l else judge (Act o :: flat_map pieces p) l).
    destruct (alarm o l); [exact Logic.I|]. apply X. reflexivity.
  - apply X. destruct o; cbn [assertion] in As; try discriminate; reflexivity.
Qed.

Lemma missed_app : forall (xs more : list (piece T)) l o l', judge xs l = Missed o l' -> judge (xs ++ more) l = Missed o l'.
Proof.
  induction xs as [|[o|o] xs IH]; intros more l o1 l1 H; cbn [judge app] in *; [discriminate| |].
  - destruct (alarm o l); [discriminate|]. apply IH. exact H.
  - destruct (spec_step o l) as [[l' v]|]; [|exact H]. destruct (judge xs l') as [a b|a b|a b] eqn:J; try discriminate. injection H as <- <-.
    now rewrite (IH more _ _ _ J).
Qed.

Lemma one_owner : forall (order : list (nat * piece T)), (forall t x, List.In (t, x) order -> t = 0) -> map snd order = pieces_of 0 order.
Proof.
  induction order as [|[t x] order IH]; intro H; [reflexivity|]. unfold pieces_of in *. cbn [filter fst].
  rewrite (H t x (or_introl eq_refl)). cbn [Nat.eqb map snd]. rewrite IH; [reflexivity|]. intros t' x' I. apply (H t' x'). now right.
Qed.

Lemma alone : forall spin ps pa (p : list (op T)) (s : fstate (process T) (list (retval T))) tr, 1 <= pa -> forallb core_op p = true -> forallb asserted p = true ->
  freaches spin (Running (construct ps pa)) [(map code (flat_map pieces p), [])] s tr -> (forall t, ~ holds s t) -> data s <> Undefined.
Proof.
  intros spin ps pa p s tr PA K A R NH.
  destruct (one_order code spin (Running (construct ps pa)) [] [flat_map pieces p] s tr R NH) as (order & _ & B & C & M & _).
  destruct (B 0 _ eq_refl) as (more & th & _ & B2 & _).
  assert (O : map snd order = pieces_of 0 order).
  { apply one_owner. intros t x I. specialize (C t x I). cbn in C. lia. }
  destruct (construct_rep (T := T) ps pa PA) as [R0 C0].
  pose proof (judged order (construct ps pa) [] [[]] R0 C0) as J.
  assert (K2 : forallb core_op (acts (map snd order)) = true).
  { apply (core_acts [p] order); auto. intros [|t] q N; [|destruct t; discriminate]. injection N as <-. exists more. exact B2. }
  specialize (J K2 C). change (map (fun _ : list (piece T) => @nil (retval T)) [flat_map pieces p]) with [@nil (retval T)] in M. rewrite <- M in J. unfold memory in J. cbn [fst snd] in J.
  destruct (judge (map snd order) []) as [l rs|o l|o l] eqn:E.
  - destruct J as (s' & J & _). rewrite J. discriminate.
  - destruct J as [J _]. rewrite J. discriminate.
  - exfalso. pose proof (alone_fine p [] A) as F. rewrite B2 in F.
    change (own_part 0 order) with (pieces_of 0 order) in F. rewrite <- O in F. rewrite (missed_app _ more _ _ _ E) in F. exact F.
Qed.

(** ** The assertions do not protect a shared stack *)

Lemma serial_coded_app : forall (a b : list (nat * piece T)) m, serial (coded code (a ++ b)) m = serial (coded code b) (serial (coded code a) m).
Proof. intros. unfold serial, coded. now rewrite map_app, fold_left_app. Qed.

Lemma judge_fine_app : forall (xs ys : list (piece T)) l l1 rs1 l2 rs2, judge xs l = Fine l1 rs1 -> judge ys l1 = Fine l2 rs2 -> judge (xs ++ ys) l = Fine l2 (rs1 ++ rs2).
Proof.
  induction xs as [|[o|o] xs IH]; intros ys l l1 rs1 l2 rs2 H1 H2; cbn [judge app] in *.
  - injection H1 as <- <-. exact H2.
  - destruct (alarm o l); [discriminate|]. eapply IH; eauto.
  - destruct (spec_step o l) as [[l' v]|]; [|discriminate]. destruct (judge xs l') as [a b|a b|a b] eqn:J; try discriminate. injection H1 as <- <-.
    rewrite (IH ys _ _ _ _ _ J H2). reflexivity.
Qed.

Lemma legal_fine : forall (p : list (op T)) l l' rs, spec_run p l = Some (l', rs) -> judge (flat_map pieces p) l = Fine l' rs.
Proof.
  induction p as [|o p IH]; intros l l' rs H; cbn [spec_run] in H; [injection H as <- <-; reflexivity|].
  destruct (spec_step o l) as [[l1 r]|] eqn:Sp; [|discriminate]. destruct (spec_run p l1) as [[l2 rs2]|] eqn:R; [|discriminate]. injection H as <- <-.
  assert (X : judge (Act o :: flat_map pieces p) l = Fine l2 (r :: rs2)).
  { cbn [judge]. rewrite Sp, (IH _ _ _ R). reflexivity. }
  cbn [flat_map]. unfold pieces at 1. destruct (assertion o); cbn [app]; [|exact X].
  change (judge (Check o :: Act o :: flat_map pieces p) l) with (if alarm o l then Alarm o l else judge (Act o :: flat_map pieces p) l).
  destruct (alarm o l) eqn:Al; [|exact X]. apply alarm_right in Al. congruence.
Qed.

Lemma pop_empty : forall s, rep s [] -> exec false Pop s = RBad UB.
Proof.
  intros [ps asz pgs ids nid c sc sr lk] (b & t & a & H1 & H2 & _ & _ & H5 & H6). cbn [page_size alloc_size pages cur locked] in *. subst.
  assert (t = []) as ->.
  { destruct t as [|x t]; [reflexivity|]. apply (f_equal (@length T)) in H6. rewrite rev_length, app_length in H6. cbn in H6. lia. }
  assert (N : nth_error (b ++ [] :: a) (length b) = Some []) by apply nth_error_mid.
  cbn [exec]. unfold pop, with_lock, bind, cassert. cbn [locked set_locked]. unfold internal_pop_one, ret. msimp. rewrite N. reflexivity.
Qed.

Lemma pieces_const : forall t (xs : list (piece T)) u, own_part u (map (fun x => (t, x)) xs) = if t =? u then xs else [].
Proof.
  intros t xs u. unfold own_part. induction xs as [|x xs IH]; cbn [map filter fst]; [now destruct (t =? u)|].
  destruct (t =? u) eqn:E; [|exact IH]. cbn [map snd]. now rewrite IH.
Qed.

Lemma own_part_app : forall t (a b : list (nat * piece T)), own_part t (a ++ b) = own_part t a ++ own_part t b.
Proof. intros. unfold own_part. now rewrite filter_app, map_app. Qed.

Lemma missed : forall spin ps pa (p : list (op T)) x rs, 1 <= pa -> forallb core_op p = true -> spec_run p [] = Some ([x], rs) ->
  exists (s : fstate (process T) (list (retval T))) tr, freaches spin (Running (construct ps pa)) (map (fun q => (map code (flat_map pieces q), [])) [p ++ [Pop]; [Pop]]) s tr /\
    acquisitions tr = map (fun y => (fst y, code (snd y))) (late_pops p ++ [(1, Act Pop)]) /\
    (forall t, ~ holds s t) /\ data s = Undefined.
Proof.
  intros spin ps pa p x rs PA K SR.
  destruct (any_order code spin (Running (construct ps pa)) [] (map (flat_map pieces) [p ++ [Pop]; [Pop]]) (late_pops p ++ [(1, Act Pop)])) as (s & tr & A1 & A2 & A3 & A4).
  - intros t q N. exists []. rewrite app_nil_r. unfold late_pops. rewrite !own_part_app, pieces_const.
    destruct t as [|[|t]]; cbn [map nth_error] in N; [| |destruct t; discriminate]; injection N as <-; cbn [Nat.eqb].
    + rewrite flat_map_app. cbn [app]. rewrite <- app_assoc. reflexivity.
    + reflexivity.
  - intros t e I. cbn [map length]. unfold late_pops in I. rewrite <- app_assoc in I. apply in_app_or in I. destruct I as [I|I].
    + apply in_map_iff in I. destruct I as (y & E & _). injection E as <- _. lia.
    + cbn in I. repeat destruct I as [I|I]; try (injection I as <- _; lia). contradiction.
  - exists s, tr. split; [rewrite map_map in A1; exact A1|]. split; [exact A2|]. split; [exact A3|].
    rewrite serial_coded_app in A4.
    destruct (construct_rep (T := T) ps pa PA) as [R0 C0].
    pose proof (judged (late_pops p) (construct ps pa) [] (map (fun _ => []) (map (flat_map pieces) [p ++ [Pop]; [Pop]])) R0 C0) as J.
    assert (E : map snd (late_pops p) = flat_map pieces p ++ [Check Pop; Check Pop; Act Pop]).
    { unfold late_pops. rewrite map_app, map_map. cbn [map snd]. now rewrite map_id. }
    rewrite E in J.
    assert (F : judge (flat_map pieces p ++ [Check Pop; Check Pop; Act Pop]) [] = Fine [] (rs ++ [RUnit])).
    { apply (judge_fine_app _ _ _ [x] rs [] [RUnit]); [apply legal_fine; exact SR|reflexivity]. }
    rewrite F in J.
    assert (K2 : forallb core_op (acts (flat_map pieces p ++ [Check Pop; Check Pop; Act Pop])) = true).
    { unfold acts. rewrite flat_map_app, forallb_app. apply andb_true_intro. split; [|reflexivity].
      clear -K. induction p as [|o p IH]; [reflexivity|]. cbn [forallb] in K. apply andb_prop in K. destruct K as [K1 K2].
      cbn [flat_map]. rewrite flat_map_app, forallb_app, (IH K2), andb_true_r. unfold pieces. destruct (assertion o); cbn; now rewrite K1. }
    assert (B2 : forall t y, List.In (t, y) (late_pops p) -> t < length (map (fun _ : list (piece T) => @nil (retval T)) (map (flat_map pieces) [p ++ [Pop]; [Pop]]))).
    { intros t y I. cbn [map length]. unfold late_pops in I. apply in_app_or in I. destruct I as [I|I].
      + apply in_map_iff in I. destruct I as (z & Q & _). injection Q as <- _. lia.
      + cbn in I. repeat destruct I as [I|I]; try (injection I as <- _; lia). contradiction. }
    destruct (J K2 B2) as (s' & J1 & J2 & _ & _ & J5).
    specialize (J5 1 [] eq_refl).
    set (m := serial (coded code (late_pops p)) (Running (construct ps pa), map (fun _ : list (piece T) => @nil (retval T)) (map (flat_map pieces) [p ++ [Pop]; [Pop]]))) in *.
    destruct m as [d ls]. cbn [fst snd] in J1, J5. subst d.
    unfold coded, serial in A4. cbn [map fold_left] in A4. unfold run_section in A4. cbn [fst snd] in A4. rewrite J5, code_ok in A4.
    cbn [effect] in A4. rewrite (pop_empty s' J2) in A4. unfold memory in A4. injection A4 as A4 _. exact A4.
Qed.

(** ** The assertion of pop(values) *)
Lemma internal_pop_more : forall n m s s' (vs : list T), internal_pop n s = ROk s' vs -> internal_pop m s' = RBad UB -> internal_pop (n + m) s = RBad UB.
Proof.
  induction n as [|n IH]; intros m s s' vs H1 H2.
  - cbn in H1. injection H1 as <- <-. exact H2.
  - cbn [Nat.add internal_pop] in *. unfold bind at 1. unfold bind at 1 in H1. destruct (cur_back s) as [s1 v|s1|b]; try discriminate.
    unfold bind at 1. unfold bind at 1 in H1. destruct (internal_pop_one s1) as [s2 u|s2|b]; try discriminate.
    unfold bind at 1 in H1. destruct (internal_pop n s2) as [s3 vs2|s3|b] eqn:E; try discriminate. injection H1 as <- <-.
    unfold bind at 1. now rewrite (IH m _ _ _ E H2).
Qed.

Lemma pop_too_many : forall n s l, rep s l -> length l < n -> with_lock (internal_pop n) s = RBad UB.
Proof.
  intros n [ps asz pgs ids nid c sc sr lk] l (b & t & a & H1 & H2 & H3 & _ & H5 & ->) L. cbn [page_size alloc_size pages cur locked] in *. subst.
  rewrite rev_length in L. unfold with_lock. cbn [locked set_locked].
  destruct (internal_pop_shape ps asz nid ids sc sr true (length (concat b ++ t)) b t a H3 (le_n _)) as (b' & t' & a' & G1 & G2 & G3 & _).
  rewrite skipn_all2 in G3 by (rewrite rev_length; lia).
  assert (t' = []) as ->.
  { destruct t' as [|x t']; [reflexivity|]. apply (f_equal (@length T)) in G3. rewrite rev_length, app_length in G3. cbn in G3. lia. }
  replace n with (length (concat b ++ t) + S (n - S (length (concat b ++ t)))) by lia.
  erewrite internal_pop_more; [reflexivity|exact G1|].
  assert (N : nth_error (b' ++ [] :: a') (length b') = Some []) by apply nth_error_mid.
  cbn [internal_pop]. unfold cur_back. msimp. rewrite N. reflexivity.
Qed.

Lemma popn_missed : forall ps pa (p : list (op T)) l rs n, 1 <= pa -> forallb core_op p = true -> spec_run p [] = Some (l, rs) -> l <> [] -> length l <= n ->
  run true (p ++ [PopN n]) (construct ps pa) = RBad UB.
Proof.
  intros ps pa p l rs n PA K SR NE L. destruct (construct_rep (T := T) ps pa PA) as [R0 C0].
  destruct (run_core_ok true p (construct ps pa) [] l rs R0 C0 K SR) as (s & H1 & H2 & _).
  assert (X : exec true (PopN n) s = RBad UB).
  { rewrite exec_true by exact Logic.I. cbn [assertion].
    rewrite (assertion_ok (PopN n) s l _ H2 eq_refl). cbn [alarm]. destruct l; [congruence|]. cbn [negb].
    cbn [exec]. unfold pop_values, bind, cassert, ret. rewrite (pop_too_many (S n) s _ H2) by lia. reflexivity. }
  clear -H1 X. revert H1. generalize (construct (T := T) ps pa). revert rs. induction p as [|o p IH]; intros rs s0 H1.
  - cbn in H1. injection H1 as <- _. cbn [app run]. unfold bind. now rewrite X.
  - cbn [app run] in *. unfold bind at 1. unfold bind at 1 in H1. destruct (exec true o s0) as [s1 r|s1|b]; try discriminate.
    unfold bind at 1 in H1. destruct (run true p s1) as [s2 rs2|s2|b] eqn:E; try discriminate. injection H1 as <- <-. unfold bind at 1. now rewrite (IH _ _ E).
Qed.

End Assertions.
