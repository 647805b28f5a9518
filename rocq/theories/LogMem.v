(** * LogSystem when memory runs out: proofs.

    A run with failing allocations is a run without: a client whose call throws stays for ever
    where it is, and another client, that was idle until then, makes its remaining calls. *)
From Coq Require Import ZArith String Bool List Arith Lia Permutation.
From Verif Require Import Base ListFacts LogModel LogSpec LogProofs LogOrder LogCount LogFilter LogSettings LogEndModel LogEnd LogMemModel LogMemSpec.
Import ListNotations.
Open Scope list_scope.

(** An event without the number of the client, and without the value that getDiags read. *)
Definition anon_t (t : tid) : tid := match t with Client _ => Client 0 | LogThread => LogThread end.
Definition anon (e : ev) : ev :=
  match e with
  | EvLog t m b => EvLog (anon_t t) m b
  | EvPass t m => EvPass (anon_t t) m
  | EvAccept t m => EvAccept (anon_t t) m
  | EvThrown t => EvThrown (anon_t t)
  | EvStopped t => EvStopped (anon_t t)
  | EvStarted t => EvStarted (anon_t t)
  | EvRead t f _ => EvRead (anon_t t) f 0
  | _ => e
  end.

Lemma plain_app : forall a b, plain (a ++ b) = plain a ++ plain b.
Proof. intros. apply pick_app. Qed.
Lemma lost_app : forall a b, lost (a ++ b) = lost a ++ lost b.
Proof. intros. apply pick_app. Qed.
Lemma fates_app : forall i a b, fates i (a ++ b) = fates i a ++ fates i b.
Proof. intros. apply pick_app. Qed.
Lemma unmade_app : forall a b, unmade (a ++ b) = unmade a + unmade b.
Proof. intros. unfold unmade. rewrite pick_app, app_length. auto. Qed.
Lemma plain_did : forall es, plain (map Did es) = es.
Proof. induction es; cbn; auto. f_equal; auto. Qed.
Lemma lost_did : forall es, lost (map Did es) = [].
Proof. induction es; cbn; auto. Qed.
Lemma unmade_did : forall es, unmade (map Did es) = 0.
Proof. induction es; cbn; auto. Qed.

Lemma anon_split : forall a b, map anon a = map anon b ->
  accepted a = accepted b /\ begun a = begun b /\ ended a = ended b /\ changed a = changed b /\
  (forall l, delivered_to l a = delivered_to l b) /\ passes a = passes b.
Proof.
  induction a as [|x a IH]; intros [|y b] H; try discriminate; [repeat split; reflexivity|].
  injection H as H1 H2. specialize (IH b H2). destruct IH as (A & B & C & D & E & F).
  destruct x, y; try discriminate; try (injection H1 as; subst);
    repeat split; intros; unfold accepted, begun, ended, changed, delivered_to, passes in *; cbn [pick];
    repeat match goal with |- context [if ?q then _ else _] => destruct q end; solve [congruence | apply E | f_equal; apply E].
Qed.

Section Log.
Context {RE : Type}.
Variable compile : string -> option RE.
Variable rmatch : string -> RE -> bool.
Notation sys := (@sys RE).
Notation world := (@world RE).
Notation cstep := (cstep compile).
Notation lstep := (lstep compile rmatch).
Notation step := (step compile rmatch).
Notation run := (run compile rmatch).
Notation mstep := (mstep compile rmatch).
Notation mrun := (mrun compile rmatch).
Notation reaches := (reaches compile rmatch).
Notation mreaches := (mreaches compile rmatch).
Implicit Types (s : sys) (w : world).

Lemma anon_expected : forall (L : @listener RE) l a b, map anon a = map anon b -> forall n p,
  expected rmatch L l a n p = expected rmatch L l b n p.
Proof.
  intros L l. induction a as [|x a IH]; intros [|y b] H n p; try discriminate; auto.
  injection H as H1 H2. specialize (IH b H2).
  destruct x, y; try discriminate; try (injection H1 as; subst); cbn [expected]; auto. f_equal; auto.
Qed.

Lemma anon_owed : forall l a b, map anon a = map anon b -> forall (L : @listener RE) n p,
  owed compile rmatch L l a n p = owed compile rmatch L l b n p.
Proof.
  intros l. induction a as [|x a IH]; intros [|y b] H L n p; try discriminate; auto.
  injection H as H1 H2. specialize (IH b H2).
  destruct x, y; try discriminate; try (injection H1 as; subst); cbn [owed]; auto. f_equal; auto.
Qed.

Lemma anon_settings : forall l a b, map anon a = map anon b -> forall (L : @listener RE),
  settings compile l a L = settings compile l b L.
Proof.
  intros l. induction a as [|x a IH]; intros [|y b] H L; try discriminate; auto.
  injection H as H1 H2. specialize (IH b H2).
  destruct x, y; try discriminate; try (injection H1 as; subst); cbn [settings]; auto.
Qed.

Lemma anon_steady : forall l a b, map anon a = map anon b -> forall busy, steady l a busy -> steady l b busy.
Proof.
  intros l. induction a as [|x a IH]; intros [|y b] H z; try discriminate; auto.
  injection H as H1 H2. specialize (IH b H2).
  destruct x, y; try discriminate; try (injection H1 as; subst); cbn [steady]; auto. intuition.
Qed.

(** ** Induction over runs *)
Lemma mreaches_inv : forall (I : world -> list mev -> Prop) sn g lf progs,
  I (init sn g lf progs) [] ->
  (forall ch w w' tr es, I w tr -> mstep ch w = Some (w', es) -> I w' (tr ++ es)) ->
  forall w tr, mreaches sn g lf progs w tr -> I w tr.
Proof.
  intros I sn g lf progs H0 Hs w tr (sched & H).
  enough (X : forall sched w0 tr0 w tr, I w0 tr0 -> mrun sched w0 = Some (w, tr) -> I w (tr0 ++ tr)).
  { change tr with ([] ++ tr). eapply X; eauto. }
  clear - Hs. induction sched as [|ch sched IH]; intros w0 tr0 w tr H H1; simpl in H1.
  - injection H1 as <- <-. rewrite app_nil_r. auto.
  - destruct (mstep ch w0) as [[w1 es]|] eqn:E; [|discriminate].
    destruct (mrun sched w1) as [[w2 es']|] eqn:E2; [|discriminate]. injection H1 as <- <-.
    rewrite app_assoc. eapply IH; eauto.
Qed.

(** ** One more client that does not move *)
Definition addc (c : cthread) w : world := mkWorld (w_sys w) (w_clients w ++ [c]).

Lemma step_addc : forall ch w w' es c, step ch w = Some (w', es) -> step ch (addc c w) = Some (addc c w', es).
Proof.
  intros ch w w' es c H. unfold LogModel.step, addc in *. cbn [w_sys w_clients].
  destruct (crashed (w_sys w)); [discriminate|]. destruct ch as [i|cb|].
  - destruct (nth_error (w_clients w) i) as [c0|] eqn:E; [|discriminate].
    rewrite nth_error_app1 by (apply nth_error_Some; congruence). rewrite E.
    destruct (cstep (Client i) c0 (w_sys w)) as [[[c' s'] es']|]; [|discriminate]. injection H as <- <-.
    cbn [w_sys w_clients]. do 3 f_equal. apply nth_error_split in E. destruct E as (a & b & -> & <-).
    rewrite <- app_assoc. cbn [app]. rewrite !upd_mid. rewrite <- app_assoc. auto.
  - destruct (lstep cb (w_sys w)) as [[s' es']|]; [|discriminate]. injection H as <- <-. auto.
  - destruct (logt (w_sys w)); try discriminate. injection H as <- <-. auto.
Qed.

Lemma run_addc : forall sched w w' es c, run sched w = Some (w', es) -> run sched (addc c w) = Some (addc c w', es).
Proof.
  induction sched as [|ch sched IH]; intros w w' es c H; simpl in *.
  - injection H as <- <-. auto.
  - destruct (step ch w) as [[w1 e1]|] eqn:E; [|discriminate].
    destruct (run sched w1) as [[w2 e2]|] eqn:E2; [|discriminate]. injection H as <- <-.
    rewrite (step_addc _ _ _ _ _ E), (IH _ _ _ _ E2). auto.
Qed.

Lemma reaches_addc : forall sn g lf progs w tr p, reaches sn g lf progs w tr ->
  reaches sn g lf (progs ++ [p]) (addc (mkC Idle p) w) tr.
Proof.
  intros sn g lf progs w tr p (sched & H). exists sched. apply (run_addc _ _ _ _ (mkC Idle p)) in H.
  unfold addc, init in *. cbn [w_sys w_clients] in *. rewrite map_app. auto.
Qed.

Lemma reaches_snoc : forall sn g lf progs w tr ch w' es, reaches sn g lf progs w tr -> step ch w = Some (w', es) ->
  reaches sn g lf progs w' (tr ++ es).
Proof.
  intros sn g lf progs w tr ch w' es (sched & H) S. exists (sched ++ [ch]). rewrite (run_app _ _ _ _ _ _ _ H). simpl.
  rewrite S, app_nil_r. auto.
Qed.

(** ** The two systems differ only here *)
Definition patch (u : nat) (m : option tid) (c : option bad) s : sys := set_unpooled u (set_mtx m (set_crashed c s)).

Definition same_kind (t t' : tid) : Prop := anon_t t = anon_t t'.

Lemma cstep_patch : forall t t' c s c' s' es u m, cstep t c s = Some (c', s', es) -> crashed s = None ->
  same_kind t t' -> (mtx s = None <-> m = None) ->
  exists u' m' es', cstep t' c (patch u m None s) = Some (c', patch u' m' (crashed s') s', es') /\
    (mtx s' = None <-> m' = None) /\ map anon es' = map anon es /\ unpooled s' + u = unpooled s + u'.
Proof.
  intros t t' [pc todo] s c' s' es u m H Hc K Hm.
  destruct s as [hp po qu te un di mx re sl pe ac ls mt lt cr bu to]. cbn [LogModel.crashed LogModel.mtx] in *. subst cr.
  assert (M : (mt = None /\ m = None) \/ exists x y, mt = Some x /\ m = Some y).
  { destruct mt, m; intuition (try discriminate); eauto. }
  assert (T : (t = LogThread /\ t' = LogThread) \/ exists i j, t = Client i /\ t' = Client j).
  { unfold same_kind in K. destruct t, t'; try discriminate; eauto. }
  clear K. unfold LogModel.cstep, patch, notify, no_thread in *. sfields.
  destruct pc; sfields;
  repeat match goal with
  | H : context [match ?x with _ => _ end] |- _ =>
      match type of x with
      | option tid => destruct M as [(-> & ->)|(? & ? & -> & ->)]
      | tid => destruct T as [(-> & ->)|(? & ? & -> & ->)]
      | _ => is_var x; destruct x
      | _ => destruct x eqn:?
      end; sfields; try discriminate
  end; try discriminate.
  all: injection H as; subst.
  all: repeat match goal with H : ?x = _ |- context [match ?x with _ => _ end] => rewrite H end.
  all: try (destruct T as [(-> & ->)|(? & ? & -> & ->)]).
  all: try (eexists; eexists; eexists; split; [reflexivity|]; split; [first [exact Hm | split; (reflexivity || discriminate)]|]; split; [reflexivity|];
            cbn [LogModel.unpooled set_unpooled set_mtx set_crashed set_lst set_logt set_pending set_heap set_built set_queue set_maxq set_terminated set_slevel set_pool]; lia).
Qed.

Lemma lstep_patch : forall cb s s' es u m, lstep cb s = Some (s', es) -> crashed s = None ->
  (mtx s = None <-> m = None) ->
  exists u' m' es', lstep cb (patch u m None s) = Some (patch u' m' (crashed s') s', es') /\
    (mtx s' = None <-> m' = None) /\ map anon es' = map anon es /\ unpooled s' + u = unpooled s + u'.
Proof.
  intros cb s s' es u m H Hc Hm. unfold LogModel.lstep in *.
  change (logt (patch u m None s)) with (logt s).
  destruct (logt s) eqn:E; try discriminate.
  7: { destruct (c_pc c) eqn:Ep; [destruct (c_todo c) eqn:Et|..];
       try (destruct (cstep LogThread c s) as [[[c' s1] es1]|] eqn:S; [|discriminate]; injection H as <- <-;
            destruct (cstep_patch LogThread LogThread _ _ _ _ _ u m S Hc eq_refl Hm) as (u' & m' & es' & X & Y & Z & V);
            rewrite X; exists u', m', es'; split; [reflexivity|]; auto).
       injection H as <- <-. eexists; eexists; eexists. split; [rewrite <- Hc; reflexivity|]. split; [exact Hm|].
       split; [reflexivity|]. cbn. lia. }
  all: assert (Ct : forall o, content (patch u m None s) o = content s o) by reflexivity; rewrite ?Ct in *; clear Ct.
  all: change (lst (patch u m None s)) with (lst s) in *; change (pool (patch u m None s)) with (pool s) in *;
       change (queue (patch u m None s)) with (queue s) in *; change (terminated (patch u m None s)) with (terminated s) in *;
       change (active (patch u m None s)) with (active s) in *; change (pending (patch u m None s)) with (pending s) in *.
  all: repeat match goal with
       | H : context [match ?x with _ => _ end] |- _ => destruct x; try discriminate
       end; injection H as; subst.
  all: eexists; eexists; eexists; (split; [rewrite <- Hc; reflexivity|]; split; [exact Hm|]; split; [reflexivity|]; cbn; lia).
Qed.

Lemma perm_upd : forall (cx cb fr : list cthread) i j c c', nth_error cx i = Some c -> nth_error cb j = Some c ->
  Permutation cb (cx ++ fr) -> Permutation (upd j (fun _ => c') cb) (upd i (fun _ => c') cx ++ fr).
Proof.
  intros cx cb fr i j c c' Hi Hj P. apply nth_error_split in Hi, Hj.
  destruct Hi as (a & b & -> & <-). destruct Hj as (a' & b' & -> & <-). rewrite !upd_mid.
  rewrite <- app_assoc in *. cbn [app] in *. apply Permutation_app_inv in P.
  rewrite <- !Permutation_middle. constructor. auto.
Qed.

Lemma perm_freeze : forall (cx cb fr : list cthread) i c c', nth_error cx i = Some c ->
  Permutation cb (cx ++ fr) -> Permutation (cb ++ [c']) (upd i (fun _ => c') cx ++ fr ++ [c]).
Proof.
  intros cx cb fr i c c' Hi P. apply nth_error_split in Hi. destruct Hi as (a & b & -> & <-). rewrite upd_mid.
  rewrite P, <- !app_assoc. cbn [app].
  apply Permutation_app_head. rewrite !app_assoc, <- !Permutation_cons_append. apply perm_swap.
Qed.

(** ** The run without failures behind a run with failures *)
Definition sim sn g lf w (tr : list mev) : Prop :=
  exists progs wb trb fr u m c,
    reaches sn g lf progs wb trb /\ map anon trb = map anon (plain tr) /\
    w_sys wb = patch u m c (w_sys w) /\ (mtx (w_sys w) = None <-> m = None) /\
    (crashed (w_sys w) = None -> c = None) /\
    Permutation (w_clients wb) (w_clients w ++ fr) /\ flat_map held_c fr = lost tr /\
    unpooled (w_sys w) = u /\ List.length (flat_map making_c fr) = unmade tr.

Lemma sim_init : forall sn g lf progs, sim sn g lf (init sn g lf progs) [].
Proof.
  intros. exists progs, (init sn g lf progs), [], [], 0, None, None.
  split; [exists []; reflexivity|]. split; [reflexivity|]. split; [reflexivity|]. split; [cbn; tauto|].
  split; [auto|]. rewrite app_nil_r. auto.
Qed.

Lemma patch_crashed : forall u m s c, patch u m c s = patch u m c (set_crashed c s).
Proof. reflexivity. Qed.

Lemma sim_step : forall sn g lf ch w w' tr es, sim sn g lf w tr -> mstep ch w = Some (w', es) -> sim sn g lf w' (tr ++ es).
Proof.
  intros sn g lf ch w w' tr es (progs & wb & trb & fr & u & m & c & R & A & Es & M & C & P & L & U & U2) H.
  unfold sim. rewrite plain_app, lost_app, unmade_app, !map_app.
  destruct wb as [sb cb]. cbn [w_sys w_clients] in *. subst sb.
  destruct ch as [ch|i|]; cbn [LogMemModel.mstep] in H.
  - destruct (step ch w) as [[w1 es1]|] eqn:S; [|discriminate]. injection H as <- <-.
    rewrite plain_did, lost_did, unmade_did, app_nil_r, Nat.add_0_r. unfold LogModel.step in S.
    destruct (crashed (w_sys w)) eqn:Hc; [discriminate|]. rewrite (C eq_refl) in R. clear C.
    destruct ch as [i|k|].
    + destruct (nth_error (w_clients w) i) as [c0|] eqn:Ei; [|discriminate].
      destruct (cstep (Client i) c0 (w_sys w)) as [[[c' s'] e']|] eqn:S1; [|discriminate]. injection S as <- <-.
      assert (J : exists j, nth_error cb j = Some c0).
      { apply In_nth_error. rewrite P. apply in_app_iff. left. eapply nth_error_In; eauto. }
      destruct J as (j & Ej).
      destruct (cstep_patch (Client i) (Client j) _ _ _ _ _ u m S1 Hc eq_refl M) as (u' & m' & eb & S2 & M' & A' & V).
      exists progs, (mkWorld (patch u' m' (crashed s') s') (upd j (fun _ => c') cb)), (trb ++ eb), fr, u', m', (crashed s').
      split; [eapply reaches_snoc; [exact R|]; unfold LogModel.step; cbn [w_sys w_clients]; instantiate (1 := Go j);
              cbn [patch set_unpooled set_mtx set_crashed LogModel.crashed]; rewrite Ej, S2; reflexivity|].
      cbn [w_sys w_clients]. rewrite map_app, A, A'. split; [auto|]. split; [auto|]. split; [auto|]. split; [auto|].
      split; [eapply perm_upd; eauto|]. split; [auto|]. lia.
    + destruct (lstep k (w_sys w)) as [[s' e']|] eqn:S1; [|discriminate]. injection S as <- <-.
      destruct (lstep_patch _ _ _ _ u m S1 Hc M) as (u' & m' & eb & S2 & M' & A' & V).
      exists progs, (mkWorld (patch u' m' (crashed s') s') cb), (trb ++ eb), fr, u', m', (crashed s').
      split; [eapply reaches_snoc; [exact R|]; unfold LogModel.step; cbn [w_sys w_clients]; instantiate (1 := GoLog k);
              cbn [patch set_unpooled set_mtx set_crashed LogModel.crashed]; rewrite S2; reflexivity|].
      cbn [w_sys w_clients]. rewrite map_app, A, A'. split; [auto|]. split; [auto|]. split; [auto|]. split; [auto|].
      split; [auto|]. split; [auto|]. lia.
    + destruct (logt (w_sys w)) eqn:Et; try discriminate. injection S as <- <-.
      exists progs, (mkWorld (set_logt TCheck (patch u m None (w_sys w))) cb), (trb ++ []), fr, u, m, None.
      split; [eapply reaches_snoc; [exact R|]; unfold LogModel.step; cbn [w_sys w_clients]; instantiate (1 := Wake);
              cbn [patch set_unpooled set_mtx set_crashed LogModel.crashed LogModel.logt]; rewrite Et; reflexivity|].
      cbn [w_sys w_clients]. rewrite map_app, A. repeat (split; [auto; fail|]). auto.
  - destruct (crashed (w_sys w)) eqn:Hc; [discriminate|]. rewrite (C eq_refl) in *.
    destruct (nth_error (w_clients w) i) as [c0|] eqn:Ei; [|discriminate].
    destruct (fail_client i c0 (w_sys w)) as [[[c' s'] e']|] eqn:F; [|discriminate]. injection H as <- <-.
    cbn [w_sys w_clients]. destruct c0 as [pc todo]. unfold fail_client in F. cbn [c_pc c_todo] in F.
    assert (Z : forall k p, nth_error (w_clients w) i = Some (mkC pc k) ->
      reaches sn g lf (progs ++ [p]) (addc (mkC Idle p) (mkWorld (patch u m None (w_sys w)) cb)) trb /\
      Permutation (w_clients (addc (mkC Idle p) (mkWorld (patch u m None (w_sys w)) cb)))
        (upd i (fun _ => mkC Idle p) (w_clients w) ++ fr ++ [mkC pc k])).
    { intros k p Hk. split; [apply reaches_addc; auto|]. apply perm_freeze; auto. }
    destruct pc; try discriminate; cbn [c_pc c_todo] in *.
    + destruct todo as [|[] todo]; try discriminate; injection F as <- <- <-.
      * destruct (Z _ todo Ei) as (Z1 & Z2). eexists. eexists. exists trb. eexists. exists u, m, None. split; [exact Z1|].
        cbn [plain pick map]. rewrite app_nil_r. split; [auto|]. split; [reflexivity|]. split; [auto|]. split; [auto|].
        split; [exact Z2|]. rewrite !flat_map_app, L, app_length. cbn. rewrite app_nil_r. split; [auto|]. split; [lia|]. lia.
      * destruct (Z _ todo Ei) as (Z1 & Z2). eexists. eexists. exists trb. eexists. exists u, m, None. split; [exact Z1|].
        cbn [plain pick map]. rewrite app_nil_r. split; [auto|]. split; [reflexivity|]. split; [auto|]. split; [auto|].
        split; [exact Z2|]. rewrite !flat_map_app, L, app_length. cbn. rewrite app_nil_r. split; [auto|]. split; [lia|]. lia.
    + injection F as <- <- <-.
      destruct (Z _ todo Ei) as (Z1 & Z2). eexists. eexists. exists trb. eexists. exists u, m, None. split; [exact Z1|].
      cbn [plain pick map]. rewrite app_nil_r. split; [auto|]. split; [reflexivity|]. split; [auto|]. split; [auto|].
      split; [exact Z2|]. rewrite !flat_map_app, L, app_length. cbn. rewrite ?app_nil_r. split; [auto|]. split; [lia|]. lia.
    + injection F as <- <- <-.
      destruct (Z _ todo Ei) as (Z1 & Z2). eexists. eexists. exists trb. eexists. exists u, m, None. split; [exact Z1|].
      cbn [plain pick map]. rewrite app_nil_r. split; [auto|]. split; [reflexivity|]. split; [auto|]. split; [auto|].
      split; [exact Z2|]. rewrite !flat_map_app, L, app_length. cbn. rewrite ?app_nil_r. split; [auto|]. split; [lia|]. lia.
    + injection F as <- <- <-.
      exists progs, (mkWorld (patch u m None (w_sys w)) cb), trb, fr, u, m, None. split; [auto|].
      cbn [plain pick map lost unmade List.length]. rewrite !app_nil_r. split; [auto|]. split; [reflexivity|]. split; [auto|]. split; [discriminate|].
      split; [|split; [auto|cbn; lia]]. cbn [w_sys w_clients]. apply nth_error_split in Ei. destruct Ei as (a & b & E & <-).
      rewrite E, upd_mid, <- E. auto.
    + destruct (mtx (w_sys w)) eqn:Em; [discriminate|]. destruct (no_thread (w_sys w)); [|discriminate]. injection F as <- <- <-.
      destruct (Z _ todo Ei) as (Z1 & Z2). eexists. eexists. exists trb. eexists. exists u, m, None. split; [exact Z1|].
      cbn [plain pick map]. rewrite app_nil_r. split; [auto|]. split; [reflexivity|]. split; [rewrite Em; auto|]. split; [auto|].
      split; [exact Z2|]. rewrite !flat_map_app, L, app_length. cbn. rewrite app_nil_r. split; [auto|]. split; [lia|]. lia.
  - destruct (crashed (w_sys w)) eqn:Hc; [discriminate|]. rewrite (C eq_refl) in *.
    destruct (fail_log (w_sys w)) as [[s' e']|] eqn:F; [|discriminate]. injection H as <- <-.
    assert (E : s' = set_crashed (Some Terminate) (w_sys w) /\ e' = []).
    { unfold fail_log in F. destruct (logt (w_sys w)); try discriminate;
      repeat match goal with H : context [match ?x with _ => _ end] |- _ => destruct x; try discriminate end; injection F as <- <-; auto. }
    destruct E as (-> & ->).
    exists progs, (mkWorld (patch u m None (w_sys w)) cb), trb, fr, u, m, None. split; [auto|].
    cbn [plain pick map lost unmade List.length]. rewrite !app_nil_r. split; [auto|]. split; [reflexivity|]. split; [auto|]. split; [discriminate|].
    split; [auto|]. split; [auto|cbn; lia].
Qed.

Lemma mreaches_sim : forall sn g lf progs w tr, mreaches sn g lf progs w tr -> sim sn g lf w tr.
Proof.
  intros sn g lf progs w tr H. eapply mreaches_inv; [| |exact H]; [apply sim_init|]. intros. eapply sim_step; eauto.
Qed.

(** ** What follows *)
Lemma mem_fifo : forall sn g lf progs w tr, mreaches sn g lf progs w tr ->
  accepted (plain tr) = begun (plain tr) ++ unbegun w ++ waiting w.
Proof.
  intros sn g lf progs w tr H. apply mreaches_sim in H. destruct H as (p & [sb cb] & trb & fr & u & m & c & R & A & E & _).
  apply anon_split in A. destruct A as (<- & <- & _). cbn in E. subst sb. apply fifo in R. exact R.
Qed.

Lemma mem_filter : forall sn g lf progs w tr l, mreaches sn g lf progs w tr -> steady l (plain tr) false ->
  (exists n, owed compile rmatch (lf l) l (plain tr) 0 0 = delivered_to l (plain tr) ++ flat_map (fun m => repeat m n) (unended w)) /\
  (unended w = [] -> delivered_to l (plain tr) = owed compile rmatch (lf l) l (plain tr) 0 0).
Proof.
  intros sn g lf progs w tr l H S. apply mreaches_sim in H. destruct H as (p & [sb cb] & trb & fr & u & m & c & R & A & E & _).
  apply (anon_steady l _ _ (eq_sym A)) in S. rewrite <- (anon_owed l _ _ A).
  apply anon_split in A. destruct A as (_ & _ & _ & _ & A & _). rewrite <- A. cbn in E. subst sb. apply (over_exact _ _ _ _ _ _ _ _ _ R S).
Qed.

Lemma mem_settings : forall sn g lf progs w tr l, mreaches sn g lf progs w tr ->
  lst (w_sys w) l = settings compile l (plain tr) (lf l).
Proof.
  intros sn g lf progs w tr l H. apply mreaches_sim in H. destruct H as (p & [sb cb] & trb & fr & u & m & c & R & A & E & _).
  rewrite <- (anon_settings l _ _ A). cbn in E. subst sb. apply (settings_now compile rmatch _ _ _ _ _ _ l R).
Qed.

Lemma mem_places : forall sn g lf progs w tr, mreaches sn g lf progs w tr ->
  NoDup (places w ++ lost tr) /\ (forall o, In o (places w ++ lost tr) <-> live (w_sys w) o).
Proof.
  intros sn g lf progs w tr H. apply mreaches_sim in H. destruct H as (p & [sb cb] & trb & fr & u & m & c & R & A & E & _ & _ & P & L & _).
  cbn in E, P. subst sb. apply one_place in R. destruct R as (N & I).
  assert (Q : Permutation (places (mkWorld (patch u m c (w_sys w)) cb)) (places w ++ lost tr)).
  { unfold places. cbn [w_sys w_clients]. rewrite <- !app_assoc. do 3 (apply Permutation_app_head).
    rewrite <- L, <- flat_map_app. apply Permutation_flat_map. auto. }
  split; [eapply Permutation_NoDup; eauto|]. intros o. rewrite <- Q. apply I.
Qed.

Lemma mem_counters : forall sn g lf progs w tr, mreaches sn g lf progs w tr ->
  64 + unpooled (w_sys w) + List.length (passes (plain tr)) = objects w + making w + unmade tr.
Proof.
  intros sn g lf progs w tr H. apply mreaches_sim in H. destruct H as (p & [sb cb] & trb & fr & u & m & c & R & A & E & _ & _ & P & L & U & U2).
  apply anon_split in A. destruct A as (_ & _ & _ & _ & _ & <-). cbn in E. subst sb. apply reaches_heap in R.
  unfold objects, making in *. cbn [w_sys w_clients patch set_unpooled set_mtx set_crashed heap unpooled logt] in *. change POOL with 64 in R.
  rewrite app_length in *. pose proof (Permutation_length (Permutation_flat_map making_c P)) as Q. rewrite flat_map_app, app_length in Q. lia.
Qed.

Lemma mem_destroyed : forall sn g lf progs w tr, mreaches sn g lf progs w tr ->
  logt (w_sys w) = TNone -> (forall c, In c (w_clients w) -> c_pc c = Idle) ->
  exists s', destroy (w_sys w) = ROk s' tt /\ forall o, live s' o <-> In o (lost tr).
Proof.
  intros sn g lf progs w tr H T C. apply mem_places in H. destruct H as (Nd & L).
  rewrite (places_idle w) in * by (auto; rewrite T; auto).
  set (s := w_sys w) in *. rewrite <- app_assoc in *.
  assert (Np : NoDup (rev (pool s))) by (apply NoDup_rev; apply (NoDup_both _ _ _ Nd)).
  assert (Nq : NoDup (queue s)) by (apply NoDup_both in Nd; destruct Nd as (_ & Nd); apply (NoDup_both _ _ _ Nd)).
  assert (D : forall o, In o (pool s) -> ~ In o (queue s ++ lost tr)).
  { clear - Nd. induction (pool s) as [|x l IH]; [intros o []|]. cbn [app] in Nd. apply NoDup_cons_iff in Nd. destruct Nd as (Nx & Nd).
    intros o [->|I]; [intros I; apply Nx; apply in_or_app; auto|apply IH; auto]. }
  assert (D2 : forall o, In o (queue s) -> ~ In o (lost tr)).
  { apply NoDup_both in Nd. destruct Nd as (_ & Nd). clear - Nd. induction (queue s) as [|x l IH]; [intros o []|].
    cbn [app] in Nd. apply NoDup_cons_iff in Nd. destruct Nd as (Nx & Nd).
    intros o [->|I]; [intros I; apply Nx; apply in_or_app; auto|apply IH; auto]. }
  destruct (delete_all_ok (queue s) s) as (s1 & E1 & A1 & P1 & Q1 & B1 & T1 & H1); auto.
  { intros o I. apply L. apply in_or_app. right. apply in_or_app. auto. }
  destruct (delete_all_ok (rev (pool s)) s1) as (s2 & E2 & A2 & P2 & Q2 & B2 & T2 & H2); auto.
  { intros o I. apply A1. apply in_rev in I. split; [apply L; apply in_or_app; auto|].
    intros J. apply (D o I). apply in_or_app. auto. }
  exists (set_queue [] (set_pool [] s2)). unfold destroy. unfold bind, get, put. rewrite E1, P1, E2. split; [reflexivity|].
  intros o. change (live s2 o <-> In o (lost tr)). rewrite A2, A1, <- L, !in_app_iff, <- in_rev.
  specialize (D o). specialize (D2 o). rewrite in_app_iff in D. tauto.
Qed.

(** ** Each client *)
Lemma fates_did : forall i es, fates i (map Did es) = map (fun m => (m, Queued)) (queued_by (Client i) es).
Proof.
  intros i es. induction es as [|e es IH]; auto. destruct e; cbn; auto.
  destruct w as [j|]; auto. destruct (i =? j); cbn; auto. f_equal. auto.
Qed.

Lemma map_fst_q : forall l : list msg, map fst (map (fun m => (m, Queued)) l) = l.
Proof. intros. rewrite map_map. apply map_id. Qed.

Definition client_inv (progs : list (list call)) w (tr : list mev) : Prop :=
  forall i p, nth_error progs i = Some p -> exists c, nth_error (w_clients w) i = Some c /\
    passed_by (Client i) (plain tr) = map fst (fates i tr) ++ unqueued c /\
    log_calls p = logged_by (Client i) (plain tr) ++ log_calls (c_todo c).

Lemma client_step : forall progs ch w w' tr es, client_inv progs w tr -> mstep ch w = Some (w', es) -> client_inv progs w' (tr ++ es).
Proof.
  intros progs ch w w' tr es I H i p Hp. destruct (I i p Hp) as (c & Hc & A & B). clear I.
  rewrite plain_app, fates_app, map_app. destruct (by_app (Client i) (plain tr) (plain es)) as (-> & _ & ->). rewrite A, B.
  destruct ch as [ch|j|]; cbn [LogMemModel.mstep] in H.
  - destruct (step ch w) as [[w1 es1]|] eqn:S; [|discriminate]. injection H as <- <-.
    rewrite plain_did, fates_did, map_fst_q. apply step_st in S.
    destruct S as [w j cj c' s' es Hr Hi H | w s' es Hr H | w Hr Hs].
    + pose proof (cs_mine _ _ _ _ _ _ _ H) as (M1 & M2 & M3). sfields. destruct (Nat.eq_dec i j) as [->|N].
      * rewrite (nth_error_upd_eq _ _ _ _ Hi). exists c'. rewrite Hc in Hi. injection Hi as <-.
        split; auto. rewrite <- !app_assoc, M1, M3. auto.
      * rewrite nth_error_upd_neq by auto. exists c. destruct (M2 (Client i)) as (-> & -> & ->); [congruence|].
        rewrite !app_nil_r. auto.
    + exists c. destruct w as [s cl]. sfields. destruct (ls_mine _ _ _ _ _ H cl) as (_ & M). destruct (M i) as (-> & -> & ->).
      rewrite !app_nil_r. auto.
    + exists c. sfields. cbn. rewrite !app_nil_r. auto.
  - destruct (crashed (w_sys w)) eqn:Hr; [discriminate|].
    destruct (nth_error (w_clients w) j) as [cj|] eqn:Ej; [|discriminate].
    destruct (fail_client j cj (w_sys w)) as [[[c' s'] e']|] eqn:F; [|discriminate]. injection H as <- <-. cbn [w_clients].
    destruct (Nat.eq_dec i j) as [->|N].
    + rewrite (nth_error_upd_eq _ _ _ _ Ej). rewrite Hc in Ej. injection Ej as <-. exists c'. split; auto.
      unfold fail_client in F. unfold unqueued in *. destruct c as [pc todo]. cbn [c_pc c_todo] in *.
      destruct pc; try discriminate.
      * destruct todo as [|[] todo]; try discriminate; injection F as <- <- <-; cbn; rewrite !app_nil_r; auto.
      * injection F as <- <- <-. cbn. rewrite Nat.eqb_refl. cbn. rewrite !app_nil_r. auto.
      * injection F as <- <- <-. cbn. rewrite Nat.eqb_refl. cbn. rewrite !app_nil_r. auto.
      * injection F as <- <- <-. cbn. rewrite !app_nil_r. auto.
      * destruct (mtx _); [discriminate|]. destruct (no_thread _); [|discriminate]. injection F as <- <- <-. cbn. rewrite !app_nil_r. auto.
    + rewrite nth_error_upd_neq by auto. exists c. split; auto.
      assert (E : plain e' = [] /\ fates i e' = []).
      { apply Nat.eqb_neq in N. unfold fail_client in F. destruct cj as [pc todo]. cbn [c_pc c_todo] in F.
        destruct pc; try discriminate; [destruct todo as [|[] todo]; try discriminate|..|destruct (mtx _); [discriminate|]; destruct (no_thread _); [|discriminate]];
          injection F as <- <- <-; cbn; rewrite ?N; auto. }
      destruct E as (-> & ->). cbn. rewrite !app_nil_r. auto.
  - destruct (crashed (w_sys w)) eqn:Hr; [discriminate|].
    destruct (fail_log (w_sys w)) as [[s' e']|] eqn:F; [|discriminate]. injection H as <- <-. exists c. split; auto.
    assert (E : e' = []).
    { unfold fail_log in F. destruct (logt (w_sys w)); try discriminate;
      repeat match goal with H : context [match ?x with _ => _ end] |- _ => destruct x; try discriminate end; injection F as <- <-; auto. }
    subst e'. cbn. rewrite !app_nil_r. auto.
Qed.

Lemma mem_client : forall sn g lf progs w tr, mreaches sn g lf progs w tr -> client_inv progs w tr.
Proof.
  intros sn g lf progs w tr H. eapply mreaches_inv; [| |exact H].
  - intros i p Hp. unfold init. cbn [w_clients]. rewrite nth_error_map, Hp. cbn. eexists. repeat split; auto.
  - intros. eapply client_step; eauto.
Qed.

Lemma mem_fates : forall sn g lf progs w tr i p, mreaches sn g lf progs w tr -> nth_error progs i = Some p ->
  prefix (logged_by (Client i) (plain tr)) (log_calls p) /\
  (exists cur, passed_by (Client i) (plain tr) = map fst (fates i tr) ++ cur /\ List.length cur <= 1 /\ (at_pc w i Idle -> cur = [])).
Proof.
  intros sn g lf progs w tr i p H Hp. destruct (mem_client _ _ _ _ _ _ H i p Hp) as (c & Hc & A & B). split.
  - eexists. eauto.
  - exists (unqueued c). split; auto. split.
    + unfold unqueued. destruct (c_pc c); cbn; auto.
    + intros (c0 & E & I). rewrite Hc in E. injection E as <-. unfold unqueued. rewrite I. auto.
Qed.

(** ** A call that throws, and one that does not get so far *)
Lemma mem_throw : forall w i w' es, mstep (Fails i) w = Some (w', es) -> crashed (w_sys w') = None ->
  (exists k o, es = [Threw i k o]) /\ at_pc w' i Idle /\
  (forall j, j <> i -> nth_error (w_clients w') j = nth_error (w_clients w) j) /\
  queue (w_sys w') = queue (w_sys w) /\ pending (w_sys w') = pending (w_sys w) /\ active (w_sys w') = active (w_sys w) /\
  lst (w_sys w') = lst (w_sys w) /\ logt (w_sys w') = logt (w_sys w) /\ mtx (w_sys w') = mtx (w_sys w) /\
  pool (w_sys w') = pool (w_sys w) /\ terminated (w_sys w') = terminated (w_sys w).
Proof.
  intros w i w' es H C. cbn [LogMemModel.mstep] in H. destruct (crashed (w_sys w)) eqn:Hr; [discriminate|].
  destruct (nth_error (w_clients w) i) as [cj|] eqn:Ej; [|discriminate].
  destruct (fail_client i cj (w_sys w)) as [[[c' s'] e']|] eqn:F; [|discriminate]. injection H as <- <-. cbn [w_clients w_sys] in *.
  unfold at_pc. cbn [w_clients]. rewrite (nth_error_upd_eq _ _ _ _ Ej).
  assert (N : forall j, j <> i -> nth_error (upd i (fun _ => c') (w_clients w)) j = nth_error (w_clients w) j)
    by (intros; apply nth_error_upd_neq; auto).
  unfold fail_client in F. destruct cj as [pc todo]. cbn [c_pc c_todo] in F.
  destruct pc; try discriminate; [destruct todo as [|[] todo]; try discriminate|..|destruct (mtx (w_sys w)) eqn:Em; [discriminate|]; destruct (no_thread _); [|discriminate]];
    injection F as <- <- <-; try (cbn in C; discriminate); (split; [eauto|]; split; [eauto|]; split; [exact N|]; repeat split; auto).
Qed.

Lemma crashed_halts : forall w b, crashed (w_sys w) = Some b -> halted compile rmatch w.
Proof. intros w b C [ch|i|]; cbn [LogMemModel.mstep]; unfold LogModel.step; rewrite C; auto. Qed.

Lemma mem_push : forall w i m o, crashed (w_sys w) = None -> at_pc w i (LogPush m o) ->
  exists w', mstep (Fails i) w = Some (w', []) /\ crashed (w_sys w') = Some Terminate /\ halted compile rmatch w'.
Proof.
  intros w i m o C (c & E & P). cbn [LogMemModel.mstep]. rewrite C, E. unfold fail_client. rewrite P.
  eexists. split; [reflexivity|]. split; [reflexivity|]. eapply crashed_halts. reflexivity.
Qed.

Lemma mem_log_thread : forall w, crashed (w_sys w) = None ->
  (exists o, logt (w_sys w) = TGot o /\ pending (w_sys w) <> []) \/
  (exists o, logt (w_sys w) = TDispose o /\ List.length (pool (w_sys w)) < 64) \/
  (exists o l r, logt (w_sys w) = TCat o l r /\ m_cat (content (w_sys w) o) <> ""%string /\ l_category (lst (w_sys w) l) <> ""%string) ->
  exists w', mstep FailsLog w = Some (w', []) /\ crashed (w_sys w') = Some Terminate /\ halted compile rmatch w'.
Proof.
  intros w C H.
  enough (F : fail_log (w_sys w) = Some (set_crashed (Some Terminate) (w_sys w), [])).
  { cbn [LogMemModel.mstep]. rewrite C, F. eexists. split; [reflexivity|]. split; [reflexivity|]. eapply crashed_halts. reflexivity. }
  unfold fail_log. destruct H as [(o & -> & P)|[(o & -> & P)|(o & l & r & -> & P & Q)]].
  - destruct (pending (w_sys w)); congruence.
  - change POOL with 64. apply Nat.ltb_lt in P. rewrite P. auto.
  - apply String.eqb_neq in P, Q. rewrite P, Q. auto.
Qed.

(** ** category() *)
Lemma mem_category : forall re (l l' : @listener RE) r, compile re = Some r -> category_half compile re l = Some l' ->
  l_category l' = l_category l /\
  (forall cat, cat <> ""%string -> l_category l <> ""%string -> checkCategory rmatch l' cat = rmatch cat r).
Proof.
  intros re l l' r C H. unfold category_half in H. rewrite C in H. injection H as <-. split; [reflexivity|].
  intros cat N1 N2. unfold checkCategory. cbn [l_category l_regex]. apply String.eqb_neq in N1, N2. rewrite N1, N2. auto.
Qed.

(** ** The constructor *)
Lemma fill_ok : forall f n h p, (forall k, 2 * List.length h <= k < 2 * List.length h + 2 * n -> f k = true) ->
  fill f n h p = inr (h ++ repeat (Some empty_msg) n, rev (seq (List.length h) n) ++ p).
Proof.
  intros f. induction n as [|n IH]; intros h p H; cbn [fill]; [rewrite app_nil_r; auto|].
  rewrite (H (2 * List.length h)), (H (S (2 * List.length h))) by lia.
  rewrite IH; rewrite app_length; cbn [List.length].
  - rewrite Nat.add_1_r, <- app_assoc. cbn [repeat app seq rev]. rewrite <- app_assoc. auto.
  - intros k Hk. apply H. lia.
Qed.

Lemma fill_fail : forall f n h p h', fill f n h p = inl h' ->
  exists k, h' = h ++ repeat (Some empty_msg) k /\ (f (2 * List.length h) = true -> 0 < k).
Proof.
  intros f. induction n as [|n IH]; intros h p h' H; cbn [fill] in H; [discriminate|].
  destruct (f (2 * List.length h)).
  - destruct (f (S _)).
    + apply IH in H. destruct H as (k & -> & _). exists (S k). rewrite <- app_assoc. split; auto. lia.
    + injection H as <-. exists 1. split; auto.
  - injection H as <-. exists 0. rewrite app_nil_r. split; auto. discriminate.
Qed.

Lemma mem_construct : forall f sn g (lf : nat -> @listener RE), (forall k, k <= 128 -> f k = true) ->
  construct_mem f sn g lf = inr (construct sn g lf).
Proof.
  intros f sn g lf H. unfold construct_mem. rewrite fill_ok by (cbn [List.length]; change POOL with 64; intros; apply H; lia).
  cbn [app List.length]. rewrite app_nil_r, (H (2 * POOL)) by (change POOL with 64; lia).
  rewrite andb_false_r. unfold construct. rewrite repeat_length. auto.
Qed.

Lemma mem_construct_fail : forall f sn g (lf : nat -> @listener RE) h, construct_mem f sn g lf = inl h -> f 0 = true ->
  exists n, 0 < n /\ h = repeat (Some empty_msg) n.
Proof.
  intros f sn g lf h H F. unfold construct_mem in H. destruct (fill f POOL [] []) as [h'|[h' p]] eqn:E.
  - injection H as <-. apply fill_fail in E. destruct E as (k & -> & K). exists k. split; auto.
  - destruct (sn && negb (f (2 * POOL)))%bool; [|discriminate]. injection H as <-.
    assert (X : forall n h p h' p', fill f n h p = inr (h', p') -> h' = h ++ repeat (Some empty_msg) n).
    { clear. induction n as [|n IH]; intros h p h' p' H; cbn [fill] in H.
      - injection H as <- <-. rewrite app_nil_r. auto.
      - destruct (f (2 * _)); [|discriminate]. destruct (f (S _)); [|discriminate]. apply IH in H. rewrite H, <- app_assoc. auto. }
    apply X in E. exists POOL. split; [change POOL with 64; lia|auto].
Qed.
End Log.
