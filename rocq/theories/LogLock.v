(** * LogSystem: critical sections statement by statement *)
From Coq Require Import ZArith String Bool List Arith Lia.
From Verif Require Import Base ListFacts LogModel LogSpec LogAccess LogLockModel LogLockSpec LogProofs.
Import ListNotations.
Open Scope list_scope.

Lemma lock_eqb_spec : forall a b, Bool.reflect (a = b) (lock_eqb a b).
Proof. intros [] []; cbn; try (constructor; congruence). destruct (Nat.eqb_spec l l0); constructor; congruence. Qed.
Lemma tid_eqb_spec : forall a b, Bool.reflect (a = b) (tid_eqb a b).
Proof. intros [] []; cbn; try (constructor; congruence). destruct (Nat.eqb_spec i i0); constructor; congruence. Qed.

Section Log.
Context {RE : Type}.
Variable compile : string -> option RE.
Variable rmatch : string -> RE -> bool.
Notation sys := (@sys RE).
Notation world := (@world RE).
Notation fworld := (@fworld RE).
Notation cstep := (cstep compile).
Notation lstep := (lstep compile rmatch).
Notation step := (step compile rmatch).
Notation run := (run compile rmatch).
Notation fstep := (fstep compile rmatch).
Notation frun := (frun compile rmatch).
Implicit Types (s : sys) (w : world) (fw : fworld).

(** ** Finishing the sections under way *)
Definition fin_m (q : option (lock * sect)) s : sys :=
  match q with
  | Some (_, SMax) => notify (if maxq s <? List.length (queue s) then set_maxq (List.length (queue s)) s else s)
  | Some (_, SMaxSet) => notify (set_maxq (List.length (queue s)) s)
  | Some (_, SNotify) => notify s
  | _ => s
  end.
Definition fin_l (q : option (lock * sect)) s : sys :=
  match q with
  | Some (_, SCopy n) => set_pending [] (set_active (active s ++ skipn n (pending s)) s)
  | Some (_, SClear) => set_pending [] s
  | _ => s
  end.
Definition fin (b a : option (lock * sect)) s : sys := fin_l b (fin_m a s).

Definition hold fw : option (lock * sect) := match f_held fw MMessage with Some t => f_sect fw t | None => None end.
Definition settled fw : world := mkWorld (fin (f_sect fw LogThread) (hold fw) (w_sys (f_world fw))) (w_clients (f_world fw)).

Ltac fsolve :=
  intros; unfold fin_m, notify;
  match goal with a : option (lock * sect) |- _ => destruct a as [[? []]|] end; try reflexivity; cbn;
  repeat match goal with |- context [if ?b then _ else _] => destruct b; cbn end;
  match goal with |- context [logt ?s] => destruct (logt s) eqn:E; cbn; rewrite ?E end; reflexivity.

Lemma fm_heap : forall a s, heap (fin_m a s) = heap s. Proof. fsolve. Qed.
Lemma fm_pool : forall a s, pool (fin_m a s) = pool s. Proof. fsolve. Qed.
Lemma fm_queue : forall a s, queue (fin_m a s) = queue s. Proof. fsolve. Qed.
Lemma fm_terminated : forall a s, terminated (fin_m a s) = terminated s. Proof. fsolve. Qed.
Lemma fm_unpooled : forall a s, unpooled (fin_m a s) = unpooled s. Proof. fsolve. Qed.
Lemma fm_discarded : forall a s, discarded (fin_m a s) = discarded s. Proof. fsolve. Qed.
Lemma fm_received : forall a s, received (fin_m a s) = received s. Proof. fsolve. Qed.
Lemma fm_slevel : forall a s, slevel (fin_m a s) = slevel s. Proof. fsolve. Qed.
Lemma fm_pending : forall a s, pending (fin_m a s) = pending s. Proof. fsolve. Qed.
Lemma fm_active : forall a s, active (fin_m a s) = active s. Proof. fsolve. Qed.
Lemma fm_lst : forall a s, lst (fin_m a s) = lst s. Proof. fsolve. Qed.
Lemma fm_mtx : forall a s, mtx (fin_m a s) = mtx s. Proof. fsolve. Qed.
Lemma fm_crashed : forall a s, crashed (fin_m a s) = crashed s. Proof. fsolve. Qed.
Lemma fm_built : forall a s, built (fin_m a s) = built s. Proof. fsolve. Qed.
Lemma fm_torn : forall a s, torn (fin_m a s) = torn s. Proof. fsolve. Qed.
Lemma fm_thread : forall a s, no_thread (fin_m a s) = no_thread s.
Proof.
  intros a s. unfold no_thread, fin_m, notify. destruct a as [[? []]|]; auto;
    repeat match goal with |- context [if ?b then _ else _] => destruct b; cbn end; cbn; destruct (logt s) eqn:E; cbn; rewrite ?E; auto.
Qed.
Lemma fm_logt : forall a s, logt s <> TAsleep -> logt (fin_m a s) = logt s.
Proof.
  intros a s N. unfold fin_m, notify. destruct a as [[? []]|]; auto;
    repeat match goal with |- context [if ?b then _ else _] => destruct b; cbn end; cbn; destruct (logt s) eqn:E; cbn; rewrite ?E; auto; congruence.
Qed.
Lemma fm_asleep : forall a s, logt s = TAsleep -> logt (fin_m a s) = TAsleep \/ logt (fin_m a s) = TCheck.
Proof.
  intros a s N. unfold fin_m, notify. destruct a as [[? []]|]; auto;
    repeat match goal with |- context [if ?b then _ else _] => destruct b; cbn end; cbn; rewrite ?N; cbn; rewrite ?N; auto.
Qed.

Lemma fm_set_heap : forall a x s, fin_m a (set_heap x s) = set_heap x (fin_m a s). Proof. fsolve. Qed.
Lemma fm_set_pool : forall a x s, fin_m a (set_pool x s) = set_pool x (fin_m a s). Proof. fsolve. Qed.
Lemma fm_set_terminated : forall a x s, fin_m a (set_terminated x s) = set_terminated x (fin_m a s). Proof. fsolve. Qed.
Lemma fm_set_unpooled : forall a x s, fin_m a (set_unpooled x s) = set_unpooled x (fin_m a s). Proof. fsolve. Qed.
Lemma fm_set_discarded : forall a x s, fin_m a (set_discarded x s) = set_discarded x (fin_m a s). Proof. fsolve. Qed.
Lemma fm_set_received : forall a x s, fin_m a (set_received x s) = set_received x (fin_m a s). Proof. fsolve. Qed.
Lemma fm_set_slevel : forall a x s, fin_m a (set_slevel x s) = set_slevel x (fin_m a s). Proof. fsolve. Qed.
Lemma fm_set_pending : forall a x s, fin_m a (set_pending x s) = set_pending x (fin_m a s). Proof. fsolve. Qed.
Lemma fm_set_active : forall a x s, fin_m a (set_active x s) = set_active x (fin_m a s). Proof. fsolve. Qed.
Lemma fm_set_lst : forall a x s, fin_m a (set_lst x s) = set_lst x (fin_m a s). Proof. fsolve. Qed.
Lemma fm_set_mtx : forall a x s, fin_m a (set_mtx x s) = set_mtx x (fin_m a s). Proof. fsolve. Qed.
Lemma fm_set_crashed : forall a x s, fin_m a (set_crashed x s) = set_crashed x (fin_m a s). Proof. fsolve. Qed.
Lemma fm_set_built : forall a x s, fin_m a (set_built x s) = set_built x (fin_m a s). Proof. fsolve. Qed.
Lemma fm_set_torn : forall a x s, fin_m a (set_torn x s) = set_torn x (fin_m a s). Proof. fsolve. Qed.
Lemma notify_awake : forall s, logt s <> TAsleep -> notify s = s.
Proof. intros s N. unfold notify. destruct (logt s); congruence. Qed.
Lemma fm_notify : forall a s, fin_m a (notify s) = notify (fin_m a s).
Proof.
  intros a s. assert (D : logt s = TAsleep \/ logt s <> TAsleep) by (destruct (logt s); auto; right; discriminate). destruct D as [E|N].
  - unfold fin_m, notify. destruct a as [[? []]|]; rewrite E; cbn; auto; repeat match goal with |- context [if ?b then _ else _] => destruct b; cbn end;
      rewrite E; reflexivity.
  - rewrite !notify_awake; auto. rewrite fm_logt; auto.
Qed.
Lemma fm_set_logt : forall a x s, logt s <> TAsleep -> x <> TAsleep -> fin_m a (set_logt x s) = set_logt x (fin_m a s).
Proof. intros a x s N1 N2. unfold fin_m, notify. destruct a as [[? []]|]; cbn; auto;
  destruct x; try congruence; cbn; repeat match goal with |- context [if ?b then _ else _] => destruct b; cbn end; destruct (logt s); try congruence; reflexivity. Qed.

Lemma fl_heap : forall b s, heap (fin_l b s) = heap s. Proof. intros [[? []]|] s; reflexivity. Qed.
Lemma fl_pool : forall b s, pool (fin_l b s) = pool s. Proof. intros [[? []]|] s; reflexivity. Qed.
Lemma fl_queue : forall b s, queue (fin_l b s) = queue s. Proof. intros [[? []]|] s; reflexivity. Qed.
Lemma fl_terminated : forall b s, terminated (fin_l b s) = terminated s. Proof. intros [[? []]|] s; reflexivity. Qed.
Lemma fl_unpooled : forall b s, unpooled (fin_l b s) = unpooled s. Proof. intros [[? []]|] s; reflexivity. Qed.
Lemma fl_discarded : forall b s, discarded (fin_l b s) = discarded s. Proof. intros [[? []]|] s; reflexivity. Qed.
Lemma fl_maxq : forall b s, maxq (fin_l b s) = maxq s. Proof. intros [[? []]|] s; reflexivity. Qed.
Lemma fl_received : forall b s, received (fin_l b s) = received s. Proof. intros [[? []]|] s; reflexivity. Qed.
Lemma fl_slevel : forall b s, slevel (fin_l b s) = slevel s. Proof. intros [[? []]|] s; reflexivity. Qed.
Lemma fl_lst : forall b s, lst (fin_l b s) = lst s. Proof. intros [[? []]|] s; reflexivity. Qed.
Lemma fl_mtx : forall b s, mtx (fin_l b s) = mtx s. Proof. intros [[? []]|] s; reflexivity. Qed.
Lemma fl_logt : forall b s, logt (fin_l b s) = logt s. Proof. intros [[? []]|] s; reflexivity. Qed.
Lemma fl_crashed : forall b s, crashed (fin_l b s) = crashed s. Proof. intros [[? []]|] s; reflexivity. Qed.
Lemma fl_built : forall b s, built (fin_l b s) = built s. Proof. intros [[? []]|] s; reflexivity. Qed.
Lemma fl_torn : forall b s, torn (fin_l b s) = torn s. Proof. intros [[? []]|] s; reflexivity. Qed.
Lemma fl_set_heap : forall b x s, fin_l b (set_heap x s) = set_heap x (fin_l b s). Proof. intros [[? []]|] x s; reflexivity. Qed.
Lemma fl_set_pool : forall b x s, fin_l b (set_pool x s) = set_pool x (fin_l b s). Proof. intros [[? []]|] x s; reflexivity. Qed.
Lemma fl_set_queue : forall b x s, fin_l b (set_queue x s) = set_queue x (fin_l b s). Proof. intros [[? []]|] x s; reflexivity. Qed.
Lemma fl_set_terminated : forall b x s, fin_l b (set_terminated x s) = set_terminated x (fin_l b s). Proof. intros [[? []]|] x s; reflexivity. Qed.
Lemma fl_set_unpooled : forall b x s, fin_l b (set_unpooled x s) = set_unpooled x (fin_l b s). Proof. intros [[? []]|] x s; reflexivity. Qed.
Lemma fl_set_discarded : forall b x s, fin_l b (set_discarded x s) = set_discarded x (fin_l b s). Proof. intros [[? []]|] x s; reflexivity. Qed.
Lemma fl_set_maxq : forall b x s, fin_l b (set_maxq x s) = set_maxq x (fin_l b s). Proof. intros [[? []]|] x s; reflexivity. Qed.
Lemma fl_set_received : forall b x s, fin_l b (set_received x s) = set_received x (fin_l b s). Proof. intros [[? []]|] x s; reflexivity. Qed.
Lemma fl_set_slevel : forall b x s, fin_l b (set_slevel x s) = set_slevel x (fin_l b s). Proof. intros [[? []]|] x s; reflexivity. Qed.
Lemma fl_set_lst : forall b x s, fin_l b (set_lst x s) = set_lst x (fin_l b s). Proof. intros [[? []]|] x s; reflexivity. Qed.
Lemma fl_set_mtx : forall b x s, fin_l b (set_mtx x s) = set_mtx x (fin_l b s). Proof. intros [[? []]|] x s; reflexivity. Qed.
Lemma fl_set_logt : forall b x s, fin_l b (set_logt x s) = set_logt x (fin_l b s). Proof. intros [[? []]|] x s; reflexivity. Qed.
Lemma fl_set_crashed : forall b x s, fin_l b (set_crashed x s) = set_crashed x (fin_l b s). Proof. intros [[? []]|] x s; reflexivity. Qed.
Lemma fl_set_built : forall b x s, fin_l b (set_built x s) = set_built x (fin_l b s). Proof. intros [[? []]|] x s; reflexivity. Qed.
Lemma fl_set_torn : forall b x s, fin_l b (set_torn x s) = set_torn x (fin_l b s). Proof. intros [[? []]|] x s; reflexivity. Qed.
Lemma fl_thread : forall b s, no_thread (fin_l b s) = no_thread s. Proof. intros [[? []]|] s; reflexivity. Qed.
Lemma fl_notify : forall b s, fin_l b (notify s) = notify (fin_l b s).
Proof. intros [[? []]|] s; unfold notify, fin_l; cbn; auto; destruct (logt s); reflexivity. Qed.
Lemma fl_active : forall b s, match b with Some (_, SCopy _) => False | _ => True end -> active (fin_l b s) = active s.
Proof. intros [[? []]|] s H; cbn; auto; contradiction. Qed.
Lemma fl_none : forall s, fin_l None s = s. Proof. reflexivity. Qed.

(** The same for both. *)
Lemma fin_heap : forall b a s, heap (fin b a s) = heap s. Proof. intros. unfold fin. now rewrite fl_heap, fm_heap. Qed.
Lemma fin_pool : forall b a s, pool (fin b a s) = pool s. Proof. intros. unfold fin. now rewrite fl_pool, fm_pool. Qed.
Lemma fin_queue : forall b a s, queue (fin b a s) = queue s. Proof. intros. unfold fin. now rewrite fl_queue, fm_queue. Qed.
Lemma fin_terminated : forall b a s, terminated (fin b a s) = terminated s. Proof. intros. unfold fin. now rewrite fl_terminated, fm_terminated. Qed.
Lemma fin_unpooled : forall b a s, unpooled (fin b a s) = unpooled s. Proof. intros. unfold fin. now rewrite fl_unpooled, fm_unpooled. Qed.
Lemma fin_discarded : forall b a s, discarded (fin b a s) = discarded s. Proof. intros. unfold fin. now rewrite fl_discarded, fm_discarded. Qed.
Lemma fin_received : forall b a s, received (fin b a s) = received s. Proof. intros. unfold fin. now rewrite fl_received, fm_received. Qed.
Lemma fin_slevel : forall b a s, slevel (fin b a s) = slevel s. Proof. intros. unfold fin. now rewrite fl_slevel, fm_slevel. Qed.
Lemma fin_lst : forall b a s, lst (fin b a s) = lst s. Proof. intros. unfold fin. now rewrite fl_lst, fm_lst. Qed.
Lemma fin_mtx : forall b a s, mtx (fin b a s) = mtx s. Proof. intros. unfold fin. now rewrite fl_mtx, fm_mtx. Qed.
Lemma fin_crashed : forall b a s, crashed (fin b a s) = crashed s. Proof. intros. unfold fin. now rewrite fl_crashed, fm_crashed. Qed.
Lemma fin_built : forall b a s, built (fin b a s) = built s. Proof. intros. unfold fin. now rewrite fl_built, fm_built. Qed.
Lemma fin_torn : forall b a s, torn (fin b a s) = torn s. Proof. intros. unfold fin. now rewrite fl_torn, fm_torn. Qed.
Lemma fin_set_heap : forall b a x s, fin b a (set_heap x s) = set_heap x (fin b a s). Proof. intros. unfold fin. now rewrite fm_set_heap, fl_set_heap. Qed.
Lemma fin_set_pool : forall b a x s, fin b a (set_pool x s) = set_pool x (fin b a s). Proof. intros. unfold fin. now rewrite fm_set_pool, fl_set_pool. Qed.
Lemma fin_set_terminated : forall b a x s, fin b a (set_terminated x s) = set_terminated x (fin b a s). Proof. intros. unfold fin. now rewrite fm_set_terminated, fl_set_terminated. Qed.
Lemma fin_set_unpooled : forall b a x s, fin b a (set_unpooled x s) = set_unpooled x (fin b a s). Proof. intros. unfold fin. now rewrite fm_set_unpooled, fl_set_unpooled. Qed.
Lemma fin_set_discarded : forall b a x s, fin b a (set_discarded x s) = set_discarded x (fin b a s). Proof. intros. unfold fin. now rewrite fm_set_discarded, fl_set_discarded. Qed.
Lemma fin_set_received : forall b a x s, fin b a (set_received x s) = set_received x (fin b a s). Proof. intros. unfold fin. now rewrite fm_set_received, fl_set_received. Qed.
Lemma fin_set_slevel : forall b a x s, fin b a (set_slevel x s) = set_slevel x (fin b a s). Proof. intros. unfold fin. now rewrite fm_set_slevel, fl_set_slevel. Qed.
Lemma fin_set_lst : forall b a x s, fin b a (set_lst x s) = set_lst x (fin b a s). Proof. intros. unfold fin. now rewrite fm_set_lst, fl_set_lst. Qed.
Lemma fin_set_mtx : forall b a x s, fin b a (set_mtx x s) = set_mtx x (fin b a s). Proof. intros. unfold fin. now rewrite fm_set_mtx, fl_set_mtx. Qed.
Lemma fin_set_crashed : forall b a x s, fin b a (set_crashed x s) = set_crashed x (fin b a s). Proof. intros. unfold fin. now rewrite fm_set_crashed, fl_set_crashed. Qed.
Lemma fin_set_built : forall b a x s, fin b a (set_built x s) = set_built x (fin b a s). Proof. intros. unfold fin. now rewrite fm_set_built, fl_set_built. Qed.
Lemma fin_set_torn : forall b a x s, fin b a (set_torn x s) = set_torn x (fin b a s). Proof. intros. unfold fin. now rewrite fm_set_torn, fl_set_torn. Qed.
Lemma fin_thread : forall b a s, no_thread (fin b a s) = no_thread s. Proof. intros. unfold fin. now rewrite fl_thread, fm_thread. Qed.
Lemma fin_logt : forall b a s, logt s <> TAsleep -> logt (fin b a s) = logt s. Proof. intros. unfold fin. rewrite fl_logt. now apply fm_logt. Qed.
Lemma fin_asleep : forall b a s, logt s = TAsleep -> logt (fin b a s) = TAsleep \/ logt (fin b a s) = TCheck.
Proof. intros. unfold fin. rewrite fl_logt. now apply fm_asleep. Qed.
Lemma fin_notify : forall b a s, fin b a (notify s) = notify (fin b a s). Proof. intros. unfold fin. now rewrite fm_notify, fl_notify. Qed.
Lemma fin_set_logt : forall b a x s, logt s <> TAsleep -> x <> TAsleep -> fin b a (set_logt x s) = set_logt x (fin b a s).
Proof. intros. unfold fin. rewrite fm_set_logt by auto. apply fl_set_logt. Qed.
Lemma fin_active : forall b a s, match b with Some (_, SCopy _) => False | _ => True end -> active (fin b a s) = active s.
Proof. intros. unfold fin. rewrite fl_active by auto. apply fm_active. Qed.
Lemma fin_content : forall b a s o, content (fin b a s) o = content s o.
Proof. intros. unfold content. now rewrite fin_heap. Qed.

Ltac fgo := repeat progress (rewrite ?fin_heap, ?fin_pool, ?fin_queue, ?fin_terminated, ?fin_unpooled, ?fin_discarded, ?fin_received, ?fin_slevel,
  ?fin_lst, ?fin_mtx, ?fin_crashed, ?fin_built, ?fin_torn, ?fin_thread, ?fin_set_heap, ?fin_set_unpooled,
  ?fin_set_discarded, ?fin_set_received, ?fin_set_slevel, ?fin_set_lst, ?fin_set_mtx, ?fin_set_crashed, ?fin_set_built, ?fin_set_torn, ?fin_notify, ?fin_content).

(** A step outside the sections: as with the sections finished. *)
Lemma cstep_fin : forall t c s c' s' es b a, needs c = None ->
  (looks c = true -> match b with Some (_, SCopy _) => False | _ => True end) ->
  cstep t c s = Some (c', s', es) -> cstep t c (fin b a s) = Some (c', fin b a s', es).
Proof.
  intros t [pc k] s c' s' es b a N L H. unfold LogModel.cstep in *. cbn [c_pc c_todo needs] in *. destruct pc.
  - destruct k as [|k0 k]; [discriminate|]. destruct k0; try discriminate N; cbn in H; fgo; cbn in H; 
      try (injection H as <- <- <-; fgo; reflexivity).
    + destruct (m_level m >? slevel s)%Z; injection H as <- <- <-; reflexivity.
    + destruct (set_category compile re (lst s l)); injection H as <- <- <-; fgo; reflexivity.
    + destruct t; injection H as <- <- <-; fgo; reflexivity.
  - discriminate N.
  - injection H as <- <- <-. fgo. reflexivity.
  - injection H as <- <- <-. fgo. reflexivity.
  - injection H as <- <- <-. fgo. reflexivity.
  - discriminate N.
  - injection H as <- <- <-. fgo. reflexivity.
  - fgo. destruct (mtx s); [discriminate|]. destruct (no_thread s); injection H as <- <- <-; fgo; reflexivity.
  - destruct t.
    + destruct (logt s) eqn:E; try discriminate. rewrite fin_logt by congruence. rewrite E. injection H as <- <- <-.
      fgo. rewrite fin_set_logt; auto; congruence.
    + injection H as <- <- <-. fgo. reflexivity.
  - fgo. destruct (mtx s); [discriminate|]. unfold no_thread in *. destruct (logt s) eqn:E; injection H as <- <- <-; auto.
    rewrite fin_set_logt; auto; congruence.
  - destruct todo as [|f fs]; [injection H as <- <- <-; reflexivity|]. destruct f; try discriminate N; injection H as <- <- <-; cbn [read_field]; fgo; auto;
      (rewrite fin_active; [reflexivity|apply L; reflexivity]).
  - fgo. destruct rest as [|l rest]; injection H as <- <- <-; reflexivity.
Qed.

(** What such a step leaves alone. *)
Lemma cstep_frame : forall t c s c' s' es, needs c = None -> cstep t c s = Some (c', s', es) ->
  pool s' = pool s /\ queue s' = queue s /\ terminated s' = terminated s /\ maxq s' = maxq s /\ pending s' = pending s /\ active s' = active s /\
  (logt s' = logt s \/ (logt s = TAsleep /\ logt s' = TCheck) \/ (logt s = TNone /\ logt s' = TCheck) \/ (logt s = TExited /\ logt s' = TNone /\ t <> LogThread)).
Proof.
  intros t [pc k] s c' s' es N H. unfold LogModel.cstep in H. cbn [c_pc c_todo needs] in *. destruct pc.
  - destruct k as [|k0 k]; [discriminate|]. destruct k0; try discriminate N; cbn in H; try (injection H as <- <- <-; cbn; repeat split; auto; fail).
    + destruct (m_level m >? slevel s)%Z; injection H as <- <- <-; repeat split; auto.
    + destruct (set_category compile re (lst s l)); injection H as <- <- <-; repeat split; auto.
    + destruct t; injection H as <- <- <-; repeat split; auto.
  - discriminate N.
  - injection H as <- <- <-. repeat split; auto.
  - injection H as <- <- <-. repeat split; auto.
  - injection H as <- <- <-. repeat split; auto.
  - discriminate N.
  - injection H as <- <- <-. unfold notify. destruct (logt s) eqn:E; cbn; repeat split; auto.
  - destruct (mtx s); [discriminate|]. destruct (no_thread s); injection H as <- <- <-; repeat split; auto.
  - destruct t.
    + destruct (logt s) eqn:E; try discriminate. injection H as <- <- <-. cbn. repeat split; auto. right; right; right. repeat split; auto. discriminate.
    + injection H as <- <- <-. cbn. repeat split; auto.
  - destruct (mtx s); [discriminate|]. unfold no_thread in *. destruct (logt s) eqn:E; injection H as <- <- <-; cbn; repeat split; auto.
  - destruct todo as [|[] fs]; injection H as <- <- <-; cbn; repeat split; auto.
  - destruct rest as [|l rest]; injection H as <- <- <-; cbn; repeat split; auto.
Qed.

(** A step of the log thread outside the sections. *)
Lemma lstep_fin : forall cb s s' es a, tneeds s = None -> lstep cb s = Some (s', es) -> lstep cb (fin None a s) = Some (fin None a s', es).
Proof.
  intros cb s s' es a N H. unfold LogModel.lstep in *. unfold tneeds in N.
  destruct (logt s) eqn:E; try discriminate; rewrite fin_logt, E by congruence.
  - injection H as <- <-. rewrite fin_set_logt by (cbn; congruence). fgo. rewrite fin_active by exact I. reflexivity.
  - destruct rest as [|l rest]; [injection H as <- <-; rewrite fin_set_logt, fin_active, fin_content by (exact I || congruence); reflexivity|].
    fgo. destruct (l_enabled (lst s l)); injection H as <- <-; rewrite fin_set_logt by congruence; reflexivity.
  - fgo. destruct (_ >=? _)%Z; injection H as <- <-; rewrite fin_set_logt by congruence; reflexivity.
  - fgo. destruct (checkCategory rmatch (lst s l) (m_cat (content s o))); injection H as <- <-; rewrite fin_set_logt by congruence; reflexivity.
  - assert (G : forall c' s1 es1, cstep LogThread c s = Some (c', s1, es1) ->
      cstep LogThread c (fin None a s) = Some (c', fin None a s1, es1) /\
      fin None a (set_logt (TCall o rest c') s1) = set_logt (TCall o rest c') (fin None a s1)).
    { intros c' s1 es1 K. split; [apply cstep_fin; auto|]. apply fin_set_logt; [|discriminate].
      destruct (cstep_frame _ _ _ _ _ _ N K) as (_ & _ & _ & _ & _ & _ & X). rewrite E in X. destruct X as [X|[(X & _)|[(X & _)|(X & _)]]]; congruence. }
    destruct (c_pc c) eqn:Ep; destruct (c_todo c) eqn:Et;
      try (destruct (cstep LogThread c s) as [[[c' s1] es1]|] eqn:Ec; [|discriminate]; destruct (G _ _ _ eq_refl) as (G1 & G2);
           rewrite G1; injection H as <- <-; rewrite G2; reflexivity).
    injection H as <- <-. rewrite fin_set_logt by congruence. reflexivity.
  - destruct todo as [|l todo]; injection H as <- <-; rewrite fin_set_logt by (cbn; congruence); fgo; auto.
    unfold fin, fin_l. rewrite fm_set_active. reflexivity.
  - injection H as <- <-. rewrite fin_set_logt by (cbn; congruence). fgo. reflexivity.
  - injection H as <- <-. rewrite fin_set_logt by (cbn; congruence). fgo. reflexivity.
Qed.

Lemma lstep_frame : forall cb s s' es, tneeds s = None -> lstep cb s = Some (s', es) ->
  pool s' = pool s /\ queue s' = queue s /\ terminated s' = terminated s.
Proof.
  intros cb s s' es N H. unfold LogModel.lstep in *. unfold tneeds in N.
  destruct (logt s) eqn:E; try discriminate.
  - injection H as <- <-. auto.
  - destruct rest as [|l rest]; [injection H as <- <-; auto|]. destruct (l_enabled (lst s l)); injection H as <- <-; auto.
  - destruct (_ >=? _)%Z; injection H as <- <-; auto.
  - destruct (checkCategory rmatch (lst s l) (m_cat (content s o))); injection H as <- <-; auto.
  - assert (G : forall c' s1 es1, cstep LogThread c s = Some (c', s1, es1) -> pool s1 = pool s /\ queue s1 = queue s /\ terminated s1 = terminated s).
    { intros c' s1 es1 K. destruct (cstep_frame _ _ _ _ _ _ N K) as (A & B & C & _). auto. }
    destruct (c_pc c) eqn:Ep; destruct (c_todo c) eqn:Et;
      try (destruct (cstep LogThread c s) as [[[c' s1] es1]|] eqn:Ec; [|discriminate]; destruct (G _ _ _ eq_refl) as (G1 & G2);
           injection H as <- <-; auto).
    injection H as <- <-. auto.
  - destruct todo as [|l todo]; injection H as <- <-; auto.
  - injection H as <- <-. auto.
  - injection H as <- <-. auto.
Qed.

(** ** Statements of the sections *)
Definition plain_l (b : option (lock * sect)) : Prop := match b with Some (_, SCopy _) | Some (_, SClear) => False | _ => True end.
Lemma plain_fl : forall b s, plain_l b -> fin_l b s = s.
Proof. intros [[? []]|] s H; cbn in *; auto; contradiction. Qed.
Definition msg_sect (k : lock) (q : sect) (a : option (lock * sect)) : option (lock * sect) := match k with MMessage => Some (k, q) | _ => a end.

Definition ready (k : lock) (q : sect) (c : cthread) s : Prop :=
  match q with
  | SPush | SStop | SAdd | SAlloc | SRead => needs c = Some (k, q)
  | SPop o => needs c = Some (k, SAlloc) /\ exists p, pool s = o :: p
  | SMax | SMaxSet | SNotify => k = MMessage
  | _ => False
  end.

Lemma needs_lock : forall c k q, needs c = Some (k, q) ->
  match q with
  | SPush => k = MMessage /\ exists m o, c_pc c = LogPush m o
  | SStop => k = MMessage /\ exists p, c_pc c = Idle /\ c_todo c = CStop :: p
  | SAdd => k = MListeners /\ exists l p, c_pc c = Idle /\ c_todo c = CAdd l :: p
  | SAlloc => k = MPool /\ exists m, c_pc c = LogAlloc m
  | SRead => exists f fs, c_pc c = Diag (f :: fs) /\ ((f = FMaxQueue /\ k = MMessage) \/ (f = FPool /\ k = MPool) \/ (f = FPending /\ k = MListeners))
  | _ => False
  end.
Proof.
  intros [pc k0] k q H. unfold needs in H. cbn in *. destruct pc; try discriminate.
  - destruct k0 as [|[] k0]; try discriminate; injection H as <- <-; eauto 6.
  - injection H as <- <-. eauto.
  - injection H as <- <-. eauto.
  - destruct todo as [|[] todo]; try discriminate; injection H as <- <-; eauto 10.
Qed.

(** Moves of a thread until it does something that LogModel.v sees, at most. *)
Definition dist (x : option (lock * sect)) s : nat :=
  match x with
  | None => 6
  | Some (_, q) =>
      match q with
      | SPush | SStop | SAdd | SRead | SPop _ | SPopFront _ | SGive => 2
      | SFront => 3 | STerm => 4
      | SAlloc | SWait | SDispose => 5
      | SUnlock => 7 | SNotify | SClear => 8 | SMaxSet => 9 | SMax => 10
      | SCopy n => 9 + (List.length (pending s) - n)
      end
  end.

Lemma csec_sim : forall t q c s c' q' s' es k b a, csec t q c s = Some (c', q', s', es) -> ready k q c s ->
  (k = MListeners -> plain_l b) ->
  (fin b (msg_sect k q' a) s' = fin b (msg_sect k q a) s /\ c' = c /\ es = [] /\ dist (Some (k, q')) s' < dist (Some (k, q)) s) \/
  cstep t c (fin b (msg_sect k q a) s) = Some (c', fin b (msg_sect k q' a) s', es).
Proof.
  intros t q c s c' q' s' es k b a H R P. destruct c as [pc todo]. destruct q; try (destruct R; fail); cbn [ready] in R.
  - apply needs_lock in R. destruct R as (-> & m & o & E). cbn in E. subst pc. right. cbn in H. injection H as <- <- <- <-.
    unfold LogModel.cstep. cbn [c_pc c_todo msg_sect]. unfold fin. cbn [fin_m]. do 2 f_equal.
    rewrite fl_notify. rewrite fl_queue, fl_maxq. f_equal. cbn [queue set_queue maxq]. destruct (maxq s <? List.length (queue s ++ [o])); [rewrite fl_set_maxq|]; rewrite fl_set_queue; reflexivity.
  - subst k. left. cbn [csec] in H. destruct (maxq s <? List.length (queue s)) eqn:E; injection H as <- <- <- <-; (split; [|repeat split; cbn; lia]);
      unfold fin; cbn [msg_sect fin_m]; rewrite ?E; reflexivity.
  - subst k. left. cbn in H. injection H as <- <- <- <-. repeat split; cbn; auto.
  - subst k. left. cbn in H. injection H as <- <- <- <-. repeat split; cbn; auto.
  - apply needs_lock in R. destruct R as (-> & p & E1 & E2). cbn in E1, E2. subst pc todo. right. cbn in H. injection H as <- <- <- <-.
    cbn [LogModel.cstep c_pc c_todo msg_sect]. unfold fin. cbn [fin_m]. now rewrite fl_set_terminated.
  - apply needs_lock in R. destruct R as (-> & l & p & E1 & E2). cbn in E1, E2. subst pc todo. right. cbn in H. injection H as <- <- <- <-.
    cbn [LogModel.cstep c_pc c_todo msg_sect]. unfold fin. rewrite !plain_fl by auto. now rewrite fm_set_pending, fm_pending.
  - apply needs_lock in R. destruct R as (-> & m & E). cbn in E. subst pc. cbn in H.
    destruct (pool s) as [|o p] eqn:Ep; injection H as <- <- <- <-; [right|left; repeat split; cbn; auto; lia].
    unfold LogModel.cstep. cbn [c_pc c_todo]. fgo. rewrite Ep. reflexivity.
  - destruct R as (R & p & Ep). apply needs_lock in R. destruct R as (-> & m & E). cbn in E. subst pc. cbn in H. injection H as <- <- <- <-. right.
    unfold LogModel.cstep. cbn [c_pc c_todo msg_sect]. fgo. rewrite Ep. cbn [tl]. now rewrite fin_set_pool.
  - apply needs_lock in R. destruct R as (f & fs & E & R). cbn in E. subst pc. cbn in H. injection H as <- <- <- <-. right.
    unfold LogModel.cstep. cbn [c_pc c_todo]. replace (fin b (msg_sect k SUnlock a) s) with (fin b (msg_sect k SRead a) s) by (unfold fin; destruct k; reflexivity).
    do 3 f_equal. f_equal. destruct R as [(-> & ->)|[(-> & ->)|(-> & ->)]]; cbn [read_field msg_sect].
    + unfold fin. rewrite fl_maxq. reflexivity.
    + now fgo.
    + unfold fin. now rewrite plain_fl, fm_pending by auto.
Qed.

Lemma csec_frame : forall t q c s c' q' s' es k, csec t q c s = Some (c', q', s', es) -> ready k q c s ->
  (k <> MPool -> pool s' = pool s) /\ (k <> MMessage -> queue s' = queue s /\ terminated s' = terminated s) /\
  (logt s' = logt s \/ (logt s = TAsleep /\ logt s' = TCheck)) /\ (q' = SUnlock \/ ready k q' c' s').
Proof.
  intros t q c s c' q' s' es k H R. destruct c as [pc todo]. destruct q; try (destruct R; fail); cbn [ready] in R.
  - apply needs_lock in R. destruct R as (-> & m & o & E). cbn in E. subst pc. cbn in H. injection H as <- <- <- <-. cbn. repeat split; auto; congruence.
  - subst k. cbn [csec] in H. destruct (maxq s <? List.length (queue s)) eqn:E; injection H as <- <- <- <-; cbn; repeat split; auto; congruence.
  - subst k. cbn in H. injection H as <- <- <- <-. cbn. repeat split; auto; congruence.
  - subst k. cbn in H. injection H as <- <- <- <-. unfold notify. destruct (logt s) eqn:E; cbn; repeat split; auto.
  - apply needs_lock in R. destruct R as (-> & p & E1 & E2). cbn in E1, E2. subst pc todo. cbn in H. injection H as <- <- <- <-. cbn. repeat split; auto; congruence.
  - apply needs_lock in R. destruct R as (-> & l & p & E1 & E2). cbn in E1, E2. subst pc todo. cbn in H. injection H as <- <- <- <-. cbn. repeat split; auto; congruence.
  - apply needs_lock in R. destruct R as (-> & m & E). cbn in E. subst pc. cbn in H.
    destruct (pool s) as [|o p] eqn:Ep; injection H as <- <- <- <-; cbn; rewrite ?Ep; repeat split; auto; try congruence. right. split; eauto.
  - destruct R as (R & p & Ep). apply needs_lock in R. destruct R as (-> & m & E). cbn in E. subst pc. cbn in H. injection H as <- <- <- <-.
    cbn. repeat split; auto; congruence.
  - apply needs_lock in R. destruct R as (f & fs & E & R). cbn in E. subst pc. cbn in H. injection H as <- <- <- <-. cbn. repeat split; auto.
Qed.

Lemma csec_live : forall t q c s k, ready k q c s -> csec t q c s <> None.
Proof.
  intros t q c s k R. destruct c as [pc todo]. destruct q; try (destruct R; fail); cbn [ready] in R; try discriminate.
  - apply needs_lock in R. destruct R as (-> & m & o & E). cbn in E. subst pc. discriminate.
  - apply needs_lock in R. destruct R as (-> & p & E1 & E2). cbn in E1, E2. subst pc todo. discriminate.
  - apply needs_lock in R. destruct R as (-> & l & p & E1 & E2). cbn in E1, E2. subst pc todo. discriminate.
  - apply needs_lock in R. destruct R as (-> & m & E). cbn in E. subst pc. cbn. destruct (pool s); discriminate.
  - destruct R as (R & p & Ep). apply needs_lock in R. destruct R as (-> & m & E). cbn in E. subst pc. discriminate.
  - apply needs_lock in R. destruct R as (f & fs & E & R). cbn in E. subst pc. discriminate.
Qed.

(** The log thread, not in a callback. *)
Definition tready (k : lock) (q : sect) s : Prop :=
  match q with
  | SWait => k = MMessage /\ logt s = TCheck
  | STerm => k = MMessage /\ logt s = TCheck /\ (queue s <> [] \/ terminated s = true)
  | SFront => k = MMessage /\ logt s = TCheck /\ queue s <> [] /\ terminated s = false
  | SPopFront o => k = MMessage /\ logt s = TCheck /\ terminated s = false /\ exists p, queue s = o :: p
  | SCopy _ | SClear => k = MListeners /\ exists o, logt s = TCount o
  | SDispose => k = MPool /\ exists o, logt s = TDispose o
  | SGive => k = MPool /\ List.length (pool s) < POOL /\ exists o, logt s = TDispose o
  | _ => False
  end.

Lemma skipn_step : forall A (l : list A) n x, nth_error l n = Some x -> skipn n l = x :: skipn (S n) l.
Proof. induction l as [|y l IH]; intros [|n] x H; try discriminate. - injection H as ->. reflexivity. - cbn in *. now apply IH. Qed.
Lemma skipn_past : forall A (l : list A) n, nth_error l n = None -> skipn n l = [].
Proof. intros A l n H. apply skipn_all2. now apply nth_error_None. Qed.

Definition lsect (k : lock) (q : option sect) : option (lock * sect) := match q with Some q' => Some (k, q') | None => None end.

Lemma tsec_sim : forall q s q' s' es k a cb, tsec q s = Some (q', s', es) -> tready k q s ->
  let x := match k with MMessage => Some (k, q) | _ => a end in
  let x' := match k with MMessage => lsect k q' | _ => a end in
  (fin (lsect k q') x' s' = fin (Some (k, q)) x s /\ es = [] /\ dist (lsect k q') s' < dist (Some (k, q)) s) \/
  lstep cb (fin (Some (k, q)) x s) = Some (fin (lsect k q') x' s', es).
Proof.
  intros q s q' s' es k a cb H R x x'. subst x x'. destruct q; try (destruct R; fail); cbn [tready] in R.
  - destruct R as (-> & E). cbn in H. rewrite E in H. unfold fin; cbn [lsect fin_m fin_l].
    destruct (queue s) eqn:Eq; [destruct (terminated s) eqn:Et|]; injection H as <- <- <-; [left; auto| |left; auto].
    right. unfold LogModel.lstep. rewrite E, Eq, Et. reflexivity.
  - destruct R as (-> & E & R). cbn in H. rewrite E in H. unfold fin; cbn [lsect fin_m fin_l].
    destruct (terminated s) eqn:Et; injection H as <- <- <-; [right|left; auto].
    unfold LogModel.lstep. rewrite E, Et. reflexivity.
  - destruct R as (-> & E & R & Et). cbn in H. rewrite E in H. destruct (queue s) eqn:Eq; [congruence|]. injection H as <- <- <-. left. auto.
  - destruct R as (-> & E & Et & p & Eq). cbn in H. rewrite E in H. injection H as <- <- <-. right. unfold fin; cbn [lsect fin_m fin_l].
    unfold LogModel.lstep. rewrite E, Et, Eq. reflexivity.
  - destruct R as (-> & o & E). left. cbn in H. unfold fin. destruct (nth_error (pending s) n) as [l|] eqn:En; injection H as <- <- <-; cbn [lsect fin_l]; (split; [|split; [reflexivity|]]);
      [| |rewrite fm_pending, (skipn_past _ _ _ En), app_nil_r; destruct (fin_m a s); reflexivity|cbn; lia].
    + rewrite fm_set_active. cbn [active set_active pending]. rewrite !fm_pending, !fm_active, (skipn_step _ _ _ _ En), <- app_assoc. cbn [app].
      destruct (fin_m a s); reflexivity.
    + cbn [dist pending set_active]. assert (n < List.length (pending s)) by (apply nth_error_Some; congruence). lia.
  - destruct R as (-> & o & E). left. cbn in H. injection H as <- <- <-. split; [unfold fin; cbn [lsect fin_l]; apply fm_set_pending|cbn; auto].
  - destruct R as (-> & o & E). unfold tsec in H. rewrite E in H. unfold fin. cbn [lsect fin_l].
    destruct (List.length (pool s) <? POOL) eqn:El; injection H as <- <- <-; [left; repeat split; cbn; lia|right].
    unfold LogModel.lstep. rewrite fm_logt, E by congruence. rewrite fm_pool, El, fm_set_logt by congruence. reflexivity.
  - destruct R as (-> & L & o & E). cbn in H. rewrite E in H. injection H as <- <- <-. right. unfold fin. cbn [lsect fin_l].
    unfold LogModel.lstep. rewrite fm_logt, E by congruence. rewrite fm_pool. apply Nat.ltb_lt in L. rewrite L.
    rewrite fm_set_logt by (cbn; congruence). rewrite fm_set_pool. reflexivity.
Qed.

Lemma tsec_frame : forall q s q' s' es k, tsec q s = Some (q', s', es) -> tready k q s ->
  (k <> MPool -> pool s' = pool s) /\ (k <> MMessage -> queue s' = queue s /\ terminated s' = terminated s) /\
  (match q' with Some SUnlock | None => True | Some q1 => tready k q1 s' end) /\ crashed s' = crashed s.
Proof.
  intros q s q' s' es k H R. destruct q; try (destruct R; fail); cbn [tready] in R.
  - destruct R as (-> & E). cbn in H. rewrite E in H.
    destruct (queue s) eqn:Eq; [destruct (terminated s) eqn:Et|]; injection H as <- <- <-; cbn; repeat split; auto; try congruence. left; congruence.
  - destruct R as (-> & E & R). cbn in H. rewrite E in H.
    destruct (terminated s) eqn:Et; injection H as <- <- <-; cbn; repeat split; auto; try congruence. destruct R; [auto|discriminate].
  - destruct R as (-> & E & R & Et). cbn in H. rewrite E in H. destruct (queue s) eqn:Eq; [congruence|]. injection H as <- <- <-. cbn; repeat split; auto; try congruence. eauto.
  - destruct R as (-> & E & Et & p & Eq). cbn in H. rewrite E in H. injection H as <- <- <-. cbn; repeat split; auto; congruence.
  - destruct R as (-> & o & E). cbn in H. destruct (nth_error (pending s) n) as [l|] eqn:En; injection H as <- <- <-; cbn; repeat split; eauto.
  - destruct R as (-> & o & E). cbn in H. injection H as <- <- <-. cbn; repeat split; auto; congruence.
  - destruct R as (-> & o & E). unfold tsec in H. rewrite E in H.
    destruct (List.length (pool s) <? POOL) eqn:El; injection H as <- <- <-; cbn [set_logt pool queue terminated crashed tready]; repeat split; auto; try congruence; eauto. now apply Nat.ltb_lt.
  - destruct R as (-> & L & o & E). cbn in H. rewrite E in H. injection H as <- <- <-. cbn; repeat split; auto; congruence.
Qed.

Lemma tsec_live : forall q s k, tready k q s -> tsec q s <> None.
Proof.
  intros q s k R. destruct q; try (destruct R; fail); cbn [tready] in R; unfold tsec.
  - destruct R as (_ & E). rewrite E. destruct (queue s), (terminated s); discriminate.
  - destruct R as (_ & E & _). rewrite E. destruct (terminated s); discriminate.
  - destruct R as (_ & E & _). rewrite E. destruct (queue s); discriminate.
  - destruct R as (_ & E & _). rewrite E. discriminate.
  - destruct (nth_error (pending s) n); discriminate.
  - discriminate.
  - destruct R as (_ & o & E). rewrite E. destruct (_ <? POOL); discriminate.
  - destruct R as (_ & _ & o & E). rewrite E. discriminate.
Qed.

(** ** The invariant *)
Definition secok fw (t : tid) (k : lock) (q : sect) : Prop :=
  let s := w_sys (f_world fw) in
  match t with
  | Client i => exists c, nth_error (w_clients (f_world fw)) i = Some c /\ (q = SUnlock \/ ready k q c s)
  | LogThread => q = SUnlock \/ (exists o rest c, logt s = TCall o rest c /\ ready k q c s) \/ tready k q s
  end.
Record finv fw : Prop := {
  i_held : forall k t, f_held fw k = Some t <-> inside fw t k;
  i_sect : forall t k q, f_sect fw t = Some (k, q) -> secok fw t k q }.

Lemma ready_frame : forall k q c s s', ready k q c s -> (k = MPool -> pool s' = pool s) -> ready k q c s'.
Proof.
  intros k q c s s' R P. destruct q; cbn [ready] in *; auto. destruct R as (N & p & E). split; auto.
  destruct (needs_lock _ _ _ N) as (-> & _). rewrite P; eauto.
Qed.
Lemma tready_frame : forall k q s s', tready k q s -> logt s' = logt s -> (k = MPool -> pool s' = pool s) ->
  (k = MMessage -> queue s' = queue s /\ terminated s' = terminated s) -> tready k q s'.
Proof.
  intros k q s s' R L P M. destruct q; cbn [tready] in *; auto; rewrite L.
  - auto.
  - destruct R as (-> & R). destruct (M eq_refl) as (-> & ->). auto.
  - destruct R as (-> & R). destruct (M eq_refl) as (-> & ->). auto.
  - destruct R as (-> & R). destruct (M eq_refl) as (-> & ->). auto.
  - auto.
  - auto.
  - auto.
  - destruct R as (-> & R). rewrite P by auto. auto.
Qed.
Lemma tready_logt : forall k q s, tready k q s -> logt s <> TAsleep /\ logt s <> TNone /\ logt s <> TExited /\ (forall o rest c, logt s <> TCall o rest c).
Proof.
  intros k q s R. destruct q; cbn [tready] in R; try contradiction; decompose [and ex] R; repeat split; intros; congruence.
Qed.

Lemma sect_eq : forall t x f, set_sect t x f t = x.
Proof. intros. unfold set_sect. destruct (tid_eqb_spec t t); congruence. Qed.
Lemma sect_ne : forall t x f t', t <> t' -> set_sect t x f t' = f t'.
Proof. intros. unfold set_sect. destruct (tid_eqb_spec t t'); congruence. Qed.
Lemma held_eq : forall k x h, set_held k x h k = x.
Proof. intros. unfold set_held. destruct (lock_eqb_spec k k); congruence. Qed.
Lemma held_ne : forall k x h k', k <> k' -> set_held k x h k' = h k'.
Proof. intros. unfold set_held. destruct (lock_eqb_spec k k'); congruence. Qed.

Lemma finv_step : forall fw t0 w' h' f', finv fw ->
  (forall k t, h' k = Some t <-> exists q, f' t = Some (k, q)) ->
  (forall t, t <> t0 -> f' t = f_sect fw t) ->
  (forall k q, f' t0 = Some (k, q) -> secok (mkF w' h' f') t0 k q) ->
  (f_held fw MPool <> Some t0 -> pool (w_sys w') = pool (w_sys (f_world fw))) ->
  (f_held fw MMessage <> Some t0 -> queue (w_sys w') = queue (w_sys (f_world fw)) /\ terminated (w_sys w') = terminated (w_sys (f_world fw))) ->
  (forall i, t0 <> Client i -> nth_error (w_clients w') i = nth_error (w_clients (f_world fw)) i) ->
  (t0 <> LogThread -> logt (w_sys w') = logt (w_sys (f_world fw)) \/ logt (w_sys (f_world fw)) = TAsleep \/ logt (w_sys (f_world fw)) = TNone \/ logt (w_sys (f_world fw)) = TExited) ->
  finv (mkF w' h' f').
Proof.
  intros fw t0 w' h' f' [IH IS] Hh Hs Ht P M C L. constructor; [exact Hh|]. intros t k q E. cbn [f_sect] in E.
  destruct (tid_eqb_spec t t0) as [->|N]; [auto|]. rewrite Hs in E by auto. pose proof (IS _ _ _ E) as O.
  assert (Hk : f_held fw k = Some t) by (apply IH; exists q; auto).
  assert (P' : k = MPool -> pool (w_sys w') = pool (w_sys (f_world fw))) by (intros ->; apply P; congruence).
  assert (M' : k = MMessage -> queue (w_sys w') = queue (w_sys (f_world fw)) /\ terminated (w_sys w') = terminated (w_sys (f_world fw))) by (intros ->; apply M; congruence).
  destruct t as [i|]; cbn [secok f_world] in *.
  - destruct O as (c & Ec & O). exists c. rewrite C by congruence. split; auto. destruct O as [O|O]; auto. right. eapply ready_frame; eauto.
  - destruct O as [O|[(o & rest & c & El & O)|O]]; auto; right.
    + left. exists o, rest, c. destruct (L (not_eq_sym N)) as [X|[X|[X|X]]]; try congruence. rewrite X. split; auto. eapply ready_frame; eauto.
    + right. destruct (tready_logt _ _ _ O) as (A1 & A2 & A3 & _). destruct (L (not_eq_sym N)) as [X|[X|[X|X]]]; try congruence. eapply tready_frame; eauto.
Qed.

Lemma held_next : forall fw t k q q', finv fw -> f_sect fw t = Some (k, q) ->
  forall k1 t1, f_held fw k1 = Some t1 <-> exists q1, set_sect t (Some (k, q')) (f_sect fw) t1 = Some (k1, q1).
Proof.
  intros fw t k q q' V E k1 t1. rewrite (i_held _ V). unfold inside. destruct (tid_eqb_spec t t1) as [->|N].
  - rewrite sect_eq, E. split; intros (q1 & X); injection X as <- <-; eauto.
  - rewrite sect_ne by auto. reflexivity.
Qed.
Lemma held_release : forall fw t k q, finv fw -> f_sect fw t = Some (k, q) ->
  forall k1 t1, set_held k None (f_held fw) k1 = Some t1 <-> exists q1, set_sect t None (f_sect fw) t1 = Some (k1, q1).
Proof.
  intros fw t k q V E k1 t1. destruct (lock_eqb_spec k k1) as [<-|Nk].
  - rewrite held_eq. split; [discriminate|]. intros (q1 & X). destruct (tid_eqb_spec t t1) as [<-|N]; [rewrite sect_eq in X; discriminate|].
    rewrite sect_ne in X by auto. assert (A : f_held fw k = Some t) by (apply (i_held _ V); eexists; eauto).
    assert (B : f_held fw k = Some t1) by (apply (i_held _ V); eexists; eauto). congruence.
  - rewrite held_ne by auto. rewrite (i_held _ V). unfold inside. destruct (tid_eqb_spec t t1) as [->|N].
    + rewrite sect_eq, E. split; intros (q1 & X); congruence.
    + rewrite sect_ne by auto. reflexivity.
Qed.
Lemma held_acquire : forall fw t k q, finv fw -> f_sect fw t = None -> f_held fw k = None ->
  forall k1 t1, set_held k (Some t) (f_held fw) k1 = Some t1 <-> exists q1, set_sect t (Some (k, q)) (f_sect fw) t1 = Some (k1, q1).
Proof.
  intros fw t k q V E H k1 t1. destruct (lock_eqb_spec k k1) as [<-|Nk].
  - rewrite held_eq. destruct (tid_eqb_spec t t1) as [<-|N].
    + rewrite sect_eq. split; intros; eauto.
    + rewrite sect_ne by auto. split; [congruence|]. intros (q1 & X). assert (B : f_held fw k = Some t1) by (apply (i_held _ V); eexists; eauto). congruence.
  - rewrite held_ne by auto. rewrite (i_held _ V). unfold inside. destruct (tid_eqb_spec t t1) as [->|N].
    + rewrite sect_eq, E. split; intros (q1 & X); congruence.
    + rewrite sect_ne by auto. reflexivity.
Qed.
Lemma held_same : forall fw, finv fw -> forall k t, f_held fw k = Some t <-> exists q, f_sect fw t = Some (k, q).
Proof. intros fw V. exact (i_held _ V). Qed.

(** Who is in the section of m_mtxMessage. *)
Definition hold_of (h : lock -> option tid) (f : tid -> option (lock * sect)) : option (lock * sect) :=
  match h MMessage with Some t => f t | None => None end.
Lemma hold_self : forall fw t k q, finv fw -> f_sect fw t = Some (k, q) -> hold fw = msg_sect k q (hold fw).
Proof.
  intros fw t k q V E. destruct k; auto. unfold hold. assert (A : f_held fw MMessage = Some t) by (apply (i_held _ V); eexists; eauto). now rewrite A, E.
Qed.
Lemma hold_next : forall fw t k q q', finv fw -> f_sect fw t = Some (k, q) ->
  hold_of (f_held fw) (set_sect t (Some (k, q')) (f_sect fw)) = msg_sect k q' (hold fw).
Proof.
  intros fw t k q q' V E. unfold hold_of, hold. destruct (f_held fw MMessage) as [t1|] eqn:H.
  - destruct (proj1 (i_held _ V _ _) H) as (q1 & E1). destruct (tid_eqb_spec t t1) as [<-|N].
    + rewrite sect_eq. rewrite E in E1. injection E1 as -> ->. reflexivity.
    + rewrite sect_ne by auto. destruct k; auto. assert (A : f_held fw MMessage = Some t) by (apply (i_held _ V); eexists; eauto). congruence.
  - destruct k; auto. assert (A : f_held fw MMessage = Some t) by (apply (i_held _ V); eexists; eauto). congruence.
Qed.
Lemma hold_release : forall fw t k q, finv fw -> f_sect fw t = Some (k, q) ->
  hold_of (set_held k None (f_held fw)) (set_sect t None (f_sect fw)) = match k with MMessage => None | _ => hold fw end.
Proof.
  intros fw t k q V E. unfold hold_of. destruct (lock_eqb_spec k MMessage) as [->|N]; [now rewrite held_eq|]. rewrite held_ne by auto.
  assert (G : match f_held fw MMessage with Some t0 => set_sect t None (f_sect fw) t0 | None => None end = hold fw).
  { unfold hold. destruct (f_held fw MMessage) as [t1|] eqn:H; auto. destruct (proj1 (i_held _ V _ _) H) as (q1 & E1).
    rewrite sect_ne; auto. congruence. }
  rewrite G. destruct k; congruence.
Qed.
Lemma hold_acquire : forall fw t k q, finv fw -> f_sect fw t = None -> f_held fw k = None ->
  hold_of (set_held k (Some t) (f_held fw)) (set_sect t (Some (k, q)) (f_sect fw)) = msg_sect k q (hold fw).
Proof.
  intros fw t k q V E F. unfold hold_of. destruct (lock_eqb_spec k MMessage) as [->|N]; [rewrite held_eq, sect_eq; auto|]. rewrite held_ne by auto.
  assert (G : match f_held fw MMessage with Some t0 => set_sect t (Some (k, q)) (f_sect fw) t0 | None => None end = hold fw).
  { unfold hold. destruct (f_held fw MMessage) as [t1|] eqn:H; auto. destruct (proj1 (i_held _ V _ _) H) as (q1 & E1).
    rewrite sect_ne; auto. congruence. }
  rewrite G. destruct k; cbn; congruence.
Qed.
Lemma settled_of : forall w h f, settled (mkF w h f) = mkWorld (fin (f LogThread) (hold_of h f) (w_sys w)) (w_clients w).
Proof. reflexivity. Qed.

Lemma needs_ready : forall c k q s, needs c = Some (k, q) -> ready k q c s.
Proof. intros c k q s N. pose proof (needs_lock _ _ _ N) as K. destruct q; try contradiction; exact N. Qed.
Lemma needs_dist : forall c k q s, needs c = Some (k, q) -> dist (Some (k, q)) s < dist None s.
Proof. intros c k q s N. pose proof (needs_lock _ _ _ N) as K. destruct q; try contradiction; cbn; lia. Qed.
Lemma needs_plain : forall c k q, needs c = Some (k, q) -> forall a s, fin_m (msg_sect k q a) s = match k with MMessage => s | _ => fin_m a s end.
Proof. intros c k q N a s. pose proof (needs_lock _ _ _ N) as K. destruct k; auto. destruct q; try contradiction; reflexivity. Qed.

Lemma upd_self : forall A i (x : A) l, nth_error l i = Some x -> upd i (fun _ => x) l = l.
Proof. induction i; intros x [|y l] H; cbn in *; try discriminate; f_equal; auto; congruence. Qed.

Lemma step_client : forall i w c c' s' es, crashed (w_sys w) = None -> nth_error (w_clients w) i = Some c -> cstep (Client i) c (w_sys w) = Some (c', s', es) ->
  step (Go i) w = Some (mkWorld s' (upd i (fun _ => c') (w_clients w)), es).
Proof. intros i w c c' s' es N E H. unfold LogModel.step. now rewrite N, E, H. Qed.
Lemma step_log : forall cb w s' es, crashed (w_sys w) = None -> lstep cb (w_sys w) = Some (s', es) ->
  step (GoLog cb) w = Some (mkWorld s' (w_clients w), es).
Proof. intros cb w s' es N H. unfold LogModel.step. now rewrite N, H. Qed.

Lemma held_none_msg : forall fw k q, f_held fw k = None -> fin_m (match k with MMessage => None | _ => hold fw end) q = fin_m (hold fw) q.
Proof. intros fw k q H. destruct k; auto. unfold hold. now rewrite H. Qed.

(** ** One step *)
Definition fdist (t : tid) fw : nat := dist (f_sect fw t) (w_sys (f_world fw)).
Definition sim (ch : choice) fw fw' (es : list ev) : Prop :=
  finv fw' /\ ((es = [] /\ settled fw' = settled fw /\ forall t, of_thread t ch -> fdist t fw' < fdist t fw) \/ step ch (settled fw) = Some (settled fw', es)).
Definition race (ch : choice) fw fw' (es : list ev) : Prop :=
  exists i c, ch = Go i /\ nth_error (w_clients (f_world fw)) i = Some c /\ looks c = true /\ copying fw = true /\ es = [] /\ finv fw' /\
    fw' = mkF (mkWorld (set_crashed (Some UB) (w_sys (f_world fw))) (w_clients (f_world fw))) (f_held fw) (f_sect fw).

Lemma of_go : forall i t, of_thread t (Go i) -> t = Client i.
Proof. intros i [j|] H; cbn in H; [congruence|contradiction]. Qed.
Lemma of_golog : forall cb t, of_thread t (GoLog cb) -> t = LogThread.
Proof. intros cb [j|] H; cbn in H; [contradiction|reflexivity]. Qed.

Lemma release_sim : forall ch fw t k, (forall t', of_thread t' ch -> t' = t) -> finv fw -> f_sect fw t = Some (k, SUnlock) -> sim ch fw (next_sect t k None (f_world fw) fw) [].
Proof.
  intros ch fw t k OT V E. split.
  - cbn [next_sect]. eapply finv_step with (t0 := t); eauto.
    + eapply held_release; eauto.
    + intros; apply sect_ne; auto.
    + intros k1 q1 X. rewrite sect_eq in X. discriminate.
  - left. split; auto. split.
    { cbn [next_sect]. rewrite settled_of. unfold settled. f_equal. rewrite (hold_release _ _ _ _ V E).
    pose proof (hold_self _ _ _ _ V E) as HS. unfold fin. destruct (tid_eqb_spec t LogThread) as [->|N].
    + rewrite sect_eq, E. cbn [fin_l]. destruct k; auto. rewrite HS. reflexivity.
    + rewrite sect_ne by auto. f_equal. destruct k; auto. rewrite HS. reflexivity.
    }
    intros t' O. rewrite (OT _ O). unfold fdist. cbn [next_sect f_sect f_world]. rewrite sect_eq, E. cbn. lia.
Qed.

Lemma fstep_client : forall i fw fw' es, finv fw -> fstep (Go i) fw = Some (fw', es) -> race (Go i) fw fw' es \/ sim (Go i) fw fw' es.
Proof.
  intros i fw fw' es V H. unfold LogLockModel.fstep in H. destruct (crashed (w_sys (f_world fw))) eqn:Ec; [discriminate|].
  destruct (nth_error (w_clients (f_world fw)) i) as [c|] eqn:E; [|discriminate].
  destruct (f_sect fw (Client i)) as [[k q]|] eqn:Es.
  - assert (D : q = SUnlock \/ q <> SUnlock) by (destruct q; auto; right; discriminate). destruct D as [->|D].
    { injection H as <- <-. right. eapply release_sim; eauto. apply of_go. }
    assert (H' : match csec (Client i) q c (w_sys (f_world fw)) with
                  | Some (c', q', s', es) => Some (next_sect (Client i) k (Some q') (mkWorld s' (upd i (fun _ => c') (w_clients (f_world fw)))) fw, es)
                  | None => None
                  end = Some (fw', es)) by (destruct q; congruence).
    clear H. destruct (csec (Client i) q c (w_sys (f_world fw))) as [[[[c' q'] s'] es1]|] eqn:Eq; [|discriminate]. injection H' as <- <-.
    pose proof (i_sect _ V _ _ _ Es) as O. cbn in O. destruct O as (c1 & E1 & O). rewrite E in E1. injection E1 as <-. destruct O as [O|O]; [congruence|].
    destruct (csec_frame _ _ _ _ _ _ _ _ _ Eq O) as (FP & FM & FL & FR).
    assert (Hk : f_held fw k = Some (Client i)) by (apply (i_held _ V); eexists; eauto).
    right. split.
    + cbn [next_sect]. eapply finv_step with (t0 := Client i); eauto; cbn [w_sys w_clients].
      * eapply held_next; eauto.
      * intros; apply sect_ne; auto.
      * intros k1 q1 X. rewrite sect_eq in X. injection X as <- <-. cbn. exists c'. split; auto. apply nth_error_upd_eq with (f := fun _ => c') in E. exact E.
      * intros N. apply FP. congruence.
      * intros N. apply FM. congruence.
      * intros j N. apply nth_error_upd_neq. congruence.
      * intros _. destruct FL as [->|(-> & _)]; auto.
    + assert (PL : k = MListeners -> plain_l (f_sect fw LogThread)).
      { intros ->. destruct (f_sect fw LogThread) as [[k1 q1]|] eqn:El; [|exact I]. destruct q1; cbn; auto;
          (pose proof (i_sect _ V _ _ _ El) as O1; cbn in O1; destruct O1 as [O1|[(o1 & rest1 & c1 & _ & O1)|O1]]; try discriminate; try contradiction;
           destruct O1 as (-> & _); assert (A : f_held fw MListeners = Some LogThread) by (apply (i_held _ V); eexists; eauto); congruence). }
      pose proof (csec_sim _ _ _ _ _ _ _ _ _ (f_sect fw LogThread) (hold fw) Eq O PL) as [(A & -> & -> & DD)|A].
      * left. split; auto. cbn [next_sect]. split.
        { rewrite settled_of. cbn [w_sys w_clients]. rewrite (hold_next _ _ _ _ _ V Es), sect_ne by discriminate.
          rewrite A, upd_self by auto. unfold settled. now rewrite <- (hold_self _ _ _ _ V Es). }
        intros t OT. apply of_go in OT. subst t. unfold fdist. cbn [f_sect f_world w_sys]. rewrite sect_eq, Es. exact DD.
      * right. cbn [next_sect]. rewrite settled_of. cbn [w_sys w_clients]. rewrite (hold_next _ _ _ _ _ V Es), sect_ne by discriminate.
        rewrite <- (hold_self _ _ _ _ V Es) in A. unfold settled. eapply (step_client i (mkWorld _ _)); [cbn [w_sys]; now rewrite fin_crashed|exact E|exact A].
  - destruct (needs c) as [[k q]|] eqn:En.
    + unfold acquire in H. destruct (f_held fw k) eqn:Eh; [discriminate|]. injection H as <- <-. right. split.
      * eapply finv_step with (t0 := Client i); eauto.
        -- eapply held_acquire; eauto.
        -- intros; apply sect_ne; auto.
        -- intros k1 q1 X. rewrite sect_eq in X. injection X as <- <-. cbn. exists c. split; auto. right. now apply needs_ready.
      * left. split; auto. split.
        { rewrite settled_of. rewrite (hold_acquire _ _ _ _ V Es Eh), sect_ne by discriminate. unfold settled, fin. do 2 f_equal.
          rewrite (needs_plain _ _ _ En). rewrite <- (held_none_msg _ k) by auto. destruct k; reflexivity. }
        intros t OT. apply of_go in OT. subst t. unfold fdist. cbn [f_sect f_world w_sys]. rewrite sect_eq, Es. apply (needs_dist _ _ _ _ En).
    + destruct (looks c && copying fw) eqn:Er.
      * injection H as <- <-. left. apply andb_true_iff in Er. destruct Er. exists i, c. rewrite upd_self by auto. repeat split; auto.
        -- cbn. intros X; apply (i_held _ V); auto.
        -- cbn. intros X; apply (i_held _ V) in X; auto.
        -- intros t k q X. pose proof (i_sect _ V _ _ _ X) as O. destruct t; cbn in *.
           ++ destruct O as (c1 & O1 & [O2|O2]); exists c1; split; auto.
           ++ destruct O as [O|[(o1 & rest1 & c1 & O1 & O)|O]]; auto. right; left.
              exists o1, rest1, c1. split; auto.
      * destruct (cstep (Client i) c (w_sys (f_world fw))) as [[[c' s'] es1]|] eqn:Eq; [|discriminate]. injection H as <- <-.
        destruct (cstep_frame _ _ _ _ _ _ En Eq) as (F1 & F2 & F3 & _ & _ & _ & FL). right. split.
        -- eapply finv_step with (t0 := Client i); eauto; cbn [w_sys w_clients].
           ++ eapply held_same; eauto.
           ++ rewrite Es. discriminate.
           ++ intros j N. apply nth_error_upd_neq. congruence.
           ++ intros _. destruct FL as [->|[(-> & _)|[(-> & _)|(-> & _)]]]; auto.
        -- right. rewrite settled_of. cbn [w_sys w_clients]. unfold settled.
           assert (L : looks c = true -> match f_sect fw LogThread with Some (_, SCopy _) => False | _ => True end).
           { intros L. rewrite L in Er. cbn in Er. unfold copying in Er. destruct (f_sect fw LogThread) as [[? []]|]; auto; discriminate. }
           pose proof (cstep_fin _ _ _ _ _ _ (f_sect fw LogThread) (hold fw) En L Eq) as A.
           eapply (step_client i (mkWorld _ _)); [cbn [w_sys]; now rewrite fin_crashed|exact E|exact A].
Qed.

Lemma ready_plain : forall k q c s, ready k q c s -> plain_l (Some (k, q)).
Proof. intros k q c s R. destruct q; cbn in *; auto. Qed.

Lemma fstep_log : forall cb fw fw' es, finv fw -> fstep (GoLog cb) fw = Some (fw', es) -> sim (GoLog cb) fw fw' es.
Proof.
  intros cb fw fw' es V H. unfold LogLockModel.fstep in H. destruct (crashed (w_sys (f_world fw))) eqn:Ec; [discriminate|].
  destruct (f_sect fw LogThread) as [[k q]|] eqn:Es.
  - assert (D : q = SUnlock \/ q <> SUnlock) by (destruct q; auto; right; discriminate). destruct D as [->|D].
    { injection H as <- <-. eapply release_sim; eauto. apply of_golog. }
    assert (Hk : f_held fw k = Some LogThread) by (apply (i_held _ V); eexists; eauto).
    pose proof (i_sect _ V _ _ _ Es) as O. cbn in O. destruct O as [O|[(o & rest & c & El & O)|O]]; [congruence| |].
    + assert (H' : match csec LogThread q c (w_sys (f_world fw)) with
                  | Some (c', q', s', es) => Some (next_sect LogThread k (Some q') (mkWorld (set_logt (TCall o rest c') s') (w_clients (f_world fw))) fw, es)
                  | None => None
                  end = Some (fw', es)) by (rewrite El in H; destruct q; congruence).
      clear H. destruct (csec LogThread q c (w_sys (f_world fw))) as [[[[c' q'] s'] es1]|] eqn:Eq; [|discriminate]. injection H' as <- <-.
      destruct (csec_frame _ _ _ _ _ _ _ _ _ Eq O) as (FP & FM & FL & FR).
      assert (Ls : logt s' = TCall o rest c) by (destruct FL as [->|(FL & _)]; congruence).
      split.
      * cbn [next_sect]. eapply finv_step with (t0 := LogThread); eauto; cbn [w_sys w_clients set_logt pool queue terminated].
        -- eapply held_next; eauto.
        -- intros; apply sect_ne; auto.
        -- intros k1 q1 X. rewrite sect_eq in X. injection X as <- <-. destruct FR as [FR|FR]; [left; auto|]. right; left. exists o, rest, c'. split; auto.
        -- intros N. apply FP. congruence.
        -- intros N. apply FM. congruence.
        -- intros N. congruence.
      * pose proof (ready_plain _ _ _ _ O) as PL.
        assert (PL' : plain_l (Some (k, q'))) by (destruct FR as [->|FR]; [exact I|eapply ready_plain; eauto]).
        pose proof (csec_sim _ _ _ _ _ _ _ _ _ None (hold fw) Eq O (fun _ => I)) as [(A & -> & -> & DD)|A].
        -- left. split; auto. cbn [next_sect]. split.
           2: { intros t OT. apply of_golog in OT. subst t. unfold fdist. cbn [f_sect f_world w_sys]. rewrite sect_eq, Es. exact DD. }
           rewrite settled_of. cbn [w_sys w_clients]. rewrite (hold_next _ _ _ _ _ V Es), sect_eq.
           unfold settled. f_equal. rewrite Es. unfold fin in A |- *. cbn [fin_l] in A. rewrite !plain_fl by auto. rewrite <- (hold_self _ _ _ _ V Es) in A. rewrite <- A.
           f_equal. clear - Ls. destruct s'. cbn in Ls. subst. reflexivity.
        -- right. cbn [next_sect]. rewrite settled_of. cbn [w_sys w_clients]. rewrite (hold_next _ _ _ _ _ V Es), sect_eq.
           rewrite <- (hold_self _ _ _ _ V Es) in A. unfold settled. eapply (step_log cb (mkWorld _ _)); [cbn [w_sys]; now rewrite fin_crashed|].
           cbn [w_sys]. rewrite Es. unfold fin in A |- *. cbn [fin_l] in A. rewrite !plain_fl by auto.
           rewrite fm_set_logt by (rewrite ?Ls; discriminate).
           unfold LogModel.lstep. rewrite fm_logt, El by congruence. rewrite A.
           assert (NI : c_pc c = Idle -> c_todo c <> []).
           { intros X Y. destruct c as [pc todo]. cbn in X, Y. subst. destruct q; cbn in O, Eq; try discriminate; try contradiction; unfold LogModel.cstep in A; discriminate. }
           destruct (c_pc c) eqn:Ep; auto. destruct (c_todo c) eqn:Et; auto. exfalso. apply NI; auto.
    + assert (H' : match tsec q (w_sys (f_world fw)) with
                  | Some (q', s', es) => Some (next_sect LogThread k q' (mkWorld s' (w_clients (f_world fw))) fw, es)
                  | None => None
                  end = Some (fw', es)).
      { destruct (tready_logt _ _ _ O) as (_ & _ & _ & N). destruct q; try congruence; destruct (logt (w_sys (f_world fw))); try congruence; edestruct N; reflexivity. }
      clear H. destruct (tsec q (w_sys (f_world fw))) as [[[q' s'] es1]|] eqn:Eq; [|discriminate]. injection H' as <- <-.
      destruct (tsec_frame _ _ _ _ _ _ Eq O) as (FP & FM & FR & FC).
      assert (HN : hold_of (f_held (next_sect LogThread k q' (mkWorld s' (w_clients (f_world fw))) fw)) (f_sect (next_sect LogThread k q' (mkWorld s' (w_clients (f_world fw))) fw))
                 = match k with MMessage => lsect k q' | _ => hold fw end).
      { destruct q' as [q'|]; cbn [next_sect f_held f_sect lsect]; [rewrite (hold_next _ _ _ _ _ V Es); destruct k; reflexivity|apply (hold_release _ _ _ _ V Es)]. }
      assert (SN : f_sect (next_sect LogThread k q' (mkWorld s' (w_clients (f_world fw))) fw) LogThread = lsect k q') by (destruct q'; cbn [next_sect f_sect]; apply sect_eq).
      split.
      * destruct q' as [q'|]; cbn [next_sect]; eapply finv_step with (t0 := LogThread); eauto; cbn [w_sys w_clients];
          try (intros; apply sect_ne; auto; fail); try (intros N; apply FP; congruence); try (intros N; apply FM; congruence); try (intros N; congruence).
        -- eapply held_next; eauto.
        -- intros k1 q1 X. rewrite sect_eq in X. injection X as <- <-. cbn. destruct q'; auto.
        -- eapply held_release; eauto.
        -- intros k1 q1 X. rewrite sect_eq in X. discriminate.
      * assert (ST : settled (next_sect LogThread k q' (mkWorld s' (w_clients (f_world fw))) fw) =
                     mkWorld (fin (lsect k q') (match k with MMessage => lsect k q' | _ => hold fw end) s') (w_clients (f_world fw))).
        { rewrite <- HN, <- SN. destruct q'; reflexivity. }
        rewrite ST. assert (ST0 : settled fw = mkWorld (fin (Some (k, q)) (match k with MMessage => Some (k, q) | _ => hold fw end) (w_sys (f_world fw))) (w_clients (f_world fw))).
        { unfold settled. rewrite Es. pose proof (hold_self _ _ _ _ V Es) as HS. destruct k; auto. rewrite HS. reflexivity. }
        rewrite ST0. destruct (tsec_sim _ _ _ _ _ _ (hold fw) cb Eq O) as [(A & -> & DD)|A].
        -- left. split; auto. split; [now rewrite A|]. intros t OT. apply of_golog in OT. subst t. unfold fdist. rewrite SN, Es. destruct q'; exact DD.
        -- right. eapply (step_log cb (mkWorld _ _)); [cbn [w_sys]; now rewrite fin_crashed|exact A].
  - destruct (tneeds (w_sys (f_world fw))) as [[k q]|] eqn:En.
    + assert (D : (exists o, logt (w_sys (f_world fw)) = TGot o) \/ forall o, logt (w_sys (f_world fw)) <> TGot o)
        by (destruct (logt (w_sys (f_world fw))); eauto; right; congruence).
      destruct D as [(o & El)|D].
      * rewrite El in H. unfold tneeds in En. rewrite El in En. injection En as <- <-. unfold acquire in H. destruct (f_held fw MListeners) eqn:Eh; [discriminate|].
        injection H as <- <-. split.
        -- eapply finv_step with (t0 := LogThread); eauto; cbn [w_sys w_clients]; auto.
           ++ eapply held_acquire; eauto.
           ++ intros; apply sect_ne; auto.
           ++ intros k1 q1 X. rewrite sect_eq in X. injection X as <- <-. right; right. cbn. eauto.
           ++ congruence.
        -- right. rewrite settled_of. cbn [w_sys w_clients]. rewrite (hold_acquire _ _ _ _ V Es Eh), sect_eq. cbn [msg_sect].
           unfold settled. rewrite Es. eapply (step_log cb (mkWorld _ _)); [cbn [w_sys]; now rewrite fin_crashed|]. cbn [w_sys].
           unfold fin. cbn [fin_l]. unfold LogModel.lstep. rewrite fm_logt, El by congruence. rewrite fm_set_logt by congruence. cbn [active pending set_logt skipn].
           unfold content. rewrite fm_heap. reflexivity.
      * assert (H' : acquire LogThread k q (f_world fw) fw [] = Some (fw', es)) by (destruct (logt (w_sys (f_world fw))); try congruence; edestruct D; reflexivity).
        clear H. unfold acquire in H'. destruct (f_held fw k) eqn:Eh; [discriminate|]. injection H' as <- <-.
        assert (OK : (exists o rest c, logt (w_sys (f_world fw)) = TCall o rest c /\ needs c = Some (k, q)) \/
                     (tready k q (w_sys (f_world fw)) /\ fin_l (Some (k, q)) = (fun s => s) /\ (forall a, fin_m (msg_sect k q a) = match k with MMessage => fun s => s | _ => fin_m a end))).
        { unfold tneeds in En. destruct (logt (w_sys (f_world fw))) eqn:El; try discriminate; try (injection En as <- <-; right; cbn; rewrite El; repeat split; eauto; fail).
          - edestruct D; reflexivity.
          - left. eauto 6. }
        split.
        -- eapply finv_step with (t0 := LogThread); eauto.
           ++ eapply held_acquire; eauto.
           ++ intros; apply sect_ne; auto.
           ++ intros k1 q1 X. rewrite sect_eq in X. injection X as <- <-. right. destruct OK as [(o & rest & c & El & N)|(OK & _)]; auto.
              left. exists o, rest, c. split; auto. now apply needs_ready.
        -- left. split; auto. split.
           2: { intros t OT. apply of_golog in OT. subst t. unfold fdist. cbn [f_sect f_world w_sys]. rewrite sect_eq, Es. destruct OK as [(o & rest & c & El & N)|OK]; [apply (needs_dist _ _ _ _ N)|].
                unfold tneeds in En. destruct (logt (w_sys (f_world fw))); try discriminate; try (injection En as <- <-; cbn; lia); [edestruct D; reflexivity|apply (needs_dist _ _ _ _ En)]. }
           rewrite settled_of. rewrite (hold_acquire _ _ _ _ V Es Eh), sect_eq. unfold settled. f_equal. rewrite Es. unfold fin.
           destruct OK as [(o & rest & c & El & N)|(OK & A & B)].
           ++ rewrite plain_fl by (eapply ready_plain; apply (needs_ready _ _ _ (w_sys (f_world fw)) N)). rewrite (needs_plain _ _ _ N).
              rewrite <- (held_none_msg _ k) by auto. destruct k; reflexivity.
           ++ rewrite A, B. rewrite <- (held_none_msg _ k) by auto. destruct k; reflexivity.
    + destruct (lstep cb (w_sys (f_world fw))) as [[s' es1]|] eqn:Eq; [|discriminate]. injection H as <- <-.
      destruct (lstep_frame _ _ _ _ En Eq) as (F1 & F2 & F3). split.
      * eapply finv_step with (t0 := LogThread); eauto; cbn [w_sys w_clients]; auto.
        -- eapply held_same; eauto.
        -- rewrite Es. discriminate.
        -- congruence.
      * right. rewrite settled_of. cbn [w_sys w_clients]. unfold settled. rewrite Es.
        eapply (step_log cb (mkWorld _ _)); [cbn [w_sys]; now rewrite fin_crashed|]. cbn [w_sys]. now apply lstep_fin.
Qed.

Lemma fstep_wake : forall fw fw' es, finv fw -> fstep Wake fw = Some (fw', es) -> sim Wake fw fw' es.
Proof.
  intros fw fw' es V H. unfold LogLockModel.fstep in H. destruct (crashed (w_sys (f_world fw))) eqn:Ec; [discriminate|].
  destruct (logt (w_sys (f_world fw))) eqn:El; try discriminate. injection H as <- <-.
  assert (Es : f_sect fw LogThread = None \/ exists k, f_sect fw LogThread = Some (k, SUnlock)).
  { destruct (f_sect fw LogThread) as [[k q]|] eqn:Es; auto. pose proof (i_sect _ V _ _ _ Es) as O. cbn in O. destruct O as [->|[(o & rest & c & X & _)|O]]; eauto; try congruence.
    destruct (tready_logt _ _ _ O) as (N & _). congruence. }
  assert (PL : plain_l (f_sect fw LogThread)) by (destruct Es as [->|(k & ->)]; exact I).
  split.
  - eapply finv_step with (t0 := LogThread); eauto; cbn [w_sys w_clients]; auto.
    + eapply held_same; eauto.
    + intros k q X. destruct Es as [Es|(k1 & Es)]; rewrite Es in X; [discriminate|]. injection X as <- <-. left. auto.
  - rewrite settled_of. cbn [w_sys w_clients]. change (hold_of (f_held fw) (f_sect fw)) with (hold fw). unfold settled, fin. rewrite !plain_fl by auto.
    destruct (fm_asleep (hold fw) _ El) as [A|A].
    + right. unfold LogModel.step. cbn [w_sys w_clients]. rewrite fm_crashed, Ec, A. do 3 f_equal.
      unfold fin_m in *. destruct (hold fw) as [[? []]|]; auto; unfold notify in *; cbn in *;
        repeat match goal with |- context [if ?b then _ else _] => destruct b; cbn in * end; rewrite ?El in *; cbn in *; discriminate.
    + left. split; auto. split; [|intros [] []]. f_equal.
      unfold fin_m in *. destruct (hold fw) as [[? []]|]; try congruence; unfold notify in *; cbn in *;
        repeat match goal with |- context [if ?b then _ else _] => destruct b; cbn in * end; rewrite ?El in *; cbn in *; reflexivity.
Qed.

Lemma fstep_sim : forall ch fw fw' es, finv fw -> fstep ch fw = Some (fw', es) -> race ch fw fw' es \/ sim ch fw fw' es.
Proof.
  intros [i|cb|] fw fw' es V H.
  - now apply fstep_client.
  - right. eapply fstep_log; eauto.
  - right. eapply fstep_wake; eauto.
Qed.

End Log.
