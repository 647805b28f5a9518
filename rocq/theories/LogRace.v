(** * Proofs about the accesses of LogSystem to shared memory (C43). *)

From Coq Require Import ZArith String Bool List Arith Lia.
From Verif Require Import Base LogModel LogSpec LogAccess LogProofs LogOrder LogCount LogSettings.
Import ListNotations.

Section Race.
Context {RE : Type}.
Variable compile : string -> option RE.
Variable rmatch : string -> RE -> bool.
Notation cs := (cs compile).
Notation ls := (ls compile rmatch).
Notation st := (st compile rmatch).
Notation step := (step compile rmatch).
Notation reaches := (reaches compile rmatch).

Implicit Types s : @sys RE.
Implicit Types w : @world RE.

(** The table of accesses has all the writes of the model. *)
Ltac here := first [eexists; split; [left; reflexivity|split; reflexivity] | eexists; split; [right; left; reflexivity|split; reflexivity]].

Lemma same_notify : forall x s, same_at x s (notify s).
Proof. intros x s. unfold notify. destruct (logt s) eqn:E; destruct x; cbn; auto; unfold no_thread; cbn; rewrite ?E; auto. Qed.

Lemma cs_writes : forall t c s c' s' es x, cs t c s c' s' es -> same_at x s s' \/ writes x (c_accesses c).
Proof.
  intros t c s c' s' es x H. unfold writes, c_accesses.
  destruct H; cbn [c_pc c_todo]; try (left; apply same_notify);
    try (destruct x; cbn [same_at]; unfold no_thread; sfields; auto; try (right; here); fail).
  - destruct x; cbn [same_at]; auto. left. cbn. intros L. rewrite nth_error_app1; auto.
  - destruct x; cbn [same_at]; auto. left. cbn. unfold upd_lst. destruct (Nat.eqb_spec l0 l); subst; auto.
  - destruct x; cbn [same_at]; auto. left. cbn. unfold upd_lst. destruct (Nat.eqb_spec l0 l); subst; auto.
  - destruct x; cbn [same_at]; auto. left. cbn. unfold upd_lst. destruct (Nat.eqb_spec l0 l); subst; auto.
  - destruct x; cbn [same_at]; auto. destruct (Nat.eq_dec l0 l) as [->|N]; [right; here|].
    left. cbn. unfold upd_lst. destruct (Nat.eqb_spec l0 l); subst; auto; congruence.
  - destruct x; cbn [same_at]; auto. left. cbn. intros L. rewrite nth_error_app1; auto.
  - destruct x; cbn [same_at]; auto. destruct (Nat.eq_dec o0 o) as [->|N]; [right; here|].
    left. cbn. intros L. rewrite nth_error_upd_lt. destruct (Nat.eq_dec o0 o); congruence.
  - psimp o s. destruct x; cbn [same_at]; unfold no_thread; rewrite ?P1, ?P2, ?P4, ?P8, ?P10, ?P11, ?P12; auto; try (right; here).
    rewrite P17. left. destruct (logt s); auto.
Qed.

Lemma ls_writes : forall s s' es x, ls s s' es -> same_at x s s' \/ writes x (t_accesses (logt s)).
Proof.
  intros s s' es x H. unfold writes.
  destruct H; try (match goal with H : logt _ = _ |- _ => rewrite H end); unfold t_accesses;
    try (destruct x; cbn [same_at]; unfold no_thread; sfields; rewrite ?H; auto; try (right; here); fail).
  - destruct (cs_writes _ _ _ _ _ _ x H0) as [S|(a & I & E1 & E2)].
    + left. destruct x; cbn [same_at] in *; unfold no_thread in *; sfields; auto. rewrite H. auto.
    + right. exists a. split; auto. right; auto.
  - destruct x; cbn [same_at]; unfold no_thread; sfields; rewrite ?H; auto. destruct (Nat.eq_dec o0 o) as [->|N]; [right; here|].
    left. intros L. rewrite nth_error_upd_lt. destruct (Nat.eq_dec o0 o); congruence.
Qed.

Lemma step_writes : forall ch w w' es x, step ch w = Some (w', es) ->
  same_at x (w_sys w) (w_sys w') \/ writes x (accesses_of w (mover ch)).
Proof.
  intros ch w w' es x H. unfold LogModel.step in H. destruct (crashed (w_sys w)); [discriminate|].
  destruct ch as [i|cb|]; cbn [mover accesses_of].
  - destruct (nth_error (w_clients w) i) as [c|]; [|discriminate].
    destruct (cstep _ _ c (w_sys w)) as [[[c' s'] es']|] eqn:E; [|discriminate]. injection H as <- <-.
    apply cstep_cs in E. eapply cs_writes; eauto.
  - destruct (lstep _ _ cb (w_sys w)) as [[s' es']|] eqn:E; [|discriminate]. injection H as <- <-.
    apply lstep_ls in E. eapply ls_writes; eauto.
  - destruct (logt (w_sys w)) eqn:E; try discriminate. injection H as <- <-. left.
    destruct x; cbn; auto. unfold no_thread. cbn. rewrite E. auto.
Qed.

(** ** Races *)
Lemma conflict_sym : forall a b, conflict a b -> conflict b a.
Proof.
  intros a b (A & B & C). split; [auto|]. split; [rewrite orb_comm; auto|]. destruct (a_lock a), (a_lock b); auto.
Qed.

Lemma held_diff : forall (l : list cthread) i j c c' o, NoDup (flat_map held_c l) -> i <> j ->
  nth_error l i = Some c -> nth_error l j = Some c' -> In o (held_c c) -> ~ In o (held_c c').
Proof.
  assert (D : forall (a b : list nat) o, NoDup (a ++ b) -> In o a -> ~ In o b).
  { intros a. induction a as [|x a IH]; intros b o N I; [destruct I|]. inversion N; subst.
    destruct I as [->|I]; [rewrite in_app_iff in H1; tauto|eauto]. }
  intros l. induction l as [|x l IH]; intros i j c c' o N Hij Hi Hj I I'; [destruct i; discriminate|].
  cbn [flat_map] in N.
  assert (F : forall k d, nth_error l k = Some d -> In o (held_c d) -> In o (flat_map held_c l)).
  { intros k d Hk Id. apply in_flat_map. exists d. split; auto. eapply nth_error_In; eauto. }
  destruct i, j; cbn in Hi, Hj; try congruence.
  - injection Hi as ->. eapply D; eauto.
  - injection Hj as ->. eapply D; eauto.
  - eapply (IH i j c c' o); eauto. clear - N. induction (held_c x) as [|y h IHh]; auto. inversion N; auto.
Qed.

Definition unsafe_read (c : cthread) : Prop :=
  (exists f fs, c_pc c = Diag (f :: fs) /\ In f [FActive; FEnabled; FReceived]) \/ (exists n rest fs, c_pc c = DiagCount n rest fs).

(** What an access of a client can be. *)
Lemma c_access_kind : forall c a, In a (c_accesses c) ->
  (a_write a = false /\ a_lock a = None /\ (a_loc a = LActive \/ a_loc a = LReceived) /\ unsafe_read c) \/
  (exists o, a_loc a = LObj o /\ In o (held_c c)) \/
  (a_lock a = match a_loc a with
     | LPool => Some MPool | LQueue => Some MMessage | LTerm => Some MMessage | LMaxQ => Some MMessage
     | LPending => Some MListeners | LThreadPtr => Some MThread | LCat l => Some (MCategory l)
     | _ => a_lock a end /\ a_loc a <> LActive /\ a_loc a <> LReceived /\ (forall o, a_loc a <> LObj o)).
Proof.
  intros [pc k] a I. unfold c_accesses, held_c, unsafe_read in *. cbn [c_pc c_todo] in *.
  destruct pc; cbn [In] in *;
    try (destruct k as [|[] k]); try (destruct todo as [|[] fs]); cbn [In] in I;
    repeat match goal with H : _ \/ _ |- _ => destruct H | H : False |- _ => destruct H end; subst a; cbn [a_loc a_lock a_write];
    try (right; right; repeat split; congruence);
    try (right; left; eexists; split; [reflexivity|left; reflexivity]);
    try (left; split; [auto|]; split; [auto|]; split; [auto|];
         (left; eexists; eexists; split; [reflexivity|cbn; tauto]) || (right; do 3 eexists; reflexivity)).
Qed.

(** The same for the log thread. *)
Lemma t_access_kind : forall t a, In a (t_accesses t) ->
  (a_loc a = LActive \/ a_loc a = LReceived) \/
  (exists o, a_loc a = LObj o /\ In o (held_t t)) \/
  (a_lock a = match a_loc a with
     | LPool => Some MPool | LQueue => Some MMessage | LTerm => Some MMessage | LMaxQ => Some MMessage
     | LPending => Some MListeners | LThreadPtr => Some MThread | LCat l => Some (MCategory l)
     | _ => a_lock a end /\ a_loc a <> LActive /\ a_loc a <> LReceived /\ (forall o, a_loc a <> LObj o)).
Proof.
  intros t a I. destruct t; cbn [t_accesses held_t] in *;
    try (cbn [In] in I; repeat match goal with H : _ \/ _ |- _ => destruct H | H : False |- _ => destruct H end; subst a; cbn [a_loc a_lock a_write];
    try (right; right; repeat split; congruence);
    try (right; left; eexists; split; [reflexivity|left; reflexivity]);
    try (left; auto; fail); fail).
  destruct I as [<-|I].
  - right; left. eexists; split; [reflexivity|left; reflexivity].
  - destruct (c_access_kind _ _ I) as [(_ & _ & K & _)|[(o' & K & K')|K]]; auto. right; left. exists o'. split; auto. right; auto.
Qed.

Ltac clash := match goal with
  | A : a_lock ?a = match a_loc ?a with _ => _ end, B : a_lock ?b = match a_loc ?b with _ => _ end, E : a_loc ?a = a_loc ?b |- _ =>
    rewrite E in A; destruct (a_loc b); try congruence
  end.

Lemma client_client : forall sn g lf progs w tr i j a b, reaches sn g lf progs w tr -> i <> j ->
  In a (accesses_of w (Client i)) -> In b (accesses_of w (Client j)) -> ~ conflict a b.
Proof.
  intros sn g lf progs w tr i j a b H N Ia Ib (E & W & L). cbn in Ia, Ib.
  destruct (nth_error (w_clients w) i) as [c|] eqn:Ei; [|destruct Ia]. destruct (nth_error (w_clients w) j) as [d|] eqn:Ej; [|destruct Ib].
  destruct (one_place _ _ _ _ _ _ _ _ H) as (ND & _). unfold places in ND.
  apply c_access_kind in Ia. apply c_access_kind in Ib.
  destruct Ia as [(A1 & A2 & A3 & A4)|[(o & A1 & A2)|(A1 & A2 & A3 & A4)]];
  destruct Ib as [(B1 & B2 & B3 & B4)|[(o' & B1 & B2)|(B1 & B2 & B3 & B4)]].
  - rewrite A1, B1 in W. discriminate.
  - destruct A3; congruence.
  - destruct A3; congruence.
  - destruct B3; congruence.
  - assert (o' = o) by congruence. subst o'. eapply held_diff; eauto.
    clear - ND. rewrite !app_assoc in ND. induction ((pool (w_sys w) ++ queue (w_sys w)) ++ held_t (logt (w_sys w))) as [|x l IH]; auto.
    inversion ND; auto.
  - congruence.
  - destruct B3; congruence.
  - congruence.
  - clash.
    all: rewrite A1, B1 in L; congruence.
Qed.

Lemma log_client : forall sn g lf progs w tr i a b, reaches sn g lf progs w tr ->
  In a (accesses_of w (Client i)) -> In b (accesses_of w LogThread) -> conflict a b ->
  (a_loc a = LActive \/ a_loc a = LReceived) /\ in_diags w i.
Proof.
  intros sn g lf progs w tr i a b H Ia Ib (E & W & L). cbn in Ia, Ib.
  destruct (nth_error (w_clients w) i) as [c|] eqn:Ei; [|destruct Ia].
  destruct (one_place _ _ _ _ _ _ _ _ H) as (ND & _). unfold places in ND.
  apply c_access_kind in Ia. apply t_access_kind in Ib.
  destruct Ia as [(A1 & A2 & A3 & A4)|[(o & A1 & A2)|(A1 & A2 & A3 & A4)]].
  - split; auto. destruct A4 as [(f & fs & A4 & A5)|(n & rs & fs & A4)]; [left; exists f, fs; split; auto; exists c; auto|right; exists n, rs, fs, c; auto].
  - exfalso. destruct Ib as [[B|B]|[(o' & B1 & B2)|(B1 & B2 & B3 & B4)]]; try congruence.
    assert (o' = o) by congruence. subst o'.
    assert (In o (flat_map held_c (w_clients w))) by (apply in_flat_map; exists c; split; auto; eapply nth_error_In; eauto).
    clear - ND H0 B2. rewrite app_assoc in ND.
    induction (pool (w_sys w) ++ queue (w_sys w)) as [|x l IH]; [|inversion ND; auto].
    cbn [app] in ND. induction (held_t (logt (w_sys w))) as [|y h IHh]; [destruct B2|].
    inversion ND; subst. destruct B2 as [->|B2]; auto. rewrite in_app_iff in H2. tauto.
  - exfalso. destruct Ib as [[B|B]|[(o' & B1 & B2)|(B1 & B2 & B3 & B4)]]; try congruence.
    clash.
    all: rewrite A1, B1 in L; congruence.
Qed.

Lemma races_only : forall sn g lf progs w tr t1 t2 x, reaches sn g lf progs w tr -> race w t1 t2 x ->
  (x = LActive \/ x = LReceived) /\
  exists i, in_diags w i /\ ((t1 = Client i /\ t2 = LogThread) \/ (t1 = LogThread /\ t2 = Client i)).
Proof.
  intros sn g lf progs w tr t1 t2 x H (N & a & b & Ia & Ib & C & <-).
  destruct t1 as [i|], t2 as [j|]; try congruence.
  - exfalso. eapply (client_client sn g lf progs w tr i j a b); eauto.
  - destruct (log_client _ _ _ _ _ _ _ _ _ H Ia Ib C) as (A & B). split; auto. exists i. auto.
  - pose proof (conflict_sym _ _ C) as C'. destruct (log_client _ _ _ _ _ _ _ _ _ H Ib Ia C') as (A & B).
    destruct C as (-> & _). split; auto. exists j. auto.
Qed.

(** Only a thread that calls getDiags is in it. *)
Lemma diags_called : forall sn g lf progs w tr i, reaches sn g lf progs w tr ->
  (exists fs, at_pc w i (Diag fs)) \/ (exists n rest fs, at_pc w i (DiagCount n rest fs)) -> exists p, nth_error progs i = Some p /\ In CDiags p.
Proof.
  intros sn g lf progs w tr i H D. assert (C : exists c, nth_error (w_clients w) i = Some c /\ ((exists fs, c_pc c = Diag fs) \/ exists n rest fs, c_pc c = DiagCount n rest fs)).
  { destruct D as [(fs & c & A & B)|(n & rest & fs & c & A & B)]; exists c; split; eauto 6. }
  destruct C as (c & Hc & Hp). destruct (reaches_progress _ _ _ _ _ _ _ _ H i c Hc) as (p & es & E & (done & ess & _ & P) & _).
  exists p. split; auto. destruct P as [(P & _)|(k & part & P & -> & _)].
  - destruct Hp as [(fs & Hp)|(n & rest & fs & Hp)]; congruence.
  - apply in_or_app. right. left. destruct Hp as [(fs & Hp)|(n & rest & fs & Hp)]; rewrite Hp in P; apply P.
Qed.

Lemma no_diags_no_race : forall sn g lf progs w tr t1 t2 x, (forall p, In p progs -> ~ In CDiags p) ->
  reaches sn g lf progs w tr -> ~ race w t1 t2 x.
Proof.
  intros sn g lf progs w tr t1 t2 x N H R. destruct (races_only _ _ _ _ _ _ _ _ _ H R) as (_ & i & D & _).
  destruct (diags_called _ _ _ _ _ _ i H) as (p & E & I).
  - destruct D as [(f & fs & D & _)|D]; [left; eauto|right; auto].
  - apply nth_error_In in E. eapply N; eauto.
Qed.

(** ... and these happen whenever the two are there. *)
Lemma race_active : forall w i f fs o, at_pc w i (Diag (f :: fs)) -> f = FActive \/ f = FEnabled ->
  logt (w_sys w) = TGot o \/ (exists kept todo, logt (w_sys w) = TClean o kept todo) -> race w (Client i) LogThread LActive.
Proof.
  intros w i f fs o (c & Hc & Hp) Hf Ht. split; [discriminate|].
  exists (mkA LActive false None). cbn [accesses_of]. rewrite Hc. unfold c_accesses. rewrite Hp.
  destruct Ht as [->|(? & ? & ->)]; eexists; (split; [destruct Hf; subst; left; reflexivity|]); (split; [cbn [t_accesses In]; eauto|]);
    (split; [split; [reflexivity|split; [reflexivity|exact I]]|reflexivity]).
Qed.

Lemma race_counting : forall w i n rest fs o, at_pc w i (DiagCount n rest fs) ->
  logt (w_sys w) = TGot o \/ (exists kept todo, logt (w_sys w) = TClean o kept todo) -> race w (Client i) LogThread LActive.
Proof.
  intros w i n rest fs o (c & Hc & Hp) Ht. split; [discriminate|].
  exists (mkA LActive false None). cbn [accesses_of]. rewrite Hc. unfold c_accesses. rewrite Hp.
  destruct Ht as [->|(? & ? & ->)]; eexists; (split; [left; reflexivity|]); (split; [cbn [t_accesses In]; eauto|]);
    (split; [split; [reflexivity|split; [reflexivity|exact I]]|reflexivity]).
Qed.

Lemma race_received : forall w i fs o, at_pc w i (Diag (FReceived :: fs)) -> logt (w_sys w) = TCount o -> race w (Client i) LogThread LReceived.
Proof.
  intros w i fs o (c & Hc & Hp) Ht. split; [discriminate|].
  exists (mkA LReceived false None), (mkA LReceived true None). cbn [accesses_of]. rewrite Hc. unfold c_accesses. rewrite Hp, Ht.
  split; [left; auto|]. split; [left; auto|]. split; [|reflexivity]. repeat split; auto.
Qed.

End Race.
