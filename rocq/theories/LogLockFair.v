(** * LogSystem statement by statement: infinite executions *)
From Coq Require Import ZArith String Bool List Arith Lia.
From Verif Require Import Base ListFacts LogModel LogSpec LogAccess LogLockModel LogLockSpec LogProofs LogFair LogLock LogLockRun.
Import ListNotations.
Open Scope list_scope.

Section Fair.
Context {RE : Type}.
Variable compile : string -> option RE.
Variable rmatch : string -> RE -> bool.
Notation sys := (@sys RE).
Notation world := (@world RE).
Notation fworld := (@fworld RE).
Notation cstep := (cstep compile).
Notation lstep := (lstep compile rmatch).
Notation step := (step compile rmatch).
Notation fstep := (fstep compile rmatch).
Implicit Types (s : sys) (w : world) (fw : fworld).
Notation S_ fw := (w_sys (f_world fw)).

(** ** What a thread sees of the others' moves *)
Definition lrel (a b : tpc) : Prop :=
  b = a \/ (a = TAsleep /\ b = TCheck) \/ (a = TNone /\ b = TCheck) \/ (a = TExited /\ (b = TNone \/ b = TCheck)).
Definition same (t : tid) fw fw' : Prop :=
  f_sect fw' t = f_sect fw t /\
  (forall i, t = Client i -> nth_error (w_clients (f_world fw')) i = nth_error (w_clients (f_world fw)) i) /\
  (t = LogThread -> lrel (logt (S_ fw)) (logt (S_ fw')) /\
     forall q, f_sect fw LogThread = Some (MListeners, q) -> pending (S_ fw') = pending (S_ fw)).

Lemma same_refl : forall t fw, same t fw fw.
Proof. intros t fw. unfold same, lrel. auto. Qed.
Lemma same_trans : forall t a b c, same t a b -> same t b c -> same t a c.
Proof.
  intros t a b c (A1 & A2 & A3) (B1 & B2 & B3). split; [congruence|]. split.
  - intros i E. rewrite (B2 _ E). auto.
  - intros E. destruct (A3 E) as (A4 & A5). destruct (B3 E) as (B4 & B5). split.
    + unfold lrel in *. intuition congruence.
    + intros q F. rewrite (B5 q), (A5 q); auto. subst t. congruence.
Qed.

Lemma csec_pending : forall t q c s c' q' s' es k, csec t q c s = Some (c', q', s', es) -> ready k q c s -> k <> MListeners -> pending s' = pending s.
Proof.
  intros t q [pc todo] s c' q' s' es k H R N. destruct q; cbn [ready] in R; try contradiction; cbn in H;
    try (injection H as <- <- <- <-; unfold notify; cbn; destruct (logt s); reflexivity);
    try (apply needs_lock in R); try (destruct R as (_ & m & o & E); cbn in E; subst pc; injection H as <- <- <- <-; reflexivity).
  - destruct R as (_ & p & E1 & E2). cbn in E1, E2. subst. injection H as <- <- <- <-. reflexivity.
  - destruct R as (-> & _). congruence.
  - destruct R as (_ & m & E). cbn in E. subst. destruct (pool s); injection H as <- <- <- <-; reflexivity.
  - destruct R as (R & _). apply needs_lock in R. destruct R as (_ & m & E). cbn in E. subst. injection H as <- <- <- <-. reflexivity.
  - destruct R as (f & fs & E & _). cbn in E. subst. injection H as <- <- <- <-. reflexivity.
Qed.

Lemma same_others : forall ch fw fw' es t, finv fw -> fstep ch fw = Some (fw', es) -> ~ of_thread t ch -> same t fw fw'.
Proof.
  intros ch fw fw' es t V H N. unfold LogLockModel.fstep in H. destruct (crashed (S_ fw)); [discriminate|]. destruct ch as [i|cb|].
  - assert (Nt : t <> Client i) by (intros ->; apply N; reflexivity).
    destruct (nth_error (w_clients (f_world fw)) i) as [c|] eqn:Ec; [|discriminate].
    destruct (f_sect fw (Client i)) as [[k q]|] eqn:Es.
    + assert (D : q = SUnlock \/ q <> SUnlock) by (destruct q; auto; right; discriminate). destruct D as [->|D].
      { injection H as <- <-. unfold same. cbn [next_sect f_sect f_world]. rewrite sect_ne by auto. unfold lrel. auto. }
      assert (H' : match csec (Client i) q c (S_ fw) with
                  | Some (c', q', s', es) => Some (next_sect (Client i) k (Some q') (mkWorld s' (upd i (fun _ => c') (w_clients (f_world fw)))) fw, es)
                  | None => None
                  end = Some (fw', es)) by (destruct q; congruence).
      clear H. destruct (csec (Client i) q c (S_ fw)) as [[[[c' q'] s'] es1]|] eqn:Eq; [|discriminate]. injection H' as <- <-.
      pose proof (i_sect _ V _ _ _ Es) as O. cbn in O. destruct O as (c1 & E1 & O). rewrite Ec in E1. injection E1 as <-. destruct O as [O|O]; [congruence|].
      destruct (csec_frame _ _ _ _ _ _ _ _ _ Eq O) as (_ & _ & FL & _).
      unfold same. cbn [next_sect f_sect f_world w_sys w_clients]. rewrite sect_ne by auto. split; auto. split.
      * intros j ->. apply nth_error_upd_neq. congruence.
      * intros ->. split.
        -- unfold lrel. destruct FL as [->|(-> & ->)]; auto.
        -- intros q1 F. eapply csec_pending; eauto. intros ->.
           assert (A : f_held fw MListeners = Some (Client i)) by (apply (i_held _ V); eexists; eauto).
           assert (B : f_held fw MListeners = Some LogThread) by (apply (i_held _ V); eexists; eauto). congruence.
    + destruct (needs c) as [[k q]|] eqn:En.
      * unfold acquire in H. destruct (f_held fw k); [discriminate|]. injection H as <- <-. unfold same. cbn [f_sect f_world]. rewrite sect_ne by auto. unfold lrel. auto.
      * destruct (looks c && copying fw).
        -- injection H as <- <-. unfold same. cbn [f_sect f_world w_sys w_clients logt pending set_crashed]. split; auto. split.
           ++ intros j ->. apply nth_error_upd_neq. congruence.
           ++ unfold lrel. auto.
        -- destruct (cstep (Client i) c (S_ fw)) as [[[c' s'] es1]|] eqn:Eq; [|discriminate]. injection H as <- <-.
           destruct (cstep_frame _ _ _ _ _ _ _ En Eq) as (_ & _ & _ & _ & FP & _ & FL).
           unfold same. cbn [f_sect f_world w_sys w_clients]. split; auto. split.
           ++ intros j ->. apply nth_error_upd_neq. congruence.
           ++ intros _. split; [|intros; exact FP]. unfold lrel. destruct FL as [->|[(-> & ->)|[(-> & ->)|(-> & -> & _)]]]; auto 6.
  - assert (Nt : exists j, t = Client j) by (destruct t as [j|]; [eauto|exfalso; apply N; exact I]). destruct Nt as (j & ->).
    assert (K : f_sect fw' (Client j) = f_sect fw (Client j) /\ w_clients (f_world fw') = w_clients (f_world fw)).
    { destruct (f_sect fw LogThread) as [[k q]|] eqn:Es.
      - destruct q; try (injection H as <- <-; cbn [next_sect f_sect f_world]; rewrite sect_ne by discriminate; auto; fail);
        destruct (logt (S_ fw)); 
        try (match type of H with match ?x with _ => _ end = _ => destruct x as [[[[c' q'] s'] es1]|] end; [|discriminate]; injection H as <- <-; cbn [next_sect f_sect f_world w_clients]; rewrite sect_ne by discriminate; auto; fail);
        (match type of H with match ?x with _ => _ end = _ => destruct x as [[[[q'|] s'] es1]|] end; [| |discriminate]; injection H as <- <-; cbn [next_sect f_sect f_world w_clients]; rewrite sect_ne by discriminate; auto).
      - destruct (tneeds (S_ fw)) as [[k q]|].
        + unfold acquire in H. destruct (f_held fw k); [destruct (logt (S_ fw)); discriminate|].
          destruct (logt (S_ fw)); injection H as <- <-; cbn [f_sect f_world w_clients]; rewrite sect_ne by discriminate; auto.
        + destruct (lstep cb (S_ fw)) as [[s' es1]|]; [|discriminate]. injection H as <- <-. auto. }
    destruct K as (K1 & K2). unfold same. rewrite K1, K2. split; auto. split; auto. discriminate.
  - destruct (logt (S_ fw)) eqn:El; try discriminate. injection H as <- <-. unfold same. cbn. split; auto. split; auto. intros _. rewrite El. unfold lrel. auto.
Qed.

(** ** Sections end *)
Definition slen (q : sect) s : nat :=
  match q with
  | SPush => 6 | SMax => 4 | SMaxSet => 3 | SNotify => 2 | SUnlock => 1
  | SStop | SAdd | SRead | SPop _ | SPopFront _ | SClear | SGive => 2
  | SAlloc | SFront | SDispose => 3
  | SWait => 5 | STerm => 4
  | SCopy n => 3 + (List.length (pending s) - n)
  end.

Lemma csec_len : forall t q c s c' q' s' es k, csec t q c s = Some (c', q', s', es) -> ready k q c s -> slen q' s' < slen q s.
Proof.
  intros t q [pc todo] s c' q' s' es k H R. destruct q; cbn [ready] in R; try contradiction; cbn in H;
    try (injection H as <- <- <- <-; cbn; lia); try (destruct pc; try discriminate; injection H as <- <- <- <-; cbn; lia).
  - match type of H with context [if ?b then _ else _] => destruct b end; injection H as <- <- <- <-; cbn; lia.
  - destruct pc; try discriminate. destruct todo as [|[] todo]; try discriminate. injection H as <- <- <- <-; cbn; lia.
  - destruct pc; try discriminate. destruct todo as [|[] todo]; try discriminate. injection H as <- <- <- <-; cbn; lia.
  - destruct pc; try discriminate. destruct (pool s); injection H as <- <- <- <-; cbn; lia.
  - destruct pc; try discriminate. destruct todo0; try discriminate. injection H as <- <- <- <-; cbn; lia.
Qed.

Lemma tsec_len : forall q s q' s' es k, tsec q s = Some (Some q', s', es) -> tready k q s -> slen q' s' < slen q s.
Proof.
  intros q s q' s' es k H R. destruct q; cbn [tready] in R; try contradiction; unfold tsec in H.
  - destruct R as (_ & E). rewrite E in H. destruct (queue s); [destruct (terminated s)|]; try discriminate; injection H as <- <- <-; cbn; lia.
  - destruct R as (_ & E & _). rewrite E in H. destruct (terminated s); try discriminate; injection H as <- <- <-; cbn; lia.
  - destruct R as (_ & E & _). rewrite E in H. destruct (queue s); try discriminate; injection H as <- <- <-; cbn; lia.
  - destruct R as (_ & E & _). rewrite E in H. injection H as <- <- <-; cbn; lia.
  - destruct (nth_error (pending s) n) eqn:En; injection H as <- <- <-; cbn [slen pending set_active]; [|lia].
    assert (n < List.length (pending s)) by (apply nth_error_Some; congruence). lia.
  - injection H as <- <- <-; cbn; lia.
  - destruct R as (_ & o & E). rewrite E in H. destruct (List.length (pool s) <? POOL); injection H as <- <- <-; cbn; lia.
  - destruct R as (_ & _ & o & E). rewrite E in H. injection H as <- <- <-; cbn; lia.
Qed.

Lemma move_inside : forall ch fw fw' es t k q, finv fw -> fstep ch fw = Some (fw', es) -> of_thread t ch -> f_sect fw t = Some (k, q) ->
  f_held fw' k = None \/ exists q', f_sect fw' t = Some (k, q') /\ slen q' (S_ fw') < slen q (S_ fw).
Proof.
  intros ch fw fw' es t k q V H O F. unfold LogLockModel.fstep in H. destruct (crashed (S_ fw)); [discriminate|].
  assert (D : q = SUnlock \/ q <> SUnlock) by (destruct q; auto; right; discriminate).
  pose proof (i_sect _ V _ _ _ F) as K. destruct ch as [i|cb|]; [| |destruct t; contradiction].
  - apply of_go in O. subst t. destruct (nth_error (w_clients (f_world fw)) i) as [c|] eqn:Ec; [|discriminate]. rewrite F in H.
    destruct D as [->|D]; [injection H as <- <-; left; apply held_eq|].
    assert (H' : match csec (Client i) q c (S_ fw) with
                  | Some (c', q', s', es) => Some (next_sect (Client i) k (Some q') (mkWorld s' (upd i (fun _ => c') (w_clients (f_world fw)))) fw, es)
                  | None => None
                  end = Some (fw', es)) by (destruct q; congruence).
    clear H. destruct (csec (Client i) q c (S_ fw)) as [[[[c' q'] s'] es1]|] eqn:Eq; [|discriminate]. injection H' as <- <-.
    cbn in K. destruct K as (c1 & E1 & K). rewrite Ec in E1. injection E1 as <-. destruct K as [K|K]; [congruence|].
    right. exists q'. cbn [next_sect f_sect f_world w_sys]. rewrite sect_eq. split; auto. eapply csec_len; eauto.
  - apply of_golog in O. subst t. rewrite F in H. destruct D as [->|D]; [injection H as <- <-; left; apply held_eq|].
    cbn in K. destruct K as [K|[(o & rest & c & El & K)|K]]; [congruence| |].
    + assert (H' : match csec LogThread q c (S_ fw) with
                  | Some (c', q', s', es) => Some (next_sect LogThread k (Some q') (mkWorld (set_logt (TCall o rest c') s') (w_clients (f_world fw))) fw, es)
                  | None => None
                  end = Some (fw', es)) by (rewrite El in H; destruct q; congruence).
      clear H. destruct (csec LogThread q c (S_ fw)) as [[[[c' q'] s'] es1]|] eqn:Eq; [|discriminate]. injection H' as <- <-.
      right. exists q'. cbn [next_sect f_sect f_world w_sys]. rewrite sect_eq. split; auto. apply csec_len with (k := k) in Eq; auto.
    + assert (H' : match tsec q (S_ fw) with
                  | Some (q', s', es) => Some (next_sect LogThread k q' (mkWorld s' (w_clients (f_world fw))) fw, es)
                  | None => None
                  end = Some (fw', es)).
      { destruct (tready_logt _ _ _ K) as (_ & _ & _ & N). destruct q; try congruence; destruct (logt (S_ fw)); try congruence; edestruct N; reflexivity. }
      clear H. destruct (tsec q (S_ fw)) as [[[q' s'] es1]|] eqn:Eq; [|discriminate]. injection H' as <- <-. destruct q' as [q'|].
      * right. exists q'. cbn [next_sect f_sect f_world w_sys]. rewrite sect_eq. split; auto. eapply tsec_len; eauto.
      * left. cbn [next_sect f_held]. apply held_eq.
Qed.

Lemma move_same_lock : forall ch fw fw' es t k q k1 q1, finv fw -> fstep ch fw = Some (fw', es) -> of_thread t ch -> f_sect fw t = Some (k, q) -> f_sect fw' t = Some (k1, q1) -> k1 = k.
Proof.
  intros ch fw fw' es t k q k1 q1 V H O F G. unfold LogLockModel.fstep in H. destruct (crashed (S_ fw)); [discriminate|].
  destruct ch as [i|cb|]; [| |destruct t; contradiction].
  - apply of_go in O. subst t. destruct (nth_error (w_clients (f_world fw)) i) as [c|] eqn:Ec; [|discriminate]. rewrite F in H.
    destruct q; try (injection H as <- <-; cbn [next_sect f_sect] in G; rewrite sect_eq in G; discriminate);
      (match type of H with match ?x with _ => _ end = _ => destruct x as [[[[c' q'] s'] es1]|] end; [|discriminate]);
      injection H as <- <-; cbn [next_sect f_sect] in G; rewrite sect_eq in G; congruence.
  - apply of_golog in O. subst t. rewrite F in H.
    destruct q; try (injection H as <- <-; cbn [next_sect f_sect] in G; rewrite sect_eq in G; discriminate);
      destruct (logt (S_ fw));
      try ((match type of H with match ?x with _ => _ end = _ => destruct x as [[[[c' q'] s'] es1]|] end; [|discriminate]);
      injection H as <- <-; cbn [next_sect f_sect] in G; rewrite sect_eq in G; congruence);
      (match type of H with match ?x with _ => _ end = _ => destruct x as [[[[q'|] s'] es1]|] end; [| |discriminate]);
      injection H as <- <-; cbn [next_sect f_sect] in G; rewrite sect_eq in G; congruence.
Qed.

Lemma inside_live : forall fw t k q, finv fw -> crashed (S_ fw) = None -> f_sect fw t = Some (k, q) -> exists ch, of_thread t ch /\ fstep ch fw <> None.
Proof.
  intros fw t k q V C F. exists (own_move t). split; [destruct t; cbn; auto|]. pose proof (i_sect _ V _ _ _ F) as K. unfold LogLockModel.fstep. rewrite C. destruct t as [i|]; cbn [own_move].
  - cbn in K. destruct K as (c & E & K). rewrite E, F. destruct K as [->|K]; [discriminate|].
    pose proof (csec_live (Client i) _ _ _ _ K) as L. destruct q; try discriminate;
      match goal with |- context [csec ?a ?b ?c ?d] => destruct (csec a b c d) as [[[[? ?] ?] ?]|]; [discriminate|congruence] end.
  - rewrite F. cbn in K. destruct K as [->|[(o & rest & c & El & K)|K]]; [discriminate| |].
    + rewrite El. pose proof (csec_live LogThread _ _ _ _ K) as L. destruct q; try discriminate;
        match goal with |- context [csec ?a ?b ?c ?d] => destruct (csec a b c d) as [[[[? ?] ?] ?]|]; [discriminate|congruence] end.
    + pose proof (tsec_live _ _ _ K) as L. destruct (tready_logt _ _ _ K) as (_ & _ & _ & N).
      destruct q; try discriminate; destruct (logt (S_ fw)); try (edestruct N; reflexivity);
        match goal with |- context [tsec ?a ?b] => destruct (tsec a b) as [[[? ?] ?]|]; [discriminate|congruence] end.
Qed.

Lemma same_slen : forall t fw fw' k q, finv fw -> same t fw fw' -> f_sect fw t = Some (k, q) -> slen q (S_ fw') = slen q (S_ fw).
Proof.
  intros t fw fw' k q V (_ & _ & A) F. destruct q; try reflexivity. pose proof (i_sect _ V _ _ _ F) as K. destruct t as [i|]; cbn in K.
  - destruct K as (c & _ & [K|K]); [discriminate|contradiction].
  - destruct K as [K|[(o & rest & c & _ & K)|(-> & _)]]; [discriminate|contradiction|]. cbn. destruct (A eq_refl) as (_ & B). rewrite (B _ F). reflexivity.
Qed.
Lemma same_fdist : forall t fw fw', finv fw -> same t fw fw' -> fdist t fw' = fdist t fw.
Proof.
  intros t fw fw' V (B & _ & A). unfold fdist. rewrite B. destruct (f_sect fw t) as [[k q]|] eqn:F; [|reflexivity].
  destruct q; try reflexivity. pose proof (i_sect _ V _ _ _ F) as K. destruct t as [i|]; cbn in K.
  - destruct K as (c & _ & [K|K]); [discriminate|contradiction].
  - destruct K as [K|[(o & rest & c & _ & K)|(-> & _)]]; [discriminate|contradiction|]. cbn. destruct (A eq_refl) as (_ & X). rewrite (X _ F). reflexivity.
Qed.

Ltac fgo := repeat progress (rewrite ?fin_heap, ?fin_pool, ?fin_queue, ?fin_terminated, ?fin_unpooled, ?fin_discarded, ?fin_received, ?fin_slevel,
  ?fin_lst, ?fin_mtx, ?fin_crashed, ?fin_built, ?fin_torn, ?fin_thread).

(** ** Why a thread cannot move *)
Definition stopped (t : tid) w : Prop := forall ch, of_thread t ch -> step ch w = None.
Definition waits (t : tid) (k : lock) fw : Prop :=
  f_sect fw t = None /\
  match t with
  | Client i => exists c q, nth_error (w_clients (f_world fw)) i = Some c /\ needs c = Some (k, q)
  | LogThread => (exists q, tneeds (S_ fw) = Some (k, q)) \/ (logt (S_ fw) = TAsleep /\ k = MMessage)
  end.

Lemma cstep_fin_none : forall t c s b a, needs c = None -> cstep t c s = None -> cstep t c (fin b a s) = None.
Proof.
  intros t [pc k] s b a N H. unfold LogModel.cstep in *. cbn [c_pc c_todo needs] in *. destruct pc; try discriminate.
  - destruct k as [|[] k]; auto; try discriminate; cbn in H; fgo.
    + destruct (m_level m >? slevel s)%Z; discriminate.
    + destruct (set_category compile re (lst s l)); discriminate.
    + destruct t; discriminate.
  - fgo. destruct (mtx s); auto. destruct (no_thread s); discriminate.
  - destruct t as [i|]; [|discriminate]. destruct (logt s) eqn:E; try discriminate; try (rewrite fin_logt, E by congruence; auto).
    destruct (fin_asleep b a _ E) as [X|X]; rewrite X; auto.
  - fgo. destruct (mtx s); auto. discriminate.
  - destruct todo as [|[] fs]; discriminate.
  - destruct rest; discriminate.
Qed.

Lemma blocked : forall fw t, finv fw -> crashed (S_ fw) = None -> (forall ch, of_thread t ch -> fstep ch fw = None) ->
  stopped t (settled fw) \/ exists k t', f_held fw k = Some t' /\ waits t k fw.
Proof.
  intros fw t V C H. destruct (f_sect fw t) as [[k q]|] eqn:F.
  { exfalso. destruct (inside_live _ _ _ _ V C F) as (ch & O & N). auto. }
  destruct t as [i|].
  - specialize (H (Go i) eq_refl). unfold LogLockModel.fstep in H. rewrite C, F in H.
    destruct (nth_error (w_clients (f_world fw)) i) as [c|] eqn:Ec.
    + destruct (needs c) as [[k q]|] eqn:En.
      * unfold acquire in H. destruct (f_held fw k) as [t'|] eqn:Eh; [|discriminate]. right. exists k, t'. split; auto. split; auto. exists c, q. auto.
      * left. destruct (looks c && copying fw); [discriminate|]. destruct (cstep (Client i) c (S_ fw)) as [[[? ?] ?]|] eqn:Es; [discriminate|].
        intros ch O. destruct ch as [j|cb|]; try contradiction. cbn in O. subst j. unfold LogModel.step, settled. cbn [w_sys w_clients]. rewrite fin_crashed, C, Ec.
        rewrite cstep_fin_none; auto.
    + left. intros ch O. destruct ch as [j|cb|]; try contradiction. cbn in O. subst j. unfold LogModel.step, settled. cbn [w_sys w_clients]. rewrite fin_crashed, C, Ec. auto.
  - pose proof (H (GoLog []) I) as H0. unfold LogLockModel.fstep in H0. rewrite C, F in H0. destruct (tneeds (S_ fw)) as [[k q]|] eqn:En.
    + right. destruct (f_held fw k) as [t'|] eqn:Eh.
      * exists k, t'. split; auto. split; auto. left. eauto.
      * unfold acquire in H0. rewrite Eh in H0. destruct (logt (S_ fw)); discriminate.
    + assert (HL : forall cb, lstep cb (S_ fw) = None).
      { intros cb. specialize (H (GoLog cb) I). unfold LogLockModel.fstep in H. rewrite C, F, En in H. destruct (lstep cb (S_ fw)) as [[]|]; [discriminate|auto]. }
      assert (ST : forall cb, lstep cb (fin None (hold fw) (S_ fw)) = None -> step (GoLog cb) (settled fw) = None).
      { intros cb E. unfold LogModel.step, settled. cbn [w_sys w_clients]. rewrite fin_crashed, C, F, E. auto. }
      destruct (logt (S_ fw)) eqn:El.
      * left. intros ch O. destruct ch as [j|cb|]; try contradiction. apply ST. unfold LogModel.lstep. rewrite fin_logt, El by congruence. auto.
      * unfold tneeds in En. rewrite El in En. discriminate.
      * destruct (fin_asleep None (hold fw) _ El) as [A|A].
        -- left. intros ch O. destruct ch as [j|cb|]; try contradiction. apply ST. unfold LogModel.lstep. rewrite A. auto.
        -- right. unfold hold in A. destruct (f_held fw MMessage) as [t'|] eqn:Eh; [|cbn in A; congruence].
           exists MMessage, t'. split; auto. split; auto.
      * unfold tneeds in En. rewrite El in En. discriminate.
      * specialize (HL []). unfold LogModel.lstep in HL. rewrite El in HL. discriminate.
      * specialize (HL []). unfold LogModel.lstep in HL. rewrite El in HL. destruct rest; [discriminate|]. destruct (l_enabled _); discriminate.
      * specialize (HL []). unfold LogModel.lstep in HL. rewrite El in HL. destruct (_ >=? _)%Z; discriminate.
      * specialize (HL []). unfold LogModel.lstep in HL. rewrite El in HL. cbv zeta in HL. destruct (checkCategory _ _ _); discriminate.
      * left. intros ch O. destruct ch as [j|cb|]; try contradiction. apply ST. specialize (HL cb). unfold LogModel.lstep in *. rewrite fin_logt, El by congruence. rewrite El in HL.
        unfold tneeds in En. rewrite El in En.
        destruct (cstep LogThread c (S_ fw)) as [[[? ?] ?]|] eqn:Es.
        -- destruct (c_pc c); try discriminate. destruct (c_todo c); discriminate.
        -- rewrite (cstep_fin_none _ _ _ None (hold fw) En Es). destruct (c_pc c); auto. destruct (c_todo c); auto. discriminate.
      * specialize (HL []). unfold LogModel.lstep in HL. rewrite El in HL. destruct todo; discriminate.
      * unfold tneeds in En. rewrite El in En. discriminate.
      * specialize (HL []). unfold LogModel.lstep in HL. rewrite El in HL. discriminate.
      * specialize (HL []). unfold LogModel.lstep in HL. rewrite El in HL. discriminate.
      * left. intros ch O. destruct ch as [j|cb|]; try contradiction. apply ST. unfold LogModel.lstep. rewrite fin_logt, El by congruence. auto.
Qed.

(** ** Infinite executions *)
Section Execution.
Variables (fs : nat -> fworld) (evs : nat -> list ev) (sn g : bool) (lf : nat -> @listener RE) (progs : list (list call)) (tr : list ev).
Hypothesis X : fexecution compile rmatch fs evs.
Hypothesis R : freaches compile rmatch sn g lf progs (fs 0) tr.
Hypothesis M : forall n, modest_now (f_world (fs n)).
Hypothesis C0 : crashed (S_ (fs 0)) = None.
Hypothesis D : forall n, defined (fs n).
Hypothesis F : forall t, ffair compile rmatch t fs evs.

Lemma fx_inv : forall n, finv (fs n).
Proof.
  intros n. induction n as [|n IH]; [eapply freaches_inv; eauto|]. destruct (X n) as [(ch & S)|(S & _)]; [|congruence].
  destruct (fstep_sim _ _ _ _ _ _ IH S) as [(i & c & _ & _ & _ & _ & _ & V & _)|(V & _)]; auto.
Qed.

Lemma fx_step : forall n ch, fstep ch (fs n) = Some (fs (S n), evs n) ->
  (evs n = [] /\ settled (fs (S n)) = settled (fs n) /\ forall t, of_thread t ch -> fdist t (fs (S n)) < fdist t (fs n)) \/
  step ch (settled (fs n)) = Some (settled (fs (S n)), evs n).
Proof.
  intros n ch S. destruct (fstep_sim _ _ _ _ _ _ (fx_inv n) S) as [Q|(_ & Q)]; auto.
  exfalso. apply (D (Datatypes.S n)). eapply race_stuck; eauto.
Qed.

Definition ws n : world := settled (fs n).

Lemma fx_execution : execution compile rmatch ws evs.
Proof.
  intros n. destruct (X n) as [(ch & S)|(S & E)].
  - destruct (fx_step _ _ S) as [(E & Q & _)|Q]; [right; auto|left; eauto].
  - right. unfold ws. rewrite S. auto.
Qed.

Lemma fx_reaches : reaches compile rmatch sn g lf progs (ws 0) tr.
Proof.
  destruct R as (sched & H). destruct (frun_sim _ _ _ _ _ _ (finit_inv _) H) as (_ & Q). rewrite finit_settled in Q.
  destruct Q as [(sched' & Q)|(fw1 & sched' & i & c & _ & _ & _ & _ & _ & E)]; [exists sched'; exact Q|].
  exfalso. apply (D 0). rewrite E. reflexivity.
Qed.

Lemma settled_logt : forall n, logt (w_sys (ws n)) = logt (S_ (fs n)) \/ (logt (S_ (fs n)) = TAsleep /\ logt (w_sys (ws n)) = TCheck).
Proof.
  intros n. unfold ws, settled. cbn [w_sys]. assert (A : logt (S_ (fs n)) = TAsleep \/ logt (S_ (fs n)) <> TAsleep) by (destruct (logt (S_ (fs n))); auto; right; discriminate).
  destruct A as [A|A]; [|left; now apply fin_logt]. rewrite A. destruct (fin_asleep (f_sect (fs n) LogThread) (hold (fs n)) _ A) as [B|B]; auto.
Qed.

Lemma fx_modest : forall n, modest_now (ws n).
Proof.
  intros n. pose proof (M n) as H. unfold modest_now in *. destruct (settled_logt n) as [->|(_ & ->)]; auto.
Qed.

Lemma fx_crashed : forall n, crashed (S_ (fs n)) = None.
Proof.
  intros n. assert (E : forall k, crashed (w_sys (ws k)) = crashed (S_ (fs k))) by (intros k; unfold ws, settled; cbn [w_sys]; apply fin_crashed).
  rewrite <- E. eapply never_crashed; [exact fx_execution|exact fx_modest|]. rewrite E. exact C0.
Qed.

(** A thread between two moves of its own. *)
Definition moves (t : tid) n : Prop := exists ch, of_thread t ch /\ fstep ch (fs n) = Some (fs (S n), evs n).

Lemma not_moving : forall t n, moves t n \/ same t (fs n) (fs (S n)).
Proof.
  intros t n. destruct (X n) as [(ch & S)|(S & _)]; [|right; rewrite S; apply same_refl].
  assert (O : of_thread t ch \/ ~ of_thread t ch).
  { destruct t as [i|], ch as [j|cb|]; cbn; auto. destruct (Nat.eq_dec i j); auto. }
  destruct O as [O|O]; [left; exists ch; auto|right]. eapply same_others; eauto. apply fx_inv.
Qed.

Lemma clients_length : forall n, List.length (w_clients (f_world (fs (S n)))) = List.length (w_clients (f_world (fs n))).
Proof.
  intros n. change (w_clients (f_world (fs (S n)))) with (w_clients (ws (S n))). change (w_clients (f_world (fs n))) with (w_clients (ws n)).
  pose proof (fx_execution n) as Q. generalize dependent (ws (S n)). intros w' Q.
  destruct Q as [(ch & St)|(E & _)]; [|now rewrite E]. unfold LogModel.step in St. destruct (crashed (w_sys (ws n))); [discriminate|].
  destruct ch as [i|cb|].
  - destruct (nth_error (w_clients (ws n)) i) as [c|]; [|discriminate]. destruct (cstep (Client i) c (w_sys (ws n))) as [[[c' s'] es1]|]; [|discriminate].
    injection St as <- _. cbn. apply upd_length.
  - destruct (lstep cb (w_sys (ws n))) as [[s' es1]|]; [|discriminate]. injection St as <- _. reflexivity.
  - destruct (logt (w_sys (ws n))); try discriminate. injection St as <- _. reflexivity.
Qed.

Lemma first_move : forall t d n, (exists k, n <= k <= n + d /\ moves t k /\ same t (fs n) (fs k)) \/ same t (fs n) (fs (n + d)).
Proof.
  intros t d n. induction d as [|d IH]; [right; rewrite Nat.add_0_r; apply same_refl|]. destruct IH as [(k & L & A)|A]; [left; exists k; split; auto; lia|].
  destruct (not_moving t (n + d)) as [B|B]; [left; exists (n + d); split; [lia|auto]|]. right. rewrite Nat.add_succ_r. eapply same_trans; eauto.
Qed.

Lemma next_move : forall t n k, n <= k -> moves t k -> exists j, n <= j /\ moves t j /\ same t (fs n) (fs j).
Proof.
  intros t n k L A. destruct (first_move t (k - n) n) as [(j & B & E)|B]; [exists j; split; [lia|auto]|]. exists k. replace (n + (k - n)) with k in B by lia. auto.
Qed.

(** Whoever holds a mutex will release it. *)
Lemma inside_moves : forall t k q n, f_sect (fs n) t = Some (k, q) -> exists j, n <= j /\ moves t j /\ same t (fs n) (fs j).
Proof.
  intros t k q n S. destruct (F t n) as [(m & L & Mv)|(m & L & N)]; [eapply next_move; eauto|].
  destruct (first_move t (m - n) n) as [(j & B & E)|B]; [exists j; split; [lia|auto]|]. replace (n + (m - n)) with m in B by lia.
  exfalso. assert (Sm : f_sect (fs m) t = Some (k, q)) by (rewrite (proj1 B); auto).
  destruct (inside_live _ _ _ _ (fx_inv m) (fx_crashed m) Sm) as (ch & O & Q). apply Q. apply (N m); auto.
Qed.

Lemma will_release : forall x t k q n, slen q (S_ (fs n)) = x -> f_sect (fs n) t = Some (k, q) -> exists j, n <= j /\ f_held (fs j) k = None /\ f_sect (fs j) t = None.
Proof.
  intros x. induction x as [x IH] using lt_wf_ind. intros t k q n E S.
  destruct (inside_moves t k q n S) as (j & Lj & (ch & O & St) & Sa). assert (Sj : f_sect (fs j) t = Some (k, q)) by (rewrite (proj1 Sa); auto).
  destruct (move_inside _ _ _ _ _ _ _ (fx_inv j) St O Sj) as [H|(q' & S' & Lt)].
  - exists (Datatypes.S j). split; [lia|]. split; auto. destruct (f_sect (fs (Datatypes.S j)) t) as [[k1 q1]|] eqn:E1; auto.
    exfalso. pose proof (move_same_lock _ _ _ _ _ _ _ _ _ (fx_inv j) St O Sj E1) as ->.
    assert (A : f_held (fs (Datatypes.S j)) k = Some t) by (apply (i_held _ (fx_inv _)); eexists; eauto). congruence.
  - rewrite (same_slen _ _ _ _ _ (fx_inv n) Sa S), E in Lt. destruct (IH _ Lt t k q' (Datatypes.S j) eq_refl S') as (i & Li & H). exists i. split; [lia|auto].
Qed.

(** The coarse execution is fair. *)
Lemma fx_fair : forall t, fair compile rmatch t ws evs.
Proof.
  intros t n. remember (fdist t (fs n)) as x eqn:Ex. revert n Ex. induction x as [x IH] using lt_wf_ind. intros n Ex.
  destruct (F t n) as [(m & L & Mv)|(m & L & N)].
  - destruct (next_move t n m L Mv) as (j & Lj & (ch & O & St) & Sa). destruct (fx_step _ _ St) as [(_ & _ & Q)|Q].
    + specialize (Q t O). rewrite (same_fdist _ _ _ (fx_inv n) Sa), <- Ex in Q. destruct (IH _ Q (Datatypes.S j) eq_refl) as (k & Lk & K). exists k. split; [lia|exact K].
    + exists j. split; auto. left. exists ch. auto.
  - destruct (blocked _ _ (fx_inv m) (fx_crashed m) (N m (le_n m))) as [St|(k & t' & H & W)]; [exists m; split; auto; right; exact St|].
    destruct (proj1 (i_held _ (fx_inv m) _ _) H) as (q & Sq). destruct (will_release _ t' k q m eq_refl Sq) as (j & Lj & Hj & _).
    assert (Sa : same t (fs m) (fs j)).
    { destruct (first_move t (j - m) m) as [(i & B & (ch & O & St) & _)|B]; [|replace (m + (j - m)) with j in B by lia; auto].
      rewrite (N i) in St; [discriminate|lia|auto]. }
    destruct W as (W0 & W). destruct Sa as (A0 & A1 & A2). assert (Ft : f_sect (fs j) t = None) by congruence.
    destruct t as [i|].
    + exfalso. destruct W as (c & q0 & Ec & En). assert (O : of_thread (Client i) (Go i)) by reflexivity. pose proof (N j Lj (Go i) O) as Z. unfold LogLockModel.fstep in Z.
      rewrite fx_crashed, (A1 i eq_refl), Ec, Ft, En in Z. unfold acquire in Z. rewrite Hj in Z. discriminate.
    + pose proof (N j Lj (GoLog []) I) as Z. unfold LogLockModel.fstep in Z. rewrite fx_crashed, Ft in Z.
      assert (Y : forall q1, tneeds (S_ (fs j)) = Some (k, q1) -> False).
      { intros q1 T. rewrite T in Z. unfold acquire in Z. rewrite Hj in Z. destruct (logt (S_ (fs j))); discriminate. }
      destruct (A2 eq_refl) as (Lr & _). destruct W as [(q1 & T)|(T & ->)].
      * exfalso. apply (Y q1). unfold lrel in Lr. unfold tneeds in T |- *.
        destruct Lr as [->|[(E & _)|[(E & _)|(E & _)]]]; auto; rewrite E in T; discriminate.
      * unfold lrel in Lr. rewrite T in Lr. destruct Lr as [E|[(_ & E)|[(E & _)|(E & _)]]]; try discriminate.
        -- exists j. split; [lia|]. right. intros ch O. destruct ch as [i|cb|]; try contradiction.
           unfold LogModel.step, ws, settled. cbn [w_sys]. rewrite fin_crashed, fx_crashed. unfold hold. rewrite Hj, Ft. unfold fin. cbn [fin_m fin_l].
           unfold LogModel.lstep. rewrite E. reflexivity.
        -- exfalso. apply (Y SWait). unfold tneeds. rewrite E. reflexivity.
Qed.

(** ** The log thread *)
Lemma fine_dispatched : (forall n, terminated (S_ (fs n)) = false) -> logt (S_ (fs 0)) <> TNone ->
  forall n, exists k, n <= k /\ prefix (accepted (tr ++ shown evs n)) (ended (tr ++ shown evs k)).
Proof.
  intros T N. eapply (dispatched_all compile rmatch ws evs); [exact fx_execution|exact fx_reaches|exact fx_modest| | | |apply fx_fair].
  - unfold ws, settled. cbn [w_sys]. rewrite fin_crashed. exact C0.
  - intros n. unfold ws, settled. cbn [w_sys]. rewrite fin_terminated. apply T.
  - destruct (settled_logt 0) as [->|(_ & ->)]; auto. discriminate.
Qed.

(** ** The clients *)
Lemma fine_done : exists k, all_done (f_world (fs k)).
Proof.
  destruct (all_return compile rmatch ws evs sn g lf progs tr fx_execution fx_reaches fx_modest) with (t := total (ws 0)) (n := 0) as (k & _ & K); auto.
  - unfold ws, settled. cbn [w_sys]. rewrite fin_crashed. exact C0.
  - apply fx_fair.
  - exists k. exact K.
Qed.

Definition done_at (i n : nat) : Prop :=
  forall c, nth_error (w_clients (f_world (fs n))) i = Some c -> c_pc c = Idle /\ c_todo c = [].

Lemma done_client : forall i n, done_at i n -> done_at i (S n) /\ (f_sect (fs n) (Client i) = None -> f_sect (fs (S n)) (Client i) = None).
Proof.
  intros i n H. destruct (not_moving (Client i) n) as [(ch & O & St)|(A & B & _)].
  - destruct ch as [j|cb|]; try contradiction. cbn in O. subst j. pose proof (fx_inv n) as V.
    unfold LogLockModel.fstep in St. rewrite fx_crashed in St. destruct (nth_error (w_clients (f_world (fs n))) i) as [c|] eqn:Ec; [|discriminate].
    destruct (H c Ec) as (P & T).
    assert (En : needs c = None) by (unfold needs; rewrite P, T; reflexivity).
    destruct (f_sect (fs n) (Client i)) as [[k q]|] eqn:Es.
    + split; [|discriminate]. pose proof (i_sect _ V _ _ _ Es) as O. cbn in O. destruct O as (c1 & E1 & O). rewrite Ec in E1. injection E1 as <-.
      assert (Q : w_clients (f_world (fs (S n))) = w_clients (f_world (fs n)) \/ exists c', (c_pc c' = Idle /\ c_todo c' = []) /\ w_clients (f_world (fs (S n))) = upd i (fun _ => c') (w_clients (f_world (fs n)))).
      { destruct c as [pc todo]. cbn in P, T. subst pc todo.
        destruct q; cbn in O; try (destruct O as [O|O]; try discriminate; try contradiction; try (destruct O; discriminate); fail);
          cbn in St; injection St as St1 St2; rewrite <- St1; cbn; eauto. }
      destruct Q as [Q|(c' & Q1 & Q)]; unfold done_at; rewrite Q.
      * exact H.
      * intros c2 E2. apply nth_error_upd_eq with (f := fun _ => c') in Ec. rewrite Ec in E2. injection E2 as <-. exact Q1.
    + rewrite En in St. unfold looks in St. rewrite P in St. cbn [andb] in St. unfold LogModel.cstep in St. rewrite P, T in St. discriminate.
  - rewrite A. split; auto. unfold done_at. rewrite (B i eq_refl). exact H.
Qed.

Lemma done_later : forall i n m, n <= m -> done_at i n -> done_at i m /\ (f_sect (fs n) (Client i) = None -> f_sect (fs m) (Client i) = None).
Proof.
  intros i n m L H. induction L as [|m L (A & B)]; auto. destruct (done_client i m A) as (A' & B'). auto.
Qed.

Lemma fine_returned : exists k, all_done (f_world (fs k)) /\ forall i, f_sect (fs k) (Client i) = None.
Proof.
  destruct fine_done as (k0 & K0). set (N := List.length (w_clients (f_world (fs k0)))).
  assert (G : forall m, exists k, k0 <= k /\ forall i, i < m -> f_sect (fs k) (Client i) = None).
  { intros m. induction m as [|m (k & L & K)]; [exists k0; split; [lia|intros; lia]|].
    assert (J : exists j, k <= j /\ f_sect (fs j) (Client m) = None).
    { destruct (f_sect (fs k) (Client m)) as [[kk q]|] eqn:E; [|exists k; auto]. destruct (will_release _ _ _ _ _ eq_refl E) as (j & Lj & _ & Z). eauto. }
    destruct J as (j & Lj & J). exists j. split; [lia|]. intros i Li. destruct (Nat.eq_dec i m) as [->|Ni]; auto.
    apply (done_later i k j Lj); [apply (done_later i k0 k L); intros c; apply K0|apply K; lia]. }
  destruct (G N) as (k & L & K). exists k. split.
  - intros i c E. destruct (done_later i k0 k L) as (Dn & _); [intros c'; apply K0|]. apply Dn. exact E.
  - intros i. destruct (lt_dec i N) as [Li|Ni]; auto. destruct (f_sect (fs k) (Client i)) as [[kk q]|] eqn:E; auto.
    pose proof (i_sect _ (fx_inv k) _ _ _ E) as O. cbn in O. destruct O as (c & Ec & _). exfalso. apply Ni.
    assert (Len : List.length (w_clients (f_world (fs k))) = N).
    { clear - L X D R M C0 F. subst N. induction L as [|k L IH]; auto. rewrite <- IH. apply clients_length. }
    rewrite <- Len. apply nth_error_Some. congruence.
Qed.
End Execution.
End Fair.

(** ** Executions given by a schedule, after which nothing happens *)
Section Play.
Context {RE : Type}.
Variable compile : string -> option RE.
Variable rmatch : string -> RE -> bool.
Notation fstep := (fstep compile rmatch).

Fixpoint fplay (sched : list choice) (w : @fworld RE) (n : nat) : @fworld RE :=
  match n, sched with
  | S n', ch :: sched' => match fstep ch w with Some (w', _) => fplay sched' w' n' | None => w end
  | _, _ => w
  end.
Fixpoint fplays (sched : list choice) (w : @fworld RE) (n : nat) : list ev :=
  match sched with
  | [] => []
  | ch :: sched' =>
      match fstep ch w with
      | Some (w', es) => match n with 0 => es | S n' => fplays sched' w' n' end
      | None => []
      end
  end.

Lemma fplay_execution : forall sched w, fexecution compile rmatch (fplay sched w) (fplays sched w).
Proof.
  induction sched as [|ch sched IH]; intros w n.
  - right. destruct n; auto.
  - destruct (fstep ch w) as [[w' es]|] eqn:E.
    + destruct n as [|n].
      * left. exists ch. cbn. rewrite E. destruct sched; reflexivity.
      * specialize (IH w' n). cbn [fplay fplays]. rewrite E. exact IH.
    + right. cbn. rewrite E. destruct n; auto.
Qed.

Lemma fplay_end : forall sched w w' tr, frun compile rmatch sched w = Some (w', tr) -> forall n, List.length sched <= n -> fplay sched w n = w'.
Proof.
  induction sched as [|ch sched IH]; intros w w' tr H n L; cbn in H.
  - injection H as <- <-. destruct n; auto.
  - destruct (fstep ch w) as [[w1 e1]|] eqn:E; [|discriminate]. destruct (frun compile rmatch sched w1) as [[w2 e2]|] eqn:E2; [|discriminate].
    injection H as <- _. destruct n as [|n]; [cbn in L; lia|]. cbn [fplay]. rewrite E. eapply IH; eauto. cbn in L. lia.
Qed.

Lemma fplay_fair : forall sched w w' tr t, frun compile rmatch sched w = Some (w', tr) ->
  (forall ch, of_thread t ch -> fstep ch w' = None) -> ffair compile rmatch t (fplay sched w) (fplays sched w).
Proof.
  intros sched w w' tr t H Z n. right. exists (n + List.length sched). split; [lia|]. intros k L ch O. rewrite (fplay_end _ _ _ _ H); auto. lia.
Qed.

Fixpoint falong (P : @fworld RE -> bool) (sched : list choice) (w : @fworld RE) : bool :=
  P w && match sched with
         | [] => true
         | ch :: sched' => match fstep ch w with Some (w', _) => falong P sched' w' | None => true end
         end.
Lemma fplay_along : forall P sched w, falong P sched w = true -> forall n, P (fplay sched w n) = true.
Proof.
  intros P. induction sched as [|ch sched IH]; intros w H n; cbn in H; apply andb_true_iff in H; destruct H as (H1 & H2).
  - destruct n; auto.
  - destruct n as [|n]; auto. cbn [fplay]. destruct (fstep ch w) as [[w' es]|]; auto.
Qed.
End Play.
