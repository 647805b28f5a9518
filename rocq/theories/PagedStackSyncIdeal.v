(** * Proofs: where synchronised iterators are (C122, C123). *)

From Coq Require Import List Arith NArith ZArith Lia Bool.
From Verif Require Import Base ListFacts PagedStackModel PagedStackSpec PagedStackExec PagedStackProofs PagedStackIter
  PagedStackFrame PagedStackBlocks PagedStackMisc PagedStackSyncSpec PagedStackSync PagedStackSyncThreadsSpec PagedStackSyncIdealSpec.
Import ListNotations.
Open Scope m_scope.

Section Ideal.
Context {T : Type}.
Notation stack := (stack T).
Implicit Types (s : stack) (l : list T).

Ltac cb := cbn [page_size alloc_size pages PagedStackModel.ids next_id cur sync_count shrink_req locked
  set_locked mkS s_node s_data s_off fst snd f_page f_off ret] in *.

(** The elements and the pages. *)
Lemma nth_concat : forall ps (b : list (list T)) i q o t, Forall (fun p => length p = ps) b -> nth_error b i = Some q -> o < ps ->
  nth_error (concat b ++ t) (i * ps + o) = nth_error q o.
Proof.
  intros ps b. induction b as [|p b IH]; intros i q o t F H Ho; [destruct i; discriminate|].
  inversion F as [|? ? F1 F2]; subst. cbn [concat]. rewrite <- app_assoc. destruct i.
  - cbn in H. injection H as ->. cbn [Nat.mul Nat.add]. apply nth_error_app1. auto.
  - cbn [nth_error] in H. rewrite nth_error_app2 by (cbn; lia). rewrite <- (IH i q o t F2 H Ho). f_equal. cbn. lia.
Qed.

Lemma total : forall s l, rep s l -> clean s -> 1 <= page_size s -> forall q, nth_error (pages s) (cur s) = Some q ->
  length l = cur s * page_size s + length q /\ length q <= page_size s.
Proof.
  intros s l R C Hp q Hq. destruct (page_len s l (cur s) q R C Hp Hq) as (P1 & _).
  destruct R as (b & t & a & R1 & R2 & R3 & R4 & R5 & R6). rewrite R1, R2, nth_error_mid in Hq. injection Hq as ->.
  rewrite R6, rev_length, (shape_len (page_size s)), R2 by auto. lia.
Qed.

Lemma elem_pos : forall s l i p o, rep s l -> clean s -> 1 <= page_size s -> nth_error (pages s) i = Some p ->
  o < page_size s -> i * page_size s + o < length l -> nth_error p o = nth_error (rev l) (i * page_size s + o).
Proof.
  intros s l i p o R C Hp Hi Ho H. destruct (cur_page_nth s l R) as [q Hq]. destruct (total s l R C Hp q Hq) as [E1 E2].
  destruct R as (b & t & a & R1 & R2 & R3 & R4 & R5 & R6). rewrite R6, rev_involutive.
  rewrite R1, R2, nth_error_mid in Hq. injection Hq as ->. pose proof (sh_full _ _ _ R3) as F.
  destruct (Nat.lt_trichotomy i (cur s)) as [L|[L|L]].
  - rewrite R1, nth_error_app1 in Hi by lia. symmetry. apply nth_concat; auto.
  - subst i. rewrite R1, R2, nth_error_mid in Hi. injection Hi as ->.
    assert (LC : length (concat b) = length b * page_size s).
    { apply concat_uniform_length; auto. }
    rewrite nth_error_app2 by lia. f_equal. lia.
  - nia.
Qed.

Lemma top_elem : forall l v (m : list T), l = v :: m -> nth_error (rev l) (length m) = Some v.
Proof. intros l v m ->. cbn [rev]. rewrite <- (rev_length m) at 1. apply nth_error_mid. Qed.

Lemma in_sync_pos : forall s l i p off, rep s l -> clean s -> 1 <= page_size s -> nth_error (pages s) i = Some p ->
  (0 <= off < Z.of_nat (page_size s))%Z -> in_sync s i p off = (i * page_size s + Z.to_nat off <? length l).
Proof.
  intros s l i p off R C Hp Hi Ho. destruct (cur_page_nth s l R) as [q Hq]. destruct (total s l R C Hp q Hq) as [E1 E2].
  unfold in_sync. destruct (Nat.eqb_spec (cur s) i) as [E|E].
  - subst i. rewrite Hq in Hi. injection Hi as ->. destruct (Z.leb_spec 0 off); [|lia]. cbn [andb].
    destruct (Z.ltb_spec off (Z.of_nat (length p))); symmetry; [apply Nat.ltb_lt|apply Nat.ltb_ge]; lia.
  - destruct (Nat.ltb_spec i (cur s)); symmetry; [apply Nat.ltb_lt|apply Nat.ltb_ge]; nia.
Qed.

(** [it] is at the place [pl]. *)
Definition at_place (ps : nat) (s : stack) (it : siter) (pl : place) : Prop :=
  match pl with
  | Lost => True
  | AtEnd => torn it = false /\ s_off it = (-1)%Z
  | At p => torn it = false /\ (0 <= s_off it)%Z /\
            exists i, index_of (s_node it) (ids s) = Some i /\ p = i * ps + Z.to_nat (s_off it)
  end.

Lemma at_mkS : forall ps s n i (o : Z), index_of n (ids s) = Some i -> (0 <= o)%Z -> at_place ps s (mkS n o) (At (i * ps + Z.to_nat o)).
Proof. intros ps s n i o H Ho. cbn [at_place]; unfold torn; cbn [mkS s_node s_data s_off]. rewrite Nat.eqb_refl. split; auto. split; auto. eauto. Qed.

Lemma at_place_mono : forall ps s s' it pl more, ids s' = ids s ++ more -> at_place ps s it pl -> at_place ps s' it pl.
Proof.
  intros ps s s' it pl more E. destruct pl; cbn [at_place]; auto. intros (A & B & i & C & D). split; auto. split; auto.
  exists i. split; auto. rewrite E. apply index_of_app. auto.
Qed.

Section Use.
Variables (s : stack) (l : list T) (it : siter) (pl : place).
Hypothesis HR : rep s l.
Hypothesis HC : clean s.
Hypothesis Hps : 1 <= page_size s.
Hypothesis HI : ids_ok s.
Hypothesis Hit : iter_ok s it.
Hypothesis Hpl : at_place (page_size s) s it pl.
Hypothesis Hnl : pl <> Lost.
Hypothesis Hlk : locked s = false.

Notation L := (set_locked true s).
Notation ps := (page_size s).

Lemma use_ctx : exists i p, index_of (s_node it) (ids s) = Some i /\ (-1 <= s_off it < Z.of_nat ps)%Z /\
  (s_off it = (-1)%Z -> i = 0) /\ nth_error (pages s) i = Some p /\ torn it = false.
Proof using All.
  destruct Hit as (i & I1 & I2 & I3 & I4). destruct (page_of_node s _ i HI I1) as [p Hp]. exists i, p.
  repeat split; auto; try lia. destruct pl; cbn [at_place] in Hpl; tauto.
Qed.

Lemma unlock : set_locked false L = s.
Proof using All. destruct s; simpl in *; subst; reflexivity. Qed.

(** An exception. *)
Lemma thrown_place : l = [] -> at_place ps s (s_thrown it s) (after_throw ps pl).
Proof using All.
  intros El. destruct use_ctx as (i & p & U1 & U2 & U3 & U4 & U5).
  assert (Ec : cur s = 0) by (apply empty_cur; rewrite <- El; auto).
  destruct (cur_page_nth s l HR) as [q Hq]. destruct (ids_nth s _ q HI Hq) as (n & N1 & N2).
  unfold s_thrown. rewrite N1.
  assert (D0 : s_data it = s_node it) by (unfold torn in U5; apply negb_false_iff, Nat.eqb_eq in U5; auto).
  assert (E0 : i = 0 -> n = s_node it) by (intros ->; rewrite Ec in N1; apply index_of_nth in U1; congruence).
  destruct pl as [|k|]; [| |congruence]; cbn [at_place after_throw] in *.
  - destruct Hpl as [A B]. unfold torn; cbn [s_node s_data s_off]. rewrite D0, (E0 (U3 B)), Nat.eqb_refl. auto.
  - destruct Hpl as (A & B & j & J1 & J2). rewrite U1 in J1. injection J1 as <-.
    destruct (Nat.ltb_spec k ps) as [Hk|Hk]; [|exact Logic.I].
    assert (Ei : i = 0) by nia. cbn [at_place]; unfold torn; cbn [s_node s_data s_off]. rewrite D0, (E0 Ei), Nat.eqb_refl.
    split; auto. split; auto. exists i. split; auto.
Qed.

(** Where a use first brings the iterator. *)
Lemma synchronized :
  (l = [] /\ synchronize it L = RThrow L) \/
  (l <> [] /\ match pl with At k => k < length l | _ => ps < length l end /\ synchronize it L = ROk L (it, true)) \/
  (l <> [] /\ match pl with At k => length l <= k | _ => length l <= ps end /\
   exists n o, synchronize it L = ROk L (mkS n o, false) /\ index_of n (ids s) = Some (cur s) /\ (0 <= o)%Z /\
     (exists q, nth_error (pages s) (cur s) = Some q /\ Z.to_nat o < length q) /\
     cur s * ps + Z.to_nat o = length l - 1).
Proof using All.
  destruct use_ctx as (i & p & U1 & U2 & U3 & U4 & U5).
  assert (DE : l = [] \/ l <> []) by (destruct l; [left; auto|right; discriminate]).
  assert (MV : l <> [] -> in_sync s i p (s_off it) = false ->
    exists n o, synchronize it L = ROk L (mkS n o, false) /\ index_of n (ids s) = Some (cur s) /\ (0 <= o)%Z /\
     (exists q, nth_error (pages s) (cur s) = Some q /\ Z.to_nat o < length q) /\
     cur s * ps + Z.to_nat o = length l - 1).
  { intros Ne E. destruct (sync_move s l it i p HR HC Hps HI U1 U2 U3 U4 U5 E) as [(X & _)|(_ & q & n & Q1 & Q2 & Q3 & Q4 & Q5)]; [contradiction|].
    destruct (total s l HR HC Hps q Q1) as [T1 T2]. assert (1 <= length q) by (destruct q; [congruence|simpl; lia]).
    exists n, (Z.of_nat (length q) - 1)%Z. split; auto. split; auto. split; [lia|]. split; [exists q; split; auto; lia|]. lia. }
  destruct DE as [El|Ne].
  - left. split; auto. pose proof (sync_empty s l it i p HR HC Hps HI U1 U2 U3 U4 U5 El) as E.
    destruct (sync_move s l it i p HR HC Hps HI U1 U2 U3 U4 U5 E) as [(_ & G)|(X & _)]; [exact G|contradiction].
  - right. pose proof (sync_stay s l it i p HR HC Hps HI U1 U2 U3 U4 U5) as ST.
    destruct pl as [|k|]; [| |congruence]; cbn [at_place] in Hpl.
    + destruct Hpl as [A B]. pose proof (U3 B) as E0. subst i.
      pose proof (cur_pos s l HR Hps) as CP. unfold in_sync in ST, MV. rewrite B in ST, MV.
      destruct (Nat.eqb_spec (cur s) 0) as [Ec|Ec].
      * right. split; auto. split; [lia|]. apply MV; auto.
      * left. split; auto. split; [lia|]. apply ST. apply Nat.ltb_lt. lia.
    + destruct Hpl as (A & B & j & J1 & J2). rewrite U1 in J1. injection J1 as <-.
      rewrite (in_sync_pos s l i p (s_off it)) in ST, MV by (auto; lia). rewrite <- J2 in ST, MV.
      destruct (Nat.ltb_spec k (length l)).
      * left. auto.
      * right. auto.
Qed.

Lemma get_place : forall pl' a, use_get ps l pl = Some (pl', a) ->
  (a = AThrown /\ s_get it s = RThrow s /\ at_place ps s (s_thrown it s) pl') \/
  (exists it' v, a = AVal v /\ s_get it s = ROk s (it', v) /\ at_place ps s it' pl').
Proof using All.
  intros pl' a H. pose proof unlock as EL. destruct use_ctx as (i & p & U1 & U2 & U3 & U4 & U5).
  assert (D0 : s_data it = s_node it) by (unfold torn in U5; apply negb_false_iff, Nat.eqb_eq in U5; auto).
  unfold s_get, with_lock. rewrite Hlk. unfold bind.
  destruct synchronized as [(El & G)|[(Ne & B & G)|(Ne & B & n & o & G & N1 & N2 & (q & Q1 & Q2) & N3)]]; rewrite G.
  - left. pose proof (thrown_place El) as TP. rewrite El in H. unfold use_get in H. destruct pl; try congruence; injection H as <- <-; rewrite EL; auto.
  - right. destruct l as [|v0 l0] eqn:El; [congruence|]. rewrite <- El in *.
    destruct pl as [|k|]; [|clear Hnl|congruence]; cbn [use_get] in H.
    + rewrite El in H. unfold use_get in H. destruct (Nat.leb_spec (length (v0 :: l0)) ps); [rewrite <- El in *; lia|discriminate].
    + assert (NE : nth_error (rev l) k <> None) by (apply nth_error_Some; rewrite rev_length; auto).
      assert (H' : match nth_error (rev l) k with Some u => Some (At k, AVal u) | None => Some (top_place l, AVal v0) end = Some (pl', a)) by (rewrite El in H |- *; exact H).
      clear H. destruct (nth_error (rev l) k) as [u|] eqn:Eu; [|congruence]. injection H' as <- <-.
      pose proof Hpl as Hpl'. cbn [at_place] in Hpl'. destruct Hpl' as (A & B1 & j & J1 & J2). rewrite U1 in J1. injection J1 as <-.
      pose proof (elem_pos s l i p (Z.to_nat (s_off it)) HR HC Hps U4 ltac:(lia) ltac:(lia)) as EP. rewrite <- J2, Eu in EP.
      cb. unfold data_pos, bind, get, lift_opt. cb. rewrite D0, U1. cb. unfold deref_at, page_at, bind, get, lift_opt. cb. rewrite U4. cb.
      destruct (Z.ltb_spec (s_off it) 0); [lia|]. rewrite EP. cb. exists it, u. rewrite EL. auto.
  - right. destruct l as [|v0 l0] eqn:El; [congruence|]. rewrite <- El in *.
    assert (HH : pl' = top_place l /\ a = AVal v0).
    { destruct pl as [|k|]; [|clear Hnl|congruence].
      - rewrite El in H. unfold use_get in H. destruct (Nat.leb_spec (length (v0 :: l0)) ps); [injection H as <- <-; rewrite El; auto|rewrite <- El in *; lia].
      - assert (NE : nth_error (rev l) k = None) by (apply nth_error_None; rewrite rev_length; auto).
        assert (H' : match nth_error (rev l) k with Some u => Some (At k, AVal u) | None => Some (top_place l, AVal v0) end = Some (pl', a)) by (rewrite El in H |- *; exact H).
        rewrite NE in H'. injection H' as <- <-. auto. }
    destruct HH as [-> ->].
    assert (LE : length l = S (length l0)) by (rewrite El; reflexivity).
    destruct (total s l HR HC Hps q Q1) as [T1 T2].
    pose proof (elem_pos s l (cur s) q (Z.to_nat o) HR HC Hps Q1 ltac:(lia) ltac:(lia)) as EP. rewrite N3 in EP.
    replace (length l - 1) with (length l0) in EP by lia. rewrite (top_elem l v0 l0 El) in EP.
    cb. unfold data_pos, bind, get, lift_opt. cb. rewrite N1. cb. unfold deref_at, page_at, bind, get, lift_opt. cb. rewrite Q1. cb.
    destruct (Z.ltb_spec o 0); [lia|]. rewrite EP. cb. exists (mkS n o), v0. rewrite EL. split; auto. split; auto.
    rewrite El. cbn [top_place]. replace (length l0) with (cur s * ps + Z.to_nat o) by lia. apply at_mkS; auto.
Qed.

Lemma moved_place : forall v0 l0 n o, l = v0 :: l0 -> index_of n (ids s) = Some (cur s) -> (0 <= o)%Z ->
  cur s * ps + Z.to_nat o = length l - 1 -> at_place ps s (mkS n o) (top_place l).
Proof using All.
  intros v0 l0 n o El N1 N2 N3. rewrite El in N3 |- *. cbn [length] in N3. cbn [top_place].
  replace (length l0) with (cur s * ps + Z.to_nat o) by lia. apply at_mkS; auto.
Qed.

Lemma inc_place : forall pl' a, use_inc ps l pl = Some (pl', a) ->
  (a = AThrown /\ s_inc it s = RThrow s /\ at_place ps s (s_thrown it s) pl') \/
  (exists it', a = ADone /\ s_inc it s = ROk s it' /\ at_place ps s it' pl').
Proof using All.
  intros pl' a H. pose proof unlock as EL. destruct use_ctx as (i & p & U1 & U2 & U3 & U4 & U5).
  unfold s_inc, with_lock. rewrite Hlk. unfold bind.
  destruct synchronized as [(El & G)|[(Ne & B & G)|(Ne & B & n & o & G & N1 & N2 & (q & Q1 & Q2) & N3)]]; rewrite G.
  - left. pose proof (thrown_place El) as TP. rewrite El in H. unfold use_inc in H. destruct pl; try congruence; injection H as <- <-; rewrite EL; auto.
  - right. destruct l as [|v0 l0] eqn:El; [congruence|]. rewrite <- El in *.
    destruct pl as [|k|]; [|clear Hnl|congruence].
    + rewrite El in H. unfold use_inc in H. destruct (Nat.leb_spec (length (v0 :: l0)) ps); [rewrite <- El in *; lia|discriminate].
    + assert (H' : pl' = match k with 0 => AtEnd | S r => At r end /\ a = ADone).
      { rewrite El in H. unfold use_inc in H. rewrite <- El in H. destruct (Nat.ltb_spec k (length l)); [injection H as <- <-; auto|lia]. }
      clear H. destruct H' as [-> ->].
      pose proof Hpl as Hpl'. cbn [at_place] in Hpl'. destruct Hpl' as (A & B1 & j & J1 & J2). rewrite U1 in J1. injection J1 as <-.
      cbn [fst snd]. rewrite U5. unfold node_pos, bind, get, lift_opt. cb. rewrite U1. cb.
      unfold f_inc, page_at, bind, get, lift_opt. cb. rewrite U4. cb.
      assert (Fin : forall j (o : Z) q, nth_error (pages s) j = Some q ->
        exists n, nth_error (ids s) j = Some n /\ index_of n (ids s) = Some j) by (intros j o q Hj; apply (ids_nth s j q HI Hj)).
      destruct i as [|i'].
      * destruct (Z.ltb_spec (s_off it) 0); [lia|]. cb. unfold node_at, bind, get, lift_opt. cb.
        destruct (Fin 0 0%Z p U4) as (n & N1 & N2). rewrite N1. cb. rewrite EL. eexists. split; [reflexivity|]. split; [reflexivity|].
        destruct k as [|r].
        -- cbn [at_place]; unfold torn; cbn [mkS s_node s_data s_off]. rewrite Nat.eqb_refl. split; auto. lia.
        -- replace r with (0 * ps + Z.to_nat (s_off it - 1)) by lia. apply at_mkS; auto. lia.
      * destruct k as [|r]; [nia|].
        destruct (Z.eqb_spec (s_off it) 0) as [Z0|Z0].
        -- destruct (nth_error (pages s) i') as [q|] eqn:Hq.
           2:{ apply nth_error_None in Hq. assert (S i' < length (pages s)) by (apply nth_error_Some; congruence). lia. }
           cb. rewrite Hq. unfold ret. cb. destruct (page_len s l i' q HR HC Hps Hq) as (P1 & P2 & _).
           assert (Hic : i' < cur s).
           { destruct (cur_page_nth s l HR) as [q0 Hq0]. destruct (total s l HR HC Hps q0 Hq0). nia. }
           specialize (P2 Hic). unfold node_at, bind, get, lift_opt. cb.
           destruct (Fin i' 0%Z q Hq) as (n & N1 & N2). rewrite N1. cb. rewrite EL. eexists. split; [reflexivity|]. split; [reflexivity|].
           replace r with (i' * ps + Z.to_nat (Z.of_nat (length q) - 1)) by nia. apply at_mkS; auto. lia.
        -- destruct (Z.ltb_spec (s_off it) 0); [lia|]. cb. unfold node_at, bind, get, lift_opt. cb.
           destruct (Fin (S i') 0%Z p U4) as (n & N1 & N2). rewrite N1. cb. rewrite EL. eexists. split; [reflexivity|]. split; [reflexivity|].
           replace r with (S i' * ps + Z.to_nat (s_off it - 1)) by lia. apply at_mkS; auto. lia.
  - right. destruct l as [|v0 l0] eqn:El; [congruence|]. rewrite <- El in *.
    assert (HH : pl' = top_place l /\ a = ADone).
    { rewrite El in H. unfold use_inc in H. rewrite <- El in H. destruct pl as [|k|]; [| |congruence].
      - destruct (Nat.leb_spec (length l) ps); [injection H as <- <-; auto|lia].
      - destruct (Nat.ltb_spec k (length l)); [lia|injection H as <- <-; auto]. }
    destruct HH as [-> ->]. cb. rewrite EL. eexists. split; [reflexivity|]. split; [reflexivity|].
    apply (moved_place v0 l0); auto.
Qed.

Lemma dec_place : forall pl' a, use_dec ps (length (pages s)) l pl = Some (pl', a) ->
  (a = AThrown /\ s_dec it s = RThrow s /\ at_place ps s (s_thrown it s) pl') \/
  (exists it', a = ADone /\ s_dec it s = ROk s it' /\ at_place ps s it' pl').
Proof using All.
  intros pl' a H. pose proof unlock as EL. destruct use_ctx as (i & p & U1 & U2 & U3 & U4 & U5).
  unfold s_dec, with_lock. rewrite Hlk. unfold bind.
  destruct synchronized as [(El & G)|[(Ne & B & G)|(Ne & B & n & o & G & N1 & N2 & (q & Q1 & Q2) & N3)]]; rewrite G.
  - left. pose proof (thrown_place El) as TP. rewrite El in H. unfold use_dec in H. destruct pl; try congruence; injection H as <- <-; rewrite EL; auto.
  - right. destruct l as [|v0 l0] eqn:El; [congruence|]. rewrite <- El in *.
    cbn [fst snd]. rewrite U5. unfold node_pos, bind, get, lift_opt. cb. rewrite U1. cb.
    unfold f_dec, page_at, bind, get, lift_opt. cb. rewrite U4. cb.
    destruct (page_len s l i p HR HC Hps U4) as (P1 & P2 & P3 & P4 & P5 & P6).
    destruct (cur_page_nth s l HR) as [q Hq]. destruct (total s l HR HC Hps q Hq) as [T1 T2].
    assert (Fin : forall j q0, nth_error (pages s) j = Some q0 -> exists n, nth_error (ids s) j = Some n /\ index_of n (ids s) = Some j)
      by (intros j q0 Hj; apply (ids_nth s j q0 HI Hj)).
    destruct pl as [|k|]; [|clear Hnl|congruence].
    + assert (H' : pl' = At 0 /\ a = ADone).
      { rewrite El in H. unfold use_dec in H. rewrite <- El in H. destruct (Nat.leb_spec (length l) ps); [lia|injection H as <- <-; auto]. }
      destruct H' as [-> ->]. cbn [at_place] in Hpl. destruct Hpl as [A B1]. pose proof (U3 B1) as E0. subst i. rewrite B1.
      assert (0 < cur s) by (apply (cur_pos s l HR Hps); auto). specialize (P2 ltac:(lia)).
      destruct (Z.ltb_spec (Z.of_nat (length p)) (-1 + 1)); [lia|]. destruct (Z.eqb_spec (-1 + 1) (Z.of_nat (length p))); [lia|].
      cb. unfold node_at, bind, get, lift_opt. cb. destruct (Fin 0 p U4) as (nn & N1 & N2). rewrite N1. cb. rewrite EL.
      eexists. split; [reflexivity|]. split; [reflexivity|]. change (At 0) with (At (0 * ps + Z.to_nat (-1 + 1))). apply at_mkS; auto. lia.
    + cbn [at_place] in Hpl. destruct Hpl as (A & B1 & j & J1 & J2). rewrite U1 in J1. injection J1 as <-.
      assert (Hof : i <= cur s /\ (s_off it + 1 <= Z.of_nat (length p))%Z).
      { destruct (Nat.lt_trichotomy i (cur s)) as [X|[X|X]].
        - specialize (P2 X). lia.
        - subst i. rewrite Hq in U4. injection U4 as ->. lia.
        - nia. }
      destruct Hof as [Hic Hof]. destruct (Z.ltb_spec (Z.of_nat (length p)) (s_off it + 1)); [lia|].
      assert (QQ : k / ps = i) by (rewrite J2; rewrite Nat.mul_comm; symmetry; apply (Nat.div_unique _ _ i (Z.to_nat (s_off it))); lia).
      assert (H' : (S k < length l /\ pl' = At (S k) \/ S k = length l /\ S i < length (pages s) /\ pl' = At (S i * ps)) /\ a = ADone).
      { rewrite El in H. unfold use_dec in H. rewrite <- El in H. rewrite QQ in H. destruct (Nat.ltb_spec (S k) (length l)); [injection H as <- <-; auto|].
        destruct (Nat.eqb_spec (S k) (length l)); [|lia]. destruct (Nat.ltb_spec (S i) (length (pages s))); [injection H as <- <-; auto 6|discriminate]. }
      destruct H' as [H' ->].
      destruct (Z.eqb_spec (s_off it + 1) (Z.of_nat (length p))) as [Eo|Eo].
      * assert (Nx : S i < length (pages s) /\ pl' = At (S i * ps)).
        { destruct H' as [[X ->]|[X [Y Z]]]; [|auto].
          destruct (Nat.eq_dec i (cur s)) as [Ei|Ei]; [assert (q = p) by congruence; subst q; rewrite Ei in J2; lia|].
          specialize (P2 ltac:(lia)). split; [pose proof (cur_lt s l HR); lia|]. f_equal. lia. }
        destruct Nx as [Nx ->]. destruct (nth_error (pages s) (S i)) as [q2|] eqn:Hq2; [|apply nth_error_None in Hq2; lia].
        cb. rewrite Hq2. unfold ret. cb. unfold node_at, bind, get, lift_opt. cb.
        destruct (Fin (S i) q2 Hq2) as (nn & N1 & N2). rewrite N1. cb. rewrite EL.
        eexists. split; [reflexivity|]. split; [reflexivity|]. replace (S i * ps) with (S i * ps + Z.to_nat 0) by lia. apply at_mkS; auto. lia.
      * assert (Nx : pl' = At (S k)).
        { destruct H' as [[X ->]|[X [Y Z]]]; [auto|].
          exfalso. destruct (Nat.eq_dec i (cur s)) as [Ei|Ei]; [assert (q = p) by congruence; subst q; rewrite Ei in J2; lia|].
          specialize (P2 ltac:(lia)). nia. }
        subst pl'. cb. unfold node_at, bind, get, lift_opt. cb. destruct (Fin i p U4) as (nn & N1 & N2). rewrite N1. cb. rewrite EL.
        eexists. split; [reflexivity|]. split; [reflexivity|].
        replace (S k) with (i * ps + Z.to_nat (s_off it + 1)) by lia. apply at_mkS; auto. lia.
  - right. destruct l as [|v0 l0] eqn:El; [congruence|]. rewrite <- El in *.
    assert (HH : pl' = top_place l /\ a = ADone).
    { rewrite El in H. unfold use_dec in H. rewrite <- El in H. destruct pl as [|k|]; [| |congruence].
      - destruct (Nat.leb_spec (length l) ps); [injection H as <- <-; auto|lia].
      - destruct (Nat.ltb_spec (S k) (length l)); [lia|]. destruct (Nat.eqb_spec (S k) (length l)); [lia|]. injection H as <- <-; auto. }
    destruct HH as [-> ->]. cb. rewrite EL. eexists. split; [reflexivity|]. split; [reflexivity|].
    apply (moved_place v0 l0); auto.
Qed.

(** The uses that have a place to go are outside the hazards. *)
Lemma get_no_hazard : forall pl' a, use_get ps l pl = Some (pl', a) -> is_sync_end s it = true -> length l <= ps.
Proof using All.
  intros pl' a H E. destruct use_ctx as (i & p & U1 & U2 & U3 & U4 & U5).
  apply (is_end_iff s l it i p HR HC Hps HI U1 U2 U3 U4 U5) in E.
  destruct pl as [|k|]; [| |congruence]; cbn [at_place] in Hpl; [|destruct Hpl as (_ & X & _); lia].
  destruct l as [|v0 l0]; [cbn; lia|]. unfold use_get in H. destruct (Nat.leb_spec (length (v0 :: l0)) ps); [auto|discriminate].
Qed.

Lemma inc_no_hazard : forall pl' a, use_inc ps l pl = Some (pl', a) -> is_sync_end s it = true -> length l <= ps.
Proof using All.
  intros pl' a H E. destruct use_ctx as (i & p & U1 & U2 & U3 & U4 & U5).
  apply (is_end_iff s l it i p HR HC Hps HI U1 U2 U3 U4 U5) in E.
  destruct pl as [|k|]; [| |congruence]; cbn [at_place] in Hpl; [|destruct Hpl as (_ & X & _); lia].
  destruct l as [|v0 l0]; [cbn; lia|]. unfold use_inc in H. destruct (Nat.leb_spec (length (v0 :: l0)) ps); [auto|discriminate].
Qed.

Lemma dec_no_hazard : forall pl' a blocks, use_dec ps blocks l pl = Some (pl', a) -> is_sync_begin s it = true -> l <> [] ->
  S (cur s) < blocks.
Proof using All.
  intros pl' a blocks H E Ne. destruct use_ctx as (i & p & U1 & U2 & U3 & U4 & U5).
  unfold is_sync_begin in E. destruct (cur_page_nth s l HR) as [q Hq]. rewrite Hq in E.
  destruct (ids_nth s _ q HI Hq) as (n & N1 & N2). rewrite N1 in E.
  apply andb_true_iff in E. destruct E as [E E3]. apply andb_true_iff in E. destruct E as [E1 E2].
  apply Nat.eqb_eq in E1. apply Z.eqb_eq in E3.
  destruct (total s l HR HC Hps q Hq) as [T1 T2].
  assert (1 <= length q) by (destruct (page_len s l (cur s) q HR HC Hps Hq) as (_ & _ & _ & _ & P5 & _);
    specialize (P5 eq_refl Ne); destruct q; [congruence|cbn; lia]).
  destruct pl as [|k|]; [| |congruence]; cbn [at_place] in Hpl; [destruct Hpl as [_ X]; lia|].
  destruct Hpl as (A & B & j & J1 & J2). rewrite E1, N2 in J1. injection J1 as <-.
  destruct l as [|v0 l0]; [congruence|]. unfold use_dec in H.
  destruct (Nat.ltb_spec (S k) (length (v0 :: l0))); [lia|]. destruct (Nat.eqb_spec (S k) (length (v0 :: l0))); [|lia].
  assert (QQ : k / ps = cur s) by (rewrite J2; rewrite Nat.mul_comm; symmetry; apply (Nat.div_unique _ _ (cur s) (Z.to_nat (s_off it))); lia).
  rewrite QQ in H. destruct (Nat.ltb_spec (S (cur s)) blocks); [auto|discriminate].
Qed.

End Use.

(** ** The world *)

Lemma Forall2_upd : forall {A B} (P : A -> B -> Prop) m1 m2 k a b, Forall2 P m1 m2 -> P a b ->
  Forall2 P (upd k (fun _ => a) m1) (upd k (fun _ => b) m2).
Proof. intros A B P m1 m2 k a b H Hab. revert k. induction H; intros [|k]; cbn; constructor; auto. Qed.

Lemma Forall2_remove : forall {A B} (P : A -> B -> Prop) m1 m2 k, Forall2 P m1 m2 -> Forall2 P (remove_nth k m1) (remove_nth k m2).
Proof.
  intros A B P m1 m2 k H. revert k. unfold remove_nth. induction H; intros k; [destruct k; constructor|].
  destruct k as [|k]; [exact H0|]. cbn. constructor; auto. apply IHForall2.
Qed.

Lemma Forall2_nth : forall {A B} (P : A -> B -> Prop) m1 m2 k b, Forall2 P m1 m2 -> nth_error m2 k = Some b ->
  exists a, nth_error m1 k = Some a /\ P a b.
Proof.
  intros A B P m1 m2 k b H. revert k. induction H; intros [|k] E; try discriminate; cbn in *; [injection E as ->; eauto|eauto].
Qed.

Lemma Forall2_mono : forall {A B} (P Q : A -> B -> Prop) m1 m2, (forall a b, P a b -> Q a b) -> Forall2 P m1 m2 -> Forall2 Q m1 m2.
Proof. intros A B P Q m1 m2 H F. induction F; constructor; auto. Qed.

Lemma use_not_lost : forall ps (e : event T) x pl r, use_place ps e x pl = Some r -> pl <> Lost.
Proof.
  intros ps e x pl r H ->. destruct e; cbn [use_place] in H; try discriminate; unfold use_get, use_inc, use_dec in H; destruct (ss_list x); discriminate.
Qed.

Lemma istep_ok : forall debug ps pa e (w : world T) x pls x' pls' a, winv ps pa w x -> 1 <= ps ->
  Forall2 (at_place ps (w_stack w)) (w_live w) pls -> istep ps pa e x pls = Some (x', pls', a) ->
  exists w', wexec debug e w = ROk w' a /\ winv ps pa w' x' /\ Forall2 (at_place ps (w_stack w')) (w_live w') pls' /\
    hazard ps e w x = false.
Proof.
  intros debug ps pa e w x pls x' pls' a HW Hp HF HS.
  pose proof HW as (H1 & H2 & H3 & H4 & H5 & H6 & H7 & H8 & H9 & H10 & H11).
  assert (Hlk : locked (w_stack w) = false) by (destruct H1 as (? & ? & ? & ? & ? & ? & ? & ? & ?); auto).
  unfold istep in HS. destruct (sspec_step ps pa e x) as [x1|] eqn:Hs; [|discriminate].
  assert (Done : forall w1 pls1 a1, hazard ps e w x = false -> wexec debug e w = ROk w1 a1 ->
    Forall2 (at_place ps (w_stack w1)) (w_live w1) pls1 -> x' = x1 -> pls' = pls1 -> a = a1 ->
    exists w', wexec debug e w = ROk w' a /\ winv ps pa w' x' /\ Forall2 (at_place ps (w_stack w')) (w_live w') pls' /\ hazard ps e w x = false).
  { intros w1 pls1 a1 D1 D2 D3 -> -> ->. destruct (wstep debug ps pa e w x x1 HW Hp Hs D1) as (w2 & a2 & W1 & W2 & _).
    rewrite D2 in W1. injection W1 as <- <-. eauto 10. }
  assert (Use : uses_iter e = true -> exists k it pl pl', uses_nth k e = true /\ nth_error (w_live w) k = Some it /\
     use_place ps e x pl = Some (pl', a) /\ iter_ok (w_stack w) it /\ at_place ps (w_stack w) it pl /\ pl <> Lost /\ x' = x1 /\ pls' = upd k (fun _ => pl') pls).
  { intros U. assert (exists k, uses_nth k e = true /\ match nth_error pls k with
        | None => None
        | Some pl => match use_place ps e x pl with Some (pl', a) => Some (x1, upd k (fun _ => pl') pls, a) | None => None end end = Some (x', pls', a)) as (k & K1 & K2).
    { destruct e; try discriminate; exists k; cbn [uses_nth]; rewrite Nat.eqb_refl; auto. }
    destruct (nth_error pls k) as [pl|] eqn:N; [|discriminate]. destruct (use_place ps e x pl) as [[pl' a']|] eqn:UP; [|discriminate].
    injection K2 as <- <- <-. destruct (Forall2_nth _ _ _ _ _ HF N) as (it & N1 & N2).
    exists k, it, pl, pl'. split; auto. split; auto. split; auto. split; [exact (wuse _ _ _ _ _ _ HW Hp N1)|]. split; auto.
    split; [eapply use_not_lost; eauto|]. auto. }
  destruct e.
  - (* Op *)
    destruct (spec_step o (ss_list x)) as [[l' r]|] eqn:E; [|discriminate]. injection HS as <- <- <-.
    assert (D1 : hazard ps (Op o) w x = false) by reflexivity.
    destruct (wstep debug ps pa (Op o) w x x1 HW Hp Hs D1) as (w2 & a2 & W1 & W2 & r2 & -> & R2).
    rewrite E in R2. injection R2 as _ <-.
    exists w2. split; auto. split; auto. split; auto.
    cbn [wexec] in W1. unfold on_stack in W1. destruct (exec debug o (w_stack w)) as [s1 r1| |] eqn:E1; try discriminate. injection W1 as <- <-.
    cbn [w_stack w_live]. destruct (exec_ids debug o (w_stack w) s1 r1 E1 H5) as (_ & I2 & _).
    destruct (w_live w) as [|it0 lv] eqn:LV; [inversion HF; constructor|].
    destruct I2 as [more Hm]; [right; rewrite H6; cbn [length]; lia|].
    eapply Forall2_mono; [|exact HF]. intros. eapply at_place_mono; eauto.
  - (* SyncBegin *)
    injection HS as <- <- <-.
    destruct (cur_page_nth _ _ H1) as [q Hq]. destruct (ids_nth _ _ _ H5 Hq) as (nd & N1 & N2).
    assert (E : sync_begin (w_stack w) =
      ROk (set_locked false (set_sync (sync_count (w_stack w) + 1) (set_locked true (w_stack w))))
          (mkS nd (Z.of_nat (length q) - 1))).
    { unfold sync_begin. apply noexcept_ok. unfold with_lock. rewrite Hlk. unfold bind, get, cur_page, page_at, lift_opt.
      unfold bind, get. cb. rewrite Hq. unfold ret, node_at, bind, get, lift_opt. cb. rewrite N1. reflexivity. }
    eapply Done; [reflexivity|cbn [wexec]; rewrite E; reflexivity| |reflexivity..].
    cbn [w_stack w_live]. apply Forall2_app; [exact HF|]. constructor; [|constructor].
    destruct (total _ _ H1 H2 ltac:(lia) q Hq) as [T1 T2]. rewrite H3 in *.
    destruct (ss_list x) as [|v0 l0] eqn:El.
    + cbn [length] in T1. cbn [top_place at_place]. unfold torn. cbn [mkS s_node s_data s_off]. rewrite Nat.eqb_refl. split; auto. lia.
    + cbn [length] in T1. cbn [top_place]. assert (1 <= length q).
      { destruct (page_len _ _ _ q H1 H2 ltac:(lia) Hq) as (_ & _ & _ & _ & P5 & _). specialize (P5 eq_refl ltac:(congruence)). destruct q; [congruence|cbn; lia]. }
      replace (length l0) with (cur (w_stack w) * ps + Z.to_nat (Z.of_nat (length q) - 1)) by lia. apply at_mkS; [exact N2|lia].
  - (* SyncEnd *)
    injection HS as <- <- <-.
    assert (exists q, nth_error (pages (w_stack w)) 0 = Some q) as [q Hq].
    { pose proof (cur_lt _ _ H1). destruct (pages (w_stack w)); [cbn in *; lia|cbn; eauto]. }
    destruct (ids_nth _ _ _ H5 Hq) as (nd & N1 & N2).
    assert (E : sync_end (w_stack w) =
      ROk (set_locked false (set_sync (sync_count (w_stack w) + 1) (set_locked true (w_stack w)))) (mkS nd (-1))).
    { unfold sync_end. apply noexcept_ok. unfold with_lock. rewrite Hlk. unfold bind, get, page_at, lift_opt.
      unfold bind, get. cb. rewrite Hq. unfold ret, node_at, bind, get, lift_opt. cb. rewrite N1. reflexivity. }
    eapply Done; [reflexivity|cbn [wexec]; rewrite E; reflexivity| |reflexivity..].
    cbn [w_stack w_live]. apply Forall2_app; [exact HF|]. constructor; [|constructor].
    cbn [at_place]. unfold torn. cbn [mkS s_node s_data s_off]. rewrite Nat.eqb_refl. auto.
  - (* SyncGet *)
    destruct (Use eq_refl) as (k' & it & pl & pl' & U1 & U2 & U3 & U4 & U5 & U6 & U7 & U8).
    cbn [uses_nth] in U1. apply Nat.eqb_eq in U1. subst k'. cbn [use_place] in U3.
    rewrite <- H3 in U3, U5 at 1. assert (Hp' : 1 <= page_size (w_stack w)) by lia.
    assert (Et : torn it = false) by (destruct pl; cbn [at_place] in U5; [tauto|tauto|congruence]).
    assert (D1 : hazard ps (SyncGet k) w x = false).
    { cbn [hazard]. rewrite U2, Et. destruct (is_sync_end (w_stack w) it) eqn:Ee; [|reflexivity]. cbn [andb]. apply Nat.ltb_ge.
      rewrite <- H3. exact (get_no_hazard (w_stack w) (ss_list x) it pl H1 H2 Hp' H5 U4 U5 U6 Hlk _ _ U3 Ee). }
    destruct (get_place (w_stack w) (ss_list x) it pl H1 H2 Hp' H5 U4 U5 U6 Hlk _ _ U3) as [(-> & G1 & G2)|(it' & v & -> & G1 & G2)];
      (eapply Done; [exact D1|cbn [wexec]; unfold with_iter; rewrite U2, G1; cbn [on_iter fst snd]; reflexivity| |auto|exact U8|reflexivity]);
      cbn [w_stack w_live]; apply Forall2_upd; auto; rewrite <- H3; auto.
  - (* SyncInc *)
    destruct (Use eq_refl) as (k' & it & pl & pl' & U1 & U2 & U3 & U4 & U5 & U6 & U7 & U8).
    cbn [uses_nth] in U1. apply Nat.eqb_eq in U1. subst k'. cbn [use_place] in U3.
    rewrite <- H3 in U3, U5 at 1. assert (Hp' : 1 <= page_size (w_stack w)) by lia.
    assert (Et : torn it = false) by (destruct pl; cbn [at_place] in U5; [tauto|tauto|congruence]).
    assert (D1 : hazard ps (SyncInc k) w x = false).
    { cbn [hazard]. rewrite U2, Et. destruct (is_sync_end (w_stack w) it) eqn:Ee; [|reflexivity]. cbn [andb]. apply Nat.ltb_ge.
      rewrite <- H3. exact (inc_no_hazard (w_stack w) (ss_list x) it pl H1 H2 Hp' H5 U4 U5 U6 Hlk _ _ U3 Ee). }
    destruct (inc_place (w_stack w) (ss_list x) it pl H1 H2 Hp' H5 U4 U5 U6 Hlk _ _ U3) as [(-> & G1 & G2)|(it' & -> & G1 & G2)];
      (eapply Done; [exact D1|cbn [wexec]; unfold with_iter; rewrite U2, G1; cbn [on_iter fst snd]; reflexivity| |auto|exact U8|reflexivity]);
      cbn [w_stack w_live]; apply Forall2_upd; auto; rewrite <- H3; auto.
  - (* SyncDec *)
    destruct (Use eq_refl) as (k' & it & pl & pl' & U1 & U2 & U3 & U4 & U5 & U6 & U7 & U8).
    cbn [uses_nth] in U1. apply Nat.eqb_eq in U1. subst k'. cbn [use_place] in U3.
    rewrite <- H10 in U3. rewrite <- H3 in U3, U5 at 1. assert (Hp' : 1 <= page_size (w_stack w)) by lia.
    assert (Et : torn it = false) by (destruct pl; cbn [at_place] in U5; [tauto|tauto|congruence]).
    assert (D1 : hazard ps (SyncDec k) w x = false).
    { cbn [hazard]. rewrite U2, Et. destruct (is_sync_begin (w_stack w) it) eqn:Ee; [|reflexivity]. cbn [andb].
      destruct (ss_list x) as [|v0 l0] eqn:El; [reflexivity|]. rewrite <- El in *.
      pose proof (dec_no_hazard (w_stack w) (ss_list x) it pl H1 H2 Hp' H5 U4 U5 U6 Hlk _ _ _ U3 Ee ltac:(congruence)) as B.
      pose proof (cur_pages_for _ _ H1 ltac:(lia)) as Ec. rewrite H3 in Ec.
      apply andb_false_iff. right. apply Nat.eqb_neq. lia. }
    destruct (dec_place (w_stack w) (ss_list x) it pl H1 H2 Hp' H5 U4 U5 U6 Hlk _ _ U3) as [(-> & G1 & G2)|(it' & -> & G1 & G2)];
      (eapply Done; [exact D1|cbn [wexec]; unfold with_iter; rewrite U2, G1; cbn [on_iter fst snd]; reflexivity| |auto|exact U8|reflexivity]);
      cbn [w_stack w_live]; apply Forall2_upd; auto; rewrite <- H3; auto.
  - (* SyncDestroy *)
    injection HS as <- <- <-.
    assert (D1 : hazard ps (SyncDestroy k) w x = false) by reflexivity.
    destruct (wstep debug ps pa (SyncDestroy k) w x x1 HW Hp Hs D1) as (w2 & a2 & W1 & W2 & W3). cbn [answers] in W3. subst a2.
    exists w2. split; auto. split; auto. split; auto.
    assert (Kn : k < length (w_live w)).
    { rewrite H7. clear -Hs. destruct x as [l0 n0 p0 b0]. cbn [sspec_step ss_live] in *. destruct (Nat.ltb_spec k n0); [auto|discriminate]. }
    cbn [wexec] in W1. unfold with_iter in W1. destruct (nth_error (w_live w) k); [|discriminate].
    unfold on_stack in W1. destruct (s_destroy s (w_stack w)) as [s1 u|s1|] eqn:E1; try discriminate; injection W1 as <-.
    cbn [w_stack w_live] in *.
    pose proof (Forall2_remove _ _ _ k HF) as HF'.
    destruct (remove_nth k (w_live w)) as [|it0 lv] eqn:LV; [inversion HF'; constructor|].
    assert (LL : length (w_live w) <> 1) by (pose proof (remove_nth_length k (w_live w) Kn) as X; rewrite LV in X; cbn [length] in X; lia).
    unfold s_destroy, noexcept, with_lock in E1. rewrite Hlk in E1. unfold bind, get, put in E1. cb.
    cbn [set_sync set_locked sync_count shrink_req] in E1.
    destruct (Z.eqb_spec (sync_count (w_stack w) - 1) 0) as [Z0|Z0]; [lia|]. cbn [andb] in E1. unfold ret in E1. injection E1 as <- _.
    exact HF'.
  - discriminate.
Qed.

Lemma irun_ok : forall debug ps pa es (w : world T) x pls x' pls' rs, winv ps pa w x -> 1 <= ps ->
  Forall2 (at_place ps (w_stack w)) (w_live w) pls -> irun ps pa es x pls = Some (x', pls', rs) ->
  exists w', wrun debug es w = ROk w' rs /\ winv ps pa w' x' /\ Forall2 (at_place ps (w_stack w')) (w_live w') pls' /\
    sspec_run ps pa es x = Some x'.
Proof.
  intros debug ps pa es. induction es as [|e es IH]; intros w x pls x' pls' rs HW Hp HF H; cbn [irun wrun sspec_run] in *.
  - injection H as <- <- <-. eauto.
  - destruct (istep ps pa e x pls) as [[[x1 pls1] a]|] eqn:E; [|discriminate].
    destruct (irun ps pa es x1 pls1) as [[[x2 pls2] rs2]|] eqn:E2; [|discriminate]. injection H as <- <- <-.
    destruct (istep_ok debug _ _ _ _ _ _ _ _ _ HW Hp HF E) as (w1 & W1 & W2 & W3 & _). rewrite W1.
    destruct (IH _ _ _ _ _ _ W2 Hp W3 E2) as (w2 & V1 & V2 & V3 & V4). rewrite V1. exists w2. split; auto. split; auto. split; auto.
    unfold istep in E. destruct (sspec_step ps pa e x) as [y|] eqn:Hs; [|discriminate].
    assert (y = x1); [|congruence].
    destruct e; try (injection E as <- <- <-; reflexivity); try discriminate.
    + destruct (spec_step o (ss_list x)) as [[? ?]|]; [|discriminate]. injection E as <- _ _. reflexivity.
    + destruct (nth_error pls k) as [pl|]; [|discriminate]. destruct (use_place ps (SyncGet k) x pl) as [[? ?]|]; [|discriminate]. injection E as <- _ _. reflexivity.
    + destruct (nth_error pls k) as [pl|]; [|discriminate]. destruct (use_place ps (SyncInc k) x pl) as [[? ?]|]; [|discriminate]. injection E as <- _ _. reflexivity.
    + destruct (nth_error pls k) as [pl|]; [|discriminate]. destruct (use_place ps (SyncDec k) x pl) as [[? ?]|]; [|discriminate]. injection E as <- _ _. reflexivity.
Qed.

(** Comparing. *)
Lemma eq_place : forall ps pa (w : world T) x a b pa' pb, winv ps pa w x -> 1 <= ps ->
  iter_ok (w_stack w) a -> iter_ok (w_stack w) b ->
  at_place ps (w_stack w) a pa' -> at_place ps (w_stack w) b pb -> pa' <> Lost -> pb <> Lost ->
  s_eq a b (w_stack w) = ROk (w_stack w) (place_eqb pa' pb).
Proof.
  intros ps pa w x a b pl1 pl2 HW Hp Oa Ob Ha Hb Na Nb.
  pose proof HW as (H1 & H2 & H3 & H4 & H5 & H6 & H7 & H8 & H9 & H10 & H11).
  assert (Hlk : locked (w_stack w) = false) by (destruct H1 as (? & ? & ? & ? & ? & ? & ? & ? & ?); auto).
  assert (Ta : torn a = false) by (destruct pl1; cbn [at_place] in Ha; [tauto|tauto|congruence]).
  assert (Tb : torn b = false) by (destruct pl2; cbn [at_place] in Hb; [tauto|tauto|congruence]).
  unfold torn in Ta, Tb. apply negb_false_iff, Nat.eqb_eq in Ta. apply negb_false_iff, Nat.eqb_eq in Tb.
  destruct Oa as (i & I1 & I2 & I3 & _). destruct Ob as (j & J1 & J2 & J3 & _).
  assert (EL : set_locked false (set_locked true (w_stack w)) = w_stack w) by (destruct (w_stack w); simpl in *; subst; reflexivity).
  unfold s_eq, noexcept, with_lock. rewrite Hlk, <- Ta, <- Tb.
  assert (Eq : (s_node a =? s_node b) = (i =? j)).
  { destruct (Nat.eqb_spec i j) as [->|N].
    - apply Nat.eqb_eq. apply index_of_nth in I1. apply index_of_nth in J1. congruence.
    - apply Nat.eqb_neq. intros X. rewrite X in I1. congruence. }
  rewrite Eq. assert (R : (if i =? j then (s_off a =? s_off b)%Z else false) = place_eqb pl1 pl2).
  { destruct pl1 as [|p|]; [| |congruence]; (destruct pl2 as [|q|]; [| |congruence]); cbn [at_place place_eqb] in *.
    - destruct Ha as [_ Ha], Hb as [_ Hb]. rewrite (I3 Ha), (J3 Hb), Ha, Hb. reflexivity.
    - destruct Ha as [_ Ha], Hb as (_ & Hb & _). destruct (i =? j); [apply Z.eqb_neq; lia|reflexivity].
    - destruct Hb as [_ Hb], Ha as (_ & Ha & _). destruct (i =? j); [apply Z.eqb_neq; lia|reflexivity].
    - destruct Ha as (_ & Ha & i' & A1 & A2), Hb as (_ & Hb & j' & B1 & B2). rewrite I1 in A1. rewrite J1 in B1. injection A1 as <-. injection B1 as <-.
      rewrite H3 in *. destruct (Nat.eqb_spec i j) as [->|N].
      + destruct (Z.eqb_spec (s_off a) (s_off b)); symmetry; [apply Nat.eqb_eq|apply Nat.eqb_neq]; lia.
      + symmetry. apply Nat.eqb_neq. intros X. apply N. subst p q. nia. }
  rewrite <- R. destruct (i =? j).
  - unfold ret. rewrite EL. reflexivity.
  - unfold ret. rewrite EL. reflexivity.
Qed.

Lemma Forall2_len : forall {A B} (P : A -> B -> Prop) m1 m2, Forall2 P m1 m2 -> length m1 = length m2.
Proof. intros A B P m1 m2 H. induction H; cbn; auto. Qed.

Lemma fresh_reaches : forall debug ps pa es (w : world T) x rs, 1 <= ps -> 1 <= pa -> sspec_run ps pa es (sfresh pa) = Some x ->
  wrun debug es (wfresh ps pa) = ROk w rs -> wreaches debug ps pa es w x.
Proof. intros. split; auto. split; auto. split; auto. eauto. Qed.

Lemma ideal_iterators : forall debug ps pa es x pls (rs : list (answer T)), 1 <= ps -> 1 <= pa ->
  irun ps pa es (sfresh pa) [] = Some (x, pls, rs) ->
  exists w, wrun debug es (wfresh ps pa) = ROk w rs /\ wreaches debug ps pa es w x /\ length (w_live w) = length pls /\
    forall i j p q, nth_error pls i = Some p -> nth_error pls j = Some q -> p <> Lost -> q <> Lost ->
      exists a b, nth_error (w_live w) i = Some a /\ nth_error (w_live w) j = Some b /\
        s_eq a b (w_stack w) = ROk (w_stack w) (place_eqb p q).
Proof.
  intros debug ps pa es x pls rs Hp Hpa H.
  destruct (irun_ok debug ps pa es (wfresh ps pa) (sfresh pa) [] x pls rs) as (w & W1 & W2 & W3 & W4); auto.
  { apply winv_fresh. auto. }
  { constructor. }
  exists w. split; auto. split; [eapply fresh_reaches; eauto|]. split; [eapply Forall2_len; eauto|].
  intros i j p q Hi Hj Np Nq.
  destruct (Forall2_nth _ _ _ _ _ W3 Hi) as (a & A1 & A2). destruct (Forall2_nth _ _ _ _ _ W3 Hj) as (b & B1 & B2).
  exists a, b. split; auto. split; auto. eapply eq_place; eauto; eapply wuse; eauto.
Qed.

(** The answers of the ideal world are right. *)
Lemma nth_rev_in : forall l p v, nth_error (rev l) p = Some v -> In v l.
Proof. intros l p v H. apply nth_error_In in H. now apply in_rev. Qed.

Lemma istep_sspec : forall ps pa e x pls x' pls' (a : answer T), istep ps pa e x pls = Some (x', pls', a) -> sspec_step ps pa e x = Some x'.
Proof.
  intros ps pa e x pls x1 pls1 a E. unfold istep in E. destruct (sspec_step ps pa e x) as [y|] eqn:Hs; [|discriminate]. f_equal.
  destruct e; try (injection E as <- <- <-; reflexivity); try discriminate.
  - destruct (spec_step o (ss_list x)) as [[? ?]|]; [|discriminate]. injection E as <- _ _. reflexivity.
  - destruct (nth_error pls k) as [pl|]; [|discriminate]. destruct (use_place ps (SyncGet k) x pl) as [[? ?]|]; [|discriminate]. injection E as <- _ _. reflexivity.
  - destruct (nth_error pls k) as [pl|]; [|discriminate]. destruct (use_place ps (SyncInc k) x pl) as [[? ?]|]; [|discriminate]. injection E as <- _ _. reflexivity.
  - destruct (nth_error pls k) as [pl|]; [|discriminate]. destruct (use_place ps (SyncDec k) x pl) as [[? ?]|]; [|discriminate]. injection E as <- _ _. reflexivity.
Qed.

Lemma use_right : forall ps e x pl pl' (a : answer T), use_place ps e x pl = Some (pl', a) -> right_answer e a x.
Proof.
  intros ps e x pl pl' a H. destruct e; cbn [use_place right_answer] in *; try discriminate.
  - unfold use_get in H. destruct (ss_list x) as [|v l0] eqn:El; destruct pl as [|p|]; try discriminate.
    + injection H as _ <-. auto.
    + injection H as _ <-. auto.
    + destruct (_ <=? _); [|discriminate]. injection H as _ <-. now left.
    + destruct (nth_error (rev (v :: l0)) p) eqn:E; injection H as _ <-; [eapply nth_rev_in; eauto|now left].
  - unfold use_inc in H. destruct (ss_list x) as [|v l0] eqn:El; destruct pl as [|p|]; try discriminate;
      try (injection H as _ <-; auto; discriminate).
    destruct (_ <=? _); [|discriminate]. injection H as _ <-. discriminate.
  - unfold use_dec in H. destruct (ss_list x) as [|v l0] eqn:El; destruct pl as [|p|]; try discriminate;
      try (injection H as _ <-; auto; discriminate).
    repeat match type of H with context [if ?c then _ else _] => destruct c end; try discriminate; injection H as _ <-; discriminate.
Qed.

Lemma istep_right : forall ps pa e x pls x' pls' (a : answer T), istep ps pa e x pls = Some (x', pls', a) -> right_answer e a x.
Proof.
  intros ps pa e x pls x1 pls1 a E. unfold istep in E. destruct (sspec_step ps pa e x) as [y|] eqn:Hs; [|discriminate].
  destruct e; try (injection E as <- <- <-; reflexivity); try discriminate.
  - cbn [right_answer]. destruct (spec_step o (ss_list x)) as [[? ?]|]; [|discriminate]. injection E as _ _ <-. eauto.
  - destruct (nth_error pls k) as [pl|]; [|discriminate]. destruct (use_place ps (SyncGet k) x pl) as [[? ?]|] eqn:U; [|discriminate]. injection E as _ _ <-. eapply use_right; eauto.
  - destruct (nth_error pls k) as [pl|]; [|discriminate]. destruct (use_place ps (SyncInc k) x pl) as [[? ?]|] eqn:U; [|discriminate]. injection E as _ _ <-. eapply use_right; eauto.
  - destruct (nth_error pls k) as [pl|]; [|discriminate]. destruct (use_place ps (SyncDec k) x pl) as [[? ?]|] eqn:U; [|discriminate]. injection E as _ _ <-. eapply use_right; eauto.
Qed.

(** ** The disciplined loop *)

Definition knows (pl : place) (kn : known) : Prop :=
  match kn with IsEnd => pl = AtEnd | NotEnd => exists p, pl = At p | Anywhere => pl <> Lost | HasThrown => True end.

Lemma nth_Forall2 : forall {A B} (P : A -> B -> Prop) m1 m2 k a, Forall2 P m1 m2 -> nth_error m1 k = Some a ->
  exists b, nth_error m2 k = Some b /\ P a b.
Proof.
  intros A B P m1 m2 k a H. revert k. induction H; intros [|k] E; try discriminate; cbn in *; [injection E as ->; eauto|eauto].
Qed.

Lemma Forall2_upd1 : forall {A B} (P : A -> B -> Prop) m1 m2 k a b, Forall2 P m1 m2 -> nth_error m2 k = Some b -> P a b ->
  Forall2 P (upd k (fun _ => a) m1) m2.
Proof. intros A B P m1 m2 k a b H. revert k. induction H; intros [|k] E Pab; cbn in *; try discriminate; constructor; auto. congruence. Qed.

Lemma Forall2_upd2 : forall {A B} (P : A -> B -> Prop) m1 m2 k a b, Forall2 P m1 m2 -> nth_error m1 k = Some a -> P a b ->
  Forall2 P m1 (upd k (fun _ => b) m2).
Proof. intros A B P m1 m2 k a b H. revert k. induction H; intros [|k] E Pab; cbn in *; try discriminate; constructor; auto. congruence. Qed.

Lemma top_not_lost : forall l, top_place l <> Lost.
Proof. intros [|v l0]; discriminate. Qed.

Lemma do_ok : forall ps pa e x pls st x', Forall2 knows pls st -> length pls = ss_live x ->
  allowed (Do e) st = true -> sspec_step ps pa e x = Some x' ->
  exists pls' (a : answer T), istep ps pa e x pls = Some (x', pls', a) /\ Forall2 knows pls' (learn (Do e) (Answered a) st) /\
    length pls' = ss_live x'.
Proof.
  intros ps pa e x pls st x' F LE A Hs. unfold istep. rewrite Hs.
  destruct x as [l n pend blocks]. cbn [ss_list ss_live ss_pending ss_blocks] in *.
  destruct e; cbn [allowed learn] in *; try discriminate.
  - assert (exists l' r, spec_step o l = Some (l', r) /\ ss_live x' = n) as (l' & r & E & N).
    { destruct o; cbn [sspec_step core_op] in Hs;
        try (destruct (spec_step _ l) as [[l1 r1]|] eqn:E; [|discriminate]; injection Hs as <-; cbn [ss_live]; eauto; fail); try discriminate.
      injection Hs as <-. cbn [spec_step]. destruct (n =? 0); cbn [ss_live]; eauto. }
    rewrite E. exists pls, (ARet r). split; auto. split; auto. congruence.
  - injection Hs as <-. eexists _, _. split; [reflexivity|]. split; [|rewrite app_length; cbn; lia].
    apply Forall2_app; auto. constructor; [|constructor]. cbn [knows]. apply top_not_lost.
  - injection Hs as <-. eexists _, _. split; [reflexivity|]. split; [|rewrite app_length; cbn; lia].
    apply Forall2_app; auto. constructor; [|constructor]. reflexivity.
  - destruct (nth_error st k) as [[]|] eqn:Ek; try discriminate. destruct (Forall2_nth _ _ _ _ _ F Ek) as (pl & P1 & p & ->).
    rewrite P1. cbn [use_place ss_list]. cbn [sspec_step] in Hs. destruct (k <? n); [|discriminate]. injection Hs as <-.
    unfold use_get. destruct l as [|v l0].
    + eexists _, _. split; [reflexivity|]. rewrite upd_length. split; auto. apply Forall2_upd; auto. exact Logic.I.
    + destruct (nth_error (rev (v :: l0)) p); (eexists _, _; split; [reflexivity|]; rewrite upd_length; split; auto;
        eapply Forall2_upd1; eauto; cbn [knows top_place]; eauto).
  - destruct (nth_error st k) as [[]|] eqn:Ek; try discriminate. destruct (Forall2_nth _ _ _ _ _ F Ek) as (pl & P1 & p & ->).
    rewrite P1. cbn [use_place ss_list]. cbn [sspec_step] in Hs. destruct (k <? n); [|discriminate]. injection Hs as <-.
    unfold use_inc. destruct l as [|v l0].
    + eexists _, _. split; [reflexivity|]. rewrite upd_length. split; auto. apply Forall2_upd; auto. exact Logic.I.
    + eexists _, _. split; [reflexivity|]. rewrite upd_length. split; auto. apply Forall2_upd; auto. cbn [knows top_place].
      destruct (p <? _); [destruct p|]; discriminate.
  - cbn [sspec_step] in Hs. destruct (Nat.ltb_spec k n) as [Hk|Hk]; [|discriminate]. injection Hs as <-.
    eexists _, _. split; [reflexivity|]. split; [apply Forall2_remove; auto|].
    rewrite remove_nth_length by lia. destruct (Nat.eqb_spec n 1); [destruct pend|]; cbn [andb ss_live]; lia.
Qed.

Lemma disciplined_ok : forall debug ps pa cs (w : world T) x pls st, winv ps pa w x -> 1 <= ps ->
  Forall2 (at_place ps (w_stack w)) (w_live w) pls -> Forall2 knows pls st -> disciplined ps pa debug cs w x st ->
  exists w' x' pls' rs, crun debug cs w = ROk w' rs /\ irun ps pa (events cs) x pls = Some (x', pls', answered rs) /\
    wrun debug (events cs) w = ROk w' (answered rs) /\ right_answers ps pa (events cs) (answered rs) x.
Proof.
  intros debug ps pa cs. induction cs as [|c cs IH]; intros w x pls st HW Hp HF HK HD.
  - exists w, x, pls, []. cbn. auto.
  - cbn [disciplined] in HD. destruct HD as (D1 & x1 & D2 & D3). destruct c as [e|i j].
    + change (events [Do e]) with [e] in D2. cbn [sspec_run] in D2. destruct (sspec_step ps pa e x) as [x1'|] eqn:Hs; [|discriminate]. injection D2 as ->.
      assert (LE : length pls = ss_live x).
      { rewrite <- (Forall2_len _ _ _ HF). destruct HW as (_ & _ & _ & _ & _ & _ & X & _). exact X. }
      destruct (do_ok ps pa e x pls st x1 HK LE D1 Hs) as (pls1 & a & I1 & I2 & _).
      destruct (istep_ok debug ps pa e w x pls x1 pls1 a HW Hp HF I1) as (w1 & W1 & W2 & W3 & _).
      cbn [crun cexec]. rewrite W1. specialize (D3 w1 (Answered a)). cbn [cexec] in D3. rewrite W1 in D3. specialize (D3 eq_refl).
      destruct (IH w1 x1 pls1 _ W2 Hp W3 I2 D3) as (w' & x' & pls' & rs & G1 & G2 & G3 & G4).
      rewrite G1. exists w', x', pls', (Answered a :: rs). split; auto.
      change (events (Do e :: cs)) with (e :: events cs). change (answered (Answered a :: rs)) with (a :: answered rs).
      cbn [irun wrun right_answers]. rewrite I1, G2, W1, G3, Hs. split; auto. split; auto. split; auto.
      eapply istep_right; eauto.
    + change (events [Compare i j]) with (@nil (event T)) in D2. cbn [sspec_run] in D2. injection D2 as <-.
      cbn [allowed] in D1.
      destruct (nth_error st i) as [ki|] eqn:Ei; [|destruct (nth_error st j) as [[]|]; discriminate].
      destruct (nth_error st j) as [kj|] eqn:Ej; [|destruct ki; discriminate].
      destruct (Forall2_nth _ _ _ _ _ HK Ei) as (p & P1 & P2). destruct (Forall2_nth _ _ _ _ _ HK Ej) as (q & Q1 & Q2).
      assert (KL : forall pl kn, knows pl kn -> kn <> HasThrown -> pl <> Lost).
      { intros pl [] K N; cbn [knows] in K; [subst pl; discriminate|destruct K as [? ->]; discriminate|exact K|congruence]. }
      assert (Np : p <> Lost) by (apply (KL _ _ P2); intros ->; discriminate D1).
      assert (Nq : q <> Lost) by (apply (KL _ _ Q2); intros ->; destruct ki; discriminate D1).
      destruct (Forall2_nth _ _ _ _ _ HF P1) as (a & A1 & A2). destruct (Forall2_nth _ _ _ _ _ HF Q1) as (b & B1 & B2).
      assert (EQ : cexec debug (Compare i j) w = ROk w (Compared (place_eqb p q))).
      { cbn [cexec]. rewrite A1, B1, (eq_place ps pa w x a b p q HW Hp (wuse _ _ _ _ _ _ HW Hp A1) (wuse _ _ _ _ _ _ HW Hp B1) A2 B2 Np Nq). destruct w; reflexivity. }
      cbn [crun]. rewrite EQ. specialize (D3 w _ EQ).
      assert (KK : Forall2 knows pls (learn (Compare (T:=T) i j) (Compared (place_eqb p q)) st)).
      { cbn [learn]. rewrite Ei, Ej. destruct (place_eqb p q) eqn:PE; auto. destruct ki; auto. destruct kj; auto.
        eapply Forall2_upd2; eauto. cbn [knows] in *. subst q. destruct p as [|p0|]; [discriminate|eauto|congruence]. }
      destruct (IH w x pls _ HW Hp HF KK D3) as (w' & x' & pls' & rs & G1 & G2 & G3 & G4).
      rewrite G1. exists w', x', pls', (Compared (place_eqb p q) :: rs). auto.
Qed.

Lemma disciplined_loop : forall debug ps pa (cs : list (call T)), 1 <= ps -> 1 <= pa ->
  disciplined ps pa debug cs (wfresh ps pa) (sfresh pa) [] ->
  exists w x pls rs, crun debug cs (wfresh ps pa) = ROk w rs /\ irun ps pa (events cs) (sfresh pa) [] = Some (x, pls, answered rs) /\
    wreaches debug ps pa (events cs) w x /\ right_answers ps pa (events cs) (answered rs) (sfresh pa).
Proof.
  intros debug ps pa cs Hp Hpa HD.
  destruct (disciplined_ok debug ps pa cs (wfresh ps pa) (sfresh pa) [] []) as (w & x & pls & rs & G1 & G2 & G3 & G4); auto.
  { apply winv_fresh. auto. }
  { constructor. }
  exists w, x, pls, rs. split; auto. split; auto. split; auto.
  destruct (irun_ok debug ps pa (events cs) (wfresh ps pa) (sfresh pa) [] x pls (answered rs)) as (w2 & W1 & W2 & W3 & W4); auto.
  { apply winv_fresh. auto. }
  { constructor. }
  eapply fresh_reaches; eauto.
Qed.

(** ** What a loop sees *)

Lemma irun_app : forall ps pa es1 es2 x pls x1 pls1 (rs1 : list (answer T)) x2 pls2 rs2,
  irun ps pa es1 x pls = Some (x1, pls1, rs1) -> irun ps pa es2 x1 pls1 = Some (x2, pls2, rs2) ->
  irun ps pa (es1 ++ es2) x pls = Some (x2, pls2, rs1 ++ rs2).
Proof.
  intros ps pa es1. induction es1 as [|e es1 IH]; intros es2 x pls x1 pls1 rs1 x2 pls2 rs2 H1 H2; cbn [irun app] in *.
  - injection H1 as <- <- <-. exact H2.
  - destruct (istep ps pa e x pls) as [[[x' pls'] a]|]; [|discriminate].
    destruct (irun ps pa es1 x' pls') as [[[x'' pls''] rs]|] eqn:E; [|discriminate]. injection H1 as <- <- <-.
    rewrite (IH _ _ _ _ _ _ _ _ _ E H2). reflexivity.
Qed.

Lemma values_app : forall a b : list (answer T), values (a ++ b) = values a ++ values b.
Proof. intros. unfold values. apply flat_map_app. Qed.

Lemma nth_mid : forall {A} (m1 m2 : list A) a, nth_error (m1 ++ a :: m2) (length m1) = Some a.
Proof. intros A m1 m2 a. induction m1; cbn; auto. Qed.

Lemma upd_self : forall {A} (m : list A) k a, nth_error m k = Some a -> upd k (fun _ => a) m = m.
Proof. intros A m. induction m as [|y m IH]; intros [|k] a H; cbn in *; try discriminate; auto; [congruence|f_equal; auto]. Qed.

Lemma nth_upd_self : forall {A} (m : list A) k a b, nth_error m k = Some a -> nth_error (upd k (fun _ => b) m) k = Some b.
Proof. intros A m. induction m as [|y m IH]; intros [|k] a b H; cbn in *; try discriminate; eauto. Qed.

Lemma ops_ideal : forall ps pa (base : list T) rest pls ops x, keeps_base base (ops ++ rest) (ss_list x) ->
  (exists m, ss_list x = m ++ base) ->
  exists x' (rs : list (answer T)), irun ps pa (map Op ops) x pls = Some (x', pls, rs) /\ values rs = [] /\ keeps_base base rest (ss_list x') /\
    ss_live x' = ss_live x /\ exists m, ss_list x' = m ++ base.
Proof.
  intros ps pa base rest pls ops. induction ops as [|o ops IH]; intros x H B.
  - exists x, []. cbn. auto.
  - cbn [app keeps_base] in H. destruct H as (m & r & S1 & S2 & S3).
    assert (exists x1, sspec_step ps pa (Op o) x = Some x1 /\ ss_list x1 = m ++ base /\ ss_live x1 = ss_live x) as (x1 & X1 & X2 & X3).
    { destruct x as [l n pend blocks]. cbn [ss_list ss_live] in *.
      destruct o; cbn [core_op] in S2; try discriminate; cbn [sspec_step core_op]; try (rewrite S1; eexists; split; [reflexivity|]; auto; fail).
      cbn [spec_step] in S1. injection S1 as -> _. destruct (n =? 0); eexists; (split; [reflexivity|]); auto. }
    rewrite <- X2 in S3. destruct (IH x1 S3 (ex_intro _ m X2)) as (x' & rs & G1 & G2 & G3 & G4 & G5).
    exists x', (ARet r :: rs). cbn [map irun]. unfold istep. rewrite X1, S1, G1. split; auto. split; auto. split; auto. split; auto. congruence.
Qed.

Lemma loop_ideal : forall ps pa (base : list T) k envs u d x pls, base = u ++ d -> length envs = length d ->
  keeps_base base (flat_map (fun env => fst env ++ snd env) envs) (ss_list x) -> (exists m, ss_list x = m ++ base) ->
  k < ss_live x -> nth_error pls k = Some (top_place d) ->
  exists x' pls' (rs : list (answer T)), irun ps pa (loop_events k envs) x pls = Some (x', pls', rs) /\ values rs = d /\ nth_error pls' k = Some AtEnd.
Proof.
  intros ps pa base k envs. induction envs as [|[e1 e2] envs IH]; intros u d x pls E HL HK HB Hk Hn.
  - destruct d; [|discriminate]. exists x, pls, []. cbn. auto.
  - destruct d as [|v d]; [discriminate|]. injection HL as HL. cbn [flat_map fst snd] in HK. rewrite <- app_assoc in HK.
    destruct (ops_ideal ps pa base _ pls e1 x HK HB) as (x1 & r1 & A1 & A2 & A3 & A4 & (m1 & A5)).
    assert (Get : istep ps pa (SyncGet k) x1 pls = Some (x1, pls, AVal v)).
    { unfold istep. destruct x1 as [l1 n1 p1 b1]. cbn [ss_list ss_live sspec_step] in *. destruct (Nat.ltb_spec k n1); [|lia].
      rewrite Hn. cbn [top_place use_place ss_list].
      assert (NV : nth_error (rev l1) (length d) = Some v).
      { rewrite A5, E, !rev_app_distr. cbn [rev]. rewrite <- !app_assoc. cbn [app]. rewrite <- (rev_length d). apply nth_mid. }
      assert (UG : use_get ps l1 (At (length d)) = Some (At (length d), AVal v)).
      { unfold use_get. destruct l1 as [|y l1]; [destruct (length d); discriminate|]. rewrite NV. reflexivity. }
      rewrite UG. rewrite upd_self; auto. }
    destruct (ops_ideal ps pa base _ pls e2 x1 A3 (ex_intro _ m1 A5)) as (x2 & r2 & B1 & B2 & B3 & B4 & (m2 & B5)).
    assert (Inc : istep ps pa (SyncInc k) x2 pls = Some (x2, upd k (fun _ => top_place d) pls, ADone)).
    { unfold istep. destruct x2 as [l2 n2 p2 b2]. cbn [ss_list ss_live sspec_step] in *. destruct (Nat.ltb_spec k n2); [|lia].
      rewrite Hn. cbn [top_place use_place ss_list].
      assert (Ll : length d < length l2) by (rewrite B5, E, !app_length; cbn [length]; lia).
      assert (UI : use_inc ps l2 (At (length d)) = Some (top_place d, ADone)).
      { unfold use_inc. destruct l2 as [|y l2]; [cbn in Ll; lia|]. destruct (Nat.ltb_spec (length d) (length (y :: l2))); [|lia].
        destruct d; reflexivity. }
      rewrite UI. reflexivity. }
    destruct (IH (u ++ [v]) d x2 (upd k (fun _ => top_place d) pls)) as (x' & pls' & rs & C1 & C2 & C3).
    + rewrite E, <- app_assoc. reflexivity.
    + auto.
    + exact B3.
    + exists m2. exact B5.
    + lia.
    + apply (nth_upd_self _ _ _ _ Hn).
    + exists x', pls', (r1 ++ (AVal v :: r2 ++ ADone :: rs)). split.
      * cbn [loop_events flat_map fst snd]. rewrite <- !app_assoc. eapply irun_app; [exact A1|].
        cbn [app irun]. rewrite Get. erewrite (irun_app ps pa (map Op e2)); [reflexivity|exact B1|].
        cbn [irun]. rewrite Inc. unfold loop_events in C1. cbn [app] in C1. rewrite C1. reflexivity.
      * split; auto. rewrite values_app, A2. cbn [app]. change (values (AVal v :: r2 ++ ADone :: rs)) with (v :: values (r2 ++ ADone :: rs)).
        rewrite values_app, B2. cbn [app]. change (values (ADone :: rs)) with (values rs). now rewrite C2.
Qed.

Lemma loop_sees : forall debug ps pa es (w : world T) x envs, wreaches debug ps pa es w x -> length envs = length (ss_list x) ->
  keeps_base (ss_list x) (flat_map (fun env => fst env ++ snd env) envs) (ss_list x) ->
  exists w' rs it, wrun debug (SyncBegin :: loop_events (ss_live x) envs) w = ROk w' rs /\ values rs = ss_list x /\
    nth_error (w_live w') (ss_live x) = Some it /\ is_sync_end (w_stack w') it = true.
Proof.
  intros debug ps pa es w x envs HR HL HK. pose proof (wreaches_inv _ _ _ _ _ _ HR) as HW. destruct HR as (Hp & _).
  set (pls := map (fun _ : siter => Lost) (w_live w)).
  assert (HF : Forall2 (at_place ps (w_stack w)) (w_live w) pls).
  { unfold pls. generalize (w_live w). induction l; cbn; constructor; auto. exact Logic.I. }
  assert (LE : length pls = ss_live x) by (unfold pls; rewrite map_length; destruct HW as (_ & _ & _ & _ & _ & _ & X & _); exact X).
  set (x1 := mkSS (ss_list x) (S (ss_live x)) (ss_pending x) (ss_blocks x)).
  assert (S0 : istep ps pa SyncBegin x pls = Some (x1, pls ++ [top_place (ss_list x)], ADone)) by (destruct x; reflexivity).
  destruct (loop_ideal ps pa (ss_list x) (ss_live x) envs [] (ss_list x) x1 (pls ++ [top_place (ss_list x)])) as (x' & pls' & rs & C1 & C2 & C3); auto.
  - exists []. reflexivity.
  - rewrite <- LE. apply nth_mid.
  - assert (IR : irun ps pa (SyncBegin :: loop_events (ss_live x) envs) x pls = Some (x', pls', ADone :: rs)).
    { cbn [irun]. rewrite S0, C1. reflexivity. }
    destruct (irun_ok debug _ _ _ _ _ _ _ _ _ HW Hp HF IR) as (w' & W1 & W2 & W3 & _).
    destruct (Forall2_nth _ _ _ _ _ W3 C3) as (it & I1 & I2 & I3).
    exists w', (ADone :: rs), it. split; auto. split; [exact C2|]. split; auto.
    pose proof (wuse _ _ _ _ _ _ W2 Hp I1) as (i & J1 & J2 & J3 & _). specialize (J3 I3). subst i.
    unfold is_sync_end. apply index_of_nth in J1. destruct (ids (w_stack w')) as [|n ns]; [discriminate|]. cbn in J1. injection J1 as ->.
    rewrite Nat.eqb_refl, I2, I3. reflexivity.
Qed.

End Ideal.
