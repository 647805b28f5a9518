(** * Proofs about Code and Compiler (C57 to C59). *)

From Coq Require Import ZArith String Ascii Bool List Arith Lia Permutation.
From Verif Require Import Base ListFacts CodeModel CodeSpec.
Import ListNotations.
Open Scope list_scope.

Lemma length_list : forall s, List.length (list_ascii_of_string s) = String.length s.
Proof. intros s. induction s; cbn; auto. Qed.

Lemma construct_ok : forall t z s, shorter 1000 t ->
  construct t z s = ROk (mkC (bufs s ++ [Some (list_ascii_of_string t ++ [NUL])]) (objs s)) (mkCode t z (Some (List.length (bufs s)))).
Proof. intros t z s H. unfold construct, CAP. rewrite length_list. unfold shorter in H. apply Z.ltb_lt in H. rewrite H. auto. Qed.

Lemma construct_overflow : forall t z s, ~ shorter 1000 t -> construct t z s = RBad UB.
Proof. intros t z s H. unfold construct, CAP. rewrite length_list. unfold shorter in H. destruct (Z.ltb_spec (Z.of_nat (String.length t)) 1000); auto; contradiction. Qed.

Lemma cstr_text : forall t, option_map string_of_list_ascii (cstr (list_ascii_of_string t ++ [NUL])) = Some (before_nul t).
Proof.
  intros t. induction t as [|a t IH]; auto. cbn [list_ascii_of_string app cstr before_nul]. destruct (Ascii.eqb a NUL); auto.
  destruct (cstr (list_ascii_of_string t ++ [NUL])); [|discriminate]. injection IH as <-. auto.
Qed.

Lemma toString_text : forall c p s t, c_data c = Some p -> nth_error (bufs s) p = Some (Some (list_ascii_of_string t ++ [NUL])) ->
  toString c s = ROk s (before_nul t).
Proof.
  intros c p s t D N. unfold toString. rewrite D, N. pose proof (cstr_text t) as X.
  destruct (cstr (list_ascii_of_string t ++ [NUL])); [|discriminate]. injection X as <-. auto.
Qed.

Lemma before_nul_id : forall t, no_nul t -> before_nul t = t.
Proof.
  intros t. induction t as [|a t IH]; auto. unfold no_nul in *. cbn [list_ascii_of_string In before_nul]. intros H. destruct (Ascii.eqb_spec a NUL); [subst; tauto|].
  rewrite IH; tauto.
Qed.

Lemma before_nul_length : forall t, String.length (before_nul t) <= String.length t.
Proof. intros t. induction t as [|a t IH]; cbn; auto. destruct (Ascii.eqb a NUL); cbn; lia. Qed.

Lemma before_nul_short : forall t, ~ no_nul t -> before_nul t <> t.
Proof.
  intros t H E. apply H. clear H. induction t as [|a t IH]; [intros []|]. cbn [before_nul] in E. destruct (Ascii.eqb_spec a NUL); [discriminate|].
  injection E as E. specialize (IH E). intros [->|I]; auto.
Qed.

Lemma text_trip : forall t, shorter 1000 t -> exists s, crun [CNew 0 t; CToString 0] cs0 = ROk s [before_nul t].
Proof.
  intros t H. cbn [crun cstep find cs0 objs]. rewrite construct_ok by auto. unfold put_objs, bind_obj, cs0.
  cbn [put_objs bufs objs bind_obj del app crun cstep find Nat.eqb List.length].
  rewrite (toString_text _ 0 _ t); auto. eexists. reflexivity.
Qed.

(** ** Programs without copies *)
Definition agree (s : cstate) (o : nat * code) (t : nat * option string) : Prop :=
  fst o = fst t /\
  match c_data (snd o), snd t with
  | Some p, Some x => nth_error (bufs s) p = Some (Some (list_ascii_of_string x ++ [NUL]))
  | None, None => True
  | _, _ => False
  end.

Definition cinv (s : cstate) (l : texts) : Prop :=
  Forall2 (agree s) (objs s) l /\ NoDup (map fst (objs s)) /\ NoDup (pointed s) /\
  (forall p b, nth_error (bufs s) p = Some (Some b) -> In p (pointed s)).

Lemma find_tfind : forall s o l x, Forall2 (agree s) o l ->
  match find x o, tfind x l with
  | Some c, Some t => agree s (x, c) (x, t) /\ In (x, c) o
  | None, None => True
  | _, _ => False
  end.
Proof.
  intros s o l x F. induction F as [|[y c] [y' t] o l A F IH]; cbn; auto. destruct A as (A1 & A2). cbn in A1. subst y'.
  destruct (Nat.eqb_spec x y) as [->|N].
  - split; [split; auto|auto].
  - destruct (find x o), (tfind x l); auto. destruct IH. auto.
Qed.

Lemma del_tdel : forall s o l x, Forall2 (agree s) o l -> Forall2 (agree s) (del x o) (tdel x l).
Proof.
  intros s o l x F. induction F as [|[y c] [y' t] o l A F IH]; cbn; auto. destruct A as (A1 & A2). cbn in A1. subst y'.
  destruct (x =? y); auto. constructor; auto. split; auto.
Qed.

Lemma find_none : forall x o, find x o = None -> ~ In x (map fst o) /\ del x o = o.
Proof.
  intros x o. induction o as [|[y c] o IH]; cbn; auto. destruct (Nat.eqb_spec x y) as [->|N]; [discriminate|].
  intros H. destruct (IH H) as (A & B). rewrite B. split; auto. intros [E|E]; auto.
Qed.

Lemma tdel_none : forall x l, tfind x l = None -> tdel x l = l.
Proof. intros x l. induction l as [|[y c] l IH]; cbn; auto. destruct (x =? y); [discriminate|]. intros H. rewrite IH; auto. Qed.

Lemma find_split : forall x o c, find x o = Some c -> exists a b, o = a ++ (x, c) :: b /\ del x o = a ++ b.
Proof.
  intros x o. induction o as [|[y d] o IH]; cbn; intros c H; [discriminate|]. destruct (Nat.eqb_spec x y) as [->|N].
  - injection H as <-. exists [], o. auto.
  - destruct (IH _ H) as (a & b & -> & E). rewrite E. exists ((y, d) :: a), b. auto.
Qed.

Definition pts (o : list (nat * code)) : list nat := flat_map (fun o => match c_data (snd o) with Some p => [p] | None => [] end) o.
Lemma pts_app : forall a b, pts (a ++ b) = pts a ++ pts b.
Proof. intros. apply flat_map_app. Qed.

Lemma agree_bufs : forall s s' o l, (forall p b, In p (pts o) -> nth_error (bufs s) p = Some (Some b) -> nth_error (bufs s') p = Some (Some b)) ->
  Forall2 (agree s) o l -> Forall2 (agree s') o l.
Proof.
  intros s s' o l H F. induction F as [|[y c] [y' t] o l A F IH]; constructor.
  - destruct A as (A1 & A2). split; auto. cbn in *. destruct (c_data c) as [p|], t as [t|]; auto. apply H; auto.
    cbn. left; auto.
  - apply IH. intros p b I. apply H. cbn. apply in_app_iff. auto.
Qed.

Lemma agree_lt : forall s o l p, Forall2 (agree s) o l -> In p (pts o) -> p < List.length (bufs s).
Proof.
  intros s o l p F. induction F as [|[y c] [y' t] o l A F IH]; cbn; [tauto|]. intros I. apply in_app_iff in I. destruct I as [I|I]; auto.
  destruct A as (A1 & A2). cbn in *. destruct (c_data c) as [q|]; [|contradiction]. destruct I as [->|[]]. destruct t as [t|]; [|contradiction].
  apply nth_error_Some. congruence.
Qed.

Lemma NoDup_mid : forall (A : Type) (a b : list A) x, NoDup (a ++ x :: b) -> NoDup (a ++ b) /\ ~ In x (a ++ b).
Proof. intros. apply NoDup_remove. auto. Qed.

Lemma run_ideal : forall ops s l r, no_copies ops -> texts_fit ops -> cinv s l -> ideal ops l = Some r ->
  exists s' l', crun ops s = ROk s' (map before_nul r) /\ cinv s' l'.
Proof.
  intros ops. induction ops as [|op ops IH]; intros s l r N T I H; cbn [crun].
  - cbn in H. injection H as <-. exists s, l. auto.
  - inversion N as [|? ? N1 N2]; subst. inversion T as [|? ? T1 T2]; subst.
    destruct I as (F & K & P & L).
    destruct op as [x t|x y|x y|x y|x|x]; try contradiction; cbn [ideal cstep] in *.
    + pose proof (find_tfind s (objs s) l x F) as Q. destruct (find x (objs s)) as [c|] eqn:E.
      * destruct (tfind x l) as [t'|] eqn:E2; [|contradiction]. destruct (IH s l r N2 T2) as (s' & l' & R & I'); auto.
        { split; [|split; [|split]]; auto. }
        exists s', l'. rewrite R. auto.
      * destruct (tfind x l) as [t'|] eqn:E2; [contradiction|]. rewrite construct_ok by auto.
        destruct (find_none _ _ E) as (X1 & X2).
        match goal with |- context [crun ops ?z] => destruct (IH z ((x, Some t) :: l) r N2 T2) as (s' & l' & R & I') end; auto.
        { unfold put_objs, bind_obj. cbn [bufs objs]. rewrite X2. split; [|split; [|split]]; cbn [bufs objs].
          - constructor; [split; auto; cbn; rewrite nth_error_app2, Nat.sub_diag by auto; auto|].
            eapply agree_bufs; [|exact F]. intros p b Ip Np. cbn. rewrite nth_error_app1; auto. apply nth_error_Some. congruence.
          - constructor; auto.
          - cbn. constructor; auto. intros Ip. pose proof (agree_lt _ _ _ _ F Ip). lia.
          - intros p b Hp. cbn. destruct (Nat.eq_dec p (List.length (bufs s))) as [->|Np]; auto. right.
            rewrite nth_error_app1 in Hp; [eapply L; eauto|]. 
            assert (p < List.length (bufs s ++ [Some (list_ascii_of_string t ++ [NUL])])) by (apply nth_error_Some; congruence).
            rewrite app_length in *. cbn in *. lia. }
        exists s', l'. rewrite R. auto.
    + pose proof (find_tfind s (objs s) l x F) as Q. pose proof (find_tfind s (objs s) l y F) as Q'.
      destruct (find x (objs s)) as [c|] eqn:E.
      { destruct (tfind x l) as [t'|] eqn:E2; [|contradiction]. destruct (IH s l r N2 T2) as (s' & l' & R & I'); auto.
        { split; [|split; [|split]]; auto. } exists s', l'. rewrite R. auto. }
      destruct (tfind x l) as [t'|] eqn:E2; [contradiction|].
      destruct (find y (objs s)) as [c|] eqn:E3.
      2:{ destruct (tfind y l) as [t'|] eqn:E4; [contradiction|]. destruct (IH s l r N2 T2) as (s' & l' & R & I'); auto.
        { split; [|split; [|split]]; auto. } exists s', l'. rewrite R. auto. }
      destruct (tfind y l) as [t'|] eqn:E4; [|contradiction]. destruct Q' as (A & In_).
      assert (NE : x <> y) by congruence.
      destruct (find_none _ _ E) as (X1 & X2).
      assert (X3 : bind_obj x c (bind_obj y (mkCode "" (c_line c) None) (objs s)) = (x, c) :: (y, mkCode "" (c_line c) None) :: del y (objs s)).
      { unfold bind_obj. cbn [del]. destruct (Nat.eqb_spec x y); [contradiction|]. f_equal. f_equal.
        destruct (find_split _ _ _ E3) as (a & b & Eo & Ed). rewrite Ed. rewrite Eo in X1.
        assert (Z : ~ In x (map fst (a ++ b))) by (rewrite map_app, in_app_iff in *; cbn in X1; tauto).
        clear - Z. induction (a ++ b) as [|[z d] o IHo]; cbn; auto. cbn in Z. destruct (Nat.eqb_spec x z); [exfalso; auto|]. f_equal. apply IHo. auto. }
      rewrite X3. destruct (find_split _ _ _ E3) as (a & b & Eo & Ed).
      match goal with |- context [crun ops ?z] => destruct (IH z ((x, t') :: (y, None) :: tdel y l) r N2 T2) as (s' & l' & R & I') end; auto.
      { unfold put_objs. split; [|split; [|split]]; cbn [bufs objs].
        - constructor; [destruct A; split; auto|]. constructor; [split; cbn; auto|]. apply del_tdel. exact F.
        - cbn. rewrite Ed. rewrite Eo, map_app in K, X1. cbn in K, X1. destruct (NoDup_mid _ _ _ _ K) as (K1 & K2). rewrite in_app_iff in X1. cbn in X1.
          rewrite map_app. constructor; [|constructor; auto]. intros [Z|Z]; [congruence|]. rewrite in_app_iff in Z. tauto.
        - unfold pointed in *. cbn [flat_map snd c_data app objs]. rewrite Ed. rewrite Eo in P. fold (pts (a ++ b)). fold (pts (a ++ (y, c) :: b)) in P.
          rewrite pts_app in *. cbn in P. destruct (c_data c) as [p|]; cbn [app] in *; auto.
          destruct (NoDup_mid _ _ _ _ P). constructor; auto.
        - intros p q Hp. specialize (L _ _ Hp). unfold pointed in *. cbn [flat_map snd c_data app objs]. rewrite Ed. rewrite Eo in L.
          fold (pts (a ++ b)). fold (pts (a ++ (y, c) :: b)) in L. rewrite pts_app, !in_app_iff in *. cbn in L. rewrite in_app_iff in L. tauto. }
      exists s', l'. rewrite R. auto.
    + pose proof (find_tfind s (objs s) l x F) as Q.
      destruct (find x (objs s)) as [c|] eqn:E.
      2:{ destruct (tfind x l) eqn:E2; [contradiction|]. rewrite tdel_none in H by auto. destruct (IH s l r N2 T2) as (s' & l' & R & I'); auto.
        { split; [|split; [|split]]; auto. } exists s', l'. rewrite R. auto. }
      destruct (tfind x l) as [t'|] eqn:E2; [|contradiction]. destruct Q as ((_ & A) & _). cbn in A.
      destruct (find_split _ _ _ E) as (a & b & Eo & Ed).
      assert (KD : NoDup (map fst (del x (objs s)))).
      { rewrite Ed. rewrite Eo, map_app in K. cbn in K. rewrite map_app. apply (NoDup_mid _ _ _ _ K). }
      unfold release. destruct (c_data c) as [p|] eqn:D.
      * destruct t' as [t'|]; [|contradiction]. rewrite A. 
        assert (PP : NoDup (pts (a ++ b)) /\ ~ In p (pts (a ++ b))).
        { unfold pointed in P. rewrite Eo in P. fold (pts (a ++ (x, c) :: b)) in P. rewrite pts_app in *. cbn in P. rewrite D in P. cbn in P.
          apply NoDup_mid. auto. }
        match goal with |- context [crun ops ?z] => destruct (IH z (tdel x l) r N2 T2) as (s' & l' & R & I') end; auto.
        { unfold put_objs. split; [|split; [|split]]; cbn [bufs objs]; auto.
          - apply (agree_bufs s); [|apply del_tdel; auto]. intros q d Iq Nq. cbn. rewrite nth_error_upd_neq; auto.
            intros ->. rewrite Ed in Iq. tauto.
          - unfold pointed. cbn [objs]. rewrite Ed. apply PP.
          - intros q d Hq. destruct (Nat.eq_dec q p) as [->|NE].
            + rewrite (nth_error_upd_eq _ _ _ _ A) in Hq. discriminate.
            + rewrite nth_error_upd_neq in Hq by auto. specialize (L _ _ Hq). unfold pointed in *. cbn [objs]. rewrite Ed. rewrite Eo in L.
              fold (pts (a ++ b)). fold (pts (a ++ (x, c) :: b)) in L. rewrite pts_app, in_app_iff in *. cbn in L. rewrite D in L. cbn in L. intuition congruence. }
        exists s', l'. rewrite R. auto.
      * destruct (IH (put_objs (del x (objs s)) s) (tdel x l) r N2 T2) as (s' & l' & R & I'); auto.
        { unfold put_objs. split; [|split; [|split]]; cbn [bufs objs]; auto.
          - apply del_tdel. exact F.
          - unfold pointed in *. cbn [objs]. rewrite Ed. rewrite Eo in P. fold (pts (a ++ b)). fold (pts (a ++ (x, c) :: b)) in P.
            rewrite pts_app in *. cbn in P. rewrite D in P. auto.
          - intros q d Hq. specialize (L _ _ Hq). unfold pointed in *. cbn [objs]. rewrite Ed. rewrite Eo in L.
            fold (pts (a ++ b)). fold (pts (a ++ (x, c) :: b)) in L. rewrite pts_app, in_app_iff in *. cbn in L. rewrite D in L. auto. }
        exists s', l'. rewrite R. auto.
    + pose proof (find_tfind s (objs s) l x F) as Q.
      destruct (find x (objs s)) as [c|] eqn:E.
      2:{ destruct (tfind x l) eqn:E2; [contradiction|]. destruct (IH s l r N2 T2) as (s' & l' & R & I'); auto.
        { split; [|split; [|split]]; auto. } exists s', l'. rewrite R. auto. }
      destruct (tfind x l) as [[t'|]|] eqn:E2; [|discriminate|contradiction]. destruct Q as ((_ & A) & _). cbn in A.
      destruct (c_data c) as [p|] eqn:D; [|contradiction]. rewrite (toString_text _ _ _ _ D A).
      destruct (ideal ops l) as [r'|] eqn:E3; [|discriminate]. injection H as <-.
      destruct (IH s l r' N2 T2) as (s' & l' & R & I'); auto.
      { split; [|split; [|split]]; auto. }
      exists s', l'. rewrite R. auto.
Qed.

Lemma live_in : forall s p, In p (live s) <-> exists b, nth_error (bufs s) p = Some (Some b).
Proof.
  intros s p. unfold live. rewrite filter_In, in_seq. split.
  - intros (_ & H). destruct (nth_error (bufs s) p) as [[b|]|]; try discriminate. eauto.
  - intros (b & H). rewrite H. split; auto. split; [lia|]. cbn. apply nth_error_Some. congruence.
Qed.

Lemma no_copy_safe : forall ops r, no_copies ops -> texts_fit ops -> ideal ops [] = Some r ->
  exists s, crun ops cs0 = ROk s (map before_nul r) /\ Permutation (live s) (pointed s) /\ NoDup (pointed s).
Proof.
  intros ops r N T H. destruct (run_ideal ops cs0 [] r) as (s & l & R & (F & K & P & L)); auto.
  { split; [constructor|]. split; [constructor|]. split; [constructor|]. intros [|p] b Hp; discriminate. }
  exists s. split; auto. split; auto. apply NoDup_Permutation; auto.
  - unfold live. apply NoDup_filter. apply seq_NoDup.
  - intros p. rewrite live_in. split; [intros (b & Hb); eauto|]. intros I. clear - F I.
    unfold pointed in I. induction F as [|[y c] [y' t] o l A F IH]; cbn in I; [contradiction|]. apply in_app_iff in I. destruct I as [I|I]; auto.
    destruct A as (_ & A). cbn in A. destruct (c_data c) as [q|]; [|contradiction]. destruct I as [->|[]]. destruct t; [eauto|contradiction].
Qed.

(** ** Copies *)
Lemma copy_double_free : forall t, shorter 1000 t -> crun [CNew 0 t; CCopy 1 0; CDestroy 1; CDestroy 0] cs0 = RBad UB.
Proof. intros t H. cbn [crun cstep find cs0 objs]. rewrite construct_ok by auto. reflexivity. Qed.
Lemma copy_dangling : forall t, shorter 1000 t -> crun [CNew 0 t; CCopy 1 0; CDestroy 1; CToString 0] cs0 = RBad UB.
Proof. intros t H. cbn [crun cstep find cs0 objs]. rewrite construct_ok by auto. reflexivity. Qed.
Lemma assign_leak : forall t u, shorter 1000 t -> shorter 1000 u -> exists s,
  crun [CNew 0 t; CNew 1 u; CAssign 0 1] cs0 = ROk s [] /\ In 0 (live s) /\ ~ In 0 (pointed s).
Proof.
  intros t u H H'. cbn [crun cstep find cs0 objs]. rewrite construct_ok by auto. cbn. rewrite construct_ok by auto. cbn.
  eexists. split; [reflexivity|]. cbn. split; auto. intros [E|[E|[]]]; discriminate.
Qed.
Lemma moved_from : forall t, shorter 1000 t -> crun [CNew 0 t; CMove 1 0; CToString 0] cs0 = RBad UB.
Proof. intros t H. cbn [crun cstep find cs0 objs]. rewrite construct_ok by auto. reflexivity. Qed.

(** ** Compiler *)
Lemma blank_spec : forall c, blank c = true <-> In c blanks.
Proof.
  intros c. split.
  - destruct c as [[] [] [] [] [] [] [] []]; cbv; intros H; try discriminate; tauto.
  - cbn. intros H. repeat (destruct H as [H|H]; [subst; reflexivity|]). contradiction.
Qed.
Lemma blank_false : forall c, blank c = false <-> ~ In c blanks.
Proof. intros c. rewrite <- blank_spec. destruct (blank c); split; congruence. Qed.

Lemma skip_spec : forall l, exists b, l = b ++ skip_blanks l /\ Forall (fun c => In c blanks) b /\
  match skip_blanks l with [] => True | c :: _ => blank c = false end.
Proof.
  intros l. induction l as [|c l (b & E & F & X)]; [exists []; cbn; auto|]. cbn [skip_blanks]. destruct (blank c) eqn:B.
  - exists (c :: b). cbn. rewrite <- E. split; auto. split; auto. constructor; auto. apply blank_spec; auto.
  - exists []. cbn. auto.
Qed.

Lemma token_spec : forall l, let (t, r) := token l in l = t ++ r /\ Forall (fun c => ~ In c blanks) t /\
  match r with [] => True | c :: _ => In c blanks end.
Proof.
  intros l. induction l as [|c l IH]; [cbn; auto|]. cbn [token]. destruct (blank c) eqn:B.
  - split; auto. split; auto. apply blank_spec; auto.
  - destruct (token l) as [t r]. destruct IH as (-> & F & X). split; auto. split; auto. constructor; auto. apply blank_false; auto.
Qed.

Lemma extract_token : forall l e, exists t r i', extract (mkIn l false false e) =
    (if e then match t with [] => RThrow i' | _ => ROk i' (string_of_list_ascii t) end else ROk i' (string_of_list_ascii t)) /\
  first_token l t r /\ i_left i' = r /\ i_fail i' = match t with [] => true | _ => false end.
Proof.
  intros l e. unfold extract. cbn [i_eof i_fail i_left i_exc orb].
  destruct (skip_spec l) as (b & E & F & X). pose proof (token_spec (skip_blanks l)) as T.
  destruct (token (skip_blanks l)) as [t r] eqn:K. destruct T as (T1 & T2 & T3). destruct t as [|c t].
  - exists [], []. eexists. split; [destruct e; reflexivity|]. split; [|split; reflexivity]. cbn in T1. rewrite T1 in *. 
    assert (r = []) as ->. { destruct r as [|c r]; auto. apply blank_spec in T3. congruence. }
    exists b. cbn. rewrite app_nil_r in *. auto.
  - exists (c :: t), r. eexists. split; [destruct e; reflexivity|]. split; [|split; reflexivity].
    exists b. rewrite <- T1, <- E. repeat split; auto. discriminate.
Qed.

Lemma compile_token : forall l s, exists t r, first_token l t r /\
  (shorter 1000 (string_of_list_ascii t) ->
   exists i' s' c, compile (mkIn l false false false) s = ROk (i', s') c /\ i_left i' = r /\
     toString c s' = ROk s' (before_nul (string_of_list_ascii t))) /\
  (~ shorter 1000 (string_of_list_ascii t) -> compile (mkIn l false false false) s = RBad UB).
Proof.
  intros l s. destruct (extract_token l false) as (t & r & i' & E & F & L & _). exists t, r. split; auto. unfold compile. rewrite E. split.
  - intros S. rewrite construct_ok by auto. exists i'. eexists. eexists. split; [reflexivity|]. split; auto.
    apply (toString_text _ (List.length (bufs s))); auto. cbn. rewrite nth_error_app2, Nat.sub_diag by auto. auto.
  - intros S. rewrite construct_overflow; auto.
Qed.

Lemma compile_throws : forall l s, Forall (fun c => In c blanks) l -> compile (mkIn l false false true) s = RBad Terminate.
Proof.
  intros l s F. unfold compile, extract. cbn [i_eof i_fail i_left i_exc orb].
  assert (skip_blanks l = []) as ->. { induction F as [|c l H F IH]; auto. cbn. apply blank_spec in H. rewrite H. auto. }
  reflexivity.
Qed.

Lemma compile_states : forall i s,
  ((i_eof i = true \/ i_fail i = true) -> i_exc i = false ->
     exists s' c, compile i s = ROk (mkIn (i_left i) (i_eof i) true false, s') c /\ toString c s' = ROk s' EmptyString) /\
  ((i_eof i = true \/ i_fail i = true) -> i_exc i = true -> compile i s = RBad Terminate) /\
  (i_eof i = false -> i_fail i = false -> exists t r, first_token (i_left i) t r /\ forall i' s' c, compile i s = ROk (i', s') c ->
     i_left i' = r /\ (i_eof i' = true <-> r = []) /\ (i_fail i' = true <-> t = []) /\ i_exc i' = i_exc i) /\
  (i_eof i = false -> i_fail i = false -> forall t r, first_token (i_left i) t r -> t <> [] ->
     compile (mkIn (i_left i) false false true) s =
     match compile (mkIn (i_left i) false false false) s with
     | ROk (i', s') c => ROk (mkIn (i_left i') (i_eof i') (i_fail i') true, s') c
     | x => x
     end).
Proof.
  intros [l e f x] s. cbn [i_left i_eof i_fail i_exc]. split; [|split; [|split]].
  - intros B ->. unfold compile, extract. cbn [i_left i_eof i_fail i_exc].
    assert (B' : e || f = true) by (destruct B; subst; [reflexivity|apply orb_true_r]). rewrite B'.
    rewrite construct_ok by (unfold shorter; cbn; lia). eexists. eexists. split; [reflexivity|].
    apply (toString_text _ (List.length (bufs s)) _ EmptyString); auto. cbn. rewrite nth_error_app2, Nat.sub_diag by auto. auto.
  - intros B ->. unfold compile, extract. cbn [i_left i_eof i_fail i_exc].
    assert (B' : e || f = true) by (destruct B; subst; [reflexivity|apply orb_true_r]). rewrite B'. reflexivity.
  - intros -> ->. unfold compile. destruct (extract_token l x) as (t & r & i' & E & F & L & Fl). exists t, r. split; auto.
    assert (Q : i_exc i' = x /\ (i_eof i' = true <-> r = [])).
    { unfold extract in E. cbn [i_left i_eof i_fail i_exc orb] in E. destruct (token (skip_blanks l)) as [t0 r0]. destruct t0 as [|c0 t0].
      - destruct x, t; try discriminate; injection E as <-; cbn in *; subst; split; auto; split; auto.
      - assert (E' : ROk (mkIn r0 (match r0 with [] => true | _ => false end) false x) (string_of_list_ascii (c0 :: t0)) = ROk i' (string_of_list_ascii t)).
        { destruct x; [destruct t; [discriminate|]|]; exact E. }
        injection E' as <- _. cbn in *. subst r0. split; auto. destruct r; split; intros; auto; discriminate. }
    destruct Q as (Q1 & Q2). intros j s' c H.
    assert (K : extract (mkIn l false false x) = ROk i' (string_of_list_ascii t)).
    { rewrite E in *. destruct x; auto. destruct t; auto. discriminate. }
    rewrite K in H. destruct (construct (string_of_list_ascii t) 1 s); try discriminate. injection H as <- _ _.
    repeat split; auto; try apply Q2; rewrite Fl; destruct t; auto; discriminate.
  - intros _ _ t r F N. unfold compile, extract. cbn [i_left i_eof i_fail i_exc orb].
    destruct (token (skip_blanks l)) as [t0 r0] eqn:K. destruct t0 as [|c0 t0].
    + exfalso. destruct (extract_token l false) as (t1 & r1 & i1 & E1 & F1 & L1 & Fl1). unfold extract in E1. cbn [i_left i_eof i_fail i_exc orb] in E1.
      rewrite K in E1. injection E1 as <- E1. cbn in Fl1. destruct t1; [|discriminate]. destruct F as (b & Eb & B1 & B2 & _). destruct F1 as (b1 & Eb1 & C1 & _ & _ & C3).
      rewrite (C3 eq_refl), !app_nil_r in Eb1. subst b1. destruct t as [|a t]; [congruence|]. inversion B2; subst.
      rewrite Forall_forall in C1. apply H1. apply C1. apply in_or_app. right. left. auto.
    + destruct (construct _ 1 s); reflexivity.
Qed.

Lemma first_token_unique : forall l t r t' r', first_token l t r -> first_token l t' r' -> t = t' /\ r = r'.
Proof.
  intros l t r t' r' (b & E & B & T & R & N) (b' & E' & B' & T' & R' & N').
  assert (X : b = b' /\ t ++ r = t' ++ r').
  { assert (NB : forall t r, Forall (fun c => ~ In c blanks) t -> (t = [] -> r = []) -> match t ++ r with [] => True | c :: _ => ~ In c blanks end).
    { intros [|c u] v F M; cbn; [rewrite M; auto|]. inversion F; auto. }
    pose proof (NB _ _ T N) as H. pose proof (NB _ _ T' N') as H'. rewrite E in E'. clear - B B' H H' E'.
    revert b' B' E'. induction B as [|c b Bc B IH]; intros b' B' E'.
    - destruct B' as [|c b' Bc B']; [auto|]. cbn in E'. rewrite E' in H. contradiction.
    - destruct B' as [|c' b' Bc' B']; [cbn in E'; rewrite <- E' in H'; contradiction|].
      cbn in E'. injection E' as -> E'. destruct (IH _ B' E') as (-> & ->). auto. }
  destruct X as (-> & X). clear - T T' R R' X. revert t' T' X. induction T as [|c t Tc T IH]; intros t' T' X.
  - destruct T' as [|c' t' Tc' T']; [auto|]. cbn in X. subst r. contradiction.
  - destruct T' as [|c' t' Tc' T']; [cbn in X; subst r'; contradiction|].
    cbn in X. injection X as -> X. destruct (IH _ T' X) as (-> & ->). auto.
Qed.
