(** * The command line and main. *)

From Coq Require Import ZArith String Ascii Bool List Arith Lia.
From Verif Require Import Base TextModel TextSpec TextFacts FutModel FutSpec FutProofs FutRun FutMore.
From Verif Require ItemModel ItemSpec ItemProofs.
Import ListNotations.
Open Scope string_scope.
Open Scope list_scope.

(** ** Levels *)

Definition clip (z : Z) : Z := Z.max (-2147483648) (Z.min 2147483647 z).

Lemma read_level_skip : forall b s, ItemSpec.all_blanks b -> read_level (b ++ s) = read_level s.
Proof. intros b s B. unfold read_level. now rewrite ItemProofs.skip_spaces_app by exact B. Qed.

Lemma read_level_cons : forall s c t neg r, ItemModel.skip_spaces s = String c t -> ItemModel.read_sign (String c t) = (neg, r) ->
  read_level s = Some (clip (if neg then - ItemModel.read_digits 0 r else ItemModel.read_digits 0 r)%Z).
Proof. intros s c t neg r K G. unfold read_level. rewrite K, G. reflexivity. Qed.

Lemma read_level_numeral : forall s z rest, ItemSpec.starts_with_numeral s z rest -> read_level s = Some (clip z).
Proof.
  intros s z rest (n & -> & (b & g & d & -> & B & D & N & G) & R). rewrite str_app_assoc, read_level_skip by exact B. rewrite str_app_assoc.
  destruct d as [|c d]; [contradiction|]. pose proof D as D'. inversion D' as [|? ? D1 D2]; subst.
  destruct (ItemProofs.digit_not _ D1) as (Q1 & Q2 & Q3).
  pose proof (ItemProofs.read_digits_pos _ 0%Z rest D R) as P.
  assert (P' : ItemModel.read_digits 0 (String c (d ++ rest)) = ItemSpec.positional (String c d)) by (etransitivity; [exact P|lia]).
  destruct G as [(-> & ->)|[(-> & ->)|(-> & ->)]]; cbn [String.append].
  - rewrite (read_level_cons _ c (d ++ rest) false (String c (d ++ rest))), P'; [reflexivity| |].
    + cbn [ItemModel.skip_spaces]. now rewrite Q1.
    + cbn [ItemModel.read_sign]. now rewrite Q2, Q3.
  - rewrite (read_level_cons _ "+" (String c (d ++ rest)) false (String c (d ++ rest))), P'; reflexivity.
  - rewrite (read_level_cons _ "-" (String c (d ++ rest)) true (String c (d ++ rest))), P'; reflexivity.
Qed.

Lemma skip_blank : forall s, ItemModel.skip_spaces s = "" <-> ItemSpec.all_blanks s.
Proof.
  intro s. split; intro H.
  - destruct (ItemProofs.skip_split s) as (b & Q & B). rewrite H, str_app_nil_r in Q. now subst b.
  - rewrite <- (str_app_nil_r s), ItemProofs.skip_spaces_app by exact H. reflexivity.
Qed.

Lemma read_level_none : forall s, read_level s = None <-> ItemSpec.all_blanks s.
Proof.
  intro s. rewrite <- skip_blank. unfold read_level. destruct (ItemModel.skip_spaces s) as [|c t]; [split; auto|].
  split; [|discriminate]. destruct (ItemModel.read_sign (String c t)); discriminate.
Qed.

(** Either there is a number, or 0 is read. *)
Lemma read_level_cases : forall s, ~ ItemSpec.all_blanks s ->
  (exists z rest, ItemSpec.starts_with_numeral s z rest) \/ (read_level s = Some 0%Z /\ forall z rest, ~ ItemSpec.starts_with_numeral s z rest).
Proof.
  intros s NB. destruct (ItemModel.stoll s) as [v|] eqn:ST.
  - left. apply ItemProofs.stoll_starts. rewrite ST. discriminate.
  - destruct (ItemProofs.skip_split s) as (b & Q & B).
    assert (SK : ItemModel.skip_spaces s <> "") by (intro X; apply NB; now apply skip_blank).
    destruct (ItemModel.skip_spaces s) as [|c t] eqn:K; [contradiction|].
    (* the text after the sign *)
    assert (G : exists neg r, ItemModel.read_sign (String c t) = (neg, r)) by (destruct (ItemModel.read_sign (String c t)); eauto).
    destruct G as (neg & r & G).
    destruct r as [|x r].
    + right. split; [unfold read_level; rewrite K, G; destruct neg; reflexivity|].
      intros z rest S. destruct S as (n & S1 & S2 & S3). pose proof (ItemProofs.numeral_stoll _ _ _ S2 S3) as F. rewrite <- S1 in F.
      destruct S2 as (b' & g & d & -> & B' & D & N & GG).
      (* read_sign leaves nothing, but there are digits *)
      rewrite S1, !str_app_assoc, ItemProofs.skip_spaces_app in K by exact B'.
      destruct d as [|y d]; [contradiction|]. inversion D as [|? ? D1 D2]; subst. destruct (ItemProofs.digit_not _ D1) as (Q1 & Q2 & Q3).
      destruct GG as [(-> & _)|[(-> & _)|(-> & _)]]; cbn [String.append] in K.
      * cbn [ItemModel.skip_spaces] in K. rewrite Q1 in K. injection K as <- <-. cbn [ItemModel.read_sign] in G. rewrite Q2, Q3 in G. discriminate G.
      * change (String "+" (String y (d ++ rest)) = String c t) in K. injection K as <- <-. cbn in G. discriminate G.
      * change (String "-" (String y (d ++ rest)) = String c t) in K. injection K as <- <-. cbn in G. discriminate G.
    + destruct (ItemModel.digit_of x) as [dx|] eqn:DX.
      * left. destruct (ItemProofs.spandig (String x r)) as [d rest] eqn:SP. destruct (ItemProofs.spandig_ok _ _ _ SP) as (S1 & S2 & S3).
        assert (N : d <> "").
        { intros ->. cbn in S1. subst rest. apply S3. cbn. apply ItemProofs.In_digits. eauto. }
        assert (SG : exists g, String c t = (g ++ String x r)%string /\ ((g = "" /\ neg = false) \/ (g = "+" /\ neg = false) \/ (g = "-" /\ neg = true))).
        { cbn [ItemModel.read_sign] in G. destruct (Ascii.eqb_spec c "-") as [->|N1]; [injection G as <- <-; exists "-"; tauto|].
          destruct (Ascii.eqb_spec c "+") as [->|N2]; [injection G as <- <-; exists "+"; tauto|]. injection G as <- <- <-. exists "". tauto. }
        destruct SG as (g & SG1 & SG2).
        exists (if neg then - ItemSpec.positional d else ItemSpec.positional d)%Z, rest, (b ++ g ++ d)%string.
        split; [rewrite !str_app_assoc, <- S1, <- SG1; exact Q|]. split; [|exact S3]. exists b, g, d. repeat split; auto.
        destruct SG2 as [[-> ->]|[[-> ->]|[-> ->]]]; tauto.
      * right. split.
        -- unfold read_level. rewrite K, G. cbn [ItemModel.read_digits]. rewrite DX. destruct neg; reflexivity.
        -- intros z rest S. destruct S as (n & S1 & S2 & S3).
           destruct S2 as (b' & g & d & -> & B' & D & N & GG).
           rewrite S1, !str_app_assoc, ItemProofs.skip_spaces_app in K by exact B'.
           destruct d as [|y d]; [contradiction|]. inversion D as [|? ? D1 D2]; subst. destruct (ItemProofs.digit_not _ D1) as (Q1 & Q2 & Q3).
           apply ItemProofs.In_digits in D1. destruct D1 as (v & V).
           destruct GG as [(-> & _)|[(-> & _)|(-> & _)]]; cbn [String.append] in K.
           ++ cbn [ItemModel.skip_spaces] in K. rewrite Q1 in K. injection K as <- <-. cbn [ItemModel.read_sign] in G. rewrite Q2, Q3 in G. injection G as <- <- <-. congruence.
           ++ change (String "+" (String y (d ++ rest)) = String c t) in K. injection K as <- <-. cbn in G. injection G as <- <- <-. congruence.
           ++ change (String "-" (String y (d ++ rest)) = String c t) in K. injection K as <- <-. cbn in G. injection G as <- <- <-. congruence.
Qed.

Lemma clip_small : forall z, (0 <= clip z <= 5)%Z -> clip z = z.
Proof. unfold clip. intros z H. lia. Qed.

Lemma lenient_iff : forall s n, (n <= 5)%nat -> (lenient_level s n <-> read_level s = Some (Z.of_nat n)).
Proof.
  intros s n L. split.
  - intro X. revert L. destruct X as [s0 n0 rest H|s0 H1 H2]; intro L.
    + rewrite (read_level_numeral _ _ _ H). f_equal. unfold clip. lia.
    + destruct (read_level_cases s0 H1) as [(z & r & Q)|[Q _]]; [destruct (H2 z r Q)|exact Q].
  - intro R. assert (NB : ~ ItemSpec.all_blanks s) by (intro B; apply read_level_none in B; congruence).
    destruct (read_level_cases s NB) as [(z & r & Q)|[Q1 Q2]].
    + rewrite (read_level_numeral _ _ _ Q) in R. injection R as R. assert (C := clip_small z ltac:(lia)). rewrite C in R. subst z. now apply (ll_number s n r).
    + rewrite Q1 in R. injection R as R. assert (n = 0)%nat by lia. subst n. now apply ll_junk.
Qed.

Lemma dec_numeral : forall z, ItemSpec.starts_with_numeral (dec z) z "".
Proof. intro z. exists (dec z). rewrite str_app_nil_r. split; [reflexivity|]. split; [exact (ItemProofs.decimal_numeral z)|intros []]. Qed.
Lemma decimal_lenient : forall s n, decimal_level s n -> lenient_level s n.
Proof. intros s n ->. apply (ll_number _ n ""), dec_numeral. Qed.

(** ** Options *)

Lemma byName_effect : forall o u, u_byName (effect o u) = u_byName u.
Proof. intros o u. destruct o; try reflexivity. cbn [effect]. destruct (lookup name (u_byName u)); reflexivity. Qed.
Lemma byName_effects : forall os u, u_byName (effects os u) = u_byName u.
Proof. induction os as [|o os IH]; intro u; [reflexivity|]. cbn [effects fold_left]. fold (effects os (effect o u)). rewrite IH. apply byName_effect. Qed.

Section Args.

Lemma parse_spelled : forall o a rest u, spells lenient_level o a -> valid (u_byName u) o -> parseParams (a ++ rest) u = parseParams rest (effect o u).
Proof.
  intros o a rest u S V. destruct S; try reflexivity.
  - cbn [valid] in V. apply lenient_iff in H; [|exact V]. cbn [app parseParams]. cbn [String.eqb Ascii.eqb Bool.eqb]. rewrite H.
    assert (Q : ((0 <=? Z.of_nat n)%Z && (Z.of_nat n <=? 5)%Z) = true) by (apply andb_true_iff; rewrite !Z.leb_le; lia).
    rewrite Q, Nat2Z.id. reflexivity.
  - cbn [app parseParams effect]. cbn [String.eqb Ascii.eqb Bool.eqb]. cbn [valid] in V. destruct (lookup n (u_byName u)); [reflexivity|contradiction].
Qed.

Lemma parse_prefix : forall os args, command_line lenient_level os args -> forall u rest, Forall (valid (u_byName u)) os ->
  parseParams (args ++ rest) u = parseParams rest (effects os u).
Proof.
  induction 1 as [|o a os args S C IH]; intros u rest F; [reflexivity|]. inversion F as [|? ? F1 F2]; subst.
  rewrite <- app_assoc, (parse_spelled o a _ u S F1). rewrite IH; [reflexivity|]. now rewrite byName_effect.
Qed.

Lemma parse_accepts : forall os args u, command_line lenient_level os args -> Forall (valid (u_byName u)) os -> parseParams args u = ROk (effects os u) 0%Z.
Proof. intros os args u C F. rewrite <- (app_nil_r args), (parse_prefix os args C u [] F). reflexivity. Qed.

Lemma decimal_command_line : forall os args, command_line decimal_level os args -> command_line lenient_level os args.
Proof. induction 1 as [|o a os args S C IH]; constructor; auto. destruct S; constructor. now apply decimal_lenient. Qed.

Lemma parse_only : forall args u u', parseParams args u = ROk u' 0%Z ->
  exists os, command_line lenient_level os args /\ Forall (valid (u_byName u)) os /\ u' = effects os u.
Proof.
  intro args. assert (L : exists n, (List.length args <= n)%nat) by eauto. destruct L as [n L]. revert args L.
  induction n as [|n IH]; intros args L u u' P.
  - destruct args; [|cbn in L; lia]. cbn in P. injection P as <-. exists []. repeat constructor.
  - destruct args as [|o rest]; [cbn in P; injection P as <-; exists []; repeat constructor|]. cbn [List.length] in L. cbn [parseParams] in P.
    assert (G : forall o a rest u u', (List.length rest <= n)%nat -> spells lenient_level o a -> valid (u_byName u) o -> parseParams rest (effect o u) = ROk u' 0%Z ->
      exists os, command_line lenient_level os (a ++ rest) /\ Forall (valid (u_byName u)) os /\ u' = effects os u).
    { intros o0 a r v v' L0 S V Q. destruct (IH r L0 _ _ Q) as (os & C & F & ->). exists (o0 :: os). split; [now constructor|].
      split; [constructor; [exact V|]; now rewrite byName_effect in F|reflexivity]. }
    destruct (String.eqb_spec o "-q") as [->|N1]; [apply (G OQuiet ["-q"] rest u u'); [lia|constructor|exact I|exact P]|].
    destruct (String.eqb_spec o "-c") as [->|N2]; [apply (G ONoCapture ["-c"] rest u u'); [lia|constructor|exact I|exact P]|].
    destruct (String.eqb_spec o "-e") as [->|N3]; [apply (G OErrFail ["-e"] rest u u'); [lia|constructor|exact I|exact P]|].
    destruct (String.eqb_spec o "-h") as [->|N4]; [discriminate P|].
    destruct rest as [|arg rest]; [discriminate P|]. cbn [List.length] in L.
    destruct (String.eqb_spec o "-v") as [->|N5].
    { destruct (read_level arg) as [z|] eqn:R; [|discriminate P]. destruct ((0 <=? z)%Z && (z <=? 5)%Z) eqn:Z; [|discriminate P].
      apply andb_true_iff in Z. rewrite !Z.leb_le in Z.
      apply (G (OLevel (Z.to_nat z)) ["-v"; arg] rest u u'); [lia| |cbn; lia|exact P]. constructor. apply lenient_iff; [lia|]. rewrite R, Z2Nat.id by lia. reflexivity. }
    destruct (String.eqb_spec o "-t") as [->|N6].
    { destruct (lookup arg (u_byName u)) as [t|] eqn:K; [|discriminate P].
      apply (G (OTest arg) ["-t"; arg] rest u u'); [lia|constructor|cbn; congruence|]. cbn [effect]. rewrite K. exact P. }
    destruct (String.eqb_spec o "-x") as [->|N7]; [apply (G (OXml arg) ["-x"; arg] rest u u'); [lia|constructor|exact I|exact P]|].
    destruct (String.eqb_spec o "-n") as [->|N8]; [apply (G (OName arg) ["-n"; arg] rest u u'); [lia|constructor|exact I|exact P]|].
    destruct (String.eqb_spec o "-i") as [->|N9]; [apply (G (OId arg) ["-i"; arg] rest u u'); [lia|constructor|exact I|exact P]|].
    discriminate P.
Qed.

Lemma print_trace : forall st o s w, w_trace (print st o s w) = w_trace w.
Proof. intros st o s w. unfold print. destruct (match st with Out => w_out w | Err => w_err w end); reflexivity. Qed.
Lemma effects_trace : forall os u, w_trace (u_world (effects os u)) = w_trace (u_world u).
Proof.
  induction os as [|o os IH]; intro u; [reflexivity|]. cbn [effects fold_left]. fold (effects os (effect o u)). rewrite IH.
  destruct o; try reflexivity. cbn [effect]. destruct (lookup name (u_byName u)); reflexivity.
Qed.
Lemma invalid_form : forall u, exists u', invalid u = ROk u' 1%Z /\ history u u' [].
Proof.
  intro u. unfold invalid, usage, tell. eexists. split; [reflexivity|]. unfold history. rewrite app_nil_r. unfold in_world. cbn [u_world set_world].
  now rewrite !print_trace.
Qed.

Lemma parse_refuses : forall os args bad u, command_line lenient_level os args -> Forall (valid (u_byName u)) os -> refused (u_byName u) bad ->
  exists u', parseParams (args ++ bad) u = ROk u' 1%Z /\ history u u' [].
Proof.
  intros os args bad u C F R. rewrite (parse_prefix os args C u bad F). rewrite <- (byName_effects os u) in R.
  assert (G : exists u', parseParams bad (effects os u) = ROk u' 1%Z /\ history (effects os u) u' []).
  { set (v := effects os u) in *. clearbody v. clear - R. destruct R as [l|o l N|o I|n l K|z l Z].
    - cbn [parseParams]. cbn [String.eqb Ascii.eqb Bool.eqb]. eexists. split; [reflexivity|]. unfold history, usage, tell, in_world. cbn [u_world set_world].
      rewrite print_trace, app_nil_r. reflexivity.
    - cbn [parseParams]. cbn [In] in N.
      destruct (String.eqb_spec o "-q") as [->|N1]; [exfalso; apply N; tauto|].
      destruct (String.eqb_spec o "-c") as [->|N2]; [exfalso; apply N; tauto|].
      destruct (String.eqb_spec o "-e") as [->|N3]; [exfalso; apply N; tauto|].
      destruct (String.eqb_spec o "-h") as [->|N4]; [exfalso; apply N; tauto|].
      destruct l as [|arg l]; [apply invalid_form|].
      destruct (String.eqb_spec o "-v") as [->|N5]; [exfalso; apply N; tauto|].
      destruct (String.eqb_spec o "-t") as [->|N6]; [exfalso; apply N; tauto|].
      destruct (String.eqb_spec o "-x") as [->|N7]; [exfalso; apply N; tauto|].
      destruct (String.eqb_spec o "-n") as [->|N8]; [exfalso; apply N; tauto|].
      destruct (String.eqb_spec o "-i") as [->|N9]; [exfalso; apply N; tauto|]. apply invalid_form.
    - cbn [In] in I. destruct I as [<-|[<-|[<-|[<-|[<-|[]]]]]]; apply (invalid_form v).
    - cbn [parseParams]. cbn [String.eqb Ascii.eqb Bool.eqb]. rewrite K. eexists. split; [reflexivity|]. unfold history, tell, in_world. cbn [u_world set_world].
      rewrite print_trace, app_nil_r. reflexivity.
    - cbn [parseParams]. cbn [String.eqb Ascii.eqb Bool.eqb]. rewrite (read_level_numeral _ _ _ (dec_numeral z)).
      assert (Q : ((0 <=? clip z)%Z && (clip z <=? 5)%Z) = false).
      { apply andb_false_iff. rewrite !Z.leb_gt. unfold clip. lia. }
      rewrite Q. apply invalid_form. }
  destruct G as (u' & G1 & G2). exists u'. split; [exact G1|]. unfold history in *. now rewrite effects_trace in G2.
Qed.

Lemma parse_blank : forall os args s rest u, command_line lenient_level os args -> Forall (valid (u_byName u)) os -> ItemSpec.all_blanks s ->
  parseParams (args ++ "-v" :: s :: rest) u = RBad UB.
Proof.
  intros os args s rest u C F B. rewrite (parse_prefix os args C u _ F). cbn [parseParams]. cbn [String.eqb Ascii.eqb Bool.eqb].
  apply read_level_none in B. now rewrite B.
Qed.

(** ** main *)

Variable E : env.

Lemma main_refuses : forall exe os args bad u, command_line lenient_level os args -> Forall (valid (u_byName u)) os -> refused (u_byName u) bad ->
  exists u', main E (exe :: args ++ bad) u = ROk u' 1%Z /\ history u u' [].
Proof.
  intros exe os args bad u C F R. unfold main.
  destruct (parse_refuses os args bad (detectTestName exe u) C F R) as (u' & P & H). rewrite P. exists u'. split; [reflexivity|exact H].
Qed.

Lemma performed : forall v, fresh v -> exists u' z T, (let (u, s) := performUnitTests E v in ROk (destroy u) s) = ROk u' z /\ history v u' T
    /\ (z = 0%Z \/ z = (-1)%Z) /\ (z = 0%Z <-> forall t s, In (t, s) (verdicts T) -> s = SUCCESS)
    /\ (forall t, In t (selection v) <-> exists s, In (t, s) (verdicts T)).
Proof.
  intros v FV. destruct (performUnitTests E v) as [u' z] eqn:P.
  destruct (exit_status E v u' z (proj2 FV) P) as (T & H & A & B & D).
  exists (destroy u'), z, T. split; [reflexivity|]. split; [exact H|].
  assert (Z : (forall t s, In (t, s) (verdicts T) -> s = SUCCESS) \/ (exists t s, In (t, s) (verdicts T) /\ s <> SUCCESS)).
  { generalize (verdicts T) as l. induction l as [|[t s] l [IH|IH]].
    - left. intros t s [].
    - destruct s; [right; exists t, NONE|left|right; exists t, FAIL|right; exists t, ERROR|right; exists t, OUT_ON_ERROR_STREAM];
        try (split; [left; reflexivity|discriminate]). intros t0 s0 [Q|Q]; [congruence|eauto].
    - right. destruct IH as (t0 & s0 & I & N). exists t0, s0. split; [right; exact I|exact N]. }
  split; [|split].
  - destruct Z as [Z|Z]; auto.
  - destruct Z as [Z|Z]; [split; auto|]. rewrite (B Z). split; [discriminate|]. intro Q. destruct Z as (t & s & I & N). elim N. eauto.
  - apply D. exact (proj1 FV).
Qed.

Lemma main_runs : forall exe os args u, command_line lenient_level os args -> Forall (valid (u_byName u)) os -> fresh u ->
  let v := effects os (detectTestName exe u) in
  exists u' z T, main E (exe :: args) u = ROk u' z /\ history u u' T
    /\ (z = 0%Z \/ z = (-1)%Z) /\ (z = 0%Z <-> forall t s, In (t, s) (verdicts T) -> s = SUCCESS)
    /\ (forall t, In t (selection v) <-> exists s, In (t, s) (verdicts T)).
Proof.
  intros exe os args u C F R. cbv zeta. unfold main. rewrite (parse_accepts os args (detectTestName exe u) C F).
  set (v := effects os (detectTestName exe u)).
  assert (FV : fresh v).
  { unfold v. clear C F. assert (Q : fresh (detectTestName exe u)) by exact R. revert Q. generalize (detectTestName exe u) as x. clear.
    induction os as [|o os IH]; intros x Q; [exact Q|]. cbn [effects fold_left]. fold (effects os (effect o x)). apply IH.
    destruct o; try exact Q. cbn [effect]. destruct (lookup name (u_byName x)); exact Q. }
  assert (TV : w_trace (u_world v) = w_trace (u_world u)) by (unfold v; now rewrite effects_trace).
  clearbody v. destruct (performed v FV) as (u' & z & T & M & H & R').
  exists u', z, T. split; [exact M|]. split; [unfold history in *; now rewrite <- TV|exact R'].
Qed.
(** argc = 0 *)
Lemma main_bare : forall u, fresh u ->
  exists u' z T, main E [] u = ROk u' z /\ history u u' T
    /\ (z = 0%Z \/ z = (-1)%Z) /\ (z = 0%Z <-> forall t s, In (t, s) (verdicts T) -> s = SUCCESS)
    /\ (forall t, In t (selection u) <-> exists s, In (t, s) (verdicts T)).
Proof. exact performed. Qed.

End Args.
