(** * Proofs about the log stream and the proxies (C54 to C56). *)

From Coq Require Import ZArith String Ascii Bool List Arith Lia.
From Verif Require Import Base LogModel LogSpec LogFilter TextModel TextSpec TextFacts StreamModel LogStreamModel LogStreamSpec.
Import ListNotations.
Open Scope string_scope.
Open Scope list_scope.

(** ** The line *)
Lemma tag_length : forall z, String.length (levelToString z) = 4.
Proof. intros z. unfold levelToString. repeat (destruct (_ =? _)%Z; auto). Qed.

Lemma cut_tag : forall z s, cut 4 (levelToString z ++ s) = Some (levelToString z, s).
Proof. intros z s. rewrite <- (tag_length z). apply cut_app. Qed.

(** The line in closed form. *)
Definition pad2 (z : Z) : string := padl 2 "0" (dec z).
Definition date_text (t : tm) : string :=
  (dec (tm_year t + 1900) ++ "-" ++ pad2 (tm_mon t + 1) ++ "-" ++ pad2 (tm_mday t) ++ " " ++
   pad2 (tm_hour t) ++ ":" ++ pad2 (tm_min t) ++ ":" ++ pad2 (tm_sec t) ++ " ")%string.
Definition line_text (t : tm) (m : msg) : string :=
  (date_text t ++
   "[" ++ levelToString (m_level m) ++ "] " ++
   (if String.eqb (m_cat m) "" then "" else "(" ++ m_cat m ++ ") ") ++
   base_name (m_file m) ++ ":" ++ dec (m_line m) ++
   " " ++ m_text m ++ nl)%string.

Lemma emit_app : forall a b o, emit (a ++ b) o = ((fst (emit a o) ++ fst (emit b (snd (emit a o))))%string, snd (emit b (snd (emit a o)))).
Proof.
  intros a. induction a as [|i a IH]; intros b o; cbn [app emit fst snd append].
  - destruct (emit b o); auto.
  - destruct (insert i o) as [s o1]. rewrite IH. destruct (emit a o1) as [s2 o2]. cbn [fst snd]. rewrite str_app_assoc. auto.
Qed.

Lemma pad_none : forall f p b, fm_width f = 0 -> pad f p b = (p ++ b)%string.
Proof.
  intros f p b W. unfold pad. rewrite W. cbn [Nat.sub fill]. destruct (fm_adjust f); cbn [append]; auto. rewrite str_app_nil_r. auto.
Qed.

(** What a number looks like in format [f]. *)
Definition shown (f : fmt) (z : Z) : string := let (p, b) := int_text f z in pad f p b.
Definition with_width (f : fmt) (n : nat) : fmt :=
  mkFmt (fm_base f) (fm_adjust f) (fm_showbase f) (fm_showpos f) (fm_upper f) "0" n.

Lemma insert_int : forall f z, insert (PInt z) (mkOS f false) = (shown f z, mkOS (set_width 0 f) false).
Proof. intros f z. unfold insert, shown. cbn [o_bad o_fmt]. destruct (int_text f z). auto. Qed.
Lemma insert_text : forall f s, fm_width f = 0 -> insert (PText s) (mkOS f false) = (s, mkOS (set_width 0 f) false).
Proof. intros f s W. unfold insert. cbn [o_bad o_fmt]. rewrite pad_none; auto. Qed.
Lemma insert_char : forall f c, fm_width f = 0 -> insert (PChar c) (mkOS f false) = (String c "", mkOS (set_width 0 f) false).
Proof. intros f s W. unfold insert. cbn [o_bad o_fmt]. rewrite pad_none; auto. Qed.

Lemma emit_field : forall f z sep, emit (field_ins z sep) (mkOS f false) = ((shown (with_width f 2) z ++ String sep "")%string, mkOS (with_width f 0) false).
Proof.
  intros f z sep. unfold field_ins. cbn [emit insert o_fmt o_bad apply_manip].
  change (mkFmt (fm_base f) (fm_adjust f) (fm_showbase f) (fm_showpos f) (fm_upper f) "0" (fm_width f)) with (with_width f (fm_width f)).
  change (set_width 2 (with_width f (fm_width f))) with (with_width f 2).
  destruct (int_text (with_width f 2) z) as [p b] eqn:E. cbn [o_bad].
  change (pad (set_width 0 (with_width f 2)) "" (String sep "")) with (pad (with_width f 0) "" (String sep "")).
  rewrite (pad_none (with_width f 0)) by reflexivity. unfold shown. rewrite E. cbn [append]. reflexivity.
Qed.

(** The line on a stream in any format. *)
Definition any_line (f : fmt) (t : tm) (m : msg) : string :=
  (shown f (tm_year t + 1900) ++ "-" ++ shown (with_width f 2) (tm_mon t + 1) ++ "-" ++ shown (with_width f 2) (tm_mday t) ++ " " ++
   shown (with_width f 2) (tm_hour t) ++ ":" ++ shown (with_width f 2) (tm_min t) ++ ":" ++ shown (with_width f 2) (tm_sec t) ++ " " ++
   "[" ++ levelToString (m_level m) ++ "] " ++
   (if String.eqb (m_cat m) "" then "" else "(" ++ m_cat m ++ ") ") ++
   base_name (m_file m) ++ ":" ++ shown (with_width f 0) (m_line m) ++ " " ++ m_text m ++ nl)%string.

Lemma emit_line : forall f t m, emit (line_ins t m) (mkOS f false) = (any_line f t m, mkOS (with_width f 0) false).
Proof.
  intros f t m. unfold line_ins. rewrite emit_app. cbn [emit]. rewrite insert_int. rewrite insert_char by reflexivity. cbn [fst snd].
  assert (F : forall g z sep rest, fm_base g = fm_base f -> fm_adjust g = fm_adjust f -> fm_showbase g = fm_showbase f -> fm_showpos g = fm_showpos f ->
    fm_upper g = fm_upper f -> emit (field_ins z sep ++ rest) (mkOS g false) =
    ((shown (with_width f 2) z ++ String sep "" ++ fst (emit rest (mkOS (with_width f 0) false)))%string, snd (emit rest (mkOS (with_width f 0) false)))).
  { intros g z sep rest E1 E2 E3 E4 E5. rewrite emit_app, emit_field. unfold with_width. rewrite E1, E2, E3, E4, E5. cbn [fst snd].
    rewrite str_app_assoc. auto. }
  do 5 (rewrite F by reflexivity). cbn [fst snd].
  assert (T : forall s rest, emit (PText s :: rest) (mkOS (with_width f 0) false) =
    ((s ++ fst (emit rest (mkOS (with_width f 0) false)))%string, snd (emit rest (mkOS (with_width f 0) false)))).
  { intros s rest. cbn [emit]. rewrite insert_text by reflexivity. change (set_width 0 (with_width f 0)) with (with_width f 0).
    destruct (emit rest _); auto. }
  assert (W : forall rest, emit (PManip (MSetw 0) :: rest) (mkOS (with_width f 0) false) = emit rest (mkOS (with_width f 0) false)).
  { intros rest. cbn [emit]. change (insert (PManip (MSetw 0)) (mkOS (with_width f 0) false)) with ("", mkOS (with_width f 0) false).
    cbn [append]. destruct (emit rest _); auto. }
  assert (K : forall c rest, emit (PChar c :: rest) (mkOS (with_width f 0) false) =
    ((String c "" ++ fst (emit rest (mkOS (with_width f 0) false)))%string, snd (emit rest (mkOS (with_width f 0) false)))).
  { intros s rest. cbn [emit]. rewrite insert_char by reflexivity. change (set_width 0 (with_width f 0)) with (with_width f 0).
    destruct (emit rest _); auto. }
  assert (N : forall z rest, emit (PInt z :: rest) (mkOS (with_width f 0) false) =
    ((shown (with_width f 0) z ++ fst (emit rest (mkOS (with_width f 0) false)))%string, snd (emit rest (mkOS (with_width f 0) false)))).
  { intros s rest. cbn [emit]. rewrite insert_int by reflexivity. change (set_width 0 (with_width f 0)) with (with_width f 0).
    destruct (emit rest _); auto. }
  assert (C : forall rest, emit ((if String.eqb (m_cat m) "" then [] else [PText "("; PText (m_cat m); PText ") "]) ++ rest) (mkOS (with_width f 0) false) =
    (((if String.eqb (m_cat m) "" then "" else "(" ++ m_cat m ++ ") ") ++ fst (emit rest (mkOS (with_width f 0) false)))%string,
     snd (emit rest (mkOS (with_width f 0) false)))).
  { intros rest. destruct (String.eqb (m_cat m) ""); cbn [app].
    - cbn [append]. destruct (emit rest _); auto.
    - rewrite !T. cbn [fst snd]. rewrite !str_app_assoc. auto. }
  change ([PManip (MSetw 0); PText "["; PText (levelToString (m_level m)); PText "] "] ++
    (if String.eqb (m_cat m) "" then [] else [PText "("; PText (m_cat m); PText ") "]) ++
    [PText (base_name (m_file m)); PChar ":"; PInt (m_line m); PText " "; PText (m_text m); PText nl]) with
   (PManip (MSetw 0) :: PText "[" :: PText (levelToString (m_level m)) :: PText "] " ::
    (if String.eqb (m_cat m) "" then [] else [PText "("; PText (m_cat m); PText ") "]) ++
    [PText (base_name (m_file m)); PChar ":"; PInt (m_line m); PText " "; PText (m_text m); PText nl]).
  rewrite W, !T, C, T, K, N, !T. cbn [emit fst snd]. unfold any_line. rewrite !str_app_assoc, !str_app_nil_r. reflexivity.
Qed.

Lemma dec_minus : forall z, (z < 0)%Z -> ("-" ++ dec (Z.abs z))%string = dec z.
Proof.
  intros z L. destruct z as [|p|p]; [lia|lia|]. reflexivity.
Qed.

(** Decimal formats. *)
Lemma shown_dec : forall f z, fm_base f = BDec -> fm_showpos f = false -> fm_width f = 0 -> shown f z = dec z.
Proof.
  intros f z B P W. unfold shown, int_text. rewrite B, P. rewrite pad_none by auto. destruct (Z.ltb_spec z 0).
  - apply dec_minus. auto.
  - rewrite Z.abs_eq by auto. reflexivity.
Qed.

Lemma shown_right : forall f z, fm_base f = BDec -> fm_showpos f = false -> fm_adjust f <> ALeft -> (0 <= z)%Z ->
  shown f z = padl (fm_width f) (fm_fill f) (dec z).
Proof.
  intros f z B P A L. unfold shown, int_text. rewrite B, P. destruct (Z.ltb_spec z 0); [lia|]. rewrite Z.abs_eq by auto.
  unfold pad, padl. cbn [append]. destruct (fm_adjust f); auto. contradiction.
Qed.

Lemma shown_left : forall f z, fm_base f = BDec -> fm_showpos f = false -> fm_adjust f = ALeft -> (0 <= z)%Z ->
  shown f z = padr (fm_width f) (fm_fill f) (dec z).
Proof.
  intros f z B P A L. unfold shown, int_text. rewrite B, P. destruct (Z.ltb_spec z 0); [lia|]. rewrite Z.abs_eq by auto.
  unfold pad, padr. cbn [append]. rewrite A. auto.
Qed.

Lemma log_line_text : forall t m, tm_ok t -> log_line t m = line_text t m.
Proof.
  intros t m (Y & Mo & D & H & Mi & S). unfold log_line. change os0 with (mkOS fmt0 false). rewrite emit_line. cbn [fst].
  unfold any_line, line_text, date_text. rewrite !(shown_right (with_width fmt0 2)) by (try discriminate; auto; lia).
  rewrite !shown_dec by reflexivity. unfold pad2. rewrite !str_app_assoc. reflexivity.
Qed.

Lemma upto1 : forall c a b, ~ has c a -> upto c (a ++ (String c "") ++ b)%string = Some (a, b).
Proof. intros c a b H. cbn [append]. apply upto_app. auto. Qed.

Lemma pad2_nonneg : forall c z, (nat_of_ascii c < 48)%nat \/ (57 < nat_of_ascii c)%nat -> (0 <= z)%Z -> ~ has c (pad2 z).
Proof. intros. apply pad2_not; auto. Qed.

Lemma after_paren : forall s, (forall r, s <> String "(" r) -> after "(" s = None.
Proof.
  intros [|a s] H; cbn [after]; auto. destruct (Ascii.eqb_spec "(" a); auto. subst. exfalso. eapply H; eauto.
Qed.

Lemma read_back : forall t m, tm_ok t -> ~ has ")" (m_cat m) -> ~ has ":" (base_name (m_file m)) ->
  (m_cat m = "" -> forall r, (base_name (m_file m) ++ ":")%string <> String "(" r) ->
  read_line (log_line t m) = Some (mkFields (tm_year t + 1900) (tm_mon t + 1) (tm_mday t) (tm_hour t) (tm_min t) (tm_sec t)
    (levelToString (m_level m)) (m_cat m) (base_name (m_file m)) (m_line m) (m_text m)).
Proof.
  intros t m (Y & Mo & D & H & Mi & S) C F P. rewrite log_line_text by (repeat split; tauto). unfold line_text, date_text. rewrite !str_app_assoc. unfold read_line.
  rewrite upto1 by (apply not_digit; [cbn; lia|lia]). cbn [obind].
  rewrite upto1 by (apply pad2_nonneg; [cbn; lia|lia]). cbn [obind].
  rewrite upto1 by (apply pad2_nonneg; [cbn; lia|lia]). cbn [obind].
  rewrite upto1 by (apply pad2_nonneg; [cbn; lia|lia]). cbn [obind].
  rewrite upto1 by (apply pad2_nonneg; [cbn; lia|lia]). cbn [obind].
  rewrite upto1 by (apply pad2_nonneg; [cbn; lia|lia]). cbn [obind].
  rewrite after_app. cbn [obind]. rewrite cut_tag. cbn [obind]. rewrite after_app. cbn [obind].
  assert (X : match after "(" ((if String.eqb (m_cat m) "" then "" else "(" ++ m_cat m ++ ") ") ++
      base_name (m_file m) ++ ":" ++ dec (m_line m) ++ " " ++ m_text m ++ nl)%string with
    | Some s' => let? (c, r) := upto ")" s' in let? r := after " " r in Some (c, r)
    | None => Some ("", ((if String.eqb (m_cat m) "" then "" else "(" ++ m_cat m ++ ") ") ++
      base_name (m_file m) ++ ":" ++ dec (m_line m) ++ " " ++ m_text m ++ nl)%string)
    end = Some (m_cat m, (base_name (m_file m) ++ ":" ++ dec (m_line m) ++ " " ++ m_text m ++ nl)%string)).
  { destruct (String.eqb_spec (m_cat m) "") as [E|E].
    - rewrite E. cbn [append]. rewrite after_paren; auto. specialize (P E). intros r Q. destruct (base_name (m_file m)) as [|a b]; cbn in Q; [discriminate|].
      injection Q as -> Q. apply (P (b ++ ":")%string). auto.
    - rewrite !str_app_assoc. rewrite after_app. 
      change (m_cat m ++ ") " ++ base_name (m_file m) ++ ":" ++ dec (m_line m) ++ " " ++ m_text m ++ nl)%string with
        (m_cat m ++ String ")" (" " ++ base_name (m_file m) ++ ":" ++ dec (m_line m) ++ " " ++ m_text m ++ nl))%string.
      rewrite upto_app by auto. cbn [obind]. rewrite after_app. auto. }
  rewrite X. cbn [obind]. rewrite upto1 by auto. cbn [obind].
  rewrite upto1 by (apply not_in_dec; [cbn; lia|discriminate]). cbn [obind].
  unfold nl. rewrite chop_app. cbn [obind]. unfold pad2.
  rewrite !undec_pad2 by lia. rewrite !undec_dec. reflexivity.
Qed.

Lemma base_name_spec : forall f, without_directory f (base_name f).
Proof.
  intros f. unfold base_name, dir_sep. destruct (rfind "/" f) as [n|] eqn:E.
  - destruct (rfind_some _ _ _ E) as (d & b & -> & N & D). split; [rewrite D; auto|]. right. exists d. rewrite D. auto.
  - apply rfind_none in E. split; auto.
Qed.

(** ** The shape of the date *)
Lemma like_app : forall p s q r, String.length p = String.length s -> like p s -> like q r -> like (p ++ q)%string (s ++ r)%string.
Proof.
  intros p. induction p as [|a p IH]; intros [|b s] q r L H Q; cbn in *; try discriminate; auto. destruct H. split; auto.
Qed.

Lemma like_digits : forall s, (forall c, has c s -> (48 <= nat_of_ascii c <= 57)%nat) -> like (fill (String.length s) "d") s.
Proof. intros s. induction s as [|a s IH]; cbn; intros H; auto. Qed.

Lemma year_length : forall z, (1000 <= z <= 9999)%Z -> String.length (dec z) = 4.
Proof.
  intros z B. rewrite (Z.div_mod z 100) by lia. pose proof (Z.mod_pos_bound z 100 eq_refl) as M.
  assert (Q : (10 <= z / 100 <= 99)%Z) by (split; [apply Z.div_le_lower_bound; lia|apply Z.lt_succ_r, Z.div_lt_upper_bound; lia]).
  assert (T : List.forallb (fun a => List.forallb (fun b => Nat.eqb (String.length (dec (100 * Z.of_nat (10 + a) + Z.of_nat b))) 4)
    (List.seq 0 100)) (List.seq 0 90) = true) by (vm_compute; reflexivity).
  rewrite forallb_forall in T. specialize (T (Z.to_nat (z / 100 - 10))). rewrite in_seq in T. specialize (T ltac:(lia)).
  rewrite forallb_forall in T. specialize (T (Z.to_nat (z mod 100))). rewrite in_seq in T. specialize (T ltac:(lia)).
  apply Nat.eqb_eq in T. rewrite Nat2Z.inj_add, !Z2Nat.id in T by lia. rewrite <- T. f_equal. f_equal. cbn [Z.of_nat Pos.of_succ_nat]. lia.
Qed.

Lemma like_pad2 : forall z, (0 <= z < 100)%Z -> like "dd" (pad2 z).
Proof.
  intros z B. change "dd" with (fill 2 "d"). unfold pad2. rewrite <- (pad2_length z B) at 1. apply like_digits.
  intros c I. apply (pad2_has c z); [lia|auto].
Qed.

Lemma date_shape : forall t m, tm_ok t -> like "dddd-dd-dd dd:dd:dd [" (log_line t m).
Proof.
  intros t m (Y & Mo & D & H & Mi & S). rewrite log_line_text by (repeat split; tauto). unfold line_text, date_text. rewrite !str_app_assoc.
  change "dddd-dd-dd dd:dd:dd [" with ("dddd" ++ "-" ++ "dd" ++ "-" ++ "dd" ++ " " ++ "dd" ++ ":" ++ "dd" ++ ":" ++ "dd" ++ " " ++ "[")%string.
  assert (P : forall z q r, (0 <= z < 100)%Z -> like q r -> like ("dd" ++ q)%string (pad2 z ++ r)%string).
  { intros z q r B Q. apply like_app; [unfold pad2; rewrite pad2_length; auto|apply like_pad2; auto|auto]. }
  assert (C : forall c q r, c <> "d"%char -> like q r -> like (String c "" ++ q)%string (String c "" ++ r)%string).
  { intros c q r N Q. cbn. destruct (Ascii.eqb_spec c "d"); [contradiction|auto]. }
  apply like_app; [rewrite year_length; auto; lia| |].
  - change "dddd" with (fill 4 "d"). rewrite <- (year_length (tm_year t + 1900)) at 1 by lia. apply like_digits.
    intros c I. apply (dec_nonneg c (tm_year t + 1900)); [lia|auto].
  - repeat first [apply C; [discriminate|] | apply P; [lia|]]. cbn. auto.
Qed.

(** ** The sink *)
Lemma written_exact : forall ops k k', srun ops k = ROk k' tt -> written k' = written k ++ writes (pout k) ops.
Proof.
  intros ops. induction ops as [|op ops IH]; intros k k' H; cbn [srun] in H; [injection H as <-; cbn; rewrite app_nil_r; auto|].
  destruct (sstep op k) as [k1 []| |] eqn:E; try discriminate. rewrite (IH _ _ H). clear IH H.
  destruct op as [s|s|s|line|s|s]; cbn [sstep writes] in *; try (injection E as <-; reflexivity).
  destruct (pout k) eqn:P; [injection E as <-; rewrite P; auto|discriminate|].
  destruct (existsb _ _); [discriminate|]. injection E as <-. cbn. rewrite <- app_assoc. auto.
Qed.

Definition sinv (kd : nat -> kind) (held : nat -> nat) (given : list nat) (cur : option nat) (k : sink) : Prop :=
  (forall s, ext k s = held s) /\
  (forall s, uptr k = Some s -> kd s = Unique /\ In s given /\ ~ In s (destroyed k)) /\
  (forall s, shptr k = Some s -> kd s = Shared /\ ~ In s (destroyed k)) /\
  (forall s, In s (destroyed k) -> (kd s = Unique -> In s given) /\ (kd s = Shared -> held s = 0)) /\
  (forall s, cur = Some s -> pout k = Str s /\ (uptr k = Some s \/ shptr k = Some s)).

Lemma sinv_run : forall kd ops held given cur k k', proper kd held given ops -> sinv kd held given cur k -> srun ops k = ROk k' tt ->
  exists held' given', sinv kd held' given' (kept cur ops) k'.
Proof.
  intros kd ops. induction ops as [|op ops IH]; intros held given cur k k' P I H; cbn [srun] in H; [injection H as <-; eauto|].
  destruct (sstep op k) as [k1 []| |] eqn:E; try discriminate.
  destruct I as (I1 & I2 & I3 & I4 & I5).
  destruct op as [[s|]|[s|]|[s|]|line|s|s]; cbn [proper kept] in *; cbn [sstep] in E; try contradiction.
  - destruct P as (P1 & P2 & P3). injection E as <-. eapply IH; [exact P3| |exact H]. clear IH H.
    split; [|split; [|split; [|split]]]; cbn [pout uptr shptr destroyed ext written]; auto.
    + intros s' X. injection X as <-. split; auto. split; [left; auto|]. intros J.
      destruct (uptr k) as [o|] eqn:U.
      * destruct J as [->|J]; [destruct (I2 _ eq_refl) as (_ & G & _); contradiction|]. apply I4 in J. destruct J as (J & _). auto.
      * apply I4 in J. destruct J as (J & _). auto.
    + intros s' X. destruct (I3 _ X) as (Q1 & Q2). split; auto. destruct (uptr k) as [o|] eqn:U; auto.
      intros [->|J]; [|auto]. destruct (I2 _ eq_refl) as (Q & _). congruence.
    + intros s' J. assert (In s' (destroyed k) \/ uptr k = Some s') as [J'|J'].
      { destruct (uptr k) as [o|]; auto. destruct J as [->|J]; auto. }
      * destruct (I4 _ J') as (Q1 & Q2). split; auto. intros; right; auto.
      * destruct (I2 _ J') as (Q1 & Q2 & _). split; [intros; right; auto|congruence].
    + intros s' X. injection X as <-. cbn. auto.
  - destruct P as (P1 & P2 & P3). injection E as <-. eapply IH; [exact P3| |exact H]. clear IH H.
    assert (Q : forall x, In x (match shptr k with
              | Some o => if same (Some o) (Some s) then destroyed k else if (ext k o =? 0)%nat then o :: destroyed k else destroyed k
              | None => destroyed k
              end) -> In x (destroyed k) \/ (shptr k = Some x /\ x <> s /\ ext k x = 0)).
    { intros x J. destruct (shptr k) as [o|]; auto. cbn [same] in J. destruct (Nat.eqb_spec o s); auto.
      destruct (Nat.eqb_spec (ext k o) 0); auto. destruct J as [<-|J]; auto. }
    split; [|split; [|split; [|split]]]; cbn [pout uptr shptr destroyed ext written]; auto.
    + intros s' X. destruct (I2 _ X) as (Q1 & Q2 & Q3). split; auto. split; auto. intros J. apply Q in J. destruct J as [J|(J & _)]; auto.
      destruct (I3 _ J). congruence.
    + intros s' X. injection X as <-. split; auto. intros J. apply Q in J. destruct J as [J|(_ & J & _)]; auto.
      destruct (I4 _ J) as (_ & J'). specialize (J' P1). lia.
    + intros s' J. apply Q in J. destruct J as [J|(J & _ & J2)]; auto. destruct (I3 _ J). split; [congruence|]. intros _. rewrite <- I1. auto.
    + intros s' X. injection X as <-. cbn. auto.
  - injection E as <-. eapply IH; [exact P| |exact H]. split; [|split; [|split; [|split]]]; cbn [pout uptr shptr destroyed ext written]; auto. discriminate.
  - eapply IH; [exact P| |exact H]. destruct (pout k) eqn:PO.
    + injection E as <-. split; [|split; [|split; [|split]]]; auto. intros s' X. rewrite PO. auto.
    + discriminate.
    + destruct (existsb _ _); [discriminate|]. injection E as <-. split; [|split; [|split; [|split]]]; cbn; auto.
  - destruct P as (P1 & P2 & P3). injection E as <-. eapply IH; [exact P3| |exact H]. clear IH H.
    assert (Q : forall x, In x (if ((pred (ext k s) =? 0)%nat && negb (same (shptr k) (Some s)))%bool then s :: destroyed k else destroyed k) ->
       In x (destroyed k) \/ (x = s /\ pred (ext k s) = 0 /\ shptr k <> Some s)).
    { intros x J. destruct (Nat.eqb_spec (pred (ext k s)) 0); cbn [andb] in J; auto.
      destruct (same (shptr k) (Some s)) eqn:Sm; cbn [negb] in J; auto. destruct J as [<-|J]; auto. right. split; auto. split; auto.
      intros X. rewrite X in Sm. cbn in Sm. rewrite Nat.eqb_refl in Sm. discriminate. }
    split; [|split; [|split; [|split]]]; cbn [pout uptr shptr destroyed ext written]; auto.
    + intros x. rewrite I1. destruct (Nat.eqb_spec x s); subst; rewrite ?I1; auto.
    + intros s' X. destruct (I2 _ X) as (Q1 & Q2 & Q3). split; auto. split; auto. intros J. apply Q in J. destruct J as [J|(-> & _)]; [auto|congruence].
    + intros s' X. destruct (I3 _ X) as (Q1 & Q2). split; auto. intros J. apply Q in J. destruct J as [J|(-> & _ & J)]; auto.
    + intros s' J. apply Q in J. destruct J as [J|(-> & J & _)].
      * destruct (I4 _ J) as (J1 & J2). split; auto. intros K. specialize (J2 K). destruct (Nat.eqb_spec s' s); auto. subst. lia.
      * split; [congruence|]. intros _. rewrite Nat.eqb_refl. rewrite <- I1. auto.
  - destruct P as (P1 & P3). injection E as <-. eapply IH; [exact P3| |exact H]. clear IH H.
    split; [|split; [|split; [|split]]]; cbn [pout uptr shptr destroyed ext written]; auto.
    + intros s' X. destruct (I2 _ X) as (Q1 & Q2 & Q3). split; auto. split; auto. intros [->|J]; [congruence|auto].
    + intros s' X. destruct (I3 _ X) as (Q1 & Q2). split; auto. intros [->|J]; [congruence|auto].
    + intros s' [->|J]; auto. split; congruence.
Qed.

Lemma sink_alive : forall kd ext0 ops k s, proper kd ext0 [] ops -> srun ops (sink0 ext0) = ROk k tt -> kept None ops = Some s ->
  ~ In s (destroyed k) /\ forall line, exists k', srun (ops ++ [OnMessage line]) (sink0 ext0) = ROk k' tt /\ written k' = written k ++ [(s, line)].
Proof.
  intros kd ext0 ops k s P H K.
  destruct (sinv_run kd ops ext0 [] None (sink0 ext0) k P) as (held & given & (I1 & I2 & I3 & I4 & I5)); auto.
  { split; [|split; [|split; [|split]]]; cbn; auto; try discriminate. intros s' []. }
  destruct (I5 _ K) as (PO & U).
  assert (N : ~ In s (destroyed k)) by (destruct U as [U|U]; [apply (I2 _ U)|apply (I3 _ U)]).
  split; auto. intros line.
  assert (A : forall a b x y, srun a x = ROk y tt -> srun (a ++ b) x = srun b y).
  { clear. intros a. induction a as [|op a IH]; intros b x y R; cbn [srun app] in *; [congruence|].
    destruct (sstep op x) as [z []| |]; try discriminate. auto. }
  rewrite (A _ _ _ _ H). cbn [srun sstep]. rewrite PO.
  destruct (existsb (Nat.eqb s) (destroyed k)) eqn:X.
  - exfalso. apply existsb_exists in X. destruct X as (y & Y1 & Y2). apply Nat.eqb_eq in Y2. subst. auto.
  - eexists. split; [reflexivity|]. auto.
Qed.

(** ** Proxies *)
Lemma chain_older : forall other (age : nat -> nat), (forall a b, other a = Some b -> age b < age a) ->
  forall n l x, In x (chain other n l) -> age x <= age l.
Proof.
  intros other age A n. induction n as [|n IH]; intros l x I; cbn [chain] in I.
  - destruct I as [->|[]]. auto.
  - destruct I as [->|I]; auto. destruct (other l) as [u|] eqn:E; [|destruct I]. specialize (IH _ _ I). specialize (A _ _ E). lia.
Qed.

Lemma chain_once : forall other (age : nat -> nat), (forall a b, other a = Some b -> age b < age a) ->
  forall n l t, age l <= n -> leads_to other l t -> count_occ Nat.eq_dec (chain other n l) t = 1.
Proof.
  intros other age A n. induction n as [|n IH]; intros l t L T.
  - cbn [chain count_occ]. inversion T as [|? u ? E T']; subst; [destruct (Nat.eq_dec t t); congruence|].
    specialize (A _ _ E). lia.
  - cbn [chain count_occ]. destruct (Nat.eq_dec l t) as [->|N].
    + f_equal. destruct (other t) as [u|] eqn:E; auto. apply count_occ_not_In. intros I.
      apply (chain_older other age A) in I. specialize (A _ _ E). lia.
    + inversion T as [|? u ? E T']; subst; [congruence|]. rewrite E. apply IH; auto. specialize (A _ _ E). lia.
Qed.

Lemma proxy_messages : forall (RE : Type) compile rmatch sn g (lf : nat -> @listener RE) progs w t1 t2 l t other age n,
  reaches compile rmatch sn g lf progs w (t1 ++ EvAdd l :: t2) ->
  ~ In (EvAdd l) t1 -> ~ In (EvAdd l) t2 -> ~ In l (changed (t1 ++ t2)) -> l_detached (lf l) = false -> unended w = [] ->
  (forall a b, other a = Some b -> age b < age a) -> age l <= n -> leads_to other l t ->
  through other n l t (t1 ++ EvAdd l :: t2) = filter (wants rmatch (lf l)) (begun t2).
Proof.
  intros RE compile rmatch sn g lf progs w t1 t2 l t other age n H N1 N2 N3 D U O1 O2 O3.
  destruct (filter_once compile rmatch _ _ _ _ _ _ _ _ H N1 N2 N3 D) as (_ & X). rewrite <- (X U). unfold through.
  rewrite (chain_once other age O1) by auto. clear. induction (delivered_to l (t1 ++ EvAdd l :: t2)) as [|m ms IH]; cbn in *; f_equal; auto.
Qed.

(** Nobody else is called. *)
Lemma chain_only : forall other n l t, In t (chain other n l) -> leads_to other l t.
Proof.
  intros other n. induction n as [|n IH]; intros l t I; cbn [chain] in I.
  - destruct I as [->|[]]. constructor.
  - destruct I as [->|I]; [constructor|]. destruct (other l) as [u|] eqn:E; [|destruct I]. econstructor; eauto.
Qed.

Lemma through_only : forall other n l t tr, ~ leads_to other l t -> through other n l t tr = [].
Proof.
  intros other n l t tr N. unfold through. assert (E : count_occ Nat.eq_dec (chain other n l) t = 0).
  { apply count_occ_not_In. intros I. apply N. eapply chain_only; eauto. }
  rewrite E. induction (delivered_to l tr); auto.
Qed.
