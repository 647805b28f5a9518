(** * Log statements when memory runs out: proofs. *)

From Coq Require Import ZArith String Ascii Bool List Lia Arith.
From Verif Require Import Base TextModel LogModel LogSpec StreamModel LoggerModel LoggerSpec LoggerMemModel LoggerMemSpec.
Import ListNotations.
Open Scope string_scope.
Open Scope list_scope.

Lemma str_nil_r : forall s, (s ++ "")%string = s.
Proof. induction s; cbn; congruence. Qed.
Lemma str_assoc : forall a b c, ((a ++ b) ++ c)%string = (a ++ b ++ c)%string.
Proof. induction a; cbn; intros; congruence. Qed.

Lemma insert_text : forall s, insert (PText s) os0 = (s, os0).
Proof. intros s. unfold insert, os0, pad, fmt0. cbn. reflexivity. Qed.
Lemma insert_bad : forall s f, insert (PText s) (mkOS f true) = ("", mkOS f true).
Proof. reflexivity. Qed.

Lemma cut_short : forall s n, (n < String.length s)%nat -> exists r, s = (substring 0 n s ++ r)%string /\ r <> "".
Proof.
  induction s as [|a s IH]; intros n L; [cbn in L; lia|]. destruct n as [|n].
  - exists (String a s). split; [reflexivity|discriminate].
  - cbn in L. destruct (IH n ltac:(lia)) as (r & E & N). exists r. cbn. split; [congruence|auto].
Qed.

Section Mem.
Variable min : Z.

(** A run to the end in which no commit fails and std::terminate is not called. *)
Definition P (fs : list (option fault)) (cur : Z) (code : list instr) (t : tls) (es : list fev) : Prop :=
  (exists c' t', frun min fs cur code t = Some (c', [], t', es)) /\ ~ In FEnded es /\ ~ In (Some FCommit) fs.

Lemma P_step : forall fs cur i k t es, P fs cur (i :: k) t es -> exists f fs' es0 es' code' t',
  fs = f :: fs' /\ es = es0 ++ es' /\ fone min cur f (i :: k) t = Some (code', t', es0) /\
  f <> Some FCommit /\ ~ In FEnded es0 /\ P fs' (cur_level (did es0) cur) code' t' es'.
Proof.
  intros fs cur i k t es ((c' & t' & H) & N & C). destruct fs as [|f fs]; [discriminate|].
  cbn [frun] in H. destruct (fone min cur f (i :: k) t) as [[[code1 t1] es0]|] eqn:F; [|discriminate].
  destruct (frun min fs (cur_level (did es0) cur) code1 t1) as [[[[c2 code2] t2] es2]|] eqn:R; [|discriminate].
  injection H as -> -> -> <-. exists f, fs, es0, es2, code1, t1.
  repeat split; auto.
  - intros ->. apply C. left. auto.
  - intros I. apply N. apply in_or_app. auto.
  - exists c', t'. exact R.
  - intros I. apply N. apply in_or_app. auto.
  - intros I. apply C. right. auto.
Qed.

Lemma did_app : forall a b, did (a ++ b) = did a ++ did b.
Proof. intros. unfold did. apply flat_map_app. Qed.
Lemma did_map : forall l, did (map FDid l) = l.
Proof. unfold did. induction l; cbn; congruence. Qed.
Lemma thrown_app : forall a b, thrown (a ++ b) = thrown a + thrown b.
Proof.
  intros. unfold thrown. induction a as [|e a IH]; cbn; auto. destruct e; cbn; auto.
Qed.
Lemma commits_app : forall a b, commits (a ++ b) = commits a ++ commits b.
Proof. intros. unfold commits. induction a as [|e a IH]; cbn; auto. destruct e; cbn; auto. rewrite IH. auto. Qed.
Lemma failures_cons : forall f fs, failures (f :: fs) = (match f with Some _ => 1 | None => 0 end) + failures fs.
Proof. intros [f|] fs; reflexivity. Qed.

Definition ready (cat : string) (t : tls) : Prop :=
  composer t = "" /\ tempcat t = "" /\ category t = cat /\ cstate t = os0.

(** From the code [code], the thread gets to [k]; on the way: [n] failures, [x] exceptions, the messages [ms]. *)
Definition G (fs : list (option fault)) (es : list fev) (cur : Z) (k : list instr) (cat : string) (n x : nat) (ms : list msg) : Prop :=
  exists fs2 es2 t2, failures fs = n + failures fs2 /\ thrown es = x + thrown es2 /\
    commits (did es) = ms ++ commits (did es2) /\ ready cat t2 /\ P fs2 cur k t2 es2.

Lemma G_step : forall f fs es0 es cur k cat n x ms, G fs es cur k cat n x ms -> thrown es0 = 0 -> commits (did es0) = [] ->
  G (f :: fs) (es0 ++ es) cur k cat (match f with Some _ => S n | None => n end) x ms.
Proof.
  intros f fs es0 es cur k cat n x ms (fs2 & es2 & t2 & A & B & C & R & p) T M. exists fs2, es2, t2.
  rewrite failures_cons, A, thrown_app, T, B, did_app, commits_app, M, C. repeat split; auto; try apply R; try apply p.
  destruct f; auto.
Qed.

Ltac step H :=
  let f := fresh "f" in let fs := fresh "fs" in let e0 := fresh "e0" in let es := fresh "es" in let c := fresh "c" in let t := fresh "t" in
  let F := fresh "F" in let NC := fresh "NC" in let NE := fresh "NE" in
  apply P_step in H; destruct H as (f & fs & e0 & es & c & t & -> & -> & F & NC & NE & H);
  destruct f as [[| | |? ?|]|]; cbn [fone fstep tstep throws terminates] in F; try discriminate F; try (exfalso; apply NC; reflexivity);
  unfold throws, terminates in F.

Ltac fin H := match type of H with P ?fs _ _ ?t ?es => exists fs, es, t end.

Lemma ready_committed : forall t f b, cstate t = mkOS f b -> f = fmt0 -> ready (category t) (committed t).
Proof. intros t f b E ->. unfold committed, clear_state. rewrite E. repeat split. Qed.

(** The end of a line or of a block. *)
Lemma end_line : forall fs es cur k t b, P fs cur (IEnd true :: ICatch :: k) t es -> cstate t = mkOS fmt0 b ->
  G fs es cur k (category t) 0 0 [message t].
Proof.
  intros fs es cur k t b H E. step H. injection F as <- <- <-. cbn [map did flat_map app cur_level] in H.
  step H. injection F as <- <- <-. cbn [map did flat_map app cur_level] in H.
  fin H. rewrite !failures_cons, !thrown_app, !did_app, !commits_app. repeat split; auto; try apply H.
  unfold committed, clear_state. cbn. rewrite E. auto.
Qed.

Lemma end_block : forall fs es cur k t b, P fs cur (IComplete :: ICatch :: k) t es -> cstate t = mkOS fmt0 b ->
  G fs es cur k (category t) 0 0 [message t].
Proof.
  intros fs es cur k t b H E. step H. injection F as <- <- <-. cbn [map did flat_map app cur_level] in H.
  step H. injection F as <- <- <-. cbn [map did flat_map app cur_level] in H.
  fin H. rewrite !failures_cons, !thrown_app, !did_app, !commits_app. repeat split; auto; try apply H.
  unfold committed, clear_state. cbn. rewrite E. auto.
Qed.

Definition say (t : tls) (u : string) : msg :=
  mkMsg (tfile t) (tline t) (tlevel t) (if String.eqb (tempcat t) "" then category t else tempcat t) (composer t ++ u)%string.

Lemma message_say : forall t, message t = say t "".
Proof. intros t. unfold message, say. rewrite str_nil_r. auto. Qed.
Lemma say_put : forall s t u, cstate t = os0 -> say (put (PText s) t) u = say t (s ++ u)%string.
Proof. intros s t u E. unfold say, put. rewrite E, insert_text. cbn. rewrite str_assoc. auto. Qed.
Lemma put_state : forall s t, cstate t = os0 -> cstate (put (PText s) t) = os0.
Proof. intros s t E. unfold put. rewrite E, insert_text. auto. Qed.
Lemma put_cat : forall i t, category (put i t) = category t.
Proof. reflexivity. Qed.
Lemma put_bad : forall s t, cstate t = mkOS fmt0 true -> put (PText s) t = t.
Proof. intros s [a b c d e f g] E. cbn in E. subst g. unfold put. cbn. rewrite str_nil_r. auto. Qed.

(** The two ways in which an insertion appears in the code. *)
Definition item (w : bool) (s : string) : instr := if w then IOp true (Op [] [SPut s]) else IStmt (SPut s).
Definition last (w : bool) : instr := if w then IEnd true else IComplete.

Lemma end_any : forall w fs es cur k t b, P fs cur (last w :: ICatch :: k) t es -> cstate t = mkOS fmt0 b ->
  G fs es cur k (category t) 0 0 [message t].
Proof. intros [|] fs es cur k t b H E; [eapply end_line|eapply end_block]; eauto. Qed.

Lemma item_step : forall w s fs es cur k t, P fs cur (item w s :: k) t es ->
  exists fs1 fs2 es1 es2, fs = fs1 ++ fs2 /\ es = es1 ++ es2 /\ P fs2 cur (IStmt (SPut s) :: k) t es2 /\
    failures fs1 = 0 /\ thrown es1 = 0 /\ commits (did es1) = [].
Proof.
  intros [|] s fs es cur k t H.
  - cbn [item] in H. step H. injection F as <- <- <-. cbn [map did flat_map app cur_level] in H.
    eexists [None], _, [], _. repeat split; auto; apply H.
  - exists [], fs, [], es. repeat split; auto; apply H.
Qed.

Lemma G_pre : forall fs1 fs es1 es cur k cat n x ms, G fs es cur k cat n x ms -> failures fs1 = 0 -> thrown es1 = 0 -> commits (did es1) = [] ->
  G (fs1 ++ fs) (es1 ++ es) cur k cat n x ms.
Proof.
  intros fs1 fs es1 es cur k cat n x ms (fs2 & es2 & t2 & A & B & C & R & p) F T M. exists fs2, es2, t2.
  assert (Z : failures (fs1 ++ fs) = failures fs1 + failures fs).
  { clear. induction fs1 as [|f l IH]; auto. cbn [app]. rewrite !failures_cons, IH. lia. }
  rewrite Z, F, A, thrown_app, T, B, did_app, commits_app, M, C. repeat split; auto; try apply R; try apply p.
Qed.

Lemma texts_bad : forall w ts fs es cur k t, P fs cur (map (item w) ts ++ last w :: ICatch :: k) t es -> cstate t = mkOS fmt0 true ->
  G fs es cur k (category t) 0 0 [message t].
Proof.
  intros w ts. induction ts as [|s ts IH]; intros fs es cur k t H E.
  - cbn [map app] in H. eapply end_any; eauto.
  - cbn [map app] in H. apply item_step in H. destruct H as (fs1 & fs2 & es1 & es2 & -> & -> & H & A & B & C).
    apply G_pre; auto. step H.
    + rewrite E in F. cbn in F. destruct n; discriminate F.
    + injection F as <- <- <-. rewrite put_bad in H by auto. cbn [map did flat_map app cur_level] in H.
      apply (G_step None) with (es0 := [FDid _]); auto.
Qed.

Lemma texts_good : forall w ts fs es cur k t, P fs cur (map (item w) ts ++ last w :: ICatch :: k) t es -> cstate t = os0 ->
  G fs es cur k (category t) 0 0 [say t (joined ts)] \/
  exists u r, joined ts = (u ++ r)%string /\ r <> "" /\ G fs es cur k (category t) 1 0 [say t u].
Proof.
  intros w ts. induction ts as [|s ts IH]; intros fs es cur k t H E.
  - cbn [map app] in H. left. cbn [joined fold_right]. rewrite <- message_say. eapply end_any; eauto.
  - cbn [map app] in H. apply item_step in H. destruct H as (fs1 & fs2 & es1 & es2 & -> & -> & H & A & B & C).
    step H.
    + (* the insertion is cut short *)
      rewrite E, insert_text in F. cbn [fst] in F. destruct (n <? String.length s)%nat eqn:L; [|discriminate F].
      apply Nat.ltb_lt in L. destruct (cut_short s n L) as (r & X & NZ).
      injection F as <- <- <-. cbn [map did flat_map app cur_level] in H.
      right. exists (substring 0 n s), (r ++ joined ts)%string. split; [|split].
      * cbn [joined fold_right]. fold (joined ts). rewrite X at 1. apply str_assoc.
      * destruct r; [congruence|discriminate].
      * apply G_pre; auto. apply (G_step (Some (FText n reset))) with (es0 := [FDid _]) (n := 0); auto.
        assert (E2 : cstate (put_short n reset (PText s) t) = mkOS fmt0 true).
        { unfold put_short. rewrite E. cbn. destruct reset; reflexivity. }
        pose proof (texts_bad _ _ _ _ _ _ _ H E2) as Q. rewrite message_say in Q. cbn [put_short category] in Q.
        replace (say (put_short n reset s t) "") with (say t (substring 0 n s)) in Q; auto.
        unfold say, put_short. rewrite E, insert_text. cbn. rewrite str_nil_r. auto.
    + injection F as <- <- <-. cbn [map did flat_map app cur_level] in H.
      destruct (IH _ _ _ _ _ H (put_state s t E)) as [Q|(u & r & X & NZ & Q)]; rewrite say_put, put_cat in Q by auto.
      * left. apply G_pre; auto; apply (G_step None) with (es0 := [FDid _]); auto.
      * right. exists (s ++ u)%string, r. split; [|split; [auto|]].
        -- cbn [joined fold_right]. fold (joined ts). rewrite X. symmetry. apply str_assoc.
        -- apply G_pre; auto; apply (G_step None) with (es0 := [FDid _]); auto.
Qed.

(** A line that is switched off. *)
Lemma texts_off : forall ts fs es cur k t cat, P fs cur (map (IOp false) (map (fun s : string => Op [] [SPut s]) ts) ++ IEnd false :: ICatch :: k) t es ->
  ready cat t -> G fs es cur k cat 0 0 [].
Proof.
  induction ts as [|s ts IH]; intros fs es cur k t cat H R.
  - cbn [map app] in H. step H. injection F as <- <- <-. cbn [map did flat_map app cur_level] in H.
    step H. injection F as <- <- <-. cbn [map did flat_map app cur_level] in H.
    fin H. rewrite !failures_cons. repeat split; auto; try apply R; try apply H.
  - cbn [map app] in H. step H. injection F as <- <- <-. cbn [map did flat_map app cur_level] in H.
    apply (G_step None) with (es0 := []); auto. eapply IH; eauto.
Qed.

(** The exception is on its way to the handler of the statement. *)
Lemma unwind_off : forall mid fs es cur k t cat, Forall (fun i => i <> IEnd true /\ i <> ICatch) mid ->
  P fs cur (IUnwind :: mid ++ ICatch :: k) t es -> ready cat t -> G fs es cur k cat 0 0 [].
Proof.
  induction mid as [|i mid IH]; intros fs es cur k t cat A H R.
  - cbn [app] in H. step H. injection F as <- <- <-. cbn [map did flat_map app cur_level] in H.
    fin H. rewrite !failures_cons. repeat split; auto; try apply R; try apply H.
  - inversion A as [|? ? A1 A2]; subst. destruct A1 as [A1 A3]. cbn [app] in H.
    destruct i as [| | |[]| | | |]; try congruence; step H; injection F as <- <- <-; cbn [map did flat_map app cur_level] in H;
      apply (G_step None) with (es0 := []); auto; eapply IH; eauto.
Qed.

Lemma unwind_on : forall mid fs es cur k t b, Forall (fun i => i <> IEnd true /\ i <> ICatch) mid ->
  P fs cur (IUnwind :: mid ++ IEnd true :: ICatch :: k) t es -> cstate t = mkOS fmt0 b -> G fs es cur k (category t) 0 0 [message t].
Proof.
  induction mid as [|i mid IH]; intros fs es cur k t b A H R.
  - cbn [app] in H. step H. injection F as <- <- <-. cbn [map did flat_map app cur_level] in H.
    step H. injection F as <- <- <-. cbn [map did flat_map app cur_level] in H.
    fin H. rewrite !failures_cons. repeat split; auto; try apply H.
    unfold committed, clear_state. cbn. rewrite R. auto.
  - inversion A as [|? ? A1 A2]; subst. destruct A1 as [A1 A3]. cbn [app] in H.
    destruct i as [| | |[]| | | |]; try congruence; step H; injection F as <- <- <-; cbn [map did flat_map app cur_level] in H;
      apply (G_step None) with (es0 := []); auto; eapply IH; eauto.
Qed.


Lemma line_on : forall f l v c ts fs es cur k t cat,
  P fs cur ((match c with Some c => [ICat true c] | None => [] end) ++ map (IOp true) (map (fun s : string => Op [] [SPut s]) ts) ++ IEnd true :: ICatch :: k) (enter f l v t) es ->
  ready cat t ->
  G fs es cur k cat 0 0 [mkMsg f l v (override c cat) (joined ts)] \/
  (c <> None /\ G fs es cur k cat 1 1 [mkMsg f l v cat ""]) \/
  exists u r, joined ts = (u ++ r)%string /\ r <> "" /\ G fs es cur k cat 1 0 [mkMsg f l v (override c cat) u].
Proof.
  intros f l v c ts fs es cur k t cat H R.
  assert (M : map (IOp true) (map (fun s : string => Op [] [SPut s]) ts) = map (item true) ts) by (rewrite map_map; auto).
  rewrite M in H. change (IEnd true) with (last true) in H.
  destruct R as (R1 & R2 & R3 & R4). destruct c as [c|].
  - cbn [app] in H. step H.
    + (* the string of LOG_CAT *)
      assert (K : caught (map (item true) ts ++ last true :: ICatch :: k) = true).
      { unfold caught. rewrite existsb_app. cbn. apply orb_true_r. }
      rewrite K in F. injection F as <- <- <-. cbn [did flat_map app cur_level] in H.
      right. left. split; [discriminate|].
      assert (A : Forall (fun i => i <> IEnd true /\ i <> ICatch) (map (item true) ts)).
      { apply Forall_forall. intros x I. apply in_map_iff in I. destruct I as (y & <- & _). split; discriminate. }
      destruct (unwind_on _ _ _ _ _ _ false A H R4) as (fs2 & es2 & t2 & X1 & X2 & X3 & X4 & X5).
      exists fs2, es2, t2. rewrite failures_cons, thrown_app, did_app, commits_app, X1, X2, X3. repeat split; try apply X4; try apply X5.
      * cbn. unfold message. cbn. rewrite R1, R2, R3. auto.
      * cbn in X4. rewrite R3 in X4. apply X4.
    + injection F as <- <- <-. exfalso. apply NE. left. auto.
    + injection F as <- <- <-. cbn [map did flat_map app cur_level] in H.
      assert (E : cstate (set_temp c (enter f l v t)) = os0) by (exact R4).
      destruct (texts_good _ _ _ _ _ _ _ H E) as [Q|(u & r & X & NZ & Q)].
      * left. apply (G_step None) with (es0 := []); auto. cbn in Q. rewrite R3 in Q. unfold say in Q. cbn in Q. rewrite R1, R3 in Q. exact Q.
      * right. right. exists u, r. split; [auto|]. split; [auto|]. apply (G_step None) with (es0 := []); auto.
        cbn in Q. rewrite R3 in Q. unfold say in Q. cbn in Q. rewrite R1, R3 in Q. exact Q.
  - cbn [app] in H. assert (E : cstate (enter f l v t) = os0) by (exact R4).
    destruct (texts_good _ _ _ _ _ _ _ H E) as [Q|(u & r & X & NZ & Q)].
    * left. cbn in Q. rewrite R3 in Q. unfold say in Q. cbn in Q. rewrite R1, R2, R3 in Q. exact Q.
    * right. right. exists u, r. split; [auto|]. split; [auto|].
      cbn in Q. rewrite R3 in Q. unfold say in Q. cbn in Q. rewrite R1, R2, R3 in Q. exact Q.
Qed.

Lemma line_off : forall c ts fs es cur k t cat,
  P fs cur ((match c with Some c => [ICat false c] | None => [] end) ++ map (IOp false) (map (fun s : string => Op [] [SPut s]) ts) ++ IEnd false :: ICatch :: k) t es ->
  ready cat t -> G fs es cur k cat 0 0 [] \/ G fs es cur k cat 1 1 [].
Proof.
  intros c ts fs es cur k t cat H R. destruct c as [c|].
  - cbn [app] in H. step H.
    + set (mid := map (IOp false) (map (fun s : string => Op [] [SPut s]) ts)) in *.
      replace (mid ++ IEnd false :: ICatch :: k) with ((mid ++ [IEnd false]) ++ ICatch :: k) in F by (rewrite <- app_assoc; auto).
      assert (K : caught ((mid ++ [IEnd false]) ++ ICatch :: k) = true).
      { unfold caught. rewrite existsb_app. cbn. apply orb_true_r. }
      rewrite K in F. injection F as <- <- <-. cbn [did flat_map app cur_level] in H.
      assert (A : Forall (fun i => i <> IEnd true /\ i <> ICatch) (mid ++ [IEnd false])).
      { apply Forall_app. split; [|repeat constructor; discriminate].
        apply Forall_forall. intros x I. apply in_map_iff in I. destruct I as (y & <- & _). split; discriminate. }
      right. destruct (unwind_off _ _ _ _ _ _ _ A H R) as (fs2 & es2 & t2 & X1 & X2 & X3 & X4 & X5).
      exists fs2, es2, t2. rewrite failures_cons, thrown_app, did_app, commits_app, X1, X2, X3. repeat split; try apply X4; try apply X5.
    + injection F as <- <- <-. cbn [map did flat_map app cur_level] in H. left. apply (G_step None) with (es0 := []); auto.
      eapply texts_off; eauto.
  - left. cbn [app] in H. eapply texts_off; eauto.
Qed.

(** An exception before anything else happened. *)
Lemma thrown_now : forall fs es cur k t cat f, P fs cur (IUnwind :: ICatch :: k) t es -> ready cat t ->
  G (Some f :: fs) ([FThrew] ++ es) cur k cat 1 1 [].
Proof.
  intros fs es cur k t cat f H R. destruct (unwind_off [] _ _ _ _ _ _ (Forall_nil _) H R) as (fs2 & es2 & t2 & X1 & X2 & X3 & X4 & X5).
  exists fs2, es2, t2. rewrite failures_cons, thrown_app, did_app, commits_app, X1, X2, X3. repeat split; try apply X4; try apply X5.
Qed.

Lemma end_try : forall fs es cur k t cat, P fs cur (ICatch :: k) t es -> ready cat t -> G fs es cur k cat 0 0 [].
Proof.
  intros fs es cur k t cat H R. step H. injection F as <- <- <-. cbn [map did flat_map app cur_level] in H.
  fin H. rewrite failures_cons. repeat split; auto; try apply R; try apply H.
Qed.

Ltac gs := repeat (first [eassumption | apply (G_step None) with (es0 := [FDid _]); [|reflexivity|reflexivity] | apply (G_step None) with (es0 := []); [|reflexivity|reflexivity]]).

Lemma one_statement : forall s fs es cur k t cat, P fs cur (IStmt (STry [embed s]) :: k) t es -> ready cat t ->
  exists n x ms cat', outcome min cur cat s n x ms cat' /\ G fs es (LoggerSpec.level_of cur [s]) k cat' n x ms.
Proof.
  intros s fs es cur k t cat H R. step H. injection F as <- <- <-. cbn [map did flat_map app cur_level] in H.
  destruct s as [f l v c ts|f l v ts|c|z]; cbn [embed LoggerSpec.level_of] in *.
  - (* a line *)
    step H.
    + cbn [caught existsb orb] in F. injection F as <- <- <-. cbn [map did flat_map app cur_level] in H.
      exists 1, 1, [], cat. split; [constructor; exact I|]. gs. eapply thrown_now; eauto.
    + destruct (enabled min cur v) eqn:B; injection F as <- <- <-; cbn [map did flat_map app cur_level] in H.
      * pose proof B as B2. unfold enabled in B2. apply andb_prop in B2. destruct B2 as [B2 B3]. pose proof B2 as B4. pose proof B3 as B5.
        apply Z.leb_le in B4, B5.
        destruct (line_on _ _ _ _ _ _ _ _ _ _ _ H R) as [Q|[[NN Q]|(u & r & X & NZ & Q)]].
        -- exists 0, 0, [mkMsg f l v (override c cat) (joined ts)], cat. split.
           ++ pose proof (o_done min cur cat (LogLine f l v c ts)) as O. cbn [messages category_of] in O. rewrite B2, B3 in O. exact O.
           ++ gs.
        -- destruct c as [c|]; [|congruence]. exists 1, 1, [mkMsg f l v cat ""], cat. split; [constructor; auto|].
           gs.
        -- exists 1, 0, [mkMsg f l v (override c cat) u], cat. split; [econstructor; eauto|].
           gs.
      * destruct (line_off _ _ _ _ _ _ _ _ H R) as [Q|Q].
        -- exists 0, 0, [], cat. split.
           ++ pose proof (o_done min cur cat (LogLine f l v c ts)) as O. cbn [messages category_of] in O. unfold enabled in B. rewrite B in O. exact O.
           ++ gs.
        -- exists 1, 1, [], cat. split; [constructor; exact I|]. gs.
  - (* a block *)
    step H.
    + cbn [caught existsb orb] in F. injection F as <- <- <-. cbn [map did flat_map app cur_level] in H.
      exists 1, 1, [], cat. split; [constructor; exact I|]. gs. eapply thrown_now; eauto.
    + injection F as <- <- <-. cbn [map did flat_map app cur_level] in H.
      step H. injection F as <- <- <-. cbn [map did flat_map app cur_level] in H.
      destruct (enabled min cur v) eqn:B; cbn [andb] in H.
      * pose proof B as B2. unfold enabled in B2. apply andb_prop in B2. destruct B2 as [B2 B3]. pose proof B2 as B4. pose proof B3 as B5.
        apply Z.leb_le in B4, B5.
        assert (M : map IStmt (map (fun t : string => SPut t) ts) = map (item false) ts) by (rewrite map_map; auto).
        rewrite M, <- app_assoc in H. cbn [app] in H. change IComplete with (last false) in H.
        destruct R as (R1 & R2 & R3 & R4). assert (E : cstate (enter f l v t) = os0) by (exact R4).
        destruct (texts_good _ _ _ _ _ _ _ H E) as [Q|(u & r & X & NZ & Q)];
          cbn in Q; rewrite R3 in Q; unfold say in Q; cbn in Q; rewrite R1, R2, R3 in Q; cbn in Q.
        -- exists 0, 0, [mkMsg f l v cat (joined ts)], cat. split.
           ++ pose proof (o_done min cur cat (LogBlock f l v ts)) as O. cbn [messages category_of] in O. rewrite B2, B3 in O. exact O.
           ++ gs.
        -- exists 1, 0, [mkMsg f l v cat u], cat. split; [econstructor; eauto|].
           gs.
      * cbn [app] in H. exists 0, 0, [], cat. split.
        -- pose proof (o_done min cur cat (LogBlock f l v ts)) as O. cbn [messages category_of] in O. unfold enabled in B. rewrite B in O. exact O.
        -- gs. eapply end_try; eauto.
  - (* LOG_CATEGORY *)
    step H; destruct (cur <=? min)%Z eqn:B; try discriminate F; cbn [caught existsb orb] in F; injection F as <- <- <-; cbn [map did flat_map app cur_level] in H.
    + exists 1, 1, [], cat. split; [constructor; apply Z.leb_le; auto|]. gs. eapply thrown_now; eauto.
    + exfalso. apply NE0. left. auto.
    + exists 0, 0, [], c. split.
      * pose proof (o_done min cur cat (SetCat c)) as O. cbn [messages category_of] in O. rewrite B in O. exact O.
      * gs. eapply end_try; eauto.
        destruct R as (R1 & R2 & R3 & R4). repeat split; auto.
    + exists 0, 0, [], cat. split.
      * pose proof (o_done min cur cat (SetCat c)) as O. cbn [messages category_of] in O. rewrite B in O. exact O.
      * gs. eapply end_try; eauto.
  - (* the level *)
    step H. injection F as <- <- <-. cbn [map did flat_map app cur_level] in H.
    exists 0, 0, [], cat. split; [exact (o_done min cur cat (SetLevel z))|].
    gs. eapply end_try; eauto.
Qed.

Lemma all_statements : forall p fs es cur t cat, P fs cur (map IStmt (guarded p)) t es -> ready cat t ->
  outcomes min cur cat p (failures fs) (thrown es) (commits (did es)).
Proof.
  induction p as [|s p IH]; intros fs es cur t cat H R.
  - destruct H as ((c' & t' & H) & _). destruct fs as [|[[]|] fs]; cbn in H; try discriminate H. injection H as <- <- <-. constructor.
  - cbn [guarded map] in H. destruct (one_statement _ _ _ _ _ _ _ H R) as (n & x & ms & cat' & O & fs2 & es2 & t2 & X1 & X2 & X3 & X4 & X5).
    rewrite X1, X2, X3. econstructor; eauto.
Qed.

End Mem.

Lemma run_outcomes : forall min lvl p fs es, ran min lvl p fs es -> ~ In FEnded es -> ~ In (Some FCommit) fs ->
  outcomes min lvl "" p (failures fs) (thrown es) (commits (did es)).
Proof.
  intros min lvl p fs es (lvl' & t & H) N C. apply (all_statements min) with (t := tls0); [|repeat split].
  split; [eauto|auto].
Qed.

(** ** Every outcome is possible *)
Section Possible.
Variable min : Z.

Definition R (cur : Z) (code : list instr) (t : tls) (cur' : Z) (code' : list instr) (t' : tls) (n x : nat) (ms : list msg) : Prop :=
  exists fs es, frun min fs cur code t = Some (cur', code', t', es) /\ failures fs = n /\ thrown es = x /\ commits (did es) = ms /\
    ~ In FEnded es /\ ~ In (Some FCommit) fs.

Lemma R_refl : forall cur code t, R cur code t cur code t 0 0 [].
Proof. intros. exists [], []. repeat split; auto. Qed.

Lemma R_step : forall f cur code t code1 t1 es0 cur' code' t' n x ms, fone min cur f code t = Some (code1, t1, es0) ->
  f <> Some FCommit -> ~ In FEnded es0 -> R (cur_level (did es0) cur) code1 t1 cur' code' t' n x ms ->
  R cur code t cur' code' t' ((match f with Some _ => 1 | None => 0 end) + n) (thrown es0 + x) (commits (did es0) ++ ms).
Proof.
  intros f cur code t code1 t1 es0 cur' code' t' n x ms S1 NC NE (fs & es & H & A & B & C & D & E).
  exists (f :: fs), (es0 ++ es). cbn [frun]. rewrite S1, H. rewrite failures_cons, thrown_app, did_app, commits_app, A, B, C.
  repeat split; auto; intros I.
  - apply in_app_or in I. tauto.
  - destruct I as [I|I]; auto.
Qed.

Lemma R_trans : forall cur code t cur1 code1 t1 n x ms cur2 code2 t2 n' x' ms',
  R cur code t cur1 code1 t1 n x ms -> R cur1 code1 t1 cur2 code2 t2 n' x' ms' -> R cur code t cur2 code2 t2 (n + n') (x + x') (ms ++ ms').
Proof.
  intros cur code t cur1 code1 t1 n x ms cur2 code2 t2 n' x' ms' (fs & es & H & A & B & C & D & E).
  revert cur code t es n x ms H A B C D E. induction fs as [|f fs IH]; intros cur code t es n x ms H A B C D E H2.
  - cbn in H. injection H as <- <- <- <-. subst. exact H2.
  - cbn [frun] in H. destruct (fone min cur f code t) as [[[c0 t0] e0]|] eqn:S1; [|discriminate].
    destruct (frun min fs (cur_level (did e0) cur) c0 t0) as [[[[c3 code3] t3] e3]|] eqn:S2; [|discriminate].
    injection H as <- <- <- <-. subst n x ms. rewrite failures_cons, thrown_app, did_app, commits_app, <- !Nat.add_assoc, <- app_assoc.
    eapply R_step; eauto.
    + intros ->. apply E. left. auto.
    + intros I. apply D. apply in_or_app. auto.
    + eapply IH; eauto.
      * intros I. apply D. apply in_or_app. auto.
      * intros I. apply E. right. auto.
Qed.

Lemma R_quiet : forall cur code t code1 t1 es0 cur' code' t' n x ms, tstep min cur code t = Some (code1, t1, es0) ->
  commits es0 = [] -> R (cur_level es0 cur) code1 t1 cur' code' t' n x ms -> R cur code t cur' code' t' n x ms.
Proof.
  intros cur code t code1 t1 es0 cur' code' t' n x ms S1 M H.
  assert (T : thrown (map FDid es0) = 0) by (clear; induction es0; auto).
  replace n with (0 + n) by auto. replace x with (thrown (map FDid es0) + x) by (rewrite T; auto). replace ms with (commits (did (map FDid es0)) ++ ms) by (rewrite did_map, M; auto).
  apply (R_step None) with (code1 := code1) (t1 := t1).
  - cbn [fone]. rewrite S1. auto.
  - discriminate.
  - intros I. apply in_map_iff in I. destruct I as (y & Y & _). discriminate.
  - rewrite did_map. exact H.
Qed.

Lemma R_say : forall cur code t code1 t1 m b cur' code' t' n x ms, tstep min cur code t = Some (code1, t1, [EvCommit m b]) ->
  R cur code1 t1 cur' code' t' n x ms -> R cur code t cur' code' t' n x (m :: ms).
Proof.
  intros cur code t code1 t1 m b cur' code' t' n x ms S1 H.
  apply (R_step None cur code t code1 t1 [FDid (EvCommit m b)] cur' code' t' n x ms).
  - cbn [fone]. rewrite S1. auto.
  - discriminate.
  - cbn. intuition discriminate.
  - exact H.
Qed.

Ltac q := eapply R_quiet; [cbn [tstep]; reflexivity|reflexivity|cbn [cur_level]].
Ltac c := eapply R_say; [cbn [tstep]; reflexivity|].

Lemma last_run : forall w cur k t b, cstate t = mkOS fmt0 b ->
  exists t', ready (category t) t' /\ R cur (last w :: ICatch :: k) t cur k t' 0 0 [message t].
Proof.
  intros w cur k t b E. exists (committed t). split; [eapply ready_committed; eauto|].
  destruct w.
  - c. q. apply R_refl.
  - c. q. apply R_refl.
Qed.

Lemma item_run : forall w (s : string) cur k t cur' k' t' n x ms, R cur (IStmt (SPut s) :: k) t cur' k' t' n x ms -> R cur (item w s :: k) t cur' k' t' n x ms.
Proof.
  intros [|] s cur k t cur' k' t' n x ms H; cbn [item]; auto. q. exact H.
Qed.

Lemma texts_bad_run : forall w ts cur k t, cstate t = mkOS fmt0 true ->
  exists t', ready (category t) t' /\ R cur (map (item w) ts ++ last w :: ICatch :: k) t cur k t' 0 0 [message t].
Proof.
  intros w ts. induction ts as [|s ts IH]; intros cur k t E; cbn [map app].
  - eapply last_run; eauto.
  - destruct (IH cur k t E) as (t' & Q1 & Q2). exists t'. split; auto. apply item_run.
    q. rewrite put_bad by auto. exact Q2.
Qed.

Lemma texts_full_run : forall w ts cur k t, cstate t = os0 ->
  exists t', ready (category t) t' /\ R cur (map (item w) ts ++ last w :: ICatch :: k) t cur k t' 0 0 [say t (joined ts)].
Proof.
  intros w ts. induction ts as [|s ts IH]; intros cur k t E; cbn [map app].
  - change (joined []) with "". rewrite <- message_say. eapply last_run; eauto.
  - destruct (IH cur k (put (PText s) t) (put_state s t E)) as (t' & Q1 & Q2). rewrite put_cat in Q1. exists t'. split; auto. apply item_run.
    q. rewrite say_put in Q2 by auto. exact Q2.
Qed.

Lemma split_at : forall s j u r, (s ++ j)%string = (u ++ r)%string ->
  (exists u', u = (s ++ u')%string /\ j = (u' ++ r)%string) \/ (exists r', r' <> "" /\ s = (u ++ r')%string).
Proof.
  induction s as [|a s IH]; intros j u r E.
  - left. exists u. auto.
  - destruct u as [|b u].
    + right. exists (String a s). split; [discriminate|auto].
    + cbn in E. injection E as -> E. destruct (IH _ _ _ E) as [(u' & -> & X)|(r' & X & ->)].
      * left. exists u'. auto.
      * right. exists r'. auto.
Qed.

Lemma substring_front : forall u r, substring 0 (String.length u) (u ++ r) = u.
Proof. induction u as [|a u IH]; intros r; cbn; [destruct r; auto|rewrite IH; auto]. Qed.
Lemma length_front : forall u r, r <> "" -> (String.length u < String.length (u ++ r))%nat.
Proof. induction u as [|a u IH]; intros r N; cbn; [destruct r; [congruence|cbn; lia]|]. specialize (IH r N). lia. Qed.

Lemma texts_short_run : forall w ts cur k t u r, cstate t = os0 -> joined ts = (u ++ r)%string -> r <> "" ->
  exists t', ready (category t) t' /\ R cur (map (item w) ts ++ last w :: ICatch :: k) t cur k t' 1 0 [say t u].
Proof.
  intros w ts. induction ts as [|s ts IH]; intros cur k t u r E J N; cbn [map app].
  - destruct u; destruct r; discriminate || congruence.
  - cbn [joined fold_right] in J. fold (joined ts) in J. destruct (split_at _ _ _ _ J) as [(u' & -> & X)|(r' & N' & ->)].
    + destruct (IH cur k (put (PText s) t) u' r (put_state s t E) X N) as (t' & Q1 & Q2). rewrite put_cat in Q1. exists t'. split; auto. apply item_run.
      q. rewrite say_put in Q2 by auto. exact Q2.
    + set (t1 := put_short (String.length u) true (PText (u ++ r')) t).
      assert (E1 : cstate t1 = mkOS fmt0 true) by (unfold t1, put_short; rewrite E; reflexivity).
      destruct (texts_bad_run w ts cur k t1 E1) as (t' & Q1 & Q2). exists t'. split; [exact Q1|].
      apply item_run.
      apply (R_step (Some (FText (String.length u) true)) cur _ t (map (item w) ts ++ last w :: ICatch :: k) t1 [FDid (EvPut u)] cur k t' 0 0 [say t u]).
      * cbn [fone fstep]. rewrite E, insert_text. cbn [fst].
        replace (String.length u <? String.length (u ++ r'))%nat with true by (symmetry; apply Nat.ltb_lt, length_front; auto).
        rewrite substring_front. reflexivity.
      * discriminate.
      * cbn. intuition discriminate.
      * replace (say t u) with (message t1); [exact Q2|].
        unfold message, say, t1, put_short. rewrite E, insert_text. cbn. rewrite substring_front. auto.
Qed.

Lemma texts_off_run : forall ts cur k t, R cur (map (IOp false) (map (fun s : string => Op [] [SPut s]) ts) ++ IEnd false :: ICatch :: k) t cur k t 0 0 [].
Proof.
  induction ts as [|s ts IH]; intros cur k t; cbn [map app].
  - q. q. apply R_refl.
  - q. apply IH.
Qed.

Lemma unwind_run : forall mid cur k t, Forall (fun i => i <> IEnd true /\ i <> ICatch) mid ->
  R cur (IUnwind :: mid ++ k) t cur (IUnwind :: k) t 0 0 [].
Proof.
  induction mid as [|i mid IH]; intros cur k t A; cbn [app]; [apply R_refl|].
  inversion A as [|? ? [A1 A3] A2]; subst. destruct i as [| | |[]| | | |]; try congruence; q; apply IH; auto.
Qed.

Lemma statement_run : forall s cur k t cat n x ms cat', ready cat t -> outcome min cur cat s n x ms cat' ->
  exists t', ready cat' t' /\ R cur (IStmt (STry [embed s]) :: k) t (LoggerSpec.level_of cur [s]) k t' n x ms.
Proof.
  intros s cur k t cat n x ms cat' Rd O.
  assert (M1 : forall ts, map (IOp true) (map (fun s : string => Op [] [SPut s]) ts) = map (item true) ts) by (intros; rewrite map_map; auto).
  assert (M2 : forall ts, map IStmt (map (fun t : string => SPut t) ts) = map (item false) ts) by (intros; rewrite map_map; auto).
  assert (TC : forall f l v c ts (b : nat) ms1,
    ((v <=? min)%Z && (v <=? cur)%Z = true) ->
    (forall t2, cstate t2 = os0 -> category t2 = cat -> (tempcat t2 = match c with Some c => c | None => "" end) -> composer t2 = "" ->
       tfile t2 = f -> tline t2 = l -> tlevel t2 = v ->
       exists t', ready cat t' /\ R cur (map (item true) ts ++ last true :: ICatch :: k) t2 cur k t' b 0 ms1) ->
    exists t', ready cat t' /\ R cur (IStmt (STry [embed (LogLine f l v c ts)]) :: k) t cur k t' b 0 ms1).
  { intros f l v c ts b ms1 B Q. destruct Rd as (R1 & R2 & R3 & R4).
    destruct (Q (match c with Some c => set_temp c (enter f l v t) | None => enter f l v t end)) as (t' & Q1 & Q2);
      try (destruct c; cbn; auto; fail).
    exists t'. split; auto. cbn [embed]. q. q. unfold enabled. rewrite B, M1.
    destruct c as [c|]; cbn [app].
    - q. exact Q2.
    - exact Q2. }
  inversion O as [s0|s0 OK|f l v y ts V1 V2|f l v c ts u r V1 V2 J N|f l v ts u r V1 V2 J N]; subst; cbn [LoggerSpec.level_of].
  - (* nothing fails *)
    destruct s as [f l v c ts|f l v ts|c|z]; cbn [messages category_of LoggerSpec.level_of].
    + rewrite app_nil_r. destruct ((v <=? min)%Z && (v <=? cur)%Z) eqn:B.
      * apply TC; auto. intros t2 E1 E2 E3 E4 E5 E6 E7. destruct (texts_full_run true ts cur k t2 E1) as (t' & Q1 & Q2). exists t'. rewrite E2 in Q1.
        split; auto. replace (mkMsg f l v (override c cat) (joined ts)) with (say t2 (joined ts)); auto.
        unfold say. rewrite E2, E3, E4, E5, E6, E7. destruct c; reflexivity.
      * exists t. split; auto. cbn [embed]. q. q. unfold enabled. rewrite B.
        destruct c as [c|]; cbn [app]; [q|]; apply texts_off_run.
    + rewrite app_nil_r. destruct ((v <=? min)%Z && (v <=? cur)%Z) eqn:B; cbn [embed].
      * destruct Rd as (R1 & R2 & R3 & R4). destruct (texts_full_run false ts cur k (enter f l v t) R4) as (t' & Q1 & Q2).
        exists t'. split; [cbn in Q1; rewrite R3 in Q1; auto|]. q. q. q.
        unfold enabled. rewrite B. cbn [andb]. rewrite M2, <- app_assoc. unfold say in Q2. cbn in Q2. rewrite R1, R2, R3 in Q2. exact Q2.
      * exists t. split; auto. q. q. q. unfold enabled. rewrite B. cbn [andb app].
        q. apply R_refl.
    + destruct (cur <=? min)%Z eqn:B.
      * exists (set_cat c t). split; [destruct Rd as (R1 & R2 & R3 & R4); repeat split; auto|]. cbn [embed]. q. q. rewrite B.
        q. apply R_refl.
      * exists t. split; [auto|]. cbn [embed]. q. q. rewrite B. q. apply R_refl.
    + exists t. split; auto. cbn [embed]. q. q. q. apply R_refl.
  - (* an exception and nothing else *)
    exists t. split; auto. q.
    destruct s as [f l v c ts|f l v ts|c|z]; cbn [embed map LoggerSpec.level_of]; [| | |tauto].
    + apply (R_step (Some FBegin) cur _ t (IUnwind :: ICatch :: k) t [FThrew] cur k t 0 0 []); [cbn [fone fstep]; reflexivity|discriminate|cbn; intuition discriminate|].
      cbn [did flat_map app cur_level]. q. apply R_refl.
    + apply (R_step (Some FBegin) cur _ t (IUnwind :: ICatch :: k) t [FThrew] cur k t 0 0 []); [cbn [fone fstep]; reflexivity|discriminate|cbn; intuition discriminate|].
      cbn [did flat_map app cur_level]. q. apply R_refl.
    + apply Z.leb_le in OK.
      apply (R_step (Some FBegin) cur _ t (IUnwind :: ICatch :: k) t [FThrew] cur k t 0 0 []); [cbn [fone fstep]; rewrite OK; reflexivity|discriminate|cbn; intuition discriminate|].
      cbn [did flat_map app cur_level]. q. apply R_refl.
  - (* the category is lost *)
    apply Z.leb_le in V1, V2. destruct Rd as (R1 & R2 & R3 & R4).
    exists (committed (enter f l v t)). split; [pose proof (ready_committed (enter f l v t) fmt0 false R4 eq_refl) as Q; cbn in Q; rewrite R3 in Q; exact Q|].
    cbn [embed]. q. q. unfold enabled. rewrite V1, V2, M1. cbn [andb app].
    assert (A : Forall (fun i => i <> IEnd true /\ i <> ICatch) (map (item true) ts)).
    { apply Forall_forall. intros z I. apply in_map_iff in I. destruct I as (w & <- & _). split; discriminate. }
    assert (K : caught (map (item true) ts ++ IEnd true :: ICatch :: k) = true).
    { unfold caught. rewrite existsb_app. cbn. apply orb_true_r. }
    apply (R_step (Some FCatArg) cur _ (enter f l v t) (IUnwind :: map (item true) ts ++ IEnd true :: ICatch :: k) (enter f l v t) [FThrew] cur k (committed (enter f l v t)) 0 0 [mkMsg f l v cat' ""]);
      [cbn [fone fstep]; unfold throws; rewrite K; reflexivity|discriminate|cbn; intuition discriminate|].
    cbn [did flat_map app cur_level].
    replace [mkMsg f l v cat' ""] with ([] ++ [message (enter f l v t)]) by (unfold message; cbn; rewrite R1, R2, R3; auto).
    eapply (R_trans _ _ _ _ _ _ 0 0 [] _ _ _ 0 0); [apply unwind_run; auto|]. c. q. apply R_refl.
  - (* cut short *)
    apply Z.leb_le in V1, V2. apply TC; [rewrite V1, V2; auto|]. intros t2 E1 E2 E3 E4 E5 E6 E7.
    destruct (texts_short_run true ts cur k t2 u r E1 J N) as (t' & Q1 & Q2). exists t'. rewrite E2 in Q1. split; auto.
    replace (mkMsg f l v (override c cat') u) with (say t2 u); auto.
    unfold say. rewrite E2, E3, E4, E5, E6, E7. destruct c; reflexivity.
  - apply Z.leb_le in V1, V2. destruct Rd as (R1 & R2 & R3 & R4). destruct (texts_short_run false ts cur k (enter f l v t) u r R4 J N) as (t' & Q1 & Q2).
    exists t'. split; [cbn in Q1; rewrite R3 in Q1; auto|]. cbn [embed]. q. q. q.
    unfold enabled. rewrite V1, V2. cbn [andb]. rewrite M2, <- app_assoc. unfold say in Q2. cbn in Q2. rewrite R1, R2, R3 in Q2. exact Q2.
Qed.

Lemma program_run : forall p cur t cat n x ms, ready cat t -> outcomes min cur cat p n x ms ->
  exists cur' t', R cur (map IStmt (guarded p)) t cur' [] t' n x ms.
Proof.
  induction p as [|s p IH]; intros cur t cat n x ms Rd O; inversion O; subst.
  - exists cur, t. apply R_refl.
  - match goal with H : outcome _ _ _ _ _ _ _ _ |- _ => destruct (statement_run _ _ (map IStmt (guarded p)) _ _ _ _ _ _ Rd H) as (t1 & Rd1 & Q1) end.
    match goal with H : outcomes _ _ _ _ _ _ _ |- _ => destruct (IH _ _ _ _ _ _ Rd1 H) as (cur' & t' & Q2) end.
    exists cur', t'. cbn [guarded map]. eapply R_trans; eauto.
Qed.

End Possible.

Ltac q := eapply R_quiet; [cbn [tstep]; reflexivity|reflexivity|cbn [cur_level]].

Lemma outcomes_run : forall min lvl p n x ms, outcomes min lvl "" p n x ms ->
  exists fs es, ran min lvl p fs es /\ failures fs = n /\ thrown es = x /\ commits (did es) = ms /\ ~ In FEnded es /\ ~ In (Some FCommit) fs.
Proof.
  intros min lvl p n x ms O. destruct (program_run min p lvl tls0 "" n x ms ltac:(repeat split) O) as (cur' & t' & fs & es & H & A & B & C & D & E).
  exists fs, es. split; [|repeat split; auto]. exists cur', t'. exact H.
Qed.

(** ** Without failures *)
Lemma outcomes_none : forall min lvl cat p n x ms, outcomes min lvl cat p n x ms -> n = 0 -> x = 0 /\ ms = messages min lvl cat p.
Proof.
  intros min lvl cat p n x ms O. induction O as [|lvl cat s p n x ms cat' n' x' ms' O1 O2 IH]; intros Z; [auto|].
  inversion O1; subst; cbn in Z; try discriminate Z. destruct (IH Z) as [-> ->]. split; auto.
  destruct s as [f l v c ts|f l v ts|c|z]; cbn [messages category_of LoggerSpec.level_of]; rewrite ?app_nil_r; auto.
Qed.

(** The exceptions do not outnumber the failures. *)
Lemma outcomes_le : forall min lvl cat p n x ms, outcomes min lvl cat p n x ms -> x <= n.
Proof.
  intros min lvl cat p n x ms O. induction O as [|lvl cat s p n x ms cat' n' x' ms' O1 O2 IH]; [auto|].
  assert (x <= n) by (inversion O1; subst; lia). lia.
Qed.

Lemma frun_app : forall min fs1 fs2 cur code t cur1 code1 t1 es1 cur2 code2 t2 es2,
  frun min fs1 cur code t = Some (cur1, code1, t1, es1) -> frun min fs2 cur1 code1 t1 = Some (cur2, code2, t2, es2) ->
  frun min (fs1 ++ fs2) cur code t = Some (cur2, code2, t2, es1 ++ es2).
Proof.
  intros min fs1. induction fs1 as [|f fs1 IH]; intros fs2 cur code t cur1 code1 t1 es1 cur2 code2 t2 es2 H1 H2; cbn [app frun] in *.
  - injection H1 as <- <- <- <-. exact H2.
  - destruct (fone min cur f code t) as [[[c0 t0] e0]|]; [|discriminate H1].
    destruct (frun min fs1 (cur_level (did e0) cur) c0 t0) as [[[[c3 code3] t3] e3]|] eqn:S2; [|discriminate H1].
    injection H1 as <- <- <- <-. rewrite (IH _ _ _ _ _ _ _ _ _ _ _ _ S2 H2). rewrite app_assoc. auto.
Qed.

Lemma failures_app : forall a b, failures (a ++ b) = failures a + failures b.
Proof. induction a as [|f a IH]; intros b; auto. cbn [app]. rewrite !failures_cons, IH. lia. Qed.

Lemma no_failure_no_end : forall min fs cur code t cur' code' t' es, frun min fs cur code t = Some (cur', code', t', es) -> failures fs = 0 -> ~ In FEnded es.
Proof.
  intros min fs. induction fs as [|f fs IH]; intros cur code t cur' code' t' es H Z I.
  - cbn in H. injection H as <- <- <- <-. destruct I.
  - rewrite failures_cons in Z. destruct f; [discriminate Z|]. cbn [frun fone] in H.
    destruct (tstep min cur code t) as [[[c0 t0] e0]|]; [|discriminate H].
    destruct (frun min fs (cur_level (did (map FDid e0)) cur) c0 t0) as [[[[c3 code3] t3] e3]|] eqn:S2; [|discriminate H].
    injection H as <- <- <- <-. apply in_app_or in I. destruct I as [I|I].
    + apply in_map_iff in I. destruct I as (y & Y & _). discriminate Y.
    + exact (IH _ _ _ _ _ _ _ S2 Z I).
Qed.

Lemma no_failure_in : forall fs f, failures fs = 0 -> ~ In (Some f) fs.
Proof.
  induction fs as [|g fs IH]; intros f Z I; [destruct I|]. rewrite failures_cons in Z. destruct g; [discriminate Z|].
  destruct I as [I|I]; [discriminate I|]. exact (IH f Z I).
Qed.

Lemma no_failure : forall min lvl p fs es, ran min lvl p fs es -> failures fs = 0 ->
  ~ In FEnded es /\ thrown es = 0 /\ commits (did es) = messages min lvl "" p.
Proof.
  intros min lvl p fs es (lvl' & t & H) Z. assert (N : ~ In FEnded es) by (eapply no_failure_no_end; eauto). split; auto.
  apply (outcomes_none min lvl "" p (failures fs)); auto. apply run_outcomes; [exists lvl', t; auto|auto|].
  apply no_failure_in. auto.
Qed.

(** The texts of a block or line, without its end. *)
Lemma texts_only_run : forall min w ts cur k t, cstate t = os0 ->
  exists t', R min cur (map (item w) ts ++ k) t cur k t' 0 0 [] /\ cstate t' = os0 /\ composer t' = (composer t ++ joined ts)%string /\
    category t' = category t /\ tempcat t' = tempcat t /\ tfile t' = tfile t /\ tline t' = tline t /\ tlevel t' = tlevel t.
Proof.
  intros min w ts. induction ts as [|s ts IH]; intros cur k t E; cbn [map app].
  - exists t. split; [apply R_refl|]. change (joined []) with "". rewrite str_nil_r. repeat split; auto.
  - destruct (IH cur k (put (PText s) t) (put_state s t E)) as (t' & Q1 & Q2 & Q3 & Q). exists t'. split; [|split; [auto|split; [|exact Q]]].
    + apply item_run. q. exact Q1.
    + rewrite Q3. unfold put. rewrite E, insert_text. cbn [composer fst joined fold_right]. apply str_assoc.
Qed.

Lemma block_leaks : forall min lvl f l v ts f2 l2 v2 c2 ts2, (v <= min)%Z -> (v <= lvl)%Z -> (v2 <= min)%Z -> (v2 <= lvl)%Z ->
  exists fs es, ran min lvl [LogBlock f l v ts; LogLine f2 l2 v2 c2 ts2] fs es /\ failures fs = 1 /\ ~ In FEnded es /\
    commits (did es) = [mkMsg f2 l2 v2 (override c2 "") (joined ts ++ joined ts2)].
Proof.
  intros min lvl f l v ts f2 l2 v2 c2 ts2 V1 V2 V3 V4. apply Z.leb_le in V1, V2, V3, V4.
  set (k2 := map IStmt (guarded [LogLine f2 l2 v2 c2 ts2])).
  assert (A : exists t1, R min lvl (map IStmt (guarded [LogBlock f l v ts; LogLine f2 l2 v2 c2 ts2])) tls0 lvl (IComplete :: ICatch :: k2) t1 0 0 [] /\
    cstate t1 = os0 /\ composer t1 = joined ts /\ category t1 = "" /\ tempcat t1 = "").
  { destruct (texts_only_run min false ts lvl (IComplete :: ICatch :: k2) (enter f l v tls0) eq_refl) as (t1 & Q1 & Q2 & Q3 & Q4 & Q5 & _).
    exists t1. split; [|auto]. cbn [guarded map embed]. fold k2. q. q. q. unfold enabled. rewrite V1, V2. cbn [andb].
    rewrite map_map, <- app_assoc. exact Q1. }
  destruct A as (t1 & (fs1 & es1 & H1 & F1 & T1 & C1 & E1 & N1) & A1 & A2 & A3 & A4).
  assert (B : exists t2, R min lvl k2 t1 lvl [] t2 0 0 [mkMsg f2 l2 v2 (override c2 "") (joined ts ++ joined ts2)]).
  { set (t2 := match c2 with Some c => set_temp c (enter f2 l2 v2 t1) | None => enter f2 l2 v2 t1 end).
    destruct (texts_full_run min true ts2 lvl [] t2) as (t3 & _ & Q2); [unfold t2; destruct c2; exact A1|].
    exists t3. unfold k2. cbn [guarded map embed]. q. q. unfold enabled. rewrite V3, V4. cbn [andb]. rewrite map_map.
    replace (mkMsg f2 l2 v2 (override c2 "") (joined ts ++ joined ts2)) with (say t2 (joined ts2)).
    - destruct c2 as [c|]; cbn [app]; [q|]; exact Q2.
    - unfold say, t2. destruct c2; cbn; rewrite ?A2, ?A3, ?A4; reflexivity. }
  destruct B as (t2 & fs2 & es2 & H2 & F2 & T2 & C2 & E2 & N2).
  exists (fs1 ++ [Some FCommit; None] ++ fs2), (es1 ++ [FThrew] ++ es2). split; [|split; [|split]].
  - exists lvl, t2. eapply frun_app; [exact H1|]. eapply frun_app; [cbn [frun fone fstep throws caught existsb orb]; reflexivity|exact H2].
  - rewrite !failures_app, F1, F2. reflexivity.
  - intros I. rewrite !in_app_iff in I. destruct I as [I|[[I|[]]|I]]; [auto|discriminate I|auto].
  - rewrite !did_app, !commits_app, C1, C2. reflexivity.
Qed.

Lemma line_terminates : forall min lvl f l v c ts p, (v <= min)%Z -> (v <= lvl)%Z ->
  exists fs es, ran min lvl (LogLine f l v c ts :: p) fs es /\ failures fs = 1 /\ In FEnded es /\ commits (did es) = [].
Proof.
  intros min lvl f l v c ts p V1 V2. apply Z.leb_le in V1, V2. set (k2 := map IStmt (guarded p)).
  set (t2 := match c with Some c => set_temp c (enter f l v tls0) | None => enter f l v tls0 end).
  destruct (texts_only_run min true ts lvl (IEnd true :: ICatch :: k2) t2) as (t1 & Q1 & _); [unfold t2; destruct c; reflexivity|].
  assert (A : R min lvl (map IStmt (guarded (LogLine f l v c ts :: p))) tls0 lvl (IEnd true :: ICatch :: k2) t1 0 0 []).
  { cbn [guarded map embed]. fold (guarded p). fold k2. q. q. unfold enabled. rewrite V1, V2. cbn [andb]. rewrite map_map.
    destruct c as [c|]; cbn [app]; [q|]; exact Q1. }
  destruct A as (fs1 & es1 & H1 & F1 & T1 & C1 & E1 & N1).
  exists (fs1 ++ [Some FCommit]), (es1 ++ [FEnded]). split; [|split; [|split]].
  - exists lvl, t1. eapply frun_app; [exact H1|]. reflexivity.
  - rewrite failures_app, F1. reflexivity.
  - apply in_or_app. right. left. auto.
  - rewrite did_app, commits_app, C1. reflexivity.
Qed.

Lemma category_terminates : forall min lvl c p, (lvl <= min)%Z ->
  exists fs es, ran min lvl (SetCat c :: p) fs es /\ failures fs = 1 /\ In FEnded es.
Proof.
  intros min lvl c p V. apply Z.leb_le in V. exists [None; Some FCatSet], [FEnded]. split; [|split; [reflexivity|left; auto]].
  exists lvl, tls0. cbn [guarded map embed frun fone tstep fstep app did flat_map cur_level]. rewrite V. reflexivity.
Qed.

Lemma short_line : forall min lvl f l v c ts u r, (v <= min)%Z -> (v <= lvl)%Z -> joined ts = (u ++ r)%string -> r <> "" ->
  exists fs es, ran min lvl [LogLine f l v c ts] fs es /\ failures fs = 1 /\ ~ In FEnded es /\ thrown es = 0 /\
    commits (did es) = [mkMsg f l v (override c "") u].
Proof.
  intros min lvl f l v c ts u r V1 V2 J N.
  destruct (outcomes_run min lvl [LogLine f l v c ts] 1 0 [mkMsg f l v (override c "") u]) as (fs & es & A & B & C & D & E & F).
  - apply (os_cons min lvl "" _ [] 1 0 [mkMsg f l v (override c "") u] "" 0 0 []); [econstructor; eauto|constructor].
  - exists fs, es. repeat split; auto; apply A.
Qed.

Lemma lost_category : forall min lvl f l v c ts, (v <= min)%Z -> (v <= lvl)%Z ->
  exists fs es, ran min lvl [LogLine f l v (Some c) ts] fs es /\ failures fs = 1 /\ ~ In FEnded es /\
    commits (did es) = [mkMsg f l v "" ""].
Proof.
  intros min lvl f l v c ts V1 V2.
  destruct (outcomes_run min lvl [LogLine f l v (Some c) ts] 1 1 [mkMsg f l v "" ""]) as (fs & es & A & B & C & D & E & F).
  - apply (os_cons min lvl "" _ [] 1 1 [mkMsg f l v "" ""] "" 0 0 []); [constructor; auto|constructor].
  - exists fs, es. repeat split; auto; apply A.
Qed.

Lemma width_stays : forall min lvl f l v s f2 l2 v2 u w, (v <= min)%Z -> (v <= lvl)%Z -> (v2 <= min)%Z -> (v2 <= lvl)%Z -> s <> "" ->
  exists fs lvl' t es, frun min fs lvl [IStmt (STry [SLog f l v None [Op [] [SPut (PManip (MSetw w))]; Op [] [SPut (PText s)]]]);
      IStmt (STry [SLog f2 l2 v2 None [Op [] [SPut (PText u)]]])] tls0 = Some (lvl', [], t, es) /\
    failures fs = 1 /\ ~ In FEnded es /\ thrown es = 0 /\
    commits (did es) = [mkMsg f l v "" ""; mkMsg f2 l2 v2 "" (padl w " "%char u)].
Proof.
  intros min lvl f l v s f2 l2 v2 u w V1 V2 V3 V4 N. apply Z.leb_le in V1, V2, V3, V4.
  exists (repeat None 5 ++ [Some (FText 0 false)] ++ repeat None 8). do 3 eexists. split; [|split; [|split; [|split]]].
  - cbn [repeat app frun fone tstep map did flat_map cur_level]. unfold enabled. rewrite V1, V2. cbn [andb repeat app frun fone tstep map cur_level did flat_map].
    cbn [fstep]. replace (0 <? String.length (fst (insert (PText s) (cstate (put (PManip (MSetw w)) (enter f l v tls0))))))%nat with true.
    2: { symmetry. apply Nat.ltb_lt. cbn. unfold pad. cbn. destruct s; [congruence|]. clear. induction (w - _)%nat; cbn; lia. }
    cbn [map cur_level did flat_map frun fone tstep app]. unfold enabled. rewrite V3, V4. cbn [andb map cur_level did flat_map frun fone tstep app]. reflexivity.
  - reflexivity.
  - cbn [In]. intuition discriminate.
  - reflexivity.
  - cbn [did flat_map app commits pick]. unfold message. cbn. unfold pad, padl. cbn. f_equal. f_equal. destruct (fill (w - String.length s) " " ++ s)%string; reflexivity.
Qed.
