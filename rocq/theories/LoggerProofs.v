(** * Proofs about Logger, part 1: log statements (C45 to C51). *)

From Coq Require Import ZArith String Bool List Arith Lia.
From Verif Require Import Base ListFacts LogModel LogSpec LogProofs StreamModel LoggerModel LoggerSpec LoggerFmtSpec.
Import ListNotations.
Open Scope string_scope.
Open Scope list_scope.

(** ** Strings *)
Lemma sapp_assoc : forall a b c : string, ((a ++ b) ++ c = a ++ (b ++ c))%string.
Proof. intros a b c. induction a as [|x a IH]; cbn; [auto|rewrite IH; auto]. Qed.
Lemma sapp_nil_r : forall a : string, (a ++ "" = a)%string.
Proof. intros a. induction a as [|x a IH]; cbn; [auto|rewrite IH; auto]. Qed.

(** Several insertions. *)
Definition put_all (l : list ins) (t : tls) : tls := fold_left (fun t i => put i t) l t.

Lemma put_put : forall a b t, put_all b (put_all a t) = put_all (a ++ b) t.
Proof. intros a b t. unfold put_all. rewrite fold_left_app. auto. Qed.

Lemma put_all_emit : forall l t, put_all l t =
  mkTls (composer t ++ fst (emit l (cstate t)))%string (category t) (tempcat t) (tfile t) (tline t) (tlevel t) (snd (emit l (cstate t))).
Proof.
  intros l. induction l as [|i l IH]; intros t; cbn [put_all fold_left emit].
  - cbn [fst snd]. rewrite sapp_nil_r. destruct t; auto.
  - change (fold_left (fun t i => put i t) l (put i t)) with (put_all l (put i t)). rewrite IH. unfold put.
    destruct (insert i (cstate t)) as [s o]. cbn [composer category tempcat tfile tline tlevel cstate fst snd].
    destruct (emit l o) as [s' o']. cbn [fst snd]. rewrite sapp_assoc. auto.
Qed.

(** ** Events of one thread *)
Lemma of_thread_app : forall i a b, of_thread i (a ++ b) = of_thread i a ++ of_thread i b.
Proof. intros. apply pick_app. Qed.
Lemma of_thread_same : forall i es, of_thread i (map (pair i) es) = es.
Proof. intros i es. unfold of_thread. induction es as [|e es IH]; cbn; auto. rewrite Nat.eqb_refl. rewrite IH. auto. Qed.
Lemma of_thread_other : forall i j es, i <> j -> of_thread i (map (pair j) es) = [].
Proof.
  intros i j es N. unfold of_thread. induction es as [|e es IH]; cbn; auto.
  destruct (Nat.eqb_spec i j); [congruence|]. auto.
Qed.
Lemma commits_app : forall a b, commits (a ++ b) = commits a ++ commits b.
Proof. intros. apply pick_app. Qed.
Lemma tests_app : forall a b, tests (a ++ b) = tests a ++ tests b.
Proof. intros. apply pick_app. Qed.
Lemma puts_app : forall a b, puts (a ++ b) = puts a ++ puts b.
Proof. intros. apply pick_app. Qed.
Lemma accepts_app : forall a b, accepts (a ++ b) = accepts a ++ accepts b.
Proof. intros. apply pick_app. Qed.
Lemma joined_app : forall a b, joined (a ++ b) = (joined a ++ joined b)%string.
Proof. intros a b. induction a as [|x a IH]; cbn; [auto|]. fold (joined (a ++ b)). rewrite IH. rewrite sapp_assoc. auto. Qed.
Lemma level_after_app : forall a b z, level_after (a ++ b) z = level_after b (level_after a z).
Proof. intros a. induction a as [|[i e] a IH]; intros b z; cbn; auto. destruct e; auto. Qed.
Lemma level_after_map : forall i es z, level_after (map (pair i) es) z = cur_level es z.
Proof. intros i es. induction es as [|e es IH]; intros z; cbn; auto. destruct e; auto. Qed.

(** ** Induction over runs *)
Section Runs.
Variable min : Z.

Lemma lwrun_inv : forall (I : lworld -> list (nat * lev) -> Prop),
  (forall i w w' tr es, I w tr -> lwstep min i w = Some (w', es) -> I w' (tr ++ es)) ->
  forall sched w w' tr tr', I w tr -> lwrun min sched w = Some (w', tr') -> I w' (tr ++ tr').
Proof.
  intros I HI sched. induction sched as [|i sched IH]; intros w w' tr tr' H R; cbn in R.
  - injection R as <- <-. rewrite app_nil_r. auto.
  - destruct (lwstep min i w) as [[w1 es]|] eqn:E; [|discriminate].
    destruct (lwrun min sched w1) as [[w2 es']|] eqn:E2; [|discriminate]. injection R as <- <-.
    rewrite app_assoc. eapply IH; eauto.
Qed.

Lemma lreaches_inv : forall (I : lworld -> list (nat * lev) -> Prop) progs,
  I (lwinit progs) [] -> (forall i w w' tr es, I w tr -> lwstep min i w = Some (w', es) -> I w' (tr ++ es)) ->
  forall w tr, lreaches min progs w tr -> I w tr.
Proof. intros I progs H0 HI w tr [sched R]. change tr with ([] ++ tr). eapply lwrun_inv; eauto. Qed.

Lemma lwstep_inv : forall i w w' es, lwstep min i w = Some (w', es) ->
  exists code t code' t' es', nth_error (lw_threads w) i = Some (code, t) /\ tstep min (lw_level w) code t = Some (code', t', es') /\
    es = map (pair i) es' /\ lw_level w' = cur_level es' (lw_level w) /\ lw_threads w' = upd i (fun _ => (code', t')) (lw_threads w).
Proof.
  intros i w w' es H. unfold lwstep in H. destruct (nth_error (lw_threads w) i) as [[code t]|] eqn:E; [|discriminate].
  destruct (tstep min (lw_level w) code t) as [[[code' t'] es']|] eqn:E2; [|discriminate]. injection H as <- <-.
  exists code, t, code', t', es'. auto.
Qed.

(** A property of one thread is kept if its own steps keep it. *)
Lemma thread_inv : forall (P : list instr -> tls -> list lev -> Prop) progs i p,
  nth_error progs i = Some p -> P (map IStmt p) tls0 [] ->
  (forall cur code t es0 code' t' es, P code t es0 -> tstep min cur code t = Some (code', t', es) -> P code' t' (es0 ++ es)) ->
  forall w tr, lreaches min progs w tr ->
  exists code t, nth_error (lw_threads w) i = Some (code, t) /\ P code t (of_thread i tr).
Proof.
  intros P progs i p Hp H0 HP w tr R.
  eapply (lreaches_inv (fun w tr => exists code t, nth_error (lw_threads w) i = Some (code, t) /\ P code t (of_thread i tr))); [| |exact R].
  - cbn. rewrite (map_nth_error _ _ _ Hp). eexists. eexists. split; [reflexivity|auto].
  - clear w tr R. intros j w w' tr es (code & t & Hn & Hc) S. apply lwstep_inv in S.
    destruct S as (c1 & t1 & c2 & t2 & es' & S1 & S2 & -> & _ & ->). rewrite of_thread_app.
    destruct (Nat.eq_dec i j) as [<-|N].
    + rewrite Hn in S1. injection S1 as <- <-. rewrite of_thread_same. exists c2, t2. split; [|eapply HP; eauto].
      apply nth_error_upd_eq with (x := (code, t)); auto.
    + rewrite of_thread_other by auto. rewrite app_nil_r. exists code, t. split; auto. rewrite nth_error_upd_neq; auto.
Qed.

(** ** What the rest of a thread's code will send *)
Definition puts_of (l : list stmt) : list ins := pick (fun s => match s with SPut i => Some i | _ => None end) l.
Definition op_text (o : operand) : list ins := match o with Op _ r => puts_of r end.
Definition temp (c : option string) (t : tls) : tls := match c with Some c => set_temp c t | None => t end.

Fixpoint fut (t : tls) (code : list instr) (ts : list bool) : list msg :=
  match code with
  | [] => []
  | i :: k =>
      match i with
      | IStmt (SLog f l v c ops) =>
          match ts with
          | [] => []
          | b :: ts' => if b then let t1 := put_all (flat_map op_text ops) (temp c (enter f l v t)) in message t1 :: fut (committed t1) k ts'
                        else fut t k ts'
          end
      | ICat b c => fut (if b then set_temp c t else t) k ts
      | IOp b o => fut (if b then put_all (op_text o) t else t) k ts
      | IEnd b => if b then message t :: fut (committed t) k ts else fut t k ts
      | IStmt (SBlock f l v body _) =>
          match ts with
          | b :: b' :: ts' => if b then (if b' then let t1 := put_all (puts_of body) (enter f l v t) in message t1 :: fut (committed t1) k ts'
                                         else fut (enter f l v t) k ts')
                              else fut t k ts'
          | _ => []
          end
      | ITest b v body _ =>
          match ts with
          | b' :: ts' => if b' && b then let t1 := put_all (puts_of body) t in message t1 :: fut (committed t1) k ts' else fut t k ts'
          | [] => []
          end
      | IComplete => message t :: fut (committed t) k ts
      | IStmt (SPut s) => fut (put s t) k ts
      | IStmt (SCategory c) => match ts with b :: ts' => fut (if b then set_cat c t else t) k ts' | [] => [] end
      | IStmt (SLevel _) | IStmt SThrow | IStmt (STry _) | ICatch | IUnwind => fut t k ts
      end
  end.

Lemma fut_ops : forall b ops t k ts, fut t (map (IOp b) ops ++ k) ts = fut (if b then put_all (flat_map op_text ops) t else t) k ts.
Proof.
  intros b ops. induction ops as [|o ops IH]; intros t k ts; cbn [map app].
  - destruct b; auto.
  - cbn [fut]. rewrite IH. destruct b; auto. cbn [flat_map]. rewrite put_put. auto.
Qed.

Lemma fut_puts : forall l t k ts, fut t (map IStmt (map SPut l) ++ k) ts = fut (put_all l t) k ts.
Proof.
  intros l. induction l as [|s l IH]; intros t k ts; cbn [map app]; [auto|].
  cbn [fut]. rewrite IH. reflexivity.
Qed.

Lemma puts_of_put : forall l, puts_of (map SPut l) = l.
Proof. intros l. unfold puts_of. induction l as [|s l IH]; cbn; auto. rewrite IH. auto. Qed.

(** ** The shape of the code of a plain program *)
Definition clean (t : tls) : Prop := composer t = "" /\ tempcat t = "" /\ o_bad (cstate t) = false.
Definition flag (e : instr) : bool := match e with IEnd b => b | _ => true end.
Definition middle (e i : instr) : Prop :=
  match i with
  | ICat b _ => b = flag e
  | IOp b (Op [] [SPut _]) => b = flag e
  | IStmt (SPut _) => flag e = true
  | _ => False
  end.

Inductive shape : list instr -> tls -> Prop :=
| sh_between : forall p t, clean t -> shape (map IStmt (map fembed p)) t
| sh_test : forall b v l p t, clean t -> shape (ITest b v (map SPut l) false :: map IStmt (map fembed p)) t
| sh_middle : forall mid e p t, Forall (middle e) mid -> (exists b, e = IEnd b) \/ e = IComplete -> (flag e = false -> clean t) ->
    shape (mid ++ e :: map IStmt (map fembed p)) t.

Lemma clean_committed : forall t, clean (committed t).
Proof. intros t. repeat split. Qed.

Lemma step_plain : forall cur code t code' t' es, shape code t -> tstep min cur code t = Some (code', t', es) ->
  shape code' t' /\ forall ts, fut t code (tests es ++ ts) = commits es ++ fut t' code' ts.
Proof.
  intros cur code t code' t' es Sh H. destruct Sh as [p t C|b v l p t C|mid e p t M E C].
  - destruct p as [|[f l v c texts|f l v texts|c|z] p]; cbn [map fembed] in H; cbn [tstep] in H; [discriminate| | | |].
    + injection H as <- <- <-. split.
      * change (map IStmt (map fembed p)) with (map IStmt (map fembed p)). rewrite app_assoc. apply sh_middle.
        -- apply Forall_app. split.
           ++ destruct c; repeat constructor.
           ++ rewrite map_map. apply Forall_forall. intros x I. apply in_map_iff in I. destruct I as (s & <- & _). reflexivity.
        -- eauto.
        -- cbn [flag]. intros F. rewrite F. auto.
      * intros ts. cbn [tests commits pick app map fembed fut].
        destruct c as [c|]; cbn [app].
        -- cbn [fut]. rewrite fut_ops. cbn [fut]. destruct (enabled min cur v); reflexivity.
        -- rewrite fut_ops. cbn [fut]. destruct (enabled min cur v); reflexivity.
    + injection H as <- <- <-. split.
      * apply sh_test. destruct (enabled min cur v); auto.
      * intros ts. cbn [tests commits pick app map fembed fut]. destruct ts as [|b' ts]; auto.
        destruct (enabled min cur v), b'; cbn [andb]; auto.
    + injection H as <- <- <-. split; [apply sh_between; destruct (cur <=? min)%Z; auto|]. reflexivity.
    + injection H as <- <- <-. split; [apply sh_between; auto|]. reflexivity.
  - cbn [tstep] in H. injection H as <- <- <-. cbn [tests commits pick app].
    destruct (enabled min cur v && b) eqn:Eb.
    + split.
      * rewrite <- app_assoc. cbn [app]. apply sh_middle; [|auto|discriminate].
        rewrite map_map. apply Forall_forall. intros x I. apply in_map_iff in I. destruct I as (s & <- & _). reflexivity.
      * intros ts. cbn [fut]. rewrite Eb. rewrite <- app_assoc. rewrite fut_puts, puts_of_put. reflexivity.
    + split; [apply sh_between; auto|]. intros ts. cbn [fut app]. rewrite Eb. auto.
  - destruct mid as [|i mid]; cbn [app] in H.
    + destruct E as [(b & ->)| ->]; cbn [tstep] in H.
      * destruct b; injection H as <- <- <-; (split; [apply sh_between; auto using clean_committed|reflexivity]).
      * injection H as <- <- <-. split; [apply sh_between; apply clean_committed|reflexivity].
    + inversion M as [|? ? Mi Ml]; subst. destruct i as [[| |s| | | |]| | | | | | |]; cbn [middle] in Mi; try contradiction.
      * cbn [tstep] in H. injection H as <- <- <-. split; [|reflexivity]. apply sh_middle; auto. congruence.
      * cbn [tstep] in H. injection H as <- <- <-. split; [|reflexivity]. apply sh_middle; auto. intros F. subst. rewrite F. auto.
      * destruct o as [ev r]. destruct ev as [|]; [|contradiction]. destruct r as [|[| |s| | | |] [|]]; try contradiction.
        cbn [tstep] in H. injection H as <- <- <-. subst b. split.
        -- cbn [map app]. destruct (flag e) eqn:F; cbn [map app].
           ++ change (IStmt (SPut s) :: mid ++ e :: map IStmt (map fembed p)) with ((IStmt (SPut s) :: mid) ++ e :: map IStmt (map fembed p)).
              apply sh_middle; auto. congruence.
           ++ apply sh_middle; auto.
        -- intros ts. cbn [tests commits pick app fut map op_text puts_of]. destruct (flag e); reflexivity.
Qed.

Lemma clean_state : forall t, clean t -> cstate t = mkOS (o_fmt (cstate t)) false.
Proof. intros t (_ & _ & C). destruct (cstate t). cbn in *. congruence. Qed.

Lemma op_inss : forall ops, flat_map op_text (map (fun i : ins => Op [] [SPut i]) ops) = ops.
Proof. intros ops. induction ops as [|x ops IH]; auto. cbn [map flat_map op_text puts_of pick app]. rewrite IH. auto. Qed.

(** A statement that starts on a clean stream. *)
Lemma line_message : forall f l v c ops t, clean t -> let t1 := put_all ops (temp c (enter f l v t)) in
  message t1 = mkMsg f l v (override c (category t)) (text_in (o_fmt (cstate t)) ops) /\
  category (committed t1) = category t /\ o_fmt (cstate (committed t1)) = fmt_after (o_fmt (cstate t)) ops.
Proof.
  intros f l v c ops t C t1. subst t1. rewrite put_all_emit. unfold text_in, fmt_after. rewrite <- (clean_state t C).
  destruct C as (C1 & C2 & _). unfold message, committed, temp, enter.
  destruct c as [c|]; cbn [composer category tempcat tfile tline tlevel cstate set_temp override clear_state o_fmt]; rewrite C1; cbn [append]; auto.
  rewrite C2. auto.
Qed.

Lemma fut_expect : forall p t ts, clean t -> fut t (map IStmt (map fembed p)) ts = fexpect (o_fmt (cstate t)) (category t) p ts.
Proof.
  intros p. induction p as [|[f l v c texts|f l v texts|c|z] p IH]; intros t ts C; cbn [map fembed fut fexpect]; auto.
  - destruct ts as [|b ts]; auto. destruct b; [|apply IH; auto]. rewrite op_inss. rewrite IH by apply clean_committed.
    destruct (line_message f l v c texts t C) as (E1 & E2 & E3). rewrite E1, E2, E3. auto.
  - destruct ts as [|b [|b' ts]]; auto. rewrite puts_of_put. destruct b; cbn [andb]; [destruct b'|]; rewrite IH; auto using clean_committed.
    destruct (line_message f l v None texts t C) as (E1 & E2 & E3). cbn [temp override] in *. rewrite E1, E2, E3. auto.
  - destruct ts as [|b ts]; auto. rewrite IH; [destruct b; auto|destruct b; auto].
Qed.

Lemma fexpect_nil : forall p fm cat, fexpect fm cat p [] = [].
Proof. intros p. induction p as [|[? ? ? ? ?|? ? ? ?|?|?] p IH]; intros fm cat0; cbn; auto. Qed.

Lemma shape_left : forall code t, shape code t -> List.length (fut t code []) <= 1.
Proof.
  intros code t Sh. destruct Sh as [p t C|b v l p t C|mid e p t M E C].
  - rewrite fut_expect, fexpect_nil; auto.
  - cbn. lia.
  - clear C. revert t. induction mid as [|i mid IH]; intros t; cbn [app].
    + assert (X : forall t, clean t -> fut t (map IStmt (map fembed p)) [] = []).
      { intros t' C. rewrite fut_expect, fexpect_nil; auto. }
      assert (Y : forall p t, fut t (map IStmt (map fembed p)) [] = []).
      { clear. intros p. induction p as [|[] p IH]; intros t; cbn; auto. }
      destruct E as [(b & ->)| ->]; cbn [fut]; [destruct b|]; rewrite Y; cbn; lia.
    + inversion M as [|? ? Mi Ml]; subst. destruct i as [[| |s| | | |]| | | | | | |]; cbn [middle] in Mi; try contradiction; cbn [fut]; auto.
Qed.

Lemma shape_boundary : forall p q t, shape (map IStmt p) t -> p = map fembed q -> fut t (map IStmt p) [] = [].
Proof.
  intros p q t _ ->. revert t. induction q as [|[] q IH]; intros t; cbn; auto.
Qed.

(** C45, C46: a thread's messages are made of its own statements and tests. *)
Lemma fthread_messages : forall progs i p w tr, lreaches min progs w tr -> nth_error progs i = Some (map fembed p) ->
  (exists cur, fexpect fmt0 "" p (tests (of_thread i tr)) = commits (of_thread i tr) ++ cur /\ List.length cur <= 1) /\
  (forall q, between w i (map fembed q) -> commits (of_thread i tr) = fexpect fmt0 "" p (tests (of_thread i tr))).
Proof.
  intros progs i p w tr R Hp.
  destruct (thread_inv (fun code t es => shape code t /\ forall ts, fexpect fmt0 "" p (tests es ++ ts) = commits es ++ fut t code ts)
    progs i (map fembed p) Hp) with (w := w) (tr := tr) as (code & t & Hn & Sh & X); auto.
  - split; [apply sh_between; repeat split|]. intros ts. cbn [tests commits pick app].
    rewrite fut_expect; [reflexivity|repeat split].
  - intros cur code t es0 code' t' es (Sh & X) H. destruct (step_plain _ _ _ _ _ _ Sh H) as (Sh' & Y). split; auto.
    intros ts. rewrite tests_app, commits_app, <- !app_assoc, X, Y. auto.
  - specialize (X []). rewrite app_nil_r in X. split.
    + eexists. split; [exact X|]. apply shape_left; auto.
    + intros q (t' & Hb). rewrite Hb in Hn. injection Hn as <- <-. rewrite X.
      rewrite (shape_boundary _ q); auto. rewrite app_nil_r. auto.
Qed.

(** Plain statements are those with texts only. *)
Definition lift (s : plain) : fplain :=
  match s with
  | LogLine f l v c ts => FmtLine f l v c (map PText ts)
  | LogBlock f l v ts => FmtBlock f l v (map PText ts)
  | SetCat c => FmtCat c
  | SetLevel z => FmtLevel z
  end.

Lemma lift_embed : forall p, map embed p = map fembed (map lift p).
Proof. intros p. rewrite map_map. apply map_ext. intros [f l v c ts|f l v ts|c|z]; cbn [embed fembed lift]; rewrite ?map_map; auto. Qed.

Lemma emit_texts : forall l, emit (map PText l) (mkOS fmt0 false) = (joined l, mkOS fmt0 false).
Proof.
  intros l. induction l as [|s l IH]; auto. cbn [map emit]. change (insert s (mkOS fmt0 false)) with (s, mkOS fmt0 false). cbv beta iota. rewrite IH. auto.
Qed.

Lemma lift_expect : forall p cat ts, fexpect fmt0 cat (map lift p) ts = expect cat p ts.
Proof.
  intros p. induction p as [|[f l v c texts|f l v texts|c|z] p IH]; intros cat ts; cbn [map lift fexpect expect]; auto.
  - destruct ts as [|b ts]; auto. unfold text_in, fmt_after. rewrite emit_texts. cbn [fst snd o_fmt]. rewrite IH. destruct b; auto.
  - destruct ts as [|b [|b' ts]]; auto. unfold text_in, fmt_after. rewrite emit_texts. cbn [fst snd o_fmt]. rewrite IH. destruct (b && b'); auto.
  - destruct ts; auto.
Qed.

Lemma lift_messages : forall p lvl cat, fmessages min lvl fmt0 cat (map lift p) = messages min lvl cat p.
Proof.
  intros p. induction p as [|[f l v c texts|f l v texts|c|z] p IH]; intros lvl cat; cbn [map lift fmessages messages]; auto.
  - unfold text_in, fmt_after. rewrite emit_texts. cbn [fst snd o_fmt]. rewrite IH. destruct ((v <=? min)%Z && (v <=? lvl)%Z); auto.
  - unfold text_in, fmt_after. rewrite emit_texts. cbn [fst snd o_fmt]. rewrite IH. destruct ((v <=? min)%Z && (v <=? lvl)%Z); auto.
Qed.

Lemma thread_messages : forall progs i p w tr, lreaches min progs w tr -> nth_error progs i = Some (map embed p) ->
  (exists cur, expect "" p (tests (of_thread i tr)) = commits (of_thread i tr) ++ cur /\ List.length cur <= 1) /\
  (forall q, between w i (map embed q) -> commits (of_thread i tr) = expect "" p (tests (of_thread i tr))).
Proof.
  intros progs i p w tr R Hp. rewrite lift_embed in Hp. destruct (fthread_messages _ _ _ _ _ R Hp) as (A & B).
  rewrite <- !lift_expect. split; auto. intros q Q. rewrite lift_embed in Q. eauto.
Qed.

(** ** What the tests and the final check are about *)
Lemma level_now : forall progs w tr, lreaches min progs w tr -> lw_level w = level_after tr TRACE.
Proof.
  intros progs w tr R. eapply (lreaches_inv (fun w tr => lw_level w = level_after tr TRACE)); [| |exact R]; auto.
  clear. intros i w w' tr es I S. apply lwstep_inv in S. destruct S as (c1 & t1 & c2 & t2 & es' & S1 & S2 & -> & -> & _).
  rewrite level_after_app, level_after_map, I. auto.
Qed.

Lemma lreaches_split : forall progs w t1 x t2, lreaches min progs w (t1 ++ x :: t2) ->
  exists w1 w2 i p es q, lreaches min progs w1 p /\ lwstep min i w1 = Some (w2, es) /\ In x es /\ t1 = p ++ q /\ exists r, es = q ++ x :: r.
Proof.
  intros progs w t1 x t2 [sched R]. unfold lreaches. remember (lwinit progs) as w0. clear Heqw0.
  assert (G : forall sched w0 t1, lwrun min sched w0 = Some (w, t1 ++ x :: t2) ->
    exists w1 w2 i p es q, (exists s1, lwrun min s1 w0 = Some (w1, p)) /\ lwstep min i w1 = Some (w2, es) /\ In x es /\ t1 = p ++ q /\ exists r, es = q ++ x :: r).
  { clear. intros sched. induction sched as [|i sched IH]; intros w0 t1 R; cbn in R.
    - destruct t1; discriminate.
    - destruct (lwstep min i w0) as [[w1 es]|] eqn:E; [|discriminate].
      destruct (lwrun min sched w1) as [[w2 es']|] eqn:E2; [|discriminate]. injection R as -> R.
      destruct (le_lt_dec (List.length es) (List.length t1)) as [L|L].
      + assert (X : exists q, t1 = es ++ q /\ es' = q ++ x :: t2).
        { clear - R L. revert t1 R L. induction es as [|e es IH]; intros t1 R L; [exists t1; auto|].
          destruct t1 as [|e1 t1]; cbn in L; [lia|]. injection R as -> R. destruct (IH t1 R) as (q & -> & ->); [lia|]. exists q; auto. }
        destruct X as (q & -> & ->). destruct (IH _ _ E2) as (w3 & w4 & j & p & es2 & q2 & (s1 & R1) & S1 & I1 & -> & r & ->).
        exists w3, w4, j, (es ++ p), (q2 ++ x :: r), q2. split; [exists (i :: s1); cbn; rewrite E, R1; auto|]. split; auto.
        split; auto. split; [rewrite app_assoc; auto|]. exists r; auto.
      + assert (X : exists r, es = t1 ++ x :: r).
        { clear - R L. revert t1 R L. induction es as [|e es IH]; intros t1 R L; cbn in L; [lia|].
          destruct t1 as [|e1 t1]; [injection R as -> R; exists es; auto|]. injection R as -> R. cbn in L.
          destruct (IH t1 R) as (r & ->); [lia|]. exists r; auto. }
        destruct X as (r & ->). exists w0, w1, i, [], (t1 ++ x :: r), t1. split; [exists []; auto|]. split; auto.
        split; [apply in_elt|]. split; auto. exists r; auto. }
  eauto.
Qed.

Ltac tsplit H := unfold tstep in H; repeat match type of H with
  | match ?x with _ => _ end = Some _ => destruct x; try discriminate H
  end.

Lemma tstep_one : forall cur code t code' t' es, tstep min cur code t = Some (code', t', es) -> List.length es <= 1.
Proof.
  intros cur code t code' t' es H. tsplit H; try discriminate; injection H as <- <- <-; cbn; lia.
Qed.

Lemma event_at : forall progs w t1 i e t2, lreaches min progs w (t1 ++ (i, e) :: t2) ->
  exists w1 code t code' t', lreaches min progs w1 t1 /\ nth_error (lw_threads w1) i = Some (code, t) /\
    tstep min (level_after t1 TRACE) code t = Some (code', t', [e]).
Proof.
  intros progs w t1 i e t2 R. apply lreaches_split in R. destruct R as (w1 & w2 & j & p & es & q & R & S & I & -> & r & ->).
  apply lwstep_inv in S. destruct S as (c1 & t & c2 & t' & es' & S1 & S2 & E & _ & _).
  pose proof (tstep_one _ _ _ _ _ _ S2) as L.
  assert (q = [] /\ es' = [e] /\ i = j) as (-> & -> & ->).
  { destruct es' as [|x [|y es']]; [destruct q; discriminate| |cbn in L; lia].
    destruct q as [|a q]; [|injection E as _ E; destruct q; discriminate]. injection E as -> -> _. auto. }
  rewrite app_nil_r. exists w1, c1, t, c2, t'. split; auto. split; auto. rewrite <- (level_now _ _ _ R). auto.
Qed.

Lemma test_meaning : forall progs w t1 i v b t2, lreaches min progs w (t1 ++ (i, EvTest v b) :: t2) ->
  b = (v <=? min)%Z && (v <=? level_after t1 TRACE)%Z.
Proof.
  intros progs w t1 i v b t2 R. apply event_at in R. destruct R as (w1 & code & t & code' & t' & _ & _ & S).
  tsplit S; try discriminate; injection S as _ _ <- <-; reflexivity.
Qed.

Lemma guard_meaning : forall progs w t1 i b t2, lreaches min progs w (t1 ++ (i, EvGuard b) :: t2) ->
  b = (level_after t1 TRACE <=? min)%Z.
Proof.
  intros progs w t1 i b t2 R. apply event_at in R. destruct R as (w1 & code & t & code' & t' & _ & _ & S).
  tsplit S; try discriminate; injection S as _ _ <-; reflexivity.
Qed.

Lemma commit_meaning : forall progs w t1 i m a t2, lreaches min progs w (t1 ++ (i, EvCommit m a) :: t2) ->
  a = (m_level m <=? level_after t1 TRACE)%Z.
Proof.
  intros progs w t1 i m a t2 R. apply event_at in R. destruct R as (w1 & code & t & code' & t' & _ & _ & S).
  tsplit S; try discriminate; injection S as _ _ <- <-; reflexivity.
Qed.

(** ** C51: any program *)
Definition armed (i : instr) : bool := match i with IEnd b => b | IComplete => true | ITest b _ _ _ => b | _ => false end.

Definition entered (t : tls) (es : list lev) : Prop := (tlevel t <= min)%Z /\ exists v, In (EvTest v true) es /\ (v <= min)%Z.

Definition min_inv (code : list instr) (t : tls) (es : list lev) : Prop :=
  (entered t es \/ Forall (fun i => armed i = false) code) /\
  (forall m a, In (EvCommit m a) es -> (m_level m <= min)%Z /\ exists v, In (EvTest v true) es /\ (v <= min)%Z).

Lemma stmts_unarmed : forall l, Forall (fun i => armed i = false) (map IStmt l).
Proof. intros l. apply Forall_forall. intros i I. apply in_map_iff in I. destruct I as (s & <- & _). auto. Qed.

Lemma min_step : forall cur code t es0 code' t' es, min_inv code t es0 -> tstep min cur code t = Some (code', t', es) -> min_inv code' t' (es0 ++ es).
Proof.
  intros cur code t es0 code' t' es (A & D) H.
  assert (Ex : forall es, (exists v, In (EvTest v true) es0 /\ (v <= min)%Z) -> exists v, In (EvTest v true) (es0 ++ es) /\ (v <= min)%Z).
  { intros es1 (v & I & L). exists v. split; auto. apply in_app_iff. auto. }
  assert (D' : (forall m a, ~ In (EvCommit m a) es) ->
    forall m a, In (EvCommit m a) (es0 ++ es) -> (m_level m <= min)%Z /\ exists v, In (EvTest v true) (es0 ++ es) /\ (v <= min)%Z).
  { intros N m a I. apply in_app_iff in I. destruct I as [I|I]; [|exfalso; eapply N; eauto]. destruct (D _ _ I). auto. }
  assert (En : forall v f l k, enabled min cur v = true -> entered (enter f l v k) (es0 ++ [EvTest v true])).
  { intros v f l k E. unfold enabled in E. apply andb_true_iff in E. destruct E as (E & _). apply Z.leb_le in E.
    split; [auto|]. exists v. split; auto. apply in_app_iff. right; left; auto. }
  assert (Ke : forall es' t1, tlevel t1 = tlevel t -> entered t es0 -> entered t1 (es0 ++ es')).
  { intros es' t1 T (X & Y). split; [rewrite T; auto|auto]. }
  unfold tstep in H. destruct code as [|i k]; [discriminate|].
  assert (K : entered t es0 \/ Forall (fun i => armed i = false) k) by (destruct A as [A|A]; auto; inversion A; auto).
  destruct i as [[f l v c ops|f l v body early|s|c|z| |body]|b c|b [ev r]|b|b v body early| | |].
  - injection H as <- <- <-. split; [|apply D'; intros m a [I|[]]; discriminate].
    destruct (enabled min cur v) eqn:E; [left; auto|]. destruct K as [K|K]; [left; auto|right].
    apply Forall_app. split; [destruct c; repeat constructor|]. apply Forall_app. split; [|constructor; auto].
    apply Forall_forall. intros x I. apply in_map_iff in I. destruct I as (o & <- & _). auto.
  - injection H as <- <- <-. split; [|apply D'; intros m a [I|[]]; discriminate].
    destruct (enabled min cur v) eqn:E; [left; auto|]. destruct K as [K|K]; [left; auto|right]. constructor; auto.
  - injection H as <- <- <-. split; [|apply D'; intros m a [I|[]]; discriminate]. destruct K as [K|K]; [left; auto|right; auto].
  - injection H as <- <- <-. split; [|apply D'; intros m a [I|[]]; discriminate].
    destruct K as [K|K]; [left; apply Ke; auto; destruct (cur <=? min)%Z; auto|right; auto].
  - injection H as <- <- <-. split; [|apply D'; intros m a [I|[]]; discriminate]. destruct K as [K|K]; [left; auto|right; auto].
  - destruct (caught k); injection H as <- <- <-; (split; [|apply D'; intros m a; cbn; intuition discriminate]).
    + destruct K as [K|K]; [left; auto|right; constructor; auto].
    + right. constructor.
  - injection H as <- <- <-. split; [|apply D'; intros m a []].
    destruct K as [K|K]; [left; auto|right; apply Forall_app; split; [apply stmts_unarmed|constructor; auto]].
  - injection H as <- <- <-. split; [|apply D'; intros m a []].
    destruct K as [K|K]; [left; apply Ke; auto; destruct b; auto|right; auto].
  - injection H as <- <- <-. split; [|apply D'; intros m a []].
    destruct K as [K|K]; [left; apply Ke; auto|right]. apply Forall_app. split; [apply stmts_unarmed|].
    apply Forall_app. split; auto. destruct b; [apply stmts_unarmed|constructor].
  - destruct b; injection H as <- <- <-.
    + assert (Y : entered t es0) by (destruct A as [A|A]; auto; inversion A; discriminate).
      split; [left; apply Ke; auto|]. intros m a I. apply in_app_iff in I. destruct I as [I|[I|[]]]; [destruct (D _ _ I); auto|].
      injection I as <- <-. destruct Y. auto.
    + split; [|apply D'; intros m a []]. destruct K as [K|K]; [left; apply Ke; auto|right; auto].
  - injection H as <- <- <-. split; [|apply D'; intros m a [I|[]]; discriminate]. destruct A as [A|A]; [left; apply Ke; auto|].
    inversion A as [|? ? Ab Ak]; subst. cbn [armed] in Ab. subst b. rewrite andb_false_r. right. auto.
  - injection H as <- <- <-.
    assert (Y : entered t es0) by (destruct A as [A|A]; auto; inversion A; discriminate).
    split; [left; apply Ke; auto|]. intros m a I. apply in_app_iff in I. destruct I as [I|[I|[]]]; [destruct (D _ _ I); auto|].
    injection I as <- <-. destruct Y. auto.
  - injection H as <- <- <-. split; [|apply D'; intros m a []]. destruct K as [K|K]; [left; auto|right; auto].
  - assert (Sk : forall k', (entered t es0 \/ Forall (fun i => armed i = false) k') ->
      min_inv (IUnwind :: k') t (es0 ++ [])).
    { intros k' K'. split; [destruct K' as [K'|K']; [left; auto|right; constructor; auto]|]. rewrite app_nil_r. auto. }
    destruct k as [|i k]; [injection H as <- <- <-; split; [right; constructor|apply D'; intros m a []]|].
    assert (K' : entered t es0 \/ Forall (fun i => armed i = false) k) by (destruct K as [K|K]; auto; inversion K; auto).
    destruct i as [st|b c|b o|b|b v body early| | |]; try (injection H as <- <- <-; apply Sk; auto; fail).
    + destruct b; injection H as <- <- <-; [|apply Sk; auto].
      assert (Y : entered t es0) by (destruct K as [K|K]; auto; inversion K; discriminate).
      split; [left; apply Ke; auto|]. intros m a I. apply in_app_iff in I. destruct I as [I|[I|[]]]; [destruct (D _ _ I); auto|].
      injection I as <- <-. destruct Y. auto.
    + injection H as <- <- <-. split; [|apply D'; intros m a []]. destruct K' as [K'|K']; [left; auto|right; auto].
Qed.

Lemma of_thread_in : forall i e tr, In (i, e) tr <-> In e (of_thread i tr).
Proof.
  intros i e tr. unfold of_thread. induction tr as [|[j x] tr IH]; cbn; [tauto|].
  destruct (Nat.eqb_spec i j) as [<-|N]; cbn; rewrite <- IH.
  - split; intros [H|H]; auto; [injection H as <-; auto|subst; auto].
  - split; [intros [H|H]; auto; injection H as -> ->; contradiction|auto].
Qed.

Lemma compile_time_filter : forall progs w tr i m a, lreaches min progs w tr -> In (i, EvCommit m a) tr ->
  (m_level m <= min)%Z /\ exists v, In (i, EvTest v true) tr /\ (v <= min)%Z.
Proof.
  intros progs w tr i m a R I.
  assert (exists p, nth_error progs i = Some p) as (p & Hp).
  { destruct (in_split _ _ I) as (t1 & t2 & ->). apply event_at in R. destruct R as (w1 & code & t & code' & t' & R1 & N & _).
    assert (X : List.length (lw_threads w1) = List.length progs).
    { eapply (lreaches_inv (fun w _ => List.length (lw_threads w) = List.length progs)); [| |exact R1].
      - cbn. apply map_length.
      - clear. intros i w w' tr es X S. apply lwstep_inv in S. destruct S as (? & ? & ? & ? & ? & _ & _ & _ & _ & ->).
        rewrite upd_length. auto. }
    assert (Y : i < List.length progs) by (rewrite <- X; apply nth_error_Some; congruence).
    apply nth_error_Some in Y. destruct (nth_error progs i); [eauto|congruence]. }
  destruct (thread_inv min_inv progs i p Hp) with (w := w) (tr := tr) as (code & t & _ & _ & X); auto.
  - split; [right; apply stmts_unarmed|intros ? ? []].
  - intros. eapply min_step; eauto.
  - apply of_thread_in in I. destruct (X _ _ I) as (L & v & J & M). split; auto. exists v. split; auto. apply of_thread_in. auto.
Qed.

(** ** Text is neither lost nor repeated, whatever the program *)
Lemma text_kept : forall progs i w tr, lreaches min progs w tr -> i < List.length progs ->
  joined (puts (of_thread i tr)) = (joined (map m_text (commits (of_thread i tr))) ++ unsent w i)%string.
Proof.
  intros progs i w tr R L. apply nth_error_Some in L. destruct (nth_error progs i) as [p|] eqn:Hp; [|congruence].
  destruct (thread_inv (fun code t es => joined (puts es) = (joined (map m_text (commits es)) ++ composer t)%string) progs i p Hp)
    with (w := w) (tr := tr) as (code & t & Hn & X); auto.
  - intros cur code t es0 code' t' es X H. rewrite puts_app, commits_app, map_app, !joined_app, X.
    tsplit H; injection H as <- <- <-;
      cbn [puts commits pick joined fold_right map]; rewrite ?sapp_nil_r; auto;
      try match goal with |- context [enter _ _ ?v _] => destruct (enabled min cur v); auto
          | |- context [set_cat _ _] => destruct (cur <=? min)%Z; auto
          | |- context [if ?b then set_temp _ _ else _] => destruct b; auto
          end.
    cbn. rewrite sapp_assoc. auto.
  - unfold unsent. rewrite Hn. auto.
Qed.

(** ** A program that runs alone *)
Lemma enabled_le : forall cur v, enabled min cur v = true -> (v <= cur)%Z.
Proof. intros cur v E. unfold enabled in E. apply andb_true_iff in E. destruct E as (_ & E). apply Z.leb_le. auto. Qed.

(** Nobody changes the level between the test and the commit. *)
Inductive shape1 (cur : Z) : list instr -> tls -> Prop :=
| s1_between : forall p t, shape1 cur (map IStmt (map fembed p)) t
| s1_test : forall b v l p t, b = enabled min cur v -> (b = true -> tlevel t = v) -> shape1 cur (ITest b v (map SPut l) false :: map IStmt (map fembed p)) t
| s1_middle : forall mid e p t, Forall (middle e) mid -> (exists b, e = IEnd b) \/ e = IComplete -> (flag e = true -> (tlevel t <= cur)%Z) ->
    shape1 cur (mid ++ e :: map IStmt (map fembed p)) t.

(** What the code left will send when it runs alone. *)
Fixpoint alone (cur : Z) (t : tls) (code : list instr) : list msg :=
  match code with
  | [] => []
  | i :: k =>
      match i with
      | IStmt (SLog f l v c ops) =>
          if enabled min cur v then let t1 := put_all (flat_map op_text ops) (temp c (enter f l v t)) in message t1 :: alone cur (committed t1) k
          else alone cur t k
      | ICat b c => alone cur (if b then set_temp c t else t) k
      | IOp b o => alone cur (if b then put_all (op_text o) t else t) k
      | IEnd b => if b then message t :: alone cur (committed t) k else alone cur t k
      | IStmt (SBlock f l v body _) =>
          if enabled min cur v then let t1 := put_all (puts_of body) (enter f l v t) in message t1 :: alone cur (committed t1) k
          else alone cur t k
      | ITest b v body _ =>
          if enabled min cur v && b then let t1 := put_all (puts_of body) t in message t1 :: alone cur (committed t1) k else alone cur t k
      | IComplete => message t :: alone cur (committed t) k
      | IStmt (SPut s) => alone cur (put s t) k
      | IStmt (SCategory c) => alone cur (if (cur <=? min)%Z then set_cat c t else t) k
      | IStmt (SLevel z) => alone z t k
      | IStmt SThrow | IStmt (STry _) | ICatch | IUnwind => alone cur t k
      end
  end.

Lemma alone_ops : forall cur b ops t k, alone cur t (map (IOp b) ops ++ k) = alone cur (if b then put_all (flat_map op_text ops) t else t) k.
Proof.
  intros cur b ops. induction ops as [|o ops IH]; intros t k; cbn [map app].
  - destruct b; auto.
  - cbn [alone]. rewrite IH. destruct b; auto. cbn [flat_map]. rewrite put_put. auto.
Qed.

Lemma alone_puts : forall cur l t k, alone cur t (map IStmt (map SPut l) ++ k) = alone cur (put_all l t) k.
Proof.
  intros cur l. induction l as [|s l IH]; intros t k; cbn [map app]; [auto|].
  cbn [alone]. rewrite IH. reflexivity.
Qed.

Lemma alone_messages : forall p cur t, clean t -> alone cur t (map IStmt (map fembed p)) = fmessages min cur (o_fmt (cstate t)) (category t) p.
Proof.
  intros p. induction p as [|[f l v c texts|f l v texts|c|z] p IH]; intros cur t C; cbn [map fembed alone fmessages]; auto.
  - fold (enabled min cur v). destruct (enabled min cur v); [|rewrite IH; auto]. rewrite op_inss. rewrite IH by apply clean_committed.
    destruct (line_message f l v c texts t C) as (E1 & E2 & E3). rewrite E1, E2, E3. auto.
  - fold (enabled min cur v). rewrite puts_of_put. destruct (enabled min cur v); rewrite IH; auto using clean_committed.
    destruct (line_message f l v None texts t C) as (E1 & E2 & E3). cbn [temp override] in *. rewrite E1, E2, E3. auto.
  - rewrite IH; [destruct (cur <=? min)%Z; auto|destruct (cur <=? min)%Z; auto].
Qed.

Lemma step_alone : forall cur code t code' t' es, shape1 cur code t -> tstep min cur code t = Some (code', t', es) ->
  shape1 (cur_level es cur) code' t' /\ alone cur t code = commits es ++ alone (cur_level es cur) t' code' /\ accepts es = commits es.
Proof.
  intros cur code t code' t' es Sh H. destruct Sh as [p t|b v l p t E0 Lt|mid e p t M E C].
  - destruct p as [|[f l v c texts|f l v texts|c|z] p]; cbn [map fembed] in H; cbn [tstep] in H; [discriminate| | | |].
    + injection H as <- <- <-. cbn [cur_level]. split; [|split; auto].
      * rewrite app_assoc. apply s1_middle.
        -- apply Forall_app. split.
           ++ destruct c; repeat constructor.
           ++ rewrite map_map. apply Forall_forall. intros x I. apply in_map_iff in I. destruct I as (s & <- & _). reflexivity.
        -- eauto.
        -- cbn [flag]. intros F. rewrite F. cbn. apply enabled_le. auto.
      * cbn [commits pick app map fembed alone].
        destruct c as [c|]; cbn [app].
        -- cbn [alone]. rewrite alone_ops. cbn [alone]. destruct (enabled min cur v); reflexivity.
        -- rewrite alone_ops. cbn [alone]. destruct (enabled min cur v); reflexivity.
    + injection H as <- <- <-. cbn [cur_level]. split; [|split; auto].
      * apply s1_test; auto. intros F. rewrite F. auto.
      * cbn [commits pick app map fembed alone]. destruct (enabled min cur v); cbn [andb]; auto.
    + injection H as <- <- <-. split; [apply s1_between|]. split; reflexivity.
    + injection H as <- <- <-. split; [apply s1_between|]. split; reflexivity.
  - cbn [tstep] in H. injection H as <- <- <-. cbn [commits pick app cur_level].
    destruct (enabled min cur v) eqn:Eb; subst b; cbn [andb].
    + split; [|split; auto].
      * rewrite <- app_assoc. cbn [app]. apply s1_middle; [|auto|].
        -- rewrite map_map. apply Forall_forall. intros x I. apply in_map_iff in I. destruct I as (s & <- & _). reflexivity.
        -- intros _. rewrite (Lt eq_refl). apply enabled_le. auto.
      * cbn [alone]. rewrite Eb. cbn [andb]. rewrite <- app_assoc. rewrite alone_puts, puts_of_put. reflexivity.
    + split; [apply s1_between; auto|]. cbn [alone app]. rewrite Eb. auto.
  - destruct mid as [|i mid]; cbn [app] in H.
    + destruct E as [(b & ->)| ->]; cbn [tstep] in H.
      * destruct b; injection H as <- <- <-; (split; [apply s1_between|split; [reflexivity|]]); auto.
        cbn [flag] in C. specialize (C eq_refl). apply Z.leb_le in C. rewrite C. auto.
      * injection H as <- <- <-. split; [apply s1_between|split; [reflexivity|]].
        cbn [flag] in C. specialize (C eq_refl). apply Z.leb_le in C. rewrite C. auto.
    + inversion M as [|? ? Mi Ml]; subst. destruct i as [[| |s| | | |]| | | | | | |]; cbn [middle] in Mi; try contradiction.
      * cbn [tstep] in H. injection H as <- <- <-. split; [|split; reflexivity]. apply s1_middle; auto.
      * cbn [tstep] in H. injection H as <- <- <-. split; [|split; reflexivity]. apply s1_middle; auto. intros F. subst. rewrite F. auto.
      * destruct o as [ev r]. destruct ev as [|]; [|contradiction]. destruct r as [|[| |s| | | |] [|]]; try contradiction.
        cbn [tstep] in H. injection H as <- <- <-. subst b. split; [|split; auto].
        -- cbn [map app cur_level]. destruct (flag e) eqn:F; cbn [map app].
           ++ change (IStmt (SPut s) :: mid ++ e :: map IStmt (map fembed p)) with ((IStmt (SPut s) :: mid) ++ e :: map IStmt (map fembed p)).
              apply s1_middle; auto.
           ++ apply s1_middle; auto. intros F'. rewrite F in F'. discriminate.
        -- cbn [commits pick app alone map op_text puts_of cur_level]. destruct (flag e); reflexivity.
Qed.

(** C45: what a program that runs alone sends. *)
Lemma falone_program : forall p w tr, lreaches min [map fembed p] w tr -> lfinished w 0 ->
  commits (of_thread 0 tr) = fmessages min TRACE fmt0 "" p /\ accepts (of_thread 0 tr) = fmessages min TRACE fmt0 "" p.
Proof.
  intros p w tr R (t & F).
  assert (X : exists code t, lw_threads w = [(code, t)] /\ shape1 (lw_level w) code t /\ accepts (of_thread 0 tr) = commits (of_thread 0 tr) /\
    fmessages min TRACE fmt0 "" p = commits (of_thread 0 tr) ++ alone (lw_level w) t code).
  { eapply (lreaches_inv (fun w tr => exists code t, lw_threads w = [(code, t)] /\ shape1 (lw_level w) code t /\
      accepts (of_thread 0 tr) = commits (of_thread 0 tr) /\
      fmessages min TRACE fmt0 "" p = commits (of_thread 0 tr) ++ alone (lw_level w) t code)); [| |exact R].
    - cbn [lwinit lw_threads lw_level map]. exists (map IStmt (map fembed p)), tls0. split; auto. split; [apply s1_between|]. split; auto.
      rewrite alone_messages by (repeat split). reflexivity.
    - clear. intros i w w' tr es (code & t & T & Sh & A & X) S. apply lwstep_inv in S.
      destruct S as (c1 & t1 & c2 & t2 & es' & S1 & S2 & -> & -> & ->). rewrite T in *.
      destruct i as [|[]]; cbn in S1; try discriminate. injection S1 as <- <-.
      destruct (step_alone _ _ _ _ _ _ Sh S2) as (Sh' & Y & Z). exists c2, t2. split; auto. split; auto.
      rewrite of_thread_app, of_thread_same, accepts_app, commits_app, A, Z. split; auto.
      rewrite X, Y, app_assoc. auto. }
  destruct X as (code & t1 & T & _ & A & X). rewrite T in F. cbn in F. injection F as -> ->. cbn [alone] in X. rewrite app_nil_r in X.
  rewrite A. auto.
Qed.

Lemma alone_program : forall p w tr, lreaches min [map embed p] w tr -> lfinished w 0 ->
  commits (of_thread 0 tr) = messages min TRACE "" p /\ accepts (of_thread 0 tr) = messages min TRACE "" p.
Proof. intros p w tr R F. rewrite lift_embed in R. rewrite <- lift_messages. apply falone_program in R; auto. Qed.

(** ** A statement that is not enabled *)
Lemma disabled_statement : forall cur f l v c texts k t, enabled min cur v = false ->
  exists n es, trun min n cur (IStmt (SLog f l v c (map (fun r => Op [] r) texts)) :: k) t = Some (k, t, es) /\ commits es = [] /\ puts es = [].
Proof.
  intros cur f l v c texts k t E.
  assert (X : forall texts, exists n, trun min n cur (map (IOp false) (map (fun r => Op [] r) texts) ++ IEnd false :: k) t = Some (k, t, [])).
  { clear. intros texts. induction texts as [|r texts (n & IH)]; [exists 1; reflexivity|]. exists (S n). cbn. cbn in IH. rewrite IH. auto. }
  destruct (X texts) as (n & Y).
  destruct c as [c|].
  - exists (S (S n)), [EvTest v false]. cbn [trun tstep]. rewrite E. cbn [app]. cbn [trun tstep]. cbn [cur_level]. rewrite Y. auto.
  - exists (S n), [EvTest v false]. cbn [trun tstep]. rewrite E. cbn [app cur_level]. rewrite Y. auto.
Qed.

Lemma disabled_block : forall cur f l v body early k t, enabled min cur v = false ->
  trun min 2 cur (IStmt (SBlock f l v body early) :: k) t = Some (k, t, [EvTest v false; EvTest v false]).
Proof. intros cur f l v body early k t E. cbn. rewrite !E. cbn. auto. Qed.

(** ** C47: a statement in an operand *)
Lemma trun_app : forall n1 n2 cur code t code1 t1 es1 r,
  trun min n1 cur code t = Some (code1, t1, es1) -> trun min n2 (cur_level es1 cur) code1 t1 = r ->
  trun min (n1 + n2) cur code t = match r with Some (c, t, es) => Some (c, t, es1 ++ es) | None => None end.
Proof.
  intros n1. induction n1 as [|n1 IH]; intros n2 cur code t code1 t1 es1 r H R; cbn [trun Nat.add] in *.
  - injection H as <- <- <-. cbn in R. subst r. destruct (trun min n2 cur code t) as [[[? ?] ?]|]; auto.
  - destruct (tstep min cur code t) as [[[c' t'] es]|]; [|discriminate].
    destruct (trun min n1 (cur_level es cur) c' t') as [[[c2 t2] es2]|] eqn:E; [|discriminate]. injection H as <- <- <-.
    assert (Q : cur_level (es ++ es2) cur = cur_level es2 (cur_level es cur)).
    { generalize cur. clear. induction es as [|[] es IH]; intros; cbn; auto. }
    rewrite (IH n2 _ _ _ _ _ _ r E); [|rewrite <- Q; auto]. destruct r as [[[? ?] ?]|]; auto. rewrite app_assoc. auto.
Qed.

Lemma nested : forall cur f l v f2 l2 v2 (t1 t2 t3 : string) k t, clean t -> cstate t = os0 -> enabled min cur v = true -> enabled min cur v2 = true ->
  trun min 10 cur (IStmt (SLog f l v None [Op [] [SPut t1]; Op [SLog f2 l2 v2 None [Op [] [SPut t2]]] [SPut t3]]) :: k) t =
  Some (k, committed (enter f2 l2 v2 (enter f l v t)),
    [EvTest v true; EvPut t1; EvTest v2 true; EvPut t2; EvCommit (mkMsg f2 l2 v2 (category t) (t1 ++ t2)) true;
     EvPut t3; EvCommit (mkMsg f2 l2 v2 (category t) t3) true]).
Proof.
  intros cur f l v f2 l2 v2 t1 t2 t3 k t (C1 & C2 & _) C3 E E2. pose proof (enabled_le _ _ E2) as L. apply Z.leb_le in L.
  cbn [trun tstep app map cur_level]. rewrite E. cbn [trun tstep app map cur_level]. rewrite E2.
  cbn [trun tstep app map cur_level]. cbn. rewrite L. unfold message, put, enter, committed. cbn. rewrite C1, C2, C3. cbn. auto.
Qed.

(** ** C48: a block that is left early *)
Lemma early_block : forall cur f l v f2 l2 v2 (t1 t2 : string) k t, clean t -> cstate t = os0 -> enabled min cur v = true -> enabled min cur v2 = true ->
  trun min 7 cur (IStmt (SBlock f l v [SPut t1] true) :: IStmt (SLog f2 l2 v2 None [Op [] [SPut t2]]) :: k) t =
  Some (k, committed (enter f2 l2 v2 (enter f l v t)),
    [EvTest v true; EvTest v true; EvPut t1; EvTest v2 true; EvPut t2; EvCommit (mkMsg f2 l2 v2 (category t) (t1 ++ t2)) true]).
Proof.
  intros cur f l v f2 l2 v2 t1 t2 k t (C1 & C2 & _) C3 E E2. pose proof (enabled_le _ _ E2) as L. apply Z.leb_le in L.
  cbn [trun tstep app map cur_level]. rewrite !E. cbn [trun tstep app map cur_level andb]. rewrite E2.
  cbn [trun tstep app map cur_level]. cbn. rewrite L. unfold message, put, enter, committed. cbn. rewrite C1, C2, C3. cbn. auto.
Qed.

(** ** One thread seen on its own *)
Lemma solo_app : forall a cur code t code1 t1 es1 code2 t2 es2,
  solo min a code t = Some (code1, t1, es1) -> tstep min cur code1 t1 = Some (code2, t2, es2) ->
  solo min (a ++ [cur]) code t = Some (code2, t2, es1 ++ es2).
Proof.
  intros a. induction a as [|c a IH]; intros cur code t code1 t1 es1 code2 t2 es2 H S; cbn [solo app] in *.
  - injection H as <- <- <-. rewrite S. rewrite app_nil_r. auto.
  - destruct (tstep min c code t) as [[[c' t'] es]|]; [|discriminate].
    destruct (solo min a c' t') as [[[c3 t3] es3]|] eqn:E; [|discriminate]. injection H as <- <- <-.
    rewrite (IH _ _ _ _ _ _ _ _ _ E S). rewrite app_assoc. auto.
Qed.

Lemma thread_solo : forall progs i p w tr, lreaches min progs w tr -> nth_error progs i = Some p ->
  exists curs code t, nth_error (lw_threads w) i = Some (code, t) /\ solo min curs (map IStmt p) tls0 = Some (code, t, of_thread i tr).
Proof.
  intros progs i p w tr R Hp.
  destruct (thread_inv (fun code t es => exists curs, solo min curs (map IStmt p) tls0 = Some (code, t, es)) progs i p Hp)
    with (w := w) (tr := tr) as (code & t & Hn & curs & X); eauto.
  - exists []. auto.
  - intros cur code t es0 code' t' es (curs & X) H. exists (curs ++ [cur]). eapply solo_app; eauto.
Qed.

Lemma alone_trun : forall p w tr, lreaches min [p] w tr ->
  exists n code t, lw_threads w = [(code, t)] /\ trun min n TRACE (map IStmt p) tls0 = Some (code, t, of_thread 0 tr) /\
    lw_level w = cur_level (of_thread 0 tr) TRACE.
Proof.
  intros p w tr R.
  eapply (lreaches_inv (fun w tr => exists n code t, lw_threads w = [(code, t)] /\
    trun min n TRACE (map IStmt p) tls0 = Some (code, t, of_thread 0 tr) /\ lw_level w = cur_level (of_thread 0 tr) TRACE)); [| |exact R].
  - exists 0, (map IStmt p), tls0. cbn. auto.
  - clear. intros i w w' tr es (n & code & t & T & X & L) S. apply lwstep_inv in S.
    destruct S as (c1 & t1 & c2 & t2 & es' & S1 & S2 & -> & -> & ->). rewrite T in *.
    destruct i as [|[]]; cbn in S1; try discriminate. injection S1 as <- <-.
    exists (n + 1), c2, t2. rewrite of_thread_app, of_thread_same. split; auto.
    assert (Q : forall a b z, cur_level (a ++ b) z = cur_level b (cur_level a z)).
    { clear. intros a. induction a as [|[] a IH]; intros; cbn; auto. }
    split; [|rewrite Q, <- L; auto].
    rewrite (trun_app _ 1 _ _ _ _ _ _ (Some (c2, t2, es')) X); auto. rewrite <- L. cbn. rewrite S2. rewrite app_nil_r. auto.
Qed.

Lemma trun_det : forall n1 n2 cur code t t1 es1 t2 es2,
  trun min n1 cur code t = Some ([], t1, es1) -> trun min n2 cur code t = Some ([], t2, es2) -> t1 = t2 /\ es1 = es2.
Proof.
  intros n1. induction n1 as [|n1 IH]; intros [|n2] cur code t t1 es1 t2 es2 H1 H2; cbn [trun] in *.
  - injection H1 as -> <- <-. injection H2 as <- <-. auto.
  - injection H1 as -> <- <-. discriminate.
  - injection H2 as -> <- <-. discriminate.
  - destruct (tstep min cur code t) as [[[c' t'] es]|]; [|discriminate].
    destruct (trun min n1 (cur_level es cur) c' t') as [[[c3 t3] es3]|] eqn:E; [|discriminate]. injection H1 as -> <- <-.
    destruct (trun min n2 (cur_level es cur) c' t') as [[[c4 t4] es4]|] eqn:F; [|discriminate]. injection H2 as -> <- <-.
    destruct (IH _ _ _ _ _ _ _ _ E F) as (-> & ->). auto.
Qed.

(** The events of a program that runs alone are those of any execution of it. *)
Lemma alone_events : forall p n t es w tr, trun min n TRACE (map IStmt p) tls0 = Some ([], t, es) ->
  lreaches min [p] w tr -> lfinished w 0 -> of_thread 0 tr = es.
Proof.
  intros p n t es w tr H R (t' & F). destruct (alone_trun _ _ _ R) as (n' & code & t1 & T & X & _).
  rewrite T in F. cbn in F. injection F as -> ->. destruct (trun_det _ _ _ _ _ _ _ _ _ H X). auto.
Qed.

Lemma nested_mixed : forall f l v f2 l2 v2 (t1 t2 t3 : string) w tr, enabled min TRACE v = true -> enabled min TRACE v2 = true ->
  lreaches min [[SLog f l v None [Op [] [SPut t1]; Op [SLog f2 l2 v2 None [Op [] [SPut t2]]] [SPut t3]]]] w tr -> lfinished w 0 ->
  commits (of_thread 0 tr) = [mkMsg f2 l2 v2 "" (t1 ++ t2); mkMsg f2 l2 v2 "" t3].
Proof.
  intros f l v f2 l2 v2 t1 t2 t3 w tr E E2 R F.
  erewrite alone_events; [| |exact R|exact F]; [|exact (nested TRACE f l v f2 l2 v2 t1 t2 t3 [] tls0 (conj eq_refl (conj eq_refl eq_refl)) eq_refl E E2)]. reflexivity.
Qed.

Lemma early_leak : forall f l v f2 l2 v2 (t1 t2 : string) w tr, enabled min TRACE v = true -> enabled min TRACE v2 = true ->
  lreaches min [[SBlock f l v [SPut t1] true; SLog f2 l2 v2 None [Op [] [SPut t2]]]] w tr -> lfinished w 0 ->
  commits (of_thread 0 tr) = [mkMsg f2 l2 v2 "" (t1 ++ t2)].
Proof.
  intros f l v f2 l2 v2 t1 t2 w tr E E2 R F.
  erewrite alone_events; [| |exact R|exact F]; [|exact (early_block TRACE f l v f2 l2 v2 t1 t2 [] tls0 (conj eq_refl (conj eq_refl eq_refl)) eq_refl E E2)]. reflexivity.
Qed.

(** ** Origin of the messages *)
Lemma expect_from : forall p cat ts m, In m (expect cat p ts) -> exists s, In s p /\ comes_from s m.
Proof.
  intros p. induction p as [|[f l v c texts|f l v texts|c|z] p IH]; intros cat0 ts m H; cbn [expect] in H; [contradiction| | | |].
  - destruct ts as [|b ts]; [contradiction|]. apply in_app_iff in H. destruct H as [H|H].
    + destruct b; [destruct H as [<-|[]]|destruct H]. eexists. split; [left; reflexivity|]. cbn.
      repeat split; auto. destruct c as [c|]; auto. intros N. cbn. apply String.eqb_neq in N. rewrite N. auto.
    + destruct (IH _ _ _ H) as (s & I & C). exists s. split; auto. right; auto.
  - destruct ts as [|b [|b' ts]]; try contradiction. apply in_app_iff in H. destruct H as [H|H].
    + destruct (b && b'); [destruct H as [<-|[]]|destruct H]. eexists. split; [left; reflexivity|]. cbn. auto.
    + destruct (IH _ _ _ H) as (s & I & C). exists s. split; auto. right; auto.
  - destruct ts as [|b ts]; [contradiction|]. destruct (IH _ _ _ H) as (s & I & C). exists s. split; auto. right; auto.
  - destruct (IH _ _ _ H) as (s & I & C). exists s. split; auto. right; auto.
Qed.

Lemma own_content : forall progs i p w tr m a, lreaches min progs w tr -> nth_error progs i = Some (map embed p) ->
  In (i, EvCommit m a) tr -> exists s, In s p /\ comes_from s m.
Proof.
  intros progs i p w tr m a R Hp I. destruct (thread_messages _ _ _ _ _ R Hp) as ((cur & E & _) & _).
  apply of_thread_in in I. apply (expect_from p "" (tests (of_thread i tr))). rewrite E. apply in_app_iff. left.
  unfold commits. clear - I. induction (of_thread i tr) as [|e es IH]; [contradiction|]. cbn. destruct I as [->|I]; [left; auto|].
  destruct e; cbn; auto.
Qed.

Lemma disabled_all : forall progs w tr i m a, (min < 0)%Z -> lreaches min progs w tr ->
  (forall j v b, In (j, EvTest v b) tr -> (0 <= v)%Z) -> ~ In (i, EvCommit m a) tr.
Proof.
  intros progs w tr i m a L R V I. destruct (compile_time_filter _ _ _ _ _ _ R I) as (_ & v & J & M). specialize (V _ _ _ J). lia.
Qed.

(** ** One thread with the levels it finds *)
Lemma solo_inv : forall (P : list instr -> tls -> list lev -> Prop) curs code t es0 code' t' es,
  (forall cur code t es0 code' t' es, In cur curs -> P code t es0 -> tstep min cur code t = Some (code', t', es) -> P code' t' (es0 ++ es)) ->
  P code t es0 -> solo min curs code t = Some (code', t', es) -> P code' t' (es0 ++ es).
Proof.
  intros P curs. induction curs as [|cur curs IH]; intros code t es0 code' t' es Hs H0 H; cbn [solo] in H.
  - injection H as <- <- <-. rewrite app_nil_r. auto.
  - destruct (tstep min cur code t) as [[[c1 t1] es1]|] eqn:S; [|discriminate].
    destruct (solo min curs c1 t1) as [[[c2 t2] es2]|] eqn:S2; [|discriminate]. injection H as <- <- <-.
    rewrite app_assoc. eapply IH; [| |exact S2].
    + intros. eapply Hs; eauto. right. auto.
    + eapply Hs; eauto. left. auto.
Qed.

Lemma fsolo_messages : forall p curs code t es, solo min curs (map IStmt (map fembed p)) tls0 = Some (code, t, es) ->
  exists cur, fexpect fmt0 "" p (tests es) = commits es ++ cur /\ List.length cur <= 1 /\ (code = [] -> cur = []).
Proof.
  intros p curs code t es H.
  assert (X : shape code t /\ forall ts, fexpect fmt0 "" p (tests es ++ ts) = commits es ++ fut t code ts).
  { apply (solo_inv (fun code t es => shape code t /\ forall ts, fexpect fmt0 "" p (tests es ++ ts) = commits es ++ fut t code ts)
      curs (map IStmt (map fembed p)) tls0 [] code t es); auto.
    - clear. intros cur code t es0 code' t' es _ (Sh & X) H. destruct (step_plain _ _ _ _ _ _ Sh H) as (Sh' & Y). split; auto.
      intros ts. rewrite tests_app, commits_app, <- !app_assoc, X, Y. auto.
    - split; [apply sh_between; repeat split|]. intros ts. cbn [tests commits pick app].
      rewrite fut_expect; [reflexivity|repeat split]. }
  destruct X as (Sh & X). specialize (X []). rewrite app_nil_r in X. exists (fut t code []). split; auto. split; [apply shape_left; auto|].
  intros ->. reflexivity.
Qed.

Lemma solo_messages : forall p curs code t es, solo min curs (map IStmt (map embed p)) tls0 = Some (code, t, es) ->
  exists cur, expect "" p (tests es) = commits es ++ cur /\ List.length cur <= 1 /\ (code = [] -> cur = []).
Proof. intros p curs code t es H. rewrite lift_embed in H. rewrite <- lift_expect. eapply fsolo_messages; eauto. Qed.

Lemma cur_level_none : forall es z, (forall y, ~ In (EvSetLevel y) es) -> cur_level es z = z.
Proof.
  induction es as [|e es IH]; intros z N; auto. assert (forall y, ~ In (EvSetLevel y) es) by (intros y I; apply (N y); right; auto).
  destruct e; cbn; auto. destruct (N z0). left. auto.
Qed.

Lemma tstep_accepts : forall cur code t code' t' es m, tstep min cur code t = Some (code', t', es) -> In m (accepts es) -> (m_level m <= cur)%Z.
Proof.
  intros cur code t code' t' es m H I. tsplit H; injection H as <- <- <-; try (destruct I; fail); cbn in I;
    destruct (Z.leb_spec (tlevel t) cur); try (destruct I; fail); destruct I as [<-|[]]; auto.
Qed.

Lemma fsolo_alone : forall p curs t es, solo min curs (map IStmt (map fembed p)) tls0 = Some ([], t, es) ->
  Forall (eq TRACE) curs -> (forall z, ~ In (EvSetLevel z) es) ->
  commits es = fmessages min TRACE fmt0 "" p /\ accepts es = commits es /\ forall m, In m (accepts es) -> (m_level m <= TRACE)%Z.
Proof.
  intros p curs t es H T N.
  assert (X : (forall z, ~ In (EvSetLevel z) es) -> shape1 TRACE [] t /\ fmessages min TRACE fmt0 "" p = commits es ++ alone TRACE t [] /\
    accepts es = commits es /\ forall m, In m (accepts es) -> (m_level m <= TRACE)%Z).
  { apply (solo_inv (fun code t es => (forall z, ~ In (EvSetLevel z) es) -> shape1 TRACE code t /\
        fmessages min TRACE fmt0 "" p = commits es ++ alone TRACE t code /\ accepts es = commits es /\
        forall m, In m (accepts es) -> (m_level m <= TRACE)%Z)
      curs (map IStmt (map fembed p)) tls0 [] [] t es); auto.
    - clear - T. intros cur code t es0 code' t' es I X H N.
      assert (cur = TRACE) as ->. { rewrite Forall_forall in T. symmetry. auto. }
      destruct X as (Sh & X & Ac & Lv). { intros z J. apply (N z). apply in_or_app. auto. }
      destruct (step_alone _ _ _ _ _ _ Sh H) as (Sh' & Y & Z).
      rewrite cur_level_none in Sh', Y by (intros z J; apply (N z); apply in_or_app; auto). split; auto.
      rewrite commits_app, accepts_app, X, Y, Ac, Z, app_assoc. repeat split; auto.
      intros m J. apply in_app_or in J. destruct J as [J|J]; [apply Lv; rewrite Ac; auto|].
      eapply tstep_accepts; eauto. rewrite Z. auto.
    - intros _. split; [apply s1_between|]. rewrite alone_messages by (repeat split). repeat split. intros m []. }
  destruct (X N) as (_ & Y & Z). cbn [alone] in Y. rewrite app_nil_r in Y. auto.
Qed.

Lemma solo_alone : forall p curs t es, solo min curs (map IStmt (map embed p)) tls0 = Some ([], t, es) ->
  Forall (eq TRACE) curs -> (forall z, ~ In (EvSetLevel z) es) ->
  commits es = messages min TRACE "" p /\ accepts es = commits es /\ forall m, In m (accepts es) -> (m_level m <= TRACE)%Z.
Proof. intros p curs t es H. rewrite lift_embed in H. rewrite <- lift_messages. eapply fsolo_alone; eauto. Qed.

End Runs.
