(** * Proofs: synchronised iterators of threads that share a stack (C121). *)

From Coq Require Import List Arith NArith ZArith Lia Bool.
From Verif Require Import Base ListFacts PagedStackModel PagedStackSpec PagedStackExec PagedStackProofs PagedStackIter
  PagedStackSyncSpec PagedStackSync FutexModel FutexSpec FutexProofs FutexMore PagedStackThreadsSpec PagedStackThreads
  PagedStackSyncThreadsSpec.
Import ListNotations.
Open Scope m_scope.

(** ** The iterators of one thread among all *)

Section Owners.
Context {A : Type}.
Implicit Types (l : list A).

Definition own (t : nat) (owners : list nat) l : list A :=
  map snd (filter (fun x => fst x =? t) (combine owners l)).

Lemma own_cons : forall t o owners y l, own t (o :: owners) (y :: l) = if o =? t then y :: own t owners l else own t owners l.
Proof. intros t o owners y l. unfold own. cbn [combine filter fst]. destruct (o =? t); reflexivity. Qed.

Lemma own_nth : forall t owners l k, length owners = length l ->
  nth_error (own t owners l) k = nth_error l (pos_of t k owners).
Proof.
  intros t owners. induction owners as [|o owners IH]; intros [|y l] k H; try discriminate; [now destruct k|].
  injection H as H. rewrite own_cons. cbn [pos_of]. destruct (o =? t).
  - destruct k; [reflexivity|]. cbn [nth_error]. auto.
  - cbn [nth_error]. auto.
Qed.

Lemma own_upd : forall t owners l k f, length owners = length l -> k < length (own t owners l) ->
  own t owners (upd (pos_of t k owners) f l) = upd k f (own t owners l).
Proof.
  intros t owners. induction owners as [|o owners IH]; intros [|y l] k f H L; try discriminate; [cbn in L; lia|].
  injection H as H. rewrite own_cons in L |- *. cbn [pos_of]. destruct (o =? t) eqn:E.
  - destruct k; cbn [upd]; rewrite own_cons, E; [reflexivity|]. cbn [length] in L. rewrite IH; auto; lia.
  - cbn [upd]. rewrite own_cons, E. auto.
Qed.

Lemma own_upd_other : forall t t' owners l k f, length owners = length l -> t' <> t ->
  own t' owners (upd (pos_of t k owners) f l) = own t' owners l.
Proof.
  intros t t' owners. induction owners as [|o owners IH]; intros [|y l] k f H N; try discriminate; auto.
  injection H as H. cbn [pos_of]. destruct (Nat.eqb_spec o t) as [->|E].
  - destruct k; cbn [upd]; rewrite !own_cons; destruct (Nat.eqb_spec t t'); try congruence; auto.
  - cbn [upd]. rewrite !own_cons, IH; auto.
Qed.

Lemma own_app : forall t owners l o y, length owners = length l ->
  own t (owners ++ [o]) (l ++ [y]) = own t owners l ++ (if o =? t then [y] else []).
Proof.
  intros t owners. induction owners as [|p owners IH]; intros [|x l] o y H; try discriminate.
  - unfold own. cbn [app combine filter fst map]. destruct (o =? t); reflexivity.
  - injection H as H. cbn [app]. rewrite !own_cons, IH by auto. destruct (p =? t); reflexivity.
Qed.

Lemma remove_nth_S : forall {B} k (y : B) m, remove_nth (S k) (y :: m) = y :: remove_nth k m.
Proof. reflexivity. Qed.

Lemma own_remove : forall t owners l k, length owners = length l -> k < length (own t owners l) ->
  own t (remove_nth (pos_of t k owners) owners) (remove_nth (pos_of t k owners) l) = remove_nth k (own t owners l).
Proof.
  intros t owners. induction owners as [|o owners IH]; intros [|y l] k H L; try discriminate; [cbn in L; lia|].
  injection H as H. rewrite own_cons in L |- *. cbn [pos_of]. destruct (o =? t) eqn:E.
  - destruct k; [reflexivity|]. rewrite !remove_nth_S, own_cons, E. cbn [length] in L. rewrite IH; auto; lia.
  - rewrite !remove_nth_S, own_cons, E. auto.
Qed.

Lemma own_remove_other : forall t t' owners l k, length owners = length l -> t' <> t -> k < length (own t owners l) ->
  own t' (remove_nth (pos_of t k owners) owners) (remove_nth (pos_of t k owners) l) = own t' owners l.
Proof.
  intros t t' owners. induction owners as [|o owners IH]; intros [|y l] k H N L; try discriminate; auto.
  injection H as H. rewrite own_cons in L. cbn [pos_of]. destruct (Nat.eqb_spec o t) as [->|E].
  - destruct k.
    + rewrite own_cons. destruct (Nat.eqb_spec t t'); [congruence|reflexivity].
    + rewrite !remove_nth_S, !own_cons. cbn [length] in L. rewrite IH; auto. lia.
  - rewrite !remove_nth_S, !own_cons, IH; auto.
Qed.

Lemma pos_lt : forall t owners l k, length owners = length l -> k < length (own t owners l) -> pos_of t k owners < length l.
Proof.
  intros t owners l k H L. apply nth_error_Some. rewrite <- own_nth by auto. apply nth_error_Some. auto.
Qed.

End Owners.

Section SyncThreads.
Context {T : Type}.

(** An event of a thread sees its own iterators only. *)
Lemma own_step : forall t e owners (w w1 : world T) a, length owners = length (w_live w) ->
  wexec false (global_event t e owners) w = ROk w1 a ->
  wexec false e (mkW (w_stack w) (own t owners (w_live w))) =
    ROk (mkW (w_stack w1) (own t (owners_after t e owners) (w_live w1))) a /\
  length (owners_after t e owners) = length (w_live w1) /\
  forall t', t' <> t -> own t' (owners_after t e owners) (w_live w1) = own t' owners (w_live w).
Proof.
  intros t e owners w w1 a HL H.
  destruct e; cbn [global_event owners_after] in *; cbn [wexec w_stack w_live] in *.
  - unfold on_stack in *. destruct (exec false o (w_stack w)) as [s' r|s'|b]; try discriminate; injection H as <- <-; auto.
  - unfold on_stack in *. destruct (sync_begin (w_stack w)) as [s' it|s'|b] eqn:E; try discriminate; injection H as <- <-.
    + cbn [w_live w_stack]. rewrite own_app, Nat.eqb_refl by auto. split; auto. rewrite !app_length. split; [cbn; lia|].
      intros t' N. rewrite own_app by auto. destruct (Nat.eqb_spec t t'); [congruence|]. apply app_nil_r.
    + exfalso. unfold sync_begin, noexcept in E. destruct (with_lock _ _); discriminate.
  - unfold on_stack in *. destruct (sync_end (w_stack w)) as [s' it|s'|b] eqn:E; try discriminate; injection H as <- <-.
    + cbn [w_live w_stack]. rewrite own_app, Nat.eqb_refl by auto. split; auto. rewrite !app_length. split; [cbn; lia|].
      intros t' N. rewrite own_app by auto. destruct (Nat.eqb_spec t t'); [congruence|]. apply app_nil_r.
    + exfalso. unfold sync_end, noexcept in E. destruct (with_lock _ _); discriminate.
  - unfold with_iter in *. cbn [w_live]. rewrite own_nth by auto.
    destruct (nth_error (w_live w) (pos_of t k owners)) as [it|] eqn:N; [|discriminate].
    assert (L : k < length (own t owners (w_live w))) by (apply nth_error_Some; rewrite own_nth by auto; congruence).
    unfold on_iter in *. destruct (s_get it (w_stack w)) as [s' [it' v]|s'|b]; try discriminate; injection H as <- <-;
      cbn [w_live w_stack fst snd]; rewrite upd_length, own_upd by auto; split; auto; split; auto;
      intros t' Nt; apply own_upd_other; auto.
  - unfold with_iter in *. cbn [w_live]. rewrite own_nth by auto.
    destruct (nth_error (w_live w) (pos_of t k owners)) as [it|] eqn:N; [|discriminate].
    assert (L : k < length (own t owners (w_live w))) by (apply nth_error_Some; rewrite own_nth by auto; congruence).
    unfold on_iter in *. destruct (s_inc it (w_stack w)) as [s' it'|s'|b]; try discriminate; injection H as <- <-;
      cbn [w_live w_stack fst snd]; rewrite upd_length, own_upd by auto; split; auto; split; auto;
      intros t' Nt; apply own_upd_other; auto.
  - unfold with_iter in *. cbn [w_live]. rewrite own_nth by auto.
    destruct (nth_error (w_live w) (pos_of t k owners)) as [it|] eqn:N; [|discriminate].
    assert (L : k < length (own t owners (w_live w))) by (apply nth_error_Some; rewrite own_nth by auto; congruence).
    unfold on_iter in *. destruct (s_dec it (w_stack w)) as [s' it'|s'|b]; try discriminate; injection H as <- <-;
      cbn [w_live w_stack fst snd]; rewrite upd_length, own_upd by auto; split; auto; split; auto;
      intros t' Nt; apply own_upd_other; auto.
  - unfold with_iter in *. cbn [w_live]. rewrite own_nth by auto.
    destruct (nth_error (w_live w) (pos_of t k owners)) as [it|] eqn:N; [|discriminate].
    assert (L : k < length (own t owners (w_live w))) by (apply nth_error_Some; rewrite own_nth by auto; congruence).
    unfold on_stack in *. destruct (s_destroy it (w_stack w)) as [s' u|s'|b] eqn:E; try discriminate; injection H as <- <-.
    + cbn [w_live w_stack]. rewrite own_remove by auto. split; auto.
      pose proof (pos_lt _ _ _ _ HL L). split; [rewrite !remove_nth_length; lia|].
      intros t' Nt. apply own_remove_other; auto.
    + exfalso. unfold s_destroy, noexcept in E. destruct (with_lock _ _); discriminate.
  - unfold with_iter in *. cbn [w_live]. rewrite own_nth by auto.
    destruct (nth_error (w_live w) (pos_of t k owners)) as [it|] eqn:N; [|discriminate].
    unfold on_stack, s_copy, ret in *. injection H as <- <-.
    cbn [w_live w_stack]. rewrite own_app, Nat.eqb_refl by auto. split; auto. rewrite !app_length. split; [cbn; lia|].
    intros t' N'. rewrite own_app by auto. destruct (Nat.eqb_spec t t'); [congruence|]. apply app_nil_r.
Qed.

Lemma event_in_two_steps_ok : forall e : event T, implements_event (event_in_two_steps e) e.
Proof.
  intros e its ans s w' a H. unfold event_in_two_steps. cbn [exec_body fst snd]. rewrite H. cbv beta iota.
  cbn [exec_body fst snd]. now rewrite H.
Qed.

Lemma answer_kind : forall debug e (w w' : world T) a, wexec debug e w = ROk w' a ->
  match e with
  | Op _ => True
  | SyncGet _ => a = AThrown \/ exists v, a = AVal v
  | SyncInc _ | SyncDec _ => a = AThrown \/ a = ADone
  | _ => a = ADone
  end.
Proof.
  intros debug e w w' a H. destruct e; auto; cbn [wexec] in H; unfold with_iter, on_stack, on_iter in H.
  - destruct (sync_begin (w_stack w)) as [? ?|?|?] eqn:E; try discriminate; injection H as <- <-; auto.
    unfold sync_begin, noexcept in E. destruct (with_lock _ _); discriminate.
  - destruct (sync_end (w_stack w)) as [? ?|?|?] eqn:E; try discriminate; injection H as <- <-; auto.
    unfold sync_end, noexcept in E. destruct (with_lock _ _); discriminate.
  - destruct (nth_error (w_live w) k); [|discriminate]. destruct (s_get s (w_stack w)); try discriminate; injection H as <- <-; eauto.
  - destruct (nth_error (w_live w) k); [|discriminate]. destruct (s_inc s (w_stack w)); try discriminate; injection H as <- <-; eauto.
  - destruct (nth_error (w_live w) k); [|discriminate]. destruct (s_dec s (w_stack w)); try discriminate; injection H as <- <-; eauto.
  - destruct (nth_error (w_live w) k); [|discriminate]. destruct (s_destroy s (w_stack w)) as [? ?|?|?] eqn:E; try discriminate; injection H as <- <-; auto.
    unfold s_destroy, noexcept in E. destruct (with_lock _ _); discriminate.
  - destruct (nth_error (w_live w) k); [|discriminate]. unfold s_copy, ret in H. injection H as <- <-; auto.
Qed.

Lemma answer_right : forall ps pa es (w w' : world T) (x : sspec T) e x' a, wreaches false ps pa es w x ->
  sspec_step ps pa e x = Some x' -> hazard ps e w x = false -> wexec false e w = ROk w' a -> right_answer e a x.
Proof.
  intros ps pa es w w' x e x' a H E F W.
  destruct (sync_safe _ _ _ _ _ _ _ _ H E F) as (w1 & a1 & W1 & _ & G1 & G2). rewrite W in W1. injection W1 as <- <-.
  pose proof (answer_kind _ _ _ _ _ W) as K.
  assert (TH : uses_iter e = true -> (a = AThrown <-> ss_list x = [])).
  { intros U. destruct (sync_throw_iff _ _ _ _ _ _ _ _ _ _ H E U W) as [A _]. exact A. }
  destruct e; cbn [right_answer uses_iter] in *; auto.
  - destruct (G2 _ eq_refl) as (r & -> & S). eauto.
  - specialize (TH eq_refl). destruct K as [->|[v ->]]; [now apply TH|].
    destruct (G1 _ eq_refl) as (v' & V1 & V2); [intros Z; apply TH in Z; discriminate|]. now injection V1 as ->.
  - specialize (TH eq_refl). destruct K as [->| ->]; [now apply TH|]. intros Z. apply TH in Z. discriminate.
  - specialize (TH eq_refl). destruct K as [->| ->]; [now apply TH|]. intros Z. apply TH in Z. discriminate.
Qed.

(** A history without hazards runs and its answers are right. *)
Lemma hazard_free_reaches : forall ps pa es es0 (w : world T) (x : sspec T), wreaches false ps pa es0 w x ->
  hazard_free ps pa es w x ->
  exists w' x' rs, wrun false es w = ROk w' rs /\ wreaches false ps pa (es0 ++ es) w' x' /\ right_answers ps pa es rs x.
Proof.
  intros ps pa es. induction es as [|e es IH]; intros es0 w x H F; cbn [hazard_free wrun] in *.
  - exists w, x, []. rewrite app_nil_r. cbn. auto.
  - destruct F as [F1 F2]. destruct (sspec_step ps pa e x) as [x1|] eqn:E1; [|destruct F2].
    destruct (sync_safe _ _ _ _ _ _ _ _ H E1 F1) as (w1 & a & W1 & W2 & _). rewrite W1. specialize (F2 _ _ W1).
    destruct (IH _ _ _ W2 F2) as (w' & x' & rs & G1 & G2 & G3). rewrite G1. rewrite <- app_assoc in G2.
    exists w', x', (a :: rs). split; auto. split; auto. cbn [right_answers]. rewrite E1. split; auto.
    exact (answer_right _ _ _ _ _ _ _ _ _ H E1 F1 W1).
Qed.

Variable code : event T -> body (@shared T) (@own_data T).

Lemma event_order_of : forall (acq : list (nat * body (@shared T) (@own_data T))) (prog : nat -> list (event T)) (rest : nat -> list (body (@shared T) (@own_data T))),
  (forall t, map code (prog t) = map snd (filter (fun x => fst x =? t) acq) ++ rest t) ->
  exists order, acq = event_sections code order /\ forall t, exists more, prog t = events_of t order ++ more /\ map code more = rest t.
Proof.
  induction acq as [|[t b] acq IH]; intros prog rest H.
  - exists []. split; [reflexivity|]. intro t. exists (prog t). split; [reflexivity|]. apply (H t).
  - pose proof (H t) as Ht. cbn [filter fst] in Ht. rewrite Nat.eqb_refl in Ht. cbn [map snd app] in Ht.
    destruct (prog t) as [|o p] eqn:Pt; [discriminate Ht|]. cbn [map] in Ht. injection Ht as Hb Ht.
    destruct (IH (fun t' => if t' =? t then p else prog t') rest) as (order & A & B).
    + intro t'. destruct (Nat.eqb_spec t' t) as [->|N]; [exact Ht|]. rewrite (H t'). cbn [filter fst]. destruct (Nat.eqb_spec t t'); [congruence|reflexivity].
    + exists ((t, o) :: order). split; [unfold event_sections in *; cbn [map fst snd]; now rewrite <- A, Hb|].
      intro t'. destruct (B t') as (more & C & D). exists more. split; [|exact D]. unfold events_of in *. cbn [filter fst].
      destruct (Nat.eqb_spec t' t) as [->|N].
      * rewrite Nat.eqb_refl. cbn [map snd app]. now rewrite Pt, C.
      * destruct (Nat.eqb_spec t t'); [congruence|exact C].
Qed.

Hypothesis code_ok : forall e, guarded_event e = true -> implements_event (code e) e.

(** Serial execution of the sections is execution of the history. *)
Lemma serial_history : forall (order : list (nat * event T)) (owners : list nat) (w w' : world T) (rs : list (answer T)) (ls : list (@own_data T)),
  length owners = length (w_live w) ->
  (forall t e, List.In (t, e) order -> t < length ls /\ guarded_event e = true) ->
  (forall t l, nth_error ls t = Some l -> fst l = own t owners (w_live w)) ->
  wrun false (global_history order owners) w = ROk w' rs ->
  exists ls', serial (event_sections code order) (Some (w_stack w), ls) = (Some (w_stack w'), ls') /\ length ls' = length ls /\
    forall t l, nth_error ls t = Some l -> exists its, nth_error ls' t = Some (its, snd l ++ answers_of t order rs).
Proof.
  induction order as [|[t e] order IH]; intros owners w w' rs ls HL B HO R.
  - cbn in R. injection R as <- <-. exists ls. split; [reflexivity|]. split; [reflexivity|]. intros t [its an] H.
    exists its. cbn [snd answers_of]. unfold answers_of. cbn. now rewrite app_nil_r.
  - cbn [global_history wrun] in R. destruct (wexec false (global_event t e owners) w) as [w1 a|w1|b] eqn:E; try discriminate R.
    destruct (wrun false (global_history order (owners_after t e owners)) w1) as [w2 rs'|w2|b] eqn:R'; try discriminate R. injection R as <- <-.
    destruct (B t e) as [Ht Ge]; [left; reflexivity|].
    destruct (nth_error ls t) as [[its an]|] eqn:N; [|apply nth_error_None in N; lia].
    destruct (own_step t e owners w w1 a HL E) as (O1 & O2 & O3).
    pose proof (HO _ _ N) as Hi. cbn [fst] in Hi. subst its.
    assert (S1 : run_section (t, code e) (Some (w_stack w), ls) =
      (Some (w_stack w1), upd t (fun _ => (own t (owners_after t e owners) (w_live w1), an ++ [a])) ls)).
    { unfold run_section. cbn [fst snd]. rewrite N. now rewrite (code_ok e Ge _ an _ _ _ O1). }
    destruct (IH (owners_after t e owners) w1 w2 rs' (upd t (fun _ => (own t (owners_after t e owners) (w_live w1), an ++ [a])) ls)) as (ls' & A & C & D); auto.
    + intros t' e' I. rewrite upd_length. apply (B t' e'). now right.
    + intros t' l H. destruct (Nat.eq_dec t t') as [<-|NE].
      * rewrite (nth_error_upd_eq _ _ _ _ N) in H. injection H as <-. reflexivity.
      * rewrite nth_error_upd_neq in H by auto. rewrite (HO _ _ H). symmetry. apply O3. auto.
    + exists ls'. split; [|split; [now rewrite C, upd_length|]].
      * unfold event_sections, serial in *. cbn [map fst snd fold_left]. rewrite S1. exact A.
      * intros t' l H. unfold answers_of. cbn [map fst combine filter].
        destruct (Nat.eqb_spec t t') as [<-|NE].
        -- rewrite N in H. injection H as <-.
           destruct (D t (own t (owners_after t e owners) (w_live w1), an ++ [a])) as [its' D'].
           ++ now rewrite (nth_error_upd_eq _ _ _ _ N).
           ++ exists its'. rewrite D'. cbn [map snd]. rewrite <- app_assoc. reflexivity.
        -- apply D. rewrite nth_error_upd_neq; auto.
Qed.

Lemma frun_range' : forall spin sched (s s' : fstate (@shared T) (@own_data T)) tr, frun spin sched s = Some (s', tr) ->
  length (threads s') = length (threads s) /\ Forall (fun te => fst te < length (threads s)) tr.
Proof.
  intros spin sched. induction sched as [|[t sp] sched IH]; intros s s' tr H; cbn [frun] in H.
  - injection H as <- <-. auto.
  - destruct (fstep spin t sp s) as [[s1 e]|] eqn:E; [|discriminate].
    destruct (frun spin sched s1) as [[s2 es]|] eqn:E2; [|discriminate]. injection H as <- <-.
    assert (G : length (threads s1) = length (threads s) /\ t < length (threads s)).
    { unfold fstep in E. destruct (nth_error (threads s) t) as [th|] eqn:Ht; [|discriminate].
      split; [|apply nth_error_Some; congruence].
      repeat match type of E with
             | context [match ?x with _ => _ end] => destruct x; try discriminate
             end; injection E as <- <-; cbn [threads]; apply upd_length. }
    destruct G as [G1 G2]. destruct (IH _ _ _ E2) as [A B]. rewrite G1 in *. split; [exact A|]. constructor; [exact G2|exact B].
Qed.

Lemma acquired_none' : forall (tr : list (nat * fevent (@shared T) (@own_data T))) n t, Forall (fun te => fst te < n) tr -> n <= t -> acquired_by t tr = [].
Proof.
  intros tr n t F L. unfold acquired_by. induction F as [|[t' e] tr H F IH]; [reflexivity|]. cbn [fst] in H. destruct e; cbn [acquisitions]; try exact IH.
  cbn [filter fst]. destruct (Nat.eqb_spec t' t); [lia|exact IH].
Qed.

Lemma acquired_range' : forall (tr : list (nat * fevent (@shared T) (@own_data T))) n t b, Forall (fun te => fst te < n) tr -> List.In (t, b) (acquisitions tr) -> t < n.
Proof.
  intros tr n t b F. induction F as [|[t' e] tr H F IH]; [intros []|]. cbn [fst] in H. destruct e; cbn [acquisitions]; try exact IH.
  intros [I|I]; [injection I as <- _; exact H|exact (IH I)].
Qed.

Lemma guarded_events : forall order (progs : list (list (event T))), Forall (fun p => forallb guarded_event p = true) progs ->
  (forall t, exists more, nth t progs [] = events_of t order ++ more) -> forall t e, List.In (t, e) order -> guarded_event e = true.
Proof.
  intros order progs F H t e I.
  destruct (H t) as [more E].
  assert (I2 : List.In e (nth t progs [])).
  { rewrite E. apply in_or_app. left. unfold events_of. change e with (snd (t, e)). apply in_map. apply filter_In. split; [exact I|]. apply Nat.eqb_refl. }
  destruct (nth_in_or_default t progs []) as [J|J].
  - rewrite Forall_forall in F. specialize (F _ J). rewrite forallb_forall in F. now apply F.
  - rewrite J in I2. destruct I2.
Qed.

Lemma shared_sync : forall spin ps pa (progs : list (list (event T))) (s : fstate (@shared T) (@own_data T)) tr,
  1 <= ps -> 1 <= pa -> Forall (fun p => forallb guarded_event p = true) progs ->
  @freaches (@shared T) (@own_data T) spin (Some (construct ps pa)) (map (fun p => (map code p, ([], []))) progs) s tr ->
  (forall t, ~ holds s t) ->
  exists order, acquisitions tr = event_sections code order /\
    (forall t p, nth_error progs t = Some p -> exists more th, nth_error (threads s) t = Some th /\ p = events_of t order ++ more /\ map code more = t_todo th) /\
    (hazard_free ps pa (global_history order []) (wfresh ps pa) (sfresh pa) ->
     exists w x rs, wreaches false ps pa (global_history order []) w x /\
       wrun false (global_history order []) (wfresh ps pa) = ROk w rs /\ data s = Some (w_stack w) /\
       right_answers ps pa (global_history order []) rs (sfresh pa) /\
       forall t th, nth_error (threads s) t = Some th -> snd (t_local th) = answers_of t order rs).
Proof.
  intros spin ps pa progs s tr PS PA CO R NH.
  set (fp := map (fun p => (map code p, ([], []))) progs) in *.
  assert (PO : forall t p, nth_error progs t = Some p -> exists th, nth_error (threads s) t = Some th /\ map code p = acquired_by t tr ++ t_todo th).
  { intros t p H. apply (sections_in_order spin (Some (construct ps pa)) fp s tr t (map code p) ([], [])); [exact R|].
    unfold fp. rewrite nth_error_map, H. reflexivity. }
  assert (RG : length (threads s) = length progs /\ Forall (fun te => fst te < length progs) tr).
  { destruct R as [sched R]. destruct (frun_range' _ _ _ _ _ R) as [A B]. unfold finit in A, B. cbn [threads] in A, B. unfold fp in A, B.
    rewrite !map_length in A. rewrite !map_length in B. split; [exact A|exact B]. }
  destruct RG as [RL RT].
  destruct (event_order_of (acquisitions tr) (fun t => nth t progs []) (fun t => match nth_error (threads s) t with Some th => t_todo th | None => [] end)) as (order & A & B).
  { intro t. destruct (nth_error progs t) as [p|] eqn:N.
    - destruct (PO t p N) as (th & H1 & H2). rewrite (nth_error_nth _ _ _ N), H1. exact H2.
    - apply nth_error_None in N. pose proof (acquired_none' _ _ _ RT N) as AN. unfold acquired_by in AN. rewrite (nth_overflow _ _ N).
      destruct (nth_error (threads s) t) as [th|] eqn:N2; [|rewrite app_nil_r; symmetry; exact AN]. assert (t < length (threads s)) by (apply nth_error_Some; congruence). lia. }
  exists order. split; [exact A|]. split.
  { intros t p N. destruct (B t) as (more & C & E). destruct (PO t p N) as (th & H1 & _). exists more, th. split; [exact H1|].
    rewrite (nth_error_nth _ _ _ N) in C. split; [exact C|]. now rewrite H1 in E. }
  intros HF.
  assert (CC : forall t e, List.In (t, e) order -> guarded_event e = true).
  { apply (guarded_events order progs CO). intro t. destruct (B t) as (more & C & _). now exists more. }
  assert (W0 : wreaches false ps pa [] (wfresh (T := T) ps pa) (sfresh pa)).
  { split; auto. split; auto. split; [reflexivity|]. exists []. reflexivity. }
  destruct (hazard_free_reaches ps pa _ [] _ _ W0 HF) as (w & x & rs & W1 & W2 & W3). cbn [app] in W2.
  exists w, x, rs. split; [exact W2|]. split; [exact W1|].
  destruct (serialised (D := @shared T) (L := @own_data T) spin (Some (construct ps pa)) fp s tr R) as [SE _]. specialize (SE NH). rewrite A in SE.
  destruct (serial_history order [] (wfresh ps pa) w rs (map snd fp)) as (ls' & S1 & S2 & S3).
  - reflexivity.
  - intros t e I. split; [|exact (CC t e I)]. unfold fp. rewrite !map_length. apply (acquired_range' tr _ t (code e) RT). rewrite A. unfold event_sections.
    change (t, code e) with ((fun x => (fst x, code (snd x))) (t, e)). apply in_map. exact I.
  - intros t l H. unfold fp in H. rewrite map_map in H. cbn [snd] in H. rewrite nth_error_map in H.
    destruct (nth_error progs t); [|discriminate]. cbn in H. injection H as <-. reflexivity.
  - exact W1.
  - cbn [wfresh w_stack] in S1. pose proof (eq_trans SE S1) as SE'. clear SE. rename SE' into SE. unfold memory in SE. injection SE as E1 E2. split; [exact E1|]. split; [exact W3|].
    intros t th N. assert (N' : nth_error ls' t = Some (t_local th)) by (rewrite <- E2, nth_error_map, N; reflexivity).
    assert (Lt : t < length progs) by (rewrite <- RL; apply nth_error_Some; congruence).
    destruct (S3 t ([], [])) as [its S4]; [|rewrite S4 in N'; injection N' as <-; reflexivity].
    unfold fp. rewrite map_map. cbn [snd]. rewrite nth_error_map. destruct (nth_error progs t) eqn:NP; [reflexivity|]. apply nth_error_None in NP. lia.
Qed.

End SyncThreads.
