(** * What the properties of the whole logging service speak about. *)

From Coq Require Import ZArith String Bool List.
From Verif Require Import Base LogModel LogSpec LoggerModel LoggerSpec WholeModel.
Import ListNotations.
Open Scope list_scope.

(** The events of LogSystem; those of the statements. *)
Definition logs (tr : list wev) : list ev := pick (fun e => match e with WL e => Some e | _ => None end) tr.
Definition stmts (tr : list wev) : list (nat * lev) := pick (fun e => match e with WS i e => Some (i, e) | _ => None end) tr.

(** [m] contains the lists [ls], each in its order, and nothing else: [tags] tells from which
    list each element comes. *)
Definition merge_of {A : Type} (ls : list (list A)) (m : list A) : Prop :=
  exists tags, List.length tags = List.length m /\ Forall (fun i => i < List.length ls) tags /\
    forall i l, nth_error ls i = Some l -> pick (fun x => if Nat.eqb i (fst x) then Some (snd x) else None) (combine tags m) = l.

(** Only threads with numbers below [n] have put messages in the queue. *)
Definition only_below (n : nat) (tr : list ev) : Prop :=
  forall t m, In (EvAccept t m) tr -> exists i, t = Client i /\ i < n.

Section WholeSpec.
Context {RE : Type}.
Variable compile : string -> option RE.
Variable rmatch : string -> RE -> bool.
Variable min : Z.

(** Threads that execute [progs], others that make the calls [others], any schedule, any callbacks. *)
Definition wreaches (sn g : bool) (ls : nat -> @listener RE) (progs : list (list stmt)) (others : list (list call))
  (w : @whole RE) (tr : list wev) : Prop :=
  exists sched, wrun compile rmatch min sched (winit sn g ls progs others) = Some (w, tr).

(** Thread [i] has executed all its statements, and the last call has returned. *)
Definition wfinished (w : @whole RE) (i : nat) : Prop :=
  (exists t, nth_error (wh_code w) i = Some ([], t)) /\ nth_error (w_clients (wh_log w)) i = Some (mkC Idle []).

(** Nothing waits to be dispatched. *)
Definition served (w : @whole RE) : Prop := waiting (wh_log w) = [] /\ unended (wh_log w) = [].

(** ** Infinite executions *)

(** [ws n]: the state after [n] steps, [evs n]: what step [n] shows.  In a step some thread moves, or
    nothing happens. *)
Definition wexecution (ws : nat -> @whole RE) (evs : nat -> list wev) : Prop :=
  forall n, (exists ch, wstep compile rmatch min ch (ws n) = Some (ws (S n), evs n)) \/ (ws (S n) = ws n /\ evs n = []).

(** What the first [n] steps show. *)
Fixpoint wshown (evs : nat -> list wev) (n : nat) : list wev :=
  match n with 0 => [] | S n' => wshown evs n' ++ evs n' end.

Definition of_wthread (t : tid) (ch : wchoice) : Prop :=
  match t, ch with Client i, WThread j => i = j | LogThread, WLogThread _ => True | _, _ => False end.

(** The scheduler is fair to thread [t]: it is not ready to move and passed over for ever. *)
Definition wfair (t : tid) (ws : nat -> @whole RE) (evs : nat -> list wev) : Prop :=
  forall n, exists k, n <= k /\
    ((exists ch, of_wthread t ch /\ wstep compile rmatch min ch (ws k) = Some (ws (S k), evs k)) \/
     (forall ch, of_wthread t ch -> wstep compile rmatch min ch (ws k) = None)).

(** All the threads have executed all their statements and made all their calls. *)
Definition wall_done (w : @whole RE) : Prop :=
  (forall code t, In (code, t) (wh_code w) -> code = []) /\ (forall c, In c (w_clients (wh_log w)) -> c = mkC Idle []).

End WholeSpec.
