(** * What the properties of LogSystem speak about: functions of the record of events,
    and a few views of the state.  Nothing here refers to the code of the model. *)

From Coq Require Import ZArith String Bool List Arith.
From Verif Require Import Base LogModel.
Import ListNotations.

Definition tid_eqb (a b : tid) : bool :=
  match a, b with
  | Client i, Client j => i =? j
  | LogThread, LogThread => true
  | _, _ => false
  end.

(** Select and transform events. *)
Fixpoint pick {A B : Type} (f : A -> option B) (l : list A) : list B :=
  match l with
  | [] => []
  | x :: l' => match f x with Some y => y :: pick f l' | None => pick f l' end
  end.

(** Messages for which log() passed the level test, in order; those queued; those taken
    by the log thread; those whose dispatch began; was counted; ended. *)
Definition accepted (tr : list ev) : list msg := pick (fun e => match e with EvAccept _ m => Some m | _ => None end) tr.
Definition popped (tr : list ev) : list msg := pick (fun e => match e with EvPop m => Some m | _ => None end) tr.
Definition begun (tr : list ev) : list msg := pick (fun e => match e with EvBegin m => Some m | _ => None end) tr.
Definition sent (tr : list ev) : list msg := pick (fun e => match e with EvSend m => Some m | _ => None end) tr.
Definition ended (tr : list ev) : list msg := pick (fun e => match e with EvEnd m => Some m | _ => None end) tr.

(** Of one thread: messages that passed the level test or were passed as objects; that
    were queued; all the messages it passed to log(). *)
Definition passed_by (w : tid) (tr : list ev) : list msg :=
  pick (fun e => match e with EvLog w' m true | EvPass w' m => if tid_eqb w w' then Some m else None | _ => None end) tr.
Definition queued_by (w : tid) (tr : list ev) : list msg :=
  pick (fun e => match e with EvAccept w' m => if tid_eqb w w' then Some m else None | _ => None end) tr.
Definition logged_by (w : tid) (tr : list ev) : list msg :=
  pick (fun e => match e with EvLog w' m _ | EvPass w' m => if tid_eqb w w' then Some m else None | _ => None end) tr.
(** The messages that a program passes to log(). *)
Definition log_calls (p : list call) : list msg := pick (fun k => match k with CLog m | CPass m => Some m | _ => None end) p.
(** The messages passed as objects, by log(Message* ). *)
Definition passes (tr : list ev) : list msg := pick (fun e => match e with EvPass _ m => Some m | _ => None end) tr.

(** Messages handed to listener [l]; how often it was added. *)
Definition delivered_to (l : nat) (tr : list ev) : list msg :=
  pick (fun e => match e with EvDeliver l' m => if l =? l' then Some m else None | _ => None end) tr.
Definition adds (l : nat) (tr : list ev) : nat :=
  List.length (pick (fun e => match e with EvAdd l' => if l =? l' then Some tt else None | _ => None end) tr).

(** All that the log system wrote on standard output. *)
Definition stdout_of (tr : list ev) : string :=
  String.concat "" (pick (fun e => match e with EvCheck _ _ out => Some out | _ => None end) tr).

(** All the listener calls, in order. *)
Definition handed (tr : list ev) : list (nat * msg) :=
  pick (fun e => match e with EvDeliver l m => Some (l, m) | _ => None end) tr.

(** Number of listeners added since the log thread last took in the new ones. *)
Fixpoint pending_of (tr : list ev) (n : nat) : nat :=
  match tr with
  | [] => n
  | EvAdd _ :: tr' => pending_of tr' (S n)
  | EvBegin _ :: tr' => pending_of tr' 0
  | _ :: tr' => pending_of tr' n
  end.

(** The registrations taken in so far, in order: [a] taken in, [p] pending. *)
Fixpoint taken (tr : list ev) (a p : list nat) : list nat :=
  match tr with
  | [] => a
  | EvAdd l :: tr' => taken tr' a (p ++ [l])
  | EvBegin _ :: tr' => taken tr' (a ++ p) []
  | _ :: tr' => taken tr' a p
  end.

(** Listeners on which detach() was called; listeners with a setting changed. *)
Definition detached (tr : list ev) : list nat := pick (fun e => match e with EvDetach l => Some l | _ => None end) tr.
Definition changed (tr : list ev) : list nat := pick (fun e => match e with EvSet l _ => Some l | _ => None end) tr.

(** No setting of [l] is changed during a dispatch; [busy]: in one. *)
Fixpoint steady (l : nat) (tr : list ev) (busy : bool) : Prop :=
  match tr with
  | [] => True
  | EvBegin _ :: tr' => steady l tr' true
  | EvClean :: tr' => steady l tr' false
  | EvSet l' _ :: tr' => (l' = l -> busy = false) /\ steady l tr' busy
  | _ :: tr' => steady l tr' busy
  end.

(** [a] can be obtained from [b] by leaving out elements. *)
Inductive sub {A : Type} : list A -> list A -> Prop :=
| sub_nil : forall b, sub [] b
| sub_skip : forall x a b, sub a b -> sub a (x :: b)
| sub_take : forall x a b, sub a b -> sub (x :: a) (x :: b).

(** Largest queue length over the history: messages queued minus messages taken.  [n]: the
    present length, [x]: the largest so far. *)
Fixpoint longest (tr : list ev) (n x : nat) : nat :=
  match tr with
  | [] => x
  | EvAccept _ _ :: tr' => longest tr' (S n) (Nat.max x (S n))
  | EvPop _ :: tr' => longest tr' (n - 1) x
  | _ :: tr' => longest tr' n x
  end.

(** The level in force after these events: the last one set. *)
Fixpoint level_of (tr : list ev) (z : Z) : Z :=
  match tr with
  | [] => z
  | EvLevel z' :: tr' => level_of tr' z'
  | _ :: tr' => level_of tr' z
  end.

(** A prefix. *)
Definition prefix {A : Type} (a b : list A) : Prop := exists c, b = a ++ c.

(** A thread in stop(), after the flag was set. *)
Definition stopping (c : cthread) : Prop := c_pc c = StopNotify \/ c_pc c = StopLock \/ c_pc c = StopJoin.

(** A choice of the environment in which no callback calls stop() or throws. *)
Definition no_stop_choice (ch : choice) : Prop := match ch with GoLog cb => ~ In CStop cb /\ ~ In CThrow cb | _ => True end.

Section LogSpec.
Context {RE : Type}.
Variable compile : string -> option RE.
Variable rmatch : string -> RE -> bool.

(** The filter of a listener, as documented. *)
Definition wants (L : @listener RE) (m : msg) : bool :=
  l_enabled L && (m_level m <=? l_level L)%Z &&
  (String.eqb (m_cat m) "" || String.eqb (l_category L) "" || rmatch (m_cat m) (l_regex L)).

(** What a listener with settings [L] has to receive, once per registration: [a] active and
    [p] pending registrations. *)
Fixpoint expected (L : @listener RE) (l : nat) (tr : list ev) (a p : nat) : list msg :=
  match tr with
  | [] => []
  | EvAdd l' :: tr' => expected L l tr' a (if l =? l' then S p else p)
  | EvBegin m :: tr' => (if wants L m then repeat m (a + p) else []) ++ expected L l tr' (a + p) 0
  | _ :: tr' => expected L l tr' a p
  end.

(** What a call changes in the settings of its listener. *)
Definition setting (k : call) (L : @listener RE) : @listener RE :=
  match k with
  | CSetLevel _ z => mkL (l_category L) (l_regex L) z (l_enabled L) (l_detached L)
  | CEnable _ b => mkL (l_category L) (l_regex L) (l_level L) b (l_detached L)
  | CDetach _ => mkL (l_category L) (l_regex L) (l_level L) (l_enabled L) true
  | CCategory _ re => match compile re with
                      | Some r => mkL re r (l_level L) (l_enabled L) (l_detached L)
                      | None => L
                      end
  | _ => L
  end.

(** The settings of [l] after these events, if they were [L]. *)
Fixpoint settings (l : nat) (tr : list ev) (L : @listener RE) : @listener RE :=
  match tr with
  | [] => L
  | EvSet l' k :: tr' => settings l tr' (if l =? l' then setting k L else L)
  | _ :: tr' => settings l tr' L
  end.

(** The last category filter that was set for [l]. *)
Fixpoint last_filter (l : nat) (tr : list ev) (f : option string) : option string :=
  match tr with
  | [] => f
  | EvSet l' (CCategory _ re) :: tr' => last_filter l tr' (if l =? l' then Some re else f)
  | _ :: tr' => last_filter l tr' f
  end.

(** [times]: moments one after the other, not before [a] and not after [b]. *)
Fixpoint moments (a : list ev) (times : list (list ev)) (b : list ev) : Prop :=
  match times with
  | [] => prefix a b
  | t :: ts => prefix a t /\ moments t ts b
  end.

(** How many of the listeners [ks] were enabled, the first of them after the events in the first of
    [times], and so on; the settings were [ls] at first. *)
Definition asked (ls : nat -> @listener RE) (ks : list nat) (times : list (list ev)) : nat :=
  List.length (filter (fun x => l_enabled (settings (fst x) (snd x) (ls (fst x)))) (combine ks times)).

(** What [l] has to receive while its settings change: [L] the present ones, [a] active and
    [p] pending registrations.  Once detached, the active registrations end with the dispatch. *)
Fixpoint owed (L : @listener RE) (l : nat) (tr : list ev) (a p : nat) : list msg :=
  match tr with
  | [] => []
  | EvAdd l' :: tr' => owed L l tr' a (if l =? l' then S p else p)
  | EvSet l' k :: tr' => owed (if l =? l' then setting k L else L) l tr' a p
  | EvBegin m :: tr' => (if wants L m then repeat m (a + p) else []) ++ owed L l tr' (a + p) 0
  | EvClean :: tr' => owed L l tr' (if l_detached L then 0 else a) p
  | _ :: tr' => owed L l tr' a p
  end.

(** [reaches sn g ls progs w tr]: a LogSystem(sn) constructed on memory with [g] where
    m_isTerminated is; listeners with settings [ls]; client threads that execute [progs];
    any schedule and any callbacks. *)
Definition reaches (sn g : bool) (ls : nat -> @listener RE) (progs : list (list call))
  (w : @world RE) (tr : list ev) : Prop :=
  exists sched, run compile rmatch sched (init sn g ls progs) = Some (w, tr).

(** [w'] can follow [w]. *)
Definition follows (w w' : @world RE) (tr : list ev) : Prop :=
  exists sched, run compile rmatch sched w = Some (w', tr).

(** The messages waiting in the queue. *)
Definition waiting (w : @world RE) : list msg := map (content (w_sys w)) (queue (w_sys w)).

(** The message object that a thread in log() has; those that the log thread has. *)
Definition held_c (c : cthread) : list nat :=
  match c_pc c with LogCtor _ o | LogPush _ o => [o] | _ => [] end.
Definition held_t (t : tpc) : list nat :=
  match t with
  | TGot o | TCount o | TSend o _ | TLevel o _ _ | TCat o _ _ | TClean o _ _ | TDispose o | TDelete o | TFree o => [o]
  | TCall o _ c => o :: held_c c
  | TNone | TCheck | TAsleep | TExited => []
  end.

(** The places where message objects are. *)
Definition places (w : @world RE) : list nat :=
  pool (w_sys w) ++ queue (w_sys w) ++ held_t (logt (w_sys w)) ++ flat_map held_c (w_clients w).

(** Object [o] was created and not yet destroyed. *)
Definition live (s : @sys RE) (o : nat) : Prop := exists m, nth_error (heap s) o = Some (Some m).

(** Message objects created so far; deleted so far. *)
Definition objects (w : @world RE) : nat := List.length (heap (w_sys w)).
Definition deleted (w : @world RE) : nat :=
  List.length (filter (fun x => match x with None => true | Some _ => false end) (heap (w_sys w))).

(** Message objects counted as created that are still to be made; counted as discarded that are
    still to be deleted. *)
Definition making_c (c : cthread) : list msg := match c_pc c with LogMake m => [m] | _ => [] end.
Definition making_t (t : tpc) : list msg := match t with TCall _ _ c => making_c c | _ => [] end.
Definition making (w : @world RE) : nat :=
  List.length (making_t (logt (w_sys w)) ++ flat_map making_c (w_clients w)).
Definition deleting (w : @world RE) : nat := match logt (w_sys w) with TFree _ => 1 | _ => 0 end.

(** The message that the log thread took and whose dispatch did not begin yet; did not
    end yet. *)
Definition unbegun (w : @world RE) : list msg :=
  match logt (w_sys w) with TGot o => [content (w_sys w) o] | _ => [] end.
Definition unended (w : @world RE) : list msg :=
  match logt (w_sys w) with
  | TGot o | TCount o | TSend o _ | TLevel o _ _ | TCat o _ _ | TCall o _ _ => [content (w_sys w) o]
  | _ => []
  end.

(** The message that a thread in log() has not queued yet. *)
Definition unqueued (c : cthread) : list msg :=
  match c_pc c with LogAlloc m | LogNew m | LogMake m | LogCtor m _ | LogPush m _ => [m] | _ => [] end.

(** No message queued or in anybody's hands. *)
Definition quiescent (w : @world RE) : Prop :=
  queue (w_sys w) = [] /\ held_t (logt (w_sys w)) = [] /\ flat_map held_c (w_clients w) = [].

(** The calls that thread [u] makes; the log thread makes some in a callback. *)
Definition thread_of (w : @world RE) (u : tid) : option cthread :=
  match u with
  | Client i => nth_error (w_clients w) i
  | LogThread => match logt (w_sys w) with TCall _ _ c => Some c | _ => None end
  end.

(** Client [i] is at [p]. *)
Definition at_pc (w : @world RE) (i : nat) (p : cpc) : Prop :=
  exists c, nth_error (w_clients w) i = Some c /\ c_pc c = p.

(** A schedule without the choice of callbacks: who moves, [None] being the log thread.
    Each callback that begins makes the calls [cbs w]. *)
Fixpoint drive (cbs : @world RE -> list call) (who : list (option nat)) (w : @world RE) : option (@world RE * list ev) :=
  match who with
  | [] => Some (w, [])
  | a :: who' => match step compile rmatch (match a with Some i => Go i | None => GoLog (cbs w) end) w with
                 | None => None
                 | Some (w', es) => match drive cbs who' w' with
                                    | None => None
                                    | Some (w'', es') => Some (w'', es ++ es')
                                    end
                 end
  end.

(** Only the log thread moves, [n] steps. *)
Definition alone (cbs : @world RE -> list call) (n : nat) (w : @world RE) : option (@world RE * list ev) :=
  drive cbs (repeat None n) w.

(** A callback that neither stops nor starts the service, and does not throw. *)
Definition modest (cs : list call) : Prop := ~ In CStop cs /\ ~ In CStart cs /\ ~ In CThrow cs.

(** The callback in progress, if any, will not do it either. *)
Definition modest_now (w : @world RE) : Prop :=
  match logt (w_sys w) with
  | TCall _ _ c => modest (c_todo c) /\ ~ In (c_pc c) [StopNotify; StopLock; StopJoin; StartLock]
  | _ => True
  end.

(** The log thread is in a callback that called stop() and has the calls [k] still to make;
    [o] is the message, [rest] the listeners left. *)
Definition in_stop (w : @world RE) (o : nat) (rest : list nat) (k : list call) : Prop :=
  exists p, logt (w_sys w) = TCall o rest (mkC p k) /\ (p = StopNotify \/ p = StopLock \/ p = StopJoin).

(** What the events of a completed call [k] of thread [t] are. *)
Inductive effect (t : tid) : call -> list ev -> Prop :=
| E_refused : forall m, effect t (CLog m) [EvLog t m false]
| E_queued : forall m, effect t (CLog m) [EvLog t m true; EvAccept t m]
| E_passed : forall m, effect t (CPass m) [EvPass t m; EvAccept t m]
| E_added : forall l, effect t (CAdd l) [EvAdd l]
| E_started : effect t CStart [EvStarted t]
| E_stopped : effect t CStop [EvStopped t]
| E_level : forall z, effect t (CLevel z) [EvLevel z]
| E_llevel : forall l z, effect t (CSetLevel l z) [EvSet l (CSetLevel l z)]
| E_enabled : forall l b, effect t (CEnable l b) [EvSet l (CEnable l b)]
| E_detached : forall l, effect t (CDetach l) [EvSet l (CDetach l); EvDetach l]
| E_valid : forall l re r, compile re = Some r -> effect t (CCategory l re) [EvSet l (CCategory l re)]
| E_invalid : forall l re, compile re = None -> effect t (CCategory l re) [EvThrown t]
| E_diags : forall n1 n2 n3 n4 n5 n6 n7 n8, effect t CDiags
    [EvRead t FCreated n1; EvRead t FDiscarded n2; EvRead t FActive n3; EvRead t FEnabled n4;
     EvRead t FReceived n5; EvRead t FMaxQueue n6; EvRead t FPool n7; EvRead t FPending n8]
| E_threw : effect t CThrow [EvThrown t].

(** ** Infinite executions *)

(** [ws n]: the state after [n] steps, [evs n]: what step [n] shows.  In a step some thread moves, or
    nothing happens. *)
Definition execution (ws : nat -> @world RE) (evs : nat -> list ev) : Prop :=
  forall n, (exists ch, step compile rmatch ch (ws n) = Some (ws (S n), evs n)) \/ (ws (S n) = ws n /\ evs n = []).

(** What the first [n] steps show. *)
Fixpoint shown (evs : nat -> list ev) (n : nat) : list ev :=
  match n with 0 => [] | S n' => shown evs n' ++ evs n' end.

Definition of_thread (t : tid) (ch : choice) : Prop :=
  match t, ch with Client i, Go j => i = j | LogThread, GoLog _ => True | _, _ => False end.

(** The scheduler is fair to thread [t]: it is not ready to move and passed over for ever. *)
Definition fair (t : tid) (ws : nat -> @world RE) (evs : nat -> list ev) : Prop :=
  forall n, exists k, n <= k /\
    ((exists ch, of_thread t ch /\ step compile rmatch ch (ws k) = Some (ws (S k), evs k)) \/
     (forall ch, of_thread t ch -> step compile rmatch ch (ws k) = None)).

(** All the clients have made all their calls. *)
Definition all_done (w : @world RE) : Prop :=
  forall i c, nth_error (w_clients w) i = Some c -> c_pc c = Idle /\ c_todo c = [].

End LogSpec.
