(** * What C121 says: synchronised iterators of threads that share a PagedStack<T, Futex>.

    Each call of a member function of the stack or of a synchronised iterator is a section under
    the futex (C18); as in C94 its steps are left open.  A thread names its own iterators by
    their position among its live ones. *)

From Coq Require Import List Arith Bool.
From Verif Require Import Base PagedStackModel PagedStackSpec PagedStackExec PagedStackSyncSpec FutexModel FutexSpec
  PagedStackThreadsSpec.
Import ListNotations.

Section SyncThreads.
Context {T : Type}.

(** A thread's own data: its live iterators, the answers to its calls so far. *)
Definition own_data : Type := (list siter * list (answer T))%type.

(** The section [b] has the effect and the answer of the event [e] on the stack and the thread's
    own iterators. *)
Definition implements_event (b : body (@shared T) own_data) (e : event T) : Prop :=
  forall its ans s w' a, wexec false e (mkW s its) = ROk w' a ->
    exec_body b (its, ans) (Some s) = ((w_live w', ans ++ [a]), Some (w_stack w')).

(** An event in two steps: the answer is computed and kept; then the stack and the iterators are
    changed. *)
Definition event_in_two_steps (e : event T) : body (@shared T) own_data :=
  [fun l d => match d with
              | Some s => match wexec false e (mkW s (fst l)) with
                          | ROk _ a => ((fst l, snd l ++ [a]), d)
                          | _ => (l, d)
                          end
              | None => (l, None)
              end;
   fun l d => match d with
              | Some s => match wexec false e (mkW s (fst l)) with
                          | ROk w _ => ((w_live w, snd l), Some (w_stack w))
                          | _ => (l, None)
                          end
              | None => (l, None)
              end].

(** The events whose whole effect is under the lock guard.  Not the copy of an iterator, which
    takes no lock, nor the calls C94 excludes. *)
Definition guarded_event (e : event T) : bool :=
  match e with Op o => guarded_op o | SyncCopy _ => false | _ => true end.

(** ** One history of all the calls

    In the history of C11 an iterator is named by its position among all the live ones.
    [owners]: the thread of each live iterator. *)

(** The position of the [k]-th iterator of thread [t]. *)
Fixpoint pos_of (t k : nat) (owners : list nat) : nat :=
  match owners with
  | [] => 0
  | o :: r => if o =? t then match k with 0 => 0 | S k' => S (pos_of t k' r) end else S (pos_of t k r)
  end.

(** The event [e] of thread [t] in that history. *)
Definition global_event (t : nat) (e : event T) (owners : list nat) : event T :=
  match e with
  | SyncGet k => SyncGet (pos_of t k owners)
  | SyncInc k => SyncInc (pos_of t k owners)
  | SyncDec k => SyncDec (pos_of t k owners)
  | SyncDestroy k => SyncDestroy (pos_of t k owners)
  | SyncCopy k => SyncCopy (pos_of t k owners)
  | _ => e
  end.

(** The owners after it. *)
Definition owners_after (t : nat) (e : event T) (owners : list nat) : list nat :=
  match e with
  | SyncBegin | SyncEnd | SyncCopy _ => owners ++ [t]
  | SyncDestroy k => remove_nth (pos_of t k owners) owners
  | _ => owners
  end.

Fixpoint global_history (order : list (nat * event T)) (owners : list nat) : list (event T) :=
  match order with
  | [] => []
  | (t, e) :: r => global_event t e owners :: global_history r (owners_after t e owners)
  end.

(** Every event of the history is legal and outside the hazards of C11. *)
Fixpoint hazard_free (ps pa : nat) (es : list (event T)) (w : world T) (x : sspec T) : Prop :=
  match es with
  | [] => True
  | e :: r =>
      hazard ps e w x = false /\
      match sspec_step ps pa e x with
      | Some x' => forall w' a, wexec false e w = ROk w' a -> hazard_free ps pa r w' x'
      | None => False
      end
  end.

(** The answer [a] to [e] is right when the ideal state is [x]: get() yields an element then in the
    stack; the uses of an iterator throw exactly if the stack is empty; the calls of the stack
    return what the ideal stack returns. *)
Definition right_answer (e : event T) (a : answer T) (x : sspec T) : Prop :=
  match e with
  | Op o => exists l r, spec_step o (ss_list x) = Some (l, r) /\ a = ARet r
  | SyncGet _ => match a with AVal v => List.In v (ss_list x) | AThrown => ss_list x = [] | _ => False end
  | SyncInc _ | SyncDec _ => match a with ADone => ss_list x <> [] | AThrown => ss_list x = [] | _ => False end
  | _ => a = ADone
  end.

Fixpoint right_answers (ps pa : nat) (es : list (event T)) (rs : list (answer T)) (x : sspec T) : Prop :=
  match es, rs with
  | [], [] => True
  | e :: es', a :: rs' =>
      right_answer e a x /\
      match sspec_step ps pa e x with Some x' => right_answers ps pa es' rs' x' | None => False end
  | _, _ => False
  end.

(** The events of thread [t] in an order of events; their answers; the sections. *)
Definition events_of (t : nat) (order : list (nat * event T)) : list (event T) := map snd (filter (fun x => fst x =? t) order).
Definition answers_of (t : nat) (order : list (nat * event T)) (rs : list (answer T)) : list (answer T) :=
  map snd (filter (fun x => fst x =? t) (combine (map fst order) rs)).
Definition event_sections (code : event T -> body (@shared T) own_data) (order : list (nat * event T)) :
  list (nat * body (@shared T) own_data) := map (fun x => (fst x, code (snd x))) order.

End SyncThreads.
