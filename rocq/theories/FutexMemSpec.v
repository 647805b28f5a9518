(** * Executions of C++ programs under the C++11 memory model.

    What the standard requires of the executions of a program with one
    std::atomic<bool> and any number of ordinary variables.  Nothing here is
    about Futex.  An execution lists, for each thread, the accesses it makes in
    program order; [rf] tells which write a read takes its value from ([None]:
    the initial value) and [mo] is the modification order of the atomic.
    Of the coherence rules only those about two writes are required, and
    release sequences are left out: the executions admitted are more than those
    of the standard, and their happens-before relation is smaller. *)
From Coq Require Import List Arith Bool.
Import ListNotations.

(** std::memory_order *)
Inductive order : Type := Relaxed | Acquire | Release | AcqRel | SeqCst.

Definition acquires (o : order) : Prop := o = Acquire \/ o = AcqRel \/ o = SeqCst.
Definition releases (o : order) : Prop := o = Release \/ o = AcqRel \/ o = SeqCst.

Section Executions.
Context {X V : Type}.

(** An access: to the atomic, or to an ordinary variable of type [X]. *)
Inductive label : Type :=
| Load (v : bool) (o : order)
| Store (v : bool) (o : order)
| Update (old new : bool) (o : order)   (** read-modify-write *)
| Read (x : X) (v : V)
| Write (x : X) (v : V).

(** An access of an execution: the thread and the place in its program order. *)
Definition event : Type := nat * nat.

Record execution : Type := mkExecution {
  traces : list (list label);
  rf : event -> option event;
  mo : list event
}.

Definition trace (E : execution) (t : nat) : list label := nth t (traces E) [].
Definition lab (E : execution) (e : event) : option label := nth_error (trace E (fst e)) (snd e).

(** [e] writes [v] to the atomic; [e] reads [v] from it. *)
Definition stores (E : execution) (e : event) (v : bool) (o : order) : Prop :=
  lab E e = Some (Store v o) \/ exists old, lab E e = Some (Update old v o).
Definition loads (E : execution) (e : event) (v : bool) (o : order) : Prop :=
  lab E e = Some (Load v o) \/ exists new, lab E e = Some (Update v new o).

(** Happens-before: program order, and a release write with the acquire read
    that takes its value. *)
Inductive hb (E : execution) : event -> event -> Prop :=
| hb_program : forall t i j, i < j -> lab E (t, i) <> None -> lab E (t, j) <> None ->
    hb E (t, i) (t, j)
| hb_synchronizes : forall w r v v' o o',
    stores E w v o -> releases o -> loads E r v' o' -> acquires o' -> rf E r = Some w ->
    hb E w r
| hb_trans : forall a b c, hb E a b -> hb E b c -> hb E a c.

Definition before {A : Type} (l : list A) (a b : A) : Prop :=
  exists l1 l2 l3, l = l1 ++ a :: l2 ++ b :: l3.

(** [e] writes the ordinary variable [x]. *)
Definition writes (E : execution) (e : event) (x : X) : Prop := exists v, lab E e = Some (Write x v).

(** What the standard requires of an execution that begins with [false] in the
    atomic and [init] in the variables. *)
Record consistent (init : X -> V) (E : execution) : Prop := {
  (* happens-before is a partial order *)
  c_hb : forall e, ~ hb E e e;
  (* the modification order has each write to the atomic once, and agrees with happens-before *)
  c_mo : forall e, In e (mo E) <-> exists v o, stores E e v o;
  c_mo_nodup : NoDup (mo E);
  c_mo_hb : forall a b, In a (mo E) -> In b (mo E) -> hb E a b -> before (mo E) a b;
  (* a read takes the value written *)
  c_rf : forall r w v o, loads E r v o -> rf E r = Some w -> exists o', stores E w v o';
  c_rf_init : forall r v o, loads E r v o -> rf E r = None -> v = false;
  (* a read-modify-write reads the last value before its own *)
  c_atomic : forall r w old new o, lab E r = Some (Update old new o) -> rf E r = Some w ->
    exists l1 l2, mo E = l1 ++ w :: r :: l2;
  c_atomic_init : forall r old new o, lab E r = Some (Update old new o) -> rf E r = None ->
    exists l2, mo E = r :: l2;
  (* an ordinary read takes its value neither from a write that happens after it
     nor from one that was overwritten before it *)
  c_read : forall r w x v, lab E r = Some (Read x v) -> rf E r = Some w ->
    lab E w = Some (Write x v) /\ ~ hb E r w /\
    forall w', writes E w' x -> hb E w w' -> ~ hb E w' r;
  c_read_init : forall r x v, lab E r = Some (Read x v) -> rf E r = None ->
    v = init x /\ forall w', writes E w' x -> ~ hb E w' r
}.

(** Two accesses to one variable, one of them a write. *)
Definition touches (E : execution) (e : event) (x : X) : Prop :=
  writes E e x \/ exists v, lab E e = Some (Read x v).
Definition conflict (E : execution) (a b : event) : Prop :=
  a <> b /\ exists x, touches E a x /\ touches E b x /\ (writes E a x \/ writes E b x).

(** No two conflicting accesses are unordered: otherwise the behaviour of the
    whole program is undefined. *)
Definition race_free (E : execution) : Prop := forall a b, conflict E a b -> hb E a b \/ hb E b a.

(** ** Guarded sections

    What a thread does to the ordinary variables between an update of the atomic
    and the store that follows it. *)
Definition ordinary (l : label) : bool :=
  match l with Read _ _ | Write _ _ => true | _ => false end.

Fixpoint section (tr : list label) : list label :=
  match tr with
  | [] => []
  | Store _ _ :: _ => []
  | l :: tr' => if ordinary l then l :: section tr' else section tr'
  end.

Fixpoint sections (tr : list label) : list (list label) :=
  match tr with
  | [] => []
  | Update _ _ _ :: tr' => section tr' :: sections tr'
  | _ :: tr' => sections tr'
  end.

(** The value of variable [x] after the accesses [l], when it began as [d]. *)
Variable eqb : X -> X -> bool.

Fixpoint last_written (x : X) (l : list label) (d : V) : V :=
  match l with
  | [] => d
  | Write y v :: l' => last_written x l' (if eqb x y then v else d)
  | _ :: l' => last_written x l' d
  end.

(** The accesses [l] made one after the other: every read gives the last value written. *)
Definition one_at_a_time (init : X -> V) (l : list label) : Prop :=
  forall l1 x v l2, l = l1 ++ Read x v :: l2 -> v = last_written x l1 (init x).

End Executions.
Arguments label : clear implicits.
Arguments execution : clear implicits.
