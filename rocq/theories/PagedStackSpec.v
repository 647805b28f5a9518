(** * Specification of PagedStack: a plain LIFO list.

    Independent of the model: a stack is a list, top element first.  [spec_step]
    says what each public call returns and leaves, [None] meaning that the call
    is outside its documented domain (more elements read or removed than
    present).  The operations are the public API calls; the number in the
    multi-target calls is the number of target arguments. *)

From Coq Require Import List Arith Bool.
Import ListNotations.

Section Spec.
Context {T : Type}.

Inductive op : Type :=
| Push (x : T) (xs : list T)    (** push(x, xs...) *)
| PushEmplace (x : T)           (** push_emplace(args of x) *)
| Pop                           (** pop() *)
| PopN (n : nat)                (** pop(b0, ..., bn): n+1 targets *)
| Top                           (** top() *)
| SetTop (x : T)                (** top(x) *)
| Discard (n : nat)             (** discard(n) *)
| Peek (n : nat)                (** peek(b0, ..., bn): n+1 targets *)
| PeekDepth (d n : nat)         (** peek_depth(d, b0, ..., bn) *)
| PeekReverse (n : nat)         (** peek_reverse(b0, ..., bn) *)
| Size                          (** size() *)
| Empty                         (** empty() *)
| Shrink                        (** shrink_to_fit() *)
| PopReverse (n : nat)          (** pop_reverse(b0, ..., bn) *)
| DiscardAt (k : nat)           (** discard(begin() += k) *)
| DiscardFromTop (d : nat)      (** discard(from_top(d)) *)
| Clear                         (** clear() *).

Inductive retval : Type :=
| RUnit
| RVals (vs : list T)
| RNat (n : nat)
| RBool (b : bool).

(** What a LIFO stack does. *)
Definition spec_step (o : op) (l : list T) : option (list T * retval) :=
  match o with
  | Push x xs => Some (rev (x :: xs) ++ l, RUnit)
  | PushEmplace x => Some (x :: l, RUnit)
  | Pop => match l with [] => None | _ :: l' => Some (l', RUnit) end
  | PopN n => if S n <=? length l
              then Some (skipn (S n) l, RVals (firstn (S n) l)) else None
  | Top => match l with [] => None | x :: _ => Some (l, RVals [x]) end
  | SetTop y => match l with [] => None | _ :: l' => Some (y :: l', RUnit) end
  | Discard n => if n <=? length l then Some (skipn n l, RUnit) else None
  | Peek n => if S n <=? length l then Some (l, RVals (firstn (S n) l)) else None
  | PeekDepth d n =>
      if (S n <=? d) && (d <=? length l)
      then Some (l, RVals (firstn (S n) (rev (firstn d l)))) else None
  | PeekReverse n =>
      if S n <=? length l
      then Some (l, RVals (rev (firstn (S n) l))) else None
  | Size => Some (l, RNat (length l))
  | Empty => Some (l, RBool (match l with [] => true | _ => false end))
  | Shrink => Some (l, RUnit)
  | PopReverse n =>
      if S n <=? length l
      then Some (skipn (S n) l, RVals (rev (firstn (S n) l))) else None
  | DiscardAt k => if k <? length l then Some (skipn (S k) l, RUnit) else None
  | DiscardFromTop d => if d <=? length l then Some (skipn d l, RUnit) else None
  | Clear => Some ([], RUnit)
  end.

(** A whole history, from a given stack: final stack and all results. *)
Fixpoint spec_run (ops : list op) (l : list T) : option (list T * list retval) :=
  match ops with
  | [] => Some (l, [])
  | o :: ops' =>
      match spec_step o l with
      | None => None
      | Some (l', r) =>
          match spec_run ops' l' with
          | None => None
          | Some (l'', rs) => Some (l'', r :: rs)
          end
      end
  end.

(** The calls of property C01: all but the three whose "later operations"
    clause has its own property (C04, C05, C06). *)
Definition core_op (o : op) : bool :=
  match o with
  | PopReverse _ | DiscardAt _ | DiscardFromTop _ | Clear => false
  | _ => true
  end.

Definition is_push (o : op) : bool :=
  match o with Push _ _ | PushEmplace _ => true | _ => false end.

(** Removing everything above the lowest [j] elements ends on a page boundary:
    [j] is a positive multiple of the page size. *)
Definition on_boundary (page_size j : nat) : bool :=
  (j mod page_size =? 0) && negb (j =? 0).

(** The call removes elements through an iterator (pop_reverse does that too)
    and the removal ends on a page boundary. *)
Definition boundary_removal (page_size : nat) (o : op) (l : list T) : bool :=
  match o with
  | PopReverse n => on_boundary page_size (length l - S n)
  | DiscardAt k => on_boundary page_size (length l - S k)
  | DiscardFromTop d => (0 <? d) && on_boundary page_size (length l - d)
  | _ => false
  end.

(** Histories in which no push follows a removal that ended on a page boundary
    before the next shrink_to_fit, and clear() is only called on an empty
    stack.  [tainted] tells whether such a removal has already happened. *)
Fixpoint careful (page_size : nat) (tainted : bool) (ops : list op) (l : list T) : bool :=
  match ops with
  | [] => true
  | o :: ops' =>
      negb (tainted && is_push o) &&
      match o with Clear => length l =? 0 | _ => true end &&
      match spec_step o l with
      | None => false
      | Some (l', _) =>
          careful page_size
            match o with
            | Shrink => false
            | _ => tainted || boundary_removal page_size o l
            end ops' l'
      end
  end.

(** ** How many pages are allocated

    A function of the number of elements only. *)

(** One push: a batch of [asz] pages is added when all [blocks] pages are full. *)
Definition push_blocks (ps asz size blocks : nat) : nat :=
  if size =? blocks * ps then blocks + asz else blocks.

Fixpoint push_many_blocks (ps asz n size blocks : nat) : nat :=
  match n with
  | O => blocks
  | S n' => push_many_blocks ps asz n' (S size) (push_blocks ps asz size blocks)
  end.

(** Pages needed for [size] elements, at least one. *)
Definition pages_for (ps size : nat) : nat := Nat.max 1 ((size + ps - 1) / ps).

Definition blocks_step (ps asz : nat) (o : op) (size blocks : nat) : nat :=
  match o with
  | Push _ xs => push_many_blocks ps asz (S (length xs)) size blocks
  | PushEmplace _ => push_many_blocks ps asz 1 size blocks
  | Shrink => pages_for ps size
  | _ => blocks
  end.

Fixpoint spec_blocks (ps asz : nat) (ops : list op) (l : list T) (blocks : nat) : nat :=
  match ops with
  | [] => blocks
  | o :: ops' =>
      match spec_step o l with
      | None => blocks
      | Some (l', _) =>
          spec_blocks ps asz ops' l' (blocks_step ps asz o (length l) blocks)
      end
  end.

(** Largest size reached during a history. *)
Fixpoint high_water (ops : list op) (l : list T) : nat :=
  match ops with
  | [] => length l
  | o :: ops' =>
      match spec_step o l with
      | None => length l
      | Some (l', _) => Nat.max (length l) (high_water ops' l')
      end
  end.

End Spec.
Arguments op T : clear implicits.
Arguments retval T : clear implicits.
