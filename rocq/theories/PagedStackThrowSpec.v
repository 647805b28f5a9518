(** * Specification of PagedStack when elements or memory fail.

    An argument of push carries what the environment does while it is stored:
    the element's own copy (or constructor) may throw, and an allocation of
    pages may throw std::bad_alloc.  A target of pop carries whether assigning
    to it throws.  A stack is again a plain list, top first. *)
From Coq Require Import List Arith Bool.
From Verif Require Import PagedStackSpec.
Import ListNotations.

Section Spec.
Context {T : Type}.

(** One argument of push: its value, whether storing it throws, and, if an
    allocation of pages made for it would run out of memory, how many of the
    pages are allocated before it does. *)
Record arg : Type := mkArg { a_value : T; a_throws : bool; a_memory : option nat }.

Inductive exn : Type := ElementThrew | OutOfMemory.

Inductive xop : Type :=
| XPush (a : arg) (more : list arg)    (** push(a, more...) *)
| XEmplace (a : arg)                   (** push_emplace(...), building [a] *)
| XPop (t : bool) (more : list bool)   (** pop(t, more...): one flag per target *)
| XCall (o : op T)                     (** any other call, nothing fails *).

(** A call returns, or throws after having filled some targets. *)
Inductive outcome : Type :=
| Returned (r : retval T)
| Raised (e : exn) (filled : list T).

Definition values (xs : list arg) : list T := map a_value xs.
Definition stored (x : arg) : Prop := a_throws x = false.

(** What a call may do to a stack holding [l]: either everything is done, or
    the call throws at one argument, exactly the earlier ones having been dealt
    with.  (Whether an allocation is made at all is up to the stack, so an
    argument with [a_memory] set may be stored or not.) *)
Inductive xstep : xop -> list T -> list T -> outcome -> Prop :=
| push_done : forall a more l, Forall stored (a :: more) ->
    xstep (XPush a more) l (rev (values (a :: more)) ++ l) (Returned RUnit)
| push_threw : forall a more done x rest l, a :: more = done ++ x :: rest ->
    Forall stored done -> a_throws x = true ->
    xstep (XPush a more) l (rev (values done) ++ l) (Raised ElementThrew [])
| push_nomem : forall a more done x rest l, a :: more = done ++ x :: rest ->
    Forall stored done -> a_memory x <> None ->
    xstep (XPush a more) l (rev (values done) ++ l) (Raised OutOfMemory [])
| emplace_done : forall a l, stored a ->
    xstep (XEmplace a) l (a_value a :: l) (Returned RUnit)
| emplace_threw : forall a l, a_throws a = true ->
    xstep (XEmplace a) l l (Raised ElementThrew [])
| emplace_nomem : forall a l, a_memory a <> None ->
    xstep (XEmplace a) l l (Raised OutOfMemory [])
| pop_done : forall t more l, Forall (fun b => b = false) (t :: more) ->
    xstep (XPop t more) l (skipn (S (length more)) l)
          (Returned (RVals (firstn (S (length more)) l)))
| pop_threw : forall t more done rest l, t :: more = done ++ true :: rest ->
    Forall (fun b => b = false) done ->
    xstep (XPop t more) l (skipn (length done) l) (Raised ElementThrew (firstn (length done) l))
| call_done : forall o l l' r, spec_step o l = Some (l', r) ->
    xstep (XCall o) l l' (Returned r).

(** The documented domain: nothing is read or removed that is not there. *)
Definition in_domain (o : xop) (l : list T) : Prop :=
  match o with
  | XPush _ _ | XEmplace _ => True
  | XPop _ more => S (length more) <= length l
  | XCall o => core_op o = true /\ spec_step o l <> None
  end.

(** The calls that do not look for the top element. *)
Definition not_looking (o : xop) : bool :=
  match o with
  | XPush _ _ | XEmplace _ => true
  | XCall (Push _ _) | XCall (PushEmplace _) | XCall (Discard _)
  | XCall Size | XCall Empty | XCall Shrink => true
  | _ => false
  end.

(** The call only asks questions. *)
Definition asking (o : xop) : bool :=
  match o with XCall Size | XCall Empty | XCall Shrink => true | _ => false end.

(** [alert ps o l' r gap]: after call [o], that left [l'] with outcome [r], the
    last element stored did not make it and would have been the first of a new
    page; [gap] tells whether this was already so before. *)
Definition alert (ps : nat) (o : xop) (l' : list T) (r : outcome) (gap : bool) : bool :=
  match o, r with
  | XPop _ _, _ => false
  | _, Raised ElementThrew _ => on_boundary ps (length l')
  | _, Raised OutOfMemory _ => false
  | _, Returned _ => asking o && gap
  end.

(** Histories that, after a push whose element failed to become the first of a
    new page, go on with a push or a discard before looking at the top. *)
Fixpoint wary (ps : nat) (gap : bool) (ops : list xop) (l : list T) : Prop :=
  match ops with
  | [] => True
  | o :: ops' =>
      in_domain o l /\ (gap = true -> not_looking o = true) /\
      forall l' r, xstep o l l' r -> wary ps (alert ps o l' r gap) ops' l'
  end.

(** A history of calls, each leaving the list the next one starts from. *)
Inductive xhistory : list xop -> list T -> list T -> list outcome -> Prop :=
| xh_nil : forall l, xhistory [] l l []
| xh_cons : forall o ops l l1 l2 r rs, xstep o l l1 r -> xhistory ops l1 l2 rs ->
    xhistory (o :: ops) l l2 (r :: rs).

End Spec.
Arguments arg T : clear implicits.
Arguments xop T : clear implicits.
Arguments outcome T : clear implicits.
