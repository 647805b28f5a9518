(** * PagedStack (src/include/falcon/engine/pagedstack.h) with failing elements
    and failing allocations.

    The same functions as in PagedStackModel.v, with the exceptions that can
    leave them.  An exception is returned as [Some e]: the functions end there
    and the lock_guard of the caller releases the lock. *)
From Coq Require Import List Arith ZArith Bool.
From Verif Require Import Base PagedStackModel PagedStackSpec PagedStackExec PagedStackThrowSpec.
Import ListNotations.
Open Scope m_scope.

Section Model.
Context {T : Type}.
Notation SM := (M (stack T)).

(** L69-76 growBase: emplace_back or reserve throws once [k] pages are in the
    list (a page whose reserve throws is in the list; capacities are not
    modelled).  [None]: memory suffices. *)
Definition growBase_x (mem : option nat) : SM (option exn) :=
  match mem with
  | None => growBase ;;; ret None
  | Some k =>
      s <- get ;;
      put (set_ids (ids s ++ seq (next_id s) (Nat.min k (alloc_size s)))
                   (next_id s + Nat.min k (alloc_size s))
             (set_pages (pages s ++ repeat [] (Nat.min k (alloc_size s))) s)) ;;;
      ret (Some OutOfMemory)
  end.

(** L78-87 advance.  While growBase runs, m_curBase has been put back (L82) on
    the last page: an exception leaves it there. *)
Definition advance_x (mem : option nat) : SM (option exn) :=
  p <- cur_page ;;
  s <- get ;;
  if length p =? page_size s then
    put (set_cur (S (cur s)) s) ;;;
    (s <- get ;;
     if cur s =? length (pages s) then
       put (set_cur (cur s - 1) s) ;;;
       r <- growBase_x mem ;;
       match r with
       | None => (s <- get ;; put (set_cur (S (cur s)) s)) ;;; ret None
       | Some e => ret (Some e)
       end
     else ret None)
  else ret None.

(** advance(); m_curBase->push_back(data) (L128-129, L134-135), and the same
    with emplace_back (L459-461).  Both leave the page alone when they throw. *)
Definition store_x (x : arg T) : SM (option exn) :=
  r <- advance_x (a_memory x) ;;
  match r with
  | Some e => ret (Some e)
  | None =>
      p <- cur_page ;;
      if a_throws x then ret (Some ElementThrew)
      else write_cur (p ++ [a_value x]) ;;; ret None
  end.

(** L127-137 internal_push. *)
Fixpoint internal_push_x (xs : list (arg T)) : SM (option exn) :=
  match xs with
  | [] => ret None
  | x :: xs' =>
      r <- store_x x ;;
      match r with
      | Some e => ret (Some e)
      | None => internal_push_x xs'
      end
  end.

(** L89-94, L103 internal_pop: [value = m_curBase->back()] may throw; the
    targets filled so far are returned. *)
Fixpoint internal_pop_x (ts : list bool) : SM (list T * option exn) :=
  match ts with
  | [] => ret ([], None)
  | t :: ts' =>
      v <- cur_back ;;
      if t then ret ([], Some ElementThrew)
      else
        internal_pop_one ;;;
        r <- internal_pop_x ts' ;;
        ret (v :: fst r, snd r)
  end.

(** L437-451 push, L457-462 push_emplace, L482-487 pop(value, args...). *)
Definition exec_x (debug : bool) (o : xop T) : SM (outcome T) :=
  match o with
  | XPush a more =>
      r <- with_lock (internal_push_x (a :: more)) ;;
      ret (match r with None => Returned RUnit | Some e => Raised e [] end)
  | XEmplace a =>
      r <- with_lock (store_x a) ;;
      ret (match r with None => Returned RUnit | Some e => Raised e [] end)
  | XPop t more =>
      cassert debug (b <- empty ;; ret (negb b)) ;;;
      r <- with_lock (internal_pop_x (t :: more)) ;;
      ret (match snd r with
           | None => Returned (RVals (fst r))
           | Some e => Raised e (fst r)
           end)
  | XCall o => r <- exec debug o ;; ret (Returned r)
  end.

(** A client that catches every exception and goes on. *)
Fixpoint run_x (debug : bool) (ops : list (xop T)) : SM (list (outcome T)) :=
  match ops with
  | [] => ret []
  | o :: ops' => r <- exec_x debug o ;; rs <- run_x debug ops' ;; ret (r :: rs)
  end.

End Model.
