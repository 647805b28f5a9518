(** * Model of falcon::PagedStack
    Source: /repo/src/include/falcon/engine/pagedstack.h (and distribute.h).

    Representation choices, valid for the whole file:
    - [std::list<page_type>]: the list of the pages, front first; a
      [base_type::iterator] is the index of a page in that list; the index
      [length pages] is [m_base.end()].  Pages are only appended at the back
      (growBase) or erased at the back (internal_shrink_to_fit), so an index
      designates the same node as long as that node is alive.  To detect the
      use of erased nodes, each page has an allocation serial number ([ids]),
      and the synchronised iterators, that outlive operations, hold serials.
    - [std::vector<_T>]: a list, bottom element first; a [page_type::iterator]
      is an integer offset.  Offset -1 is the "before begin" value that the
      code obtains by [--begin()] and uses as end marker; the C++ standard does
      not bless it, the model accepts -1 and nothing below it.
    - the mutex: a flag, [true] while held.  Acquiring a held lock is
      [Deadlock] (the lock types used with the class are not recursive).
    - failures of memory allocation and exceptions thrown by copying an element
      are not modelled. *)

From Coq Require Import List Arith ZArith Lia Bool.
From Verif Require Import Base.
Import ListNotations.
Open Scope m_scope.

Section PagedStack.
Context {T : Type}.

(** pagedstack.h L59-66: the data members.  [ids]/[next_id] are the node
    identities of the pages (ghost, see above); m_dataAllocator has no
    observable effect and is left out. *)
Record stack : Type := mkStack {
  page_size  : nat;             (* m_pageSize *)
  alloc_size : nat;             (* m_allocSize *)
  pages      : list (list T);   (* m_base *)
  ids        : list nat;        (* identity of each node of m_base *)
  next_id    : nat;             (* next node identity *)
  cur        : nat;             (* m_curBase *)
  sync_count : Z;               (* m_syncIterCount *)
  shrink_req : bool;            (* m_shrinkRequest *)
  locked     : bool             (* m_mutex *)
}.

Definition set_pages (p : list (list T)) (s : stack) : stack :=
  mkStack (page_size s) (alloc_size s) p (ids s) (next_id s) (cur s)
          (sync_count s) (shrink_req s) (locked s).
Definition set_ids (i : list nat) (n : nat) (s : stack) : stack :=
  mkStack (page_size s) (alloc_size s) (pages s) i n (cur s)
          (sync_count s) (shrink_req s) (locked s).
Definition set_cur (c : nat) (s : stack) : stack :=
  mkStack (page_size s) (alloc_size s) (pages s) (ids s) (next_id s) c
          (sync_count s) (shrink_req s) (locked s).
Definition set_sync (z : Z) (s : stack) : stack :=
  mkStack (page_size s) (alloc_size s) (pages s) (ids s) (next_id s) (cur s)
          z (shrink_req s) (locked s).
Definition set_shrink (b : bool) (s : stack) : stack :=
  mkStack (page_size s) (alloc_size s) (pages s) (ids s) (next_id s) (cur s)
          (sync_count s) b (locked s).
Definition set_locked (b : bool) (s : stack) : stack :=
  mkStack (page_size s) (alloc_size s) (pages s) (ids s) (next_id s) (cur s)
          (sync_count s) (shrink_req s) b.

Notation SM := (M stack).

(** std::lock_guard / PagedStack::lock_guard (L404-409): the lock is taken at
    entry and released on return and on exception. *)
Definition with_lock {A : Type} (m : SM A) : SM A :=
  fun s => if locked s then RBad Deadlock
           else match m (set_locked true s) with
                | ROk s' a => ROk (set_locked false s') a
                | RThrow s' => RThrow (set_locked false s')
                | RBad b => RBad b
                end.

(** [*m_iBase] for the page iterator [i]: dereferencing end() is UB. *)
Definition page_at (i : nat) : SM (list T) :=
  s <- get ;; lift_opt (nth_error (pages s) i).

(** [*m_curBase]. *)
Definition cur_page : SM (list T) := s <- get ;; page_at (cur s).

(** Assign the contents of the current page. *)
Definition write_cur (p : list T) : SM unit :=
  s <- get ;; put (set_pages (upd (cur s) (fun _ => p) (pages s)) s).

(** L69-76 growBase. *)
Definition growBase : SM unit :=
  s <- get ;;
  let n := alloc_size s in
  put (set_ids (ids s ++ seq (next_id s) n) (next_id s + n)
         (set_pages (pages s ++ repeat [] n) s)).

(** L78-87 advance.  [m_curBase--; growBase(); m_curBase++] at L82-84 keeps the
    iterator on the node before end() while growing: its position is unchanged,
    and it then designates the first of the new pages. *)
Definition advance : SM unit :=
  p <- cur_page ;;
  s <- get ;;
  if length p =? page_size s then
    put (set_cur (S (cur s)) s) ;;;
    (s <- get ;;
     if cur s =? length (pages s) then growBase else ret tt)
  else ret tt.

(** L127-137 internal_push, one step: advance(); m_curBase->push_back(data). *)
Definition internal_push_one (x : T) : SM unit :=
  advance ;;;
  p <- cur_page ;;
  write_cur (p ++ [x]).

(** L127-137 internal_push: one step per argument. *)
Fixpoint internal_push (xs : list T) : SM unit :=
  match xs with
  | [] => ret tt
  | x :: xs' => internal_push_one x ;;; internal_push xs'
  end.

(** [m_curBase->back()] *)
Definition cur_back : SM T :=
  p <- cur_page ;;
  lift_opt (nth_error p (length p - 1)).

(** L96-101 internal_pop_one.  pop_back on an empty vector is UB. *)
Definition internal_pop_one : SM unit :=
  p <- cur_page ;;
  match p with
  | [] => fail UB
  | _ =>
      let p' := removelast p in
      write_cur p' ;;;
      s <- get ;;
      match p', cur s with
      | [], S c => put (set_cur c s)
      | _, _ => ret tt
      end
  end.

(** L89-94, L103 internal_pop(value, args...) : [n] targets, first one first. *)
Fixpoint internal_pop (n : nat) : SM (list T) :=
  match n with
  | O => ret []
  | S n' =>
      v <- cur_back ;;
      internal_pop_one ;;;
      vs <- internal_pop n' ;;
      ret (v :: vs)
  end.

(** Loop [while(m_curBase != target) { m_curBase->clear(); --m_curBase; }]
    (L108-111, L529-532); decrementing begin() is UB ([None]). *)
Fixpoint unwind (target c : nat) (pgs : list (list T))
  : option (list (list T) * nat) :=
  if c =? target then Some (pgs, c)
  else match c with
       | O => None
       | S c' => unwind target c' (upd c (fun _ => []) pgs)
       end.

(** L105-125 internal_discard(iBase, iData).  [resize] with the size_t value of
    a negative difference throws std::length_error; growing a page by [resize]
    (offset beyond the end) cannot be reached with an iterator of this object
    and is UB here. *)
Definition internal_discard (ibase : nat) (idata : Z) : SM unit :=
  s <- get ;;
  r <- lift_opt (unwind ibase (cur s) (pages s)) ;;
  put (set_cur (snd r) (set_pages (fst r) s)) ;;;
  p <- cur_page ;;
  if (idata =? 0)%Z then
    s <- get ;;
    match cur s with
    | S c => put (set_cur c s)
    | O => write_cur []
    end
  else if (idata <? 0)%Z then throw
  else if Z.to_nat idata <=? length p then write_cur (firstn (Z.to_nat idata) p)
  else fail UB.

(** L139-146 internal_shrink_to_fit: erase every page after the current one. *)
Definition internal_shrink_to_fit : SM unit :=
  _ <- cur_page ;;
  s <- get ;;
  put (set_ids (firstn (S (cur s)) (ids s)) (next_id s)
         (set_pages (firstn (S (cur s)) (pages s)) s)).

(** L423-432 constructor. *)
Definition construct (pageSize prealloc : nat) : stack :=
  mkStack pageSize prealloc (repeat [] prealloc) (seq 0 prealloc) prealloc
          0 0%Z false false.

(** L434 top(value). *)
Definition set_top (x : T) : SM unit :=
  noexcept (with_lock (
    p <- cur_page ;;
    match p with
    | [] => fail UB
    | _ => write_cur (removelast p ++ [x])
    end)).

(** L435 top(). *)
Definition top : SM T := noexcept (with_lock cur_back).

(** L437-451 push(data) and push(data, args...): at least one argument. *)
Definition push (x : T) (xs : list T) : SM unit := with_lock (internal_push (x :: xs)).

(** L457-462 push_emplace, the constructed value being [x]. *)
Definition push_emplace (x : T) : SM unit :=
  with_lock (advance ;;; p <- cur_page ;; write_cur (p ++ [x])).

(** L555-558 empty. *)
Definition empty : SM bool :=
  noexcept (with_lock (
    s <- get ;;
    p <- cur_page ;;
    ret ((cur s =? 0) && match p with [] => true | _ => false end))).

(** Loop of L696-700 size(): from [begin()] to [m_curBase], [i] pages left. *)
Fixpoint size_loop (pgs : list (list T)) (c : nat) : option nat :=
  match c with
  | O => Some 0
  | S c' => match pgs with
            | [] => None
            | p :: pgs' => option_map (Nat.add (length p)) (size_loop pgs' c')
            end
  end.

(** L693-703 size. *)
Definition size : SM nat :=
  noexcept (with_lock (
    s <- get ;;
    n <- lift_opt (size_loop (pages s) (cur s)) ;;
    p <- cur_page ;;
    ret (n + length p))).

(** L469-473 pop(). *)
Definition pop (debug : bool) : SM unit :=
  cassert debug (b <- empty ;; ret (negb b)) ;;;
  with_lock internal_pop_one.

(** L482-487 pop(value, args...) with [n] targets. *)
Definition pop_values (debug : bool) (n : nat) : SM (list T) :=
  cassert debug (b <- empty ;; ret (negb b)) ;;;
  with_lock (internal_pop n).

(** Loop of L499-507 discard(count).  The early return of L502-504 and the
    resize of L507 are both in the loop's result. *)
Fixpoint discard_loop (count c : nat) (pgs : list (list T))
  : option (list (list T) * nat) :=
  match nth_error pgs c with
  | None => None
  | Some p =>
      if length p <=? count then
        let pgs' := upd c (fun _ => []) pgs in
        match c with
        | O => Some (pgs', O)
        | S c' => discard_loop (count - length p) c' pgs'
        end
      else Some (upd c (fun _ => firstn (length p - count) p) pgs, c)
  end.

(** L496-508 discard(count). *)
Definition discard (debug : bool) (count : nat) : SM unit :=
  noexcept (
    cassert debug (n <- size ;; ret (count <=? n)) ;;;
    with_lock (
      s <- get ;;
      r <- lift_opt (discard_loop count (cur s) (pages s)) ;;
      put (set_cur (snd r) (set_pages (fst r) s)))).

(** L526-533 clear. *)
Definition clear : SM unit :=
  noexcept (with_lock (
    s <- get ;;
    r <- lift_opt (unwind 0 (cur s) (pages s)) ;;
    put (set_cur (snd r) (set_pages (fst r) s)))).

(** L541-548 shrink_to_fit. *)
Definition shrink_to_fit : SM unit :=
  with_lock (
    s <- get ;;
    if (sync_count s >? 0)%Z then put (set_shrink true s)
    else internal_shrink_to_fit).

(** ** Iterators *)

(** L228-297 iterator_base: m_iBase, m_iData (m_iBaseBegin is always
    m_base.begin(), page 0). *)
Record fiter : Type := mkF { f_page : nat; f_off : Z }.

(** L156-226 reverse_iterator_base: m_iBase, m_iData, m_iBaseEnd. *)
Record riter : Type := mkR { r_page : nat; r_off : Z; r_last : nat }.

(** Dereference of a vector iterator. *)
Definition deref_at (i : nat) (off : Z) : SM T :=
  p <- page_at i ;;
  if (off <? 0)%Z then fail UB
  else lift_opt (nth_error p (Z.to_nat off)).

(** L232 / L159 operator*. *)
Definition f_deref (it : fiter) : SM T := deref_at (f_page it) (f_off it).
Definition r_deref (it : riter) : SM T := deref_at (r_page it) (r_off it).

(** L236-238 / L163-165 operator==. *)
Definition f_eqb (a b : fiter) : bool :=
  (f_page a =? f_page b) && (f_off a =? f_off b)%Z.
Definition r_eqb (a b : riter) : bool :=
  (r_page a =? r_page b) && (r_off a =? r_off b)%Z.

(** L266-273 iterator_base::operator++.  The second branch of the condition
    compares m_iBase with m_iBaseBegin = page 0.  Going below -1 is UB. *)
Definition f_inc (it : fiter) : SM fiter :=
  p <- page_at (f_page it) ;;
  match f_page it with
  | S i =>
      if (f_off it =? 0)%Z then
        q <- page_at i ;;
        ret (mkF i (Z.of_nat (length q) - 1))
      else if (f_off it <? 0)%Z then fail UB
      else ret (mkF (S i) (f_off it - 1))
  | O =>
      if (f_off it <? 0)%Z then fail UB
      else ret (mkF O (f_off it - 1))
  end.

(** L275-282 iterator_base::operator--.  Incrementing a vector iterator that is
    at end() is UB, and so is dereferencing m_base.end(). *)
Definition f_dec (it : fiter) : SM fiter :=
  p <- page_at (f_page it) ;;
  let o := (f_off it + 1)%Z in
  if (Z.of_nat (length p) <? o)%Z then fail UB
  else if (o =? Z.of_nat (length p))%Z then
    _ <- page_at (S (f_page it)) ;;
    ret (mkF (S (f_page it)) 0)
  else ret (mkF (f_page it) o).

(** L203-210 reverse_iterator_base::operator++. *)
Definition r_inc (it : riter) : SM riter :=
  p <- page_at (r_page it) ;;
  let o := (r_off it + 1)%Z in
  if (Z.of_nat (length p) <? o)%Z then fail UB
  else if (o =? Z.of_nat (length p))%Z && negb (r_page it =? r_last it) then
    _ <- page_at (S (r_page it)) ;;
    ret (mkR (S (r_page it)) 0 (r_last it))
  else ret (mkR (r_page it) o (r_last it)).

(** L194-201 reverse_iterator_base::operator--. *)
Definition r_dec (it : riter) : SM riter :=
  p <- page_at (r_page it) ;;
  if (r_off it =? 0)%Z then
    match r_page it with
    | O => fail UB
    | S i => q <- page_at i ;;
             match q with
             | [] => fail UB
             | _ => ret (mkR i (Z.of_nat (length q) - 1) (r_last it))
             end
    end
  else ret (mkR (r_page it) (r_off it - 1) (r_last it)).

(** L244-252, L171-179 operator+= and operator-=: repeated ++ and --. *)
Fixpoint repeat_m {A : Type} (n : nat) (f : A -> SM A) (a : A) : SM A :=
  match n with
  | O => ret a
  | S n' => b <- f a ;; repeat_m n' f b
  end.
Definition f_plus (n : nat) (it : fiter) : SM fiter := repeat_m n f_inc it.
Definition f_minus (n : nat) (it : fiter) : SM fiter := repeat_m n f_dec it.
Definition r_plus (n : nat) (it : riter) : SM riter := repeat_m n r_inc it.
Definition r_minus (n : nat) (it : riter) : SM riter := repeat_m n r_dec it.

(** L560-562 begin / cbegin. *)
Definition begin : SM fiter :=
  s <- get ;; p <- cur_page ;; ret (mkF (cur s) (Z.of_nat (length p) - 1)).

(** L564-566 end / cend. *)
Definition end_ : SM fiter := _ <- page_at 0 ;; ret (mkF 0 (-1)).

(** L568-570 rbegin: the third member is [--m_base.end()]. *)
Definition rbegin : SM riter :=
  s <- get ;; _ <- page_at 0 ;; ret (mkR 0 0 (length (pages s) - 1)).

(** L572-574 rend. *)
Definition rend : SM riter :=
  s <- get ;; p <- cur_page ;;
  ret (mkR (cur s) (Z.of_nat (length p)) (cur s)).

(** Loop of L587-590 / L597-600: walk down while depth exceeds the page. *)
Fixpoint from_top_loop (depth c : nat) (pgs : list (list T))
  : option (nat * nat) :=
  match nth_error pgs c with
  | None => None
  | Some p =>
      if length p <? depth then
        match c with
        | O => None
        | S c' => from_top_loop (depth - length p) c' pgs
        end
      else Some (c, length p - depth)
  end.

(** L585-602 internal_from_top. *)
Definition internal_from_top (depth : nat) : SM riter :=
  s <- get ;;
  r <- lift_opt (from_top_loop depth (cur s) (pages s)) ;;
  ret (mkR (fst r) (Z.of_nat (snd r)) (cur s)).

(** L609-619 from_top. *)
Definition from_top (debug : bool) (depth : nat) : SM riter :=
  noexcept (
    cassert debug (n <- size ;; ret (depth <=? n)) ;;;
    with_lock (internal_from_top depth)).

(** distribute.h L21-25, L42-48: assign, then increment unless it is the last
    target.  [n] targets, [n >= 1] (there is no overload without target). *)
Fixpoint distribute {I : Type} (deref : I -> SM T) (inc : I -> SM I)
         (it : I) (n : nat) : SM (list T) :=
  match n with
  | O => ret []
  | 1 => v <- deref it ;; ret [v]
  | S n' =>
      v <- deref it ;;
      it' <- inc it ;;
      vs <- distribute deref inc it' n' ;;
      ret (v :: vs)
  end.

(** L627-632 peek with [n] targets. *)
Definition peek (debug : bool) (n : nat) : SM (list T) :=
  cassert debug (z <- size ;; ret (n <=? z)) ;;;
  with_lock (it <- begin ;; distribute f_deref f_inc it n).

(** L644-650 peek_depth with [n] targets. *)
Definition peek_depth (debug : bool) (depth n : nat) : SM (list T) :=
  cassert debug (z <- size ;; ret (depth <=? z)) ;;;
  cassert debug (ret (n <=? depth)) ;;;
  with_lock (it <- internal_from_top depth ;; distribute r_deref r_inc it n).

(** L659-664 peek_reverse with [n] targets. *)
Definition peek_reverse (debug : bool) (n : nat) : SM (list T) :=
  cassert debug (z <- size ;; ret (n <=? z)) ;;;
  with_lock (it <- internal_from_top n ;; distribute r_deref r_inc it n).

(** L677-685 pop_reverse with [n] targets. *)
Definition pop_reverse (debug : bool) (n : nat) : SM (list T) :=
  cassert debug (z <- size ;; ret (n <=? z)) ;;;
  with_lock (
    pos <- internal_from_top n ;;
    vs <- distribute r_deref r_inc pos n ;;
    internal_discard (r_page pos) (r_off pos) ;;;
    ret vs).

(** L515-524 discard(iterator) and discard(reverse_iterator). *)
Definition discard_f (it : fiter) : SM unit :=
  noexcept (with_lock (internal_discard (f_page it) (f_off it))).
Definition discard_r (it : riter) : SM unit :=
  noexcept (with_lock (internal_discard (r_page it) (r_off it))).

(** L710-721 getStats: blocks, depth, curBlock, curData. *)
Definition getStats : SM (nat * nat * nat * nat) :=
  noexcept (with_lock (
    s <- get ;;
    p <- cur_page ;;
    ret (length (pages s), page_size s, S (cur s), length p))).

(** ** Synchronised iterators (L302-400) *)

(** m_iBase (as the identity of the node), m_iData (as the node whose page it points
    into and the offset there).  m_iBaseBegin is the node of m_base.begin(), that is
    never erased; m_owner is the stack itself. *)
Record siter : Type := mkSI { s_node : nat; s_data : nat; s_off : Z }.
(** m_iData in the page of m_iBase. *)
Definition mkS (node : nat) (off : Z) : siter := mkSI node node off.
(** m_iData in another page: comparing or subtracting m_iData and an iterator of the page
    of m_iBase is UB. *)
Definition torn (it : siter) : bool := negb (s_node it =? s_data it).

(** Position of a node in the list; [None] if the node has been erased. *)
Fixpoint index_of (i : nat) (l : list nat) : option nat :=
  match l with
  | [] => None
  | x :: l' => if x =? i then Some 0 else option_map S (index_of i l')
  end.

(** Node identity of the page at a given position. *)
Definition node_at (i : nat) : SM nat :=
  s <- get ;; lift_opt (nth_error (ids s) i).

(** Use of m_iBase: any use of an erased node is UB. *)
Definition node_pos (it : siter) : SM nat :=
  s <- get ;; lift_opt (index_of (s_node it) (ids s)).

(** Use of m_iData. *)
Definition data_pos (it : siter) : SM nat :=
  s <- get ;; lift_opt (index_of (s_data it) (ids s)).

(** L350-361 constructor (called with the lock held). *)
Definition sync_new (node : nat) (off : Z) : SM siter :=
  s <- get ;;
  put (set_sync (sync_count s + 1) s) ;;;
  ret (mkS node off).

(** L576, L578 sync_begin. *)
Definition sync_begin : SM siter :=
  noexcept (with_lock (
    s <- get ;;
    p <- cur_page ;;
    n <- node_at (cur s) ;;
    sync_new n (Z.of_nat (length p) - 1))).

(** L577, L579 sync_end. *)
Definition sync_end : SM siter :=
  noexcept (with_lock (
    _ <- page_at 0 ;;
    n <- node_at 0 ;;
    sync_new n (-1))).

(** L363-393 synchronize.  Returns the (possibly moved) iterator and whether it
    was in sync.
    - L366 compares a size_t with a ptrdiff_t, i.e. with the difference
      converted to size_t: a negative offset counts as huge.
    - L373: the search goes over the nodes after m_iBase, so it succeeds iff
      m_curBase is one of them.
    - What the iterator is after an exception: [s_thrown]. *)
Definition synchronize (it : siter) : SM (siter * bool) :=
  s <- get ;;
  i <- node_pos it ;;
  p <- page_at i ;;
  if (cur s =? i) && torn it then fail UB else
  let in_sync :=
    if cur s =? i
    then (0 <=? s_off it)%Z && (s_off it <? Z.of_nat (length p))%Z
    else i <? cur s in
  if in_sync then ret (it, true)
  else
    q <- cur_page ;;
    match q with
    | [] => throw
    | _ => n <- node_at (cur s) ;;
           ret (mkS n (Z.of_nat (length q) - 1), false)
    end.

(** The iterator after synchronize() has thrown: L382 m_iBase is m_curBase already, m_iData
    is what it was. *)
Definition s_thrown (it : siter) (s : stack) : siter :=
  match nth_error (ids s) (cur s) with
  | Some n => mkSI n (s_data it) (s_off it)
  | None => it
  end.

(** L306-310 get. *)
Definition s_get (it : siter) : SM (siter * T) :=
  with_lock (
    r <- synchronize it ;;
    i <- data_pos (fst r) ;;
    v <- deref_at i (s_off (fst r)) ;;
    ret (fst r, v)).

(** L321-331 operator++. *)
Definition s_inc (it : siter) : SM siter :=
  with_lock (
    r <- synchronize it ;;
    if snd r then
      if torn (fst r) then fail UB else
      i <- node_pos (fst r) ;;
      f <- f_inc (mkF i (s_off (fst r))) ;;
      n <- node_at (f_page f) ;;
      ret (mkS n (f_off f))
    else ret (fst r)).

(** L333-343 operator--. *)
Definition s_dec (it : siter) : SM siter :=
  with_lock (
    r <- synchronize it ;;
    if snd r then
      if torn (fst r) then fail UB else
      i <- node_pos (fst r) ;;
      f <- f_dec (mkF i (s_off (fst r))) ;;
      n <- node_at (f_page f) ;;
      ret (mkS n (f_off f))
    else ret (fst r)).

(** L312-315 operator==. *)
Definition s_eq (a b : siter) : SM bool :=
  noexcept (with_lock (
    if s_node a =? s_node b then
      if s_data a =? s_data b then ret (s_off a =? s_off b)%Z else fail UB
    else ret false)).

(** L148-154 removeSyncIterator, called by the destructor L345-347. *)
Definition s_destroy (it : siter) : SM unit :=
  noexcept (with_lock (
    s <- get ;;
    put (set_sync (sync_count s - 1) s) ;;;
    s <- get ;;
    if (sync_count s =? 0)%Z && shrink_req s then
      put (set_shrink false s) ;;; internal_shrink_to_fit
    else ret tt)).

(** Implicit copy constructor of sync_iterator_base: member-wise, it does not
    touch m_syncIterCount. *)
Definition s_copy (it : siter) : SM siter := ret it.

End PagedStack.

Arguments stack T : clear implicits.
