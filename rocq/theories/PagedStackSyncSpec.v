(** * Histories that mix stack calls and synchronised iterators.

    A world is a stack and the synchronised iterators that are alive.  The
    client catches the exceptions of the iterators, so a throwing call is an
    ordinary event of a history. *)

From Coq Require Import List Arith ZArith Bool.
From Verif Require Import Base PagedStackModel PagedStackSpec PagedStackExec.
Import ListNotations.
Open Scope m_scope.

Section Sync.
Context {T : Type}.

(** Iterators are named by their position among the live ones. *)
Inductive event : Type :=
| Op (o : op T)          (** a call on the stack *)
| SyncBegin              (** create an iterator with sync_begin() *)
| SyncEnd                (** create an iterator with sync_end() *)
| SyncGet (k : nat)      (** k-th live iterator: get() *)
| SyncInc (k : nat)      (** ++ *)
| SyncDec (k : nat)      (** -- *)
| SyncDestroy (k : nat)  (** end of its lifetime *)
| SyncCopy (k : nat)     (** copy-construct a new iterator from it *).

Inductive answer : Type :=
| ARet (r : retval T)    (** result of a stack call *)
| AVal (v : T)           (** value read by get() *)
| ADone
| AThrown                (** the call threw std::runtime_error *).

Record world : Type := mkW { w_stack : stack T; w_live : list siter }.

(** Outcome of a stack-level computation, put back in the world. *)
Definition on_stack {A} (w : world) (r : res (stack T) A)
           (k : stack T -> A -> res world answer) : res world answer :=
  match r with
  | ROk s a => k s a
  | RThrow s => ROk (mkW s (w_live w)) AThrown
  | RBad b => RBad b
  end.

(** The same for a call of the k-th iterator [it], which an exception leaves changed. *)
Definition on_iter {A} (w : world) (k : nat) (it : siter) (r : res (stack T) A)
           (f : stack T -> A -> res world answer) : res world answer :=
  match r with
  | ROk s a => f s a
  | RThrow s => ROk (mkW s (upd k (fun _ => s_thrown it s) (w_live w))) AThrown
  | RBad b => RBad b
  end.

(** Remove the k-th element. *)
Definition remove_nth {A} (k : nat) (l : list A) : list A := firstn k l ++ skipn (S k) l.

(** The k-th live iterator; there is no such event without it. *)
Definition with_iter (w : world) (k : nat) (f : siter -> res world answer) : res world answer :=
  match nth_error (w_live w) k with Some it => f it | None => RBad UB end.

Definition wexec (debug : bool) (e : event) (w : world) : res world answer :=
  let s := w_stack w in
  match e with
  | Op o => on_stack w (exec debug o s) (fun s' r => ROk (mkW s' (w_live w)) (ARet r))
  | SyncBegin => on_stack w (sync_begin s) (fun s' it => ROk (mkW s' (w_live w ++ [it])) ADone)
  | SyncEnd => on_stack w (sync_end s) (fun s' it => ROk (mkW s' (w_live w ++ [it])) ADone)
  | SyncGet k => with_iter w k (fun it =>
      on_iter w k it (s_get it s)
        (fun s' p => ROk (mkW s' (upd k (fun _ => fst p) (w_live w))) (AVal (snd p))))
  | SyncInc k => with_iter w k (fun it =>
      on_iter w k it (s_inc it s)
        (fun s' it' => ROk (mkW s' (upd k (fun _ => it') (w_live w))) ADone))
  | SyncDec k => with_iter w k (fun it =>
      on_iter w k it (s_dec it s)
        (fun s' it' => ROk (mkW s' (upd k (fun _ => it') (w_live w))) ADone))
  | SyncDestroy k => with_iter w k (fun it =>
      on_stack w (s_destroy it s)
        (fun s' _ => ROk (mkW s' (remove_nth k (w_live w))) ADone))
  | SyncCopy k => with_iter w k (fun it =>
      on_stack w (s_copy it s)
        (fun s' it' => ROk (mkW s' (w_live w ++ [it'])) ADone))
  end.

Fixpoint wrun (debug : bool) (es : list event) (w : world) : res world (list answer) :=
  match es with
  | [] => ROk w []
  | e :: es' =>
      match wexec debug e w with
      | ROk w' a => match wrun debug es' w' with
                    | ROk w'' l => ROk w'' (a :: l)
                    | RThrow w'' => RThrow w''
                    | RBad b => RBad b
                    end
      | RThrow w' => RThrow w'
      | RBad b => RBad b
      end
  end.

(** ** What a client may do

    [l]: ideal contents; [n]: number of live iterators; [pending]: a shrink
    request is waiting; [blocks]: number of allocated pages. *)

Record sspec : Type := mkSS { ss_list : list T; ss_live : nat; ss_pending : bool; ss_blocks : nat }.

(** Deferred shrink: shrink_to_fit releases the unused pages at once when no
    iterator is alive; otherwise they are released when the last one goes. *)
Definition sspec_step (ps pa : nat) (e : event) (x : sspec) : option sspec :=
  let '(mkSS l n pend blocks) := x in
  match e with
  | Op Shrink =>
      Some (if n =? 0 then mkSS l n pend (pages_for ps (length l)) else mkSS l n true blocks)
  | Op o =>
      if core_op o then
        match spec_step o l with
        | Some (l', _) => Some (mkSS l' n pend (blocks_step ps pa o (length l) blocks))
        | None => None
        end
      else None
  | SyncBegin | SyncEnd => Some (mkSS l (S n) pend blocks)
  | SyncGet k | SyncInc k | SyncDec k => if k <? n then Some x else None
  | SyncDestroy k =>
      if k <? n then
        Some (if (n =? 1) && pend
              then mkSS l 0 false (pages_for ps (length l))
              else mkSS l (n - 1) pend blocks)
      else None
  | SyncCopy _ => None
  end.

Fixpoint sspec_run (ps pa : nat) (es : list event) (x : sspec) : option sspec :=
  match es with
  | [] => Some x
  | e :: es' => match sspec_step ps pa e x with
                | Some x' => sspec_run ps pa es' x'
                | None => None
                end
  end.

Definition wfresh (ps pa : nat) : world := mkW (construct ps pa) [].
Definition sfresh (pa : nat) : sspec := mkSS [] 0 false pa.

(** [wreaches]: the history [es] of legal events without iterator copies has run
    without undefined behaviour and has led to [w]; the specification is in [x]. *)
Definition wreaches (debug : bool) (ps pa : nat) (es : list event) (w : world) (x : sspec) : Prop :=
  1 <= ps /\ 1 <= pa /\ sspec_run ps pa es (sfresh pa) = Some x /\
  exists rs, wrun debug es (wfresh ps pa) = ROk w rs.

(** The iterator compares equal to sync_end(). *)
Definition is_sync_end (s : stack T) (it : siter) : bool :=
  match ids s with n :: _ => (s_node it =? n) && negb (torn it) && (s_off it =? -1)%Z | [] => false end.

(** The iterator compares equal to sync_begin(), i.e. addresses the top. *)
Definition is_sync_begin (s : stack T) (it : siter) : bool :=
  match nth_error (ids s) (cur s), nth_error (pages s) (cur s) with
  | Some n, Some p => (s_node it =? n) && negb (torn it) && (s_off it =? Z.of_nat (length p) - 1)%Z
  | _, _ => false
  end.

(** The position of the element the iterator holds, counted from the bottom, is below
    the top of a stack that holds [n] elements. *)
Definition holds_below (ps n : nat) (s : stack T) (it : siter) : bool :=
  match index_of (s_data it) (ids s) with
  | Some j => (j * ps + Z.to_nat (s_off it) <? n)
  | None => false
  end.

(** The three situations excluded from C11 (see the refutations there): reading
    or advancing an iterator that is at the end of a stack of more than one
    page; stepping back from the top when every page is in use; and using an
    iterator that was not in the bottom page when its last use found the stack
    empty, save reading it when the stack has grown over it again. *)
Definition hazard (ps : nat) (e : event) (w : world) (x : sspec) : bool :=
  match e with
  | SyncGet k | SyncInc k | SyncDec k =>
      match nth_error (w_live w) k with
      | None => false
      | Some it =>
          if torn it then
            match e with
            | SyncGet _ => negb ((ps <? length (ss_list x)) && holds_below ps (length (ss_list x)) (w_stack w) it)
            | _ => true
            end
          else
            match e with
            | SyncDec _ => is_sync_begin (w_stack w) it && negb (length (ss_list x) =? 0) &&
                           (ss_blocks x =? pages_for ps (length (ss_list x)))
            | _ => is_sync_end (w_stack w) it && (ps <? length (ss_list x))
            end
      end
  | _ => false
  end.

(** The event uses an iterator. *)
Definition uses_iter (e : event) : bool :=
  match e with SyncGet _ | SyncInc _ | SyncDec _ => true | _ => false end.

(** It uses the k-th one. *)
Definition uses_nth (k : nat) (e : event) : bool :=
  match e with SyncGet j | SyncInc j | SyncDec j => j =? k | _ => false end.

Definition is_get (e : event) : bool := match e with SyncGet _ => true | _ => false end.

(** The element the iterator is at, or was at, is one of the bottom page. *)
Definition at_bottom (s : stack T) (it : siter) : bool :=
  match ids s with n :: _ => s_data it =? n | [] => false end.

End Sync.
Arguments event T : clear implicits.
Arguments answer T : clear implicits.
Arguments world T : clear implicits.
Arguments sspec T : clear implicits.
