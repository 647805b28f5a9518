(** * Histories in which synchronised iterators are copied.

    The events are those of [PagedStackSyncSpec], copies included.  The stack
    counts the iterators made by sync_begin() and sync_end() and uncounts every
    destroyed one; copies are not counted.  The specification therefore keeps the
    number of live iterators and the number of copies made so far. *)

From Coq Require Import List Arith ZArith Bool.
From Verif Require Import Base PagedStackModel PagedStackSpec PagedStackExec PagedStackSyncSpec.
Import ListNotations.

Section Copies.
Context {T : Type}.

Record cspec : Type := mkCS
  { cs_list : list T; cs_live : nat; cs_copies : nat; cs_pending : bool; cs_blocks : nat }.

(** shrink_to_fit releases the unused pages at once when the live iterators are not
    more than the copies made so far; otherwise the release waits until a destroyed
    iterator makes the two numbers equal. *)
Definition cspec_step (ps pa : nat) (e : event T) (x : cspec) : option cspec :=
  let '(mkCS l n m pend blocks) := x in
  match e with
  | Op Shrink =>
      Some (if n <=? m then mkCS l n m pend (pages_for ps (length l)) else mkCS l n m true blocks)
  | Op o =>
      if core_op o then
        match spec_step o l with
        | Some (l', _) => Some (mkCS l' n m pend (blocks_step ps pa o (length l) blocks))
        | None => None
        end
      else None
  | SyncBegin | SyncEnd => Some (mkCS l (S n) m pend blocks)
  | SyncGet k | SyncInc k | SyncDec k => if k <? n then Some x else None
  | SyncDestroy k =>
      if k <? n then
        Some (if (n - 1 =? m) && pend
              then mkCS l (n - 1) m false (pages_for ps (length l))
              else mkCS l (n - 1) m pend blocks)
      else None
  | SyncCopy k => if k <? n then Some (mkCS l (S n) (S m) pend blocks) else None
  end.

Fixpoint cspec_run (ps pa : nat) (es : list (event T)) (x : cspec) : option cspec :=
  match es with
  | [] => Some x
  | e :: es' => match cspec_step ps pa e x with
                | Some x' => cspec_run ps pa es' x'
                | None => None
                end
  end.

Definition cfresh (pa : nat) : cspec := mkCS [] 0 0 false pa.

(** [creaches]: the history [es], copies allowed, ran without undefined behaviour
    from a fresh stack and led to [w]; the specification is in [x]. *)
Definition creaches (debug : bool) (ps pa : nat) (es : list (event T)) (w : world T) (x : cspec) : Prop :=
  1 <= ps /\ 1 <= pa /\ cspec_run ps pa es (cfresh pa) = Some x /\
  exists rs, wrun debug es (wfresh ps pa) = ROk w rs.

(** The page the iterator refers to is not a page of the stack any more. *)
Definition dangling (s : stack T) (it : siter) : bool := negb (existsb (Nat.eqb (s_node it)) (ids s)).

(** The k-th live iterator is dangling. *)
Definition dangles (w : world T) (k : nat) : bool :=
  match nth_error (w_live w) k with Some it => dangling (w_stack w) it | None => false end.

(** Using a dangling iterator, or one of the three hazards of C11. *)
Definition chazard (ps : nat) (e : event T) (w : world T) (x : cspec) : bool :=
  match e with
  | SyncGet k | SyncInc k | SyncDec k => dangles w k
  | _ => false
  end || hazard ps e w (mkSS (cs_list x) (cs_live x) (cs_pending x) (cs_blocks x)).

(** The event releases the unused pages. *)
Definition releases (e : event T) (x : cspec) : bool :=
  match e with
  | Op Shrink => cs_live x <=? cs_copies x
  | SyncDestroy _ => (cs_live x - 1 =? cs_copies x) && cs_pending x
  | _ => false
  end.

(** Pages are released only when no iterator stays alive. *)
Fixpoint quiet (ps pa : nat) (es : list (event T)) (x : cspec) : Prop :=
  match es with
  | [] => True
  | e :: es' =>
      match cspec_step ps pa e x with
      | Some x' => (releases e x = true -> cs_live x' = 0) /\ quiet ps pa es' x'
      | None => True
      end
  end.

Definition is_copy (e : event T) : bool := match e with SyncCopy _ => true | _ => false end.
Definition is_shrink (e : event T) : bool := match e with Op Shrink => true | _ => false end.

End Copies.
Arguments cspec T : clear implicits.
