(** * Model of an implicitly copied PagedStack.
    Source: /repo/src/include/falcon/engine/pagedstack.h.  The class declares no
    copy constructor (L57-735), so the implicit one copies member by member:
    m_base (L60) is duplicated page by page, but m_curBase (L61), a
    std::list iterator, goes on designating a node of the ORIGINAL's list. *)

From Coq Require Import List Arith ZArith Bool.
From Verif Require Import Base PagedStackModel.
Import ListNotations.
Open Scope m_scope.

Section Copy.
Context {T : Type}.

(** The original, the copy's own pages, and the copy's m_curBase: the position
    of a node of the original's list. *)
Record twin : Type := mkTwin {
  tw_orig : stack T;
  tw_pages : list (list T);
  tw_cur : nat
}.

(** Implicit copy constructor. *)
Definition copy_of (s : stack T) : twin := mkTwin s (pages s) (cur s).

(** L437-442 push on the copy; advance is L78-87.  The comparison of L81 with
    the copy's own m_base.end() fails for every node of the original; going
    past the last node of the original and writing there is UB.  The lock of
    the copy is its own. *)
Definition copy_push (x : T) : M twin unit :=
  w <- get ;;
  p <- lift_opt (nth_error (pages (tw_orig w)) (tw_cur w)) ;;
  let c := if length p =? page_size (tw_orig w) then S (tw_cur w) else tw_cur w in
  q <- lift_opt (nth_error (pages (tw_orig w)) c) ;;
  put (mkTwin (set_pages (upd c (fun _ => q ++ [x]) (pages (tw_orig w))) (tw_orig w))
              (tw_pages w) c).

(** L435 top() on the copy. *)
Definition copy_top : M twin T :=
  w <- get ;;
  p <- lift_opt (nth_error (pages (tw_orig w)) (tw_cur w)) ;;
  lift_opt (nth_error p (length p - 1)).

(** L696-700, the loop of size() on the copy: it goes through the copy's own
    pages looking for a node of the original; it never finds it and increments
    past end(), which is UB ([None]). *)
Fixpoint copy_size_loop (own : list (list T)) : option nat :=
  match own with
  | [] => None
  | p :: own' => option_map (Nat.add (length p)) (copy_size_loop own')
  end.

(** L693-703 size() on the copy. *)
Definition copy_size : M twin nat :=
  w <- get ;; lift_opt (copy_size_loop (tw_pages w)).

End Copy.
Arguments twin T : clear implicits.
