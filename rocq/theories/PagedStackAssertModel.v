(** * Builds with assertions: the assertion of a call is a section of its own.

    engine/pagedstack.h: assert(!empty()) and assert(n <= size()) call member functions that take the
    lock and release it (L555, L693), before the call itself takes it again. *)

From Coq Require Import List Arith Bool.
From Verif Require Import Base PagedStackModel PagedStackSpec PagedStackExec.
Import ListNotations.
Open Scope m_scope.

Section Assertions.
Context {T : Type}.

(** The assertion at the beginning of a call: L470 pop(), L484 pop(values), L497 discard(n), L629 peek,
    L646-647 peek_depth (two assertions; the second one, which needs no lock, is joined to the first),
    L661 peek_reverse, L679 pop_reverse.  DiscardFromTop is not here: its assertion is in
    from_top() (L610), which is another call. *)
Definition assertion (o : op T) : option (M (stack T) bool) :=
  match o with
  | Pop | PopN _ => Some (b <- empty ;; ret (negb b))
  | Discard n => Some (z <- size ;; ret (n <=? z))
  | Peek n | PeekReverse n | PopReverse n => Some (z <- size ;; ret (S n <=? z))
  | PeekDepth d n => Some (z <- size ;; ret ((d <=? z) && (S n <=? d)))
  | _ => None
  end.

(** The sections of a call. *)
Inductive piece : Type := Check (o : op T) | Act (o : op T).

Definition pieces (o : op T) : list piece := match assertion o with Some _ => [Check o; Act o] | None => [Act o] end.

(** The process runs, was aborted by a failed assertion, or has undefined behaviour. *)
Inductive process : Type := Running (s : stack T) | Aborted | Undefined.

(** What a section does to the process and to the results its thread has received.  Nothing, if the
    process does not run any more. *)
Definition effect (x : piece) (rs : list (retval T)) (d : process) : list (retval T) * process :=
  match d with
  | Running s =>
      match x with
      | Check o => match assertion o with
                   | None => (rs, d)
                   | Some c => match c s with
                               | ROk s' true => (rs, Running s')
                               | ROk _ false => (rs, Aborted)
                               | _ => (rs, Undefined)
                               end
                   end
      | Act o => match exec false o s with
                 | ROk s' r => (rs ++ [r], Running s')
                 | _ => (rs, Undefined)
                 end
      end
  | _ => (rs, d)
  end.

End Assertions.
Arguments piece T : clear implicits.
Arguments process T : clear implicits.
