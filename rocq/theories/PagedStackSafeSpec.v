(** * Specification: what a PagedStack may do in a history that is not [careful].

    The contents of the object are what the loop from begin() to end() visits.
    [tolerated] says what a call may leave there: what an ideal stack would, but
    for values removed before that come back under a pushed one, and for clear(),
    that may stop at a lower part of the stack. *)

From Coq Require Import List Arith.
From Verif Require Import Base PagedStackModel PagedStackSpec PagedStackExec.
Import ListNotations.

Section SafeSpec.
Context {T : Type}.

(** The values the caller puts in with a call. *)
Definition puts (o : op T) : list T :=
  match o with Push x xs => x :: xs | PushEmplace x | SetTop x => [x] | _ => [] end.

(** [pushed xs l l']: pushing [xs] one by one on [l] leaves [l']; any [g] may show
    up between a pushed value and what was there. *)
Inductive pushed : list T -> list T -> list T -> Prop :=
| pushed_none : forall l, pushed [] l l
| pushed_one : forall x xs g l l', pushed xs (x :: g ++ l) l' -> pushed (x :: xs) l l'.

(** [l]: before the call; [l1]: what an ideal stack holds after it; [l']: what may
    be found. *)
Definition tolerated (ps : nat) (o : op T) (l l1 l' : list T) : Prop :=
  match o with
  | Push x xs => pushed (x :: xs) l l'
  | PushEmplace x => pushed [x] l l'
  | Clear => (exists k, l' = skipn k l) /\ (1 <= ps -> length l' <= ps)
  | _ => l' = l1
  end.

Definition holds (s : stack T) (l : list T) : Prop :=
  exists a e, begin s = ROk s a /\ end_ s = ROk s e /\ f_loop s a e l.

(** The object built with page size [ps] and pre-allocation [pa] has gone through
    the calls [ops], each within its domain for what the object held then, and now
    holds [l]. *)
Inductive lives (debug : bool) (ps pa : nat) : list (op T) -> stack T -> list T -> Prop :=
| lives_new : lives debug ps pa [] (construct ps pa) []
| lives_call : forall ops s l o l1 r s' r' l',
    lives debug ps pa ops s l -> spec_step o l = Some (l1, r) ->
    exec debug o s = ROk s' r' -> holds s' l' ->
    lives debug ps pa (ops ++ [o]) s' l'.

End SafeSpec.
