(** * Lines written by several threads. *)
From Coq Require Import ZArith String Ascii Bool List Arith.
From Verif Require Import LogModel StreamModel LogStreamModel LogStreamSpec LinesModel.
Import ListNotations.
Local Open Scope string_scope.
Local Open Scope list_scope.

(** The threads with the programs [progs] came to [w], with the trace [tr]. *)
Definition mreaches (x : tm) (progs : list (list mcall)) (w : mstate) (tr : list (nat * mevent)) : Prop :=
  exists sched, mrun sched (minit x progs) = Some (w, tr).

(** The messages that were completely written on stream [k], in order, with the times shown. *)
Fixpoint written_on (k : nat) (tr : list (nat * mevent)) : list (tm * msg) :=
  match tr with
  | (_, Wrote _ (Some s) _ t m) :: tr' => if (s =? k)%nat then (t, m) :: written_on k tr' else written_on k tr'
  | _ :: tr' => written_on k tr'
  | [] => []
  end.

(** Their lines. *)
Definition lines (l : list (tm * msg)) : string := fold_right (fun x s => (log_line (fst x) (snd x) ++ s)%string) "" l.

(** Only listener [l] is ever directed to stream [k]. *)
Definition only_through (l k : nat) (progs : list (list mcall)) : Prop :=
  forall p l', In p progs -> In (Direct l' k) p -> l' = l.

(** The times at which onMessage is called can be shown. *)
Definition times_ok (progs : list (list mcall)) : Prop :=
  forall p l now m, In p progs -> In (OnMsg l now m) p -> tm_ok now.

(** Only thread [t] calls onMessage. *)
Definition one_caller (t : nat) (progs : list (list mcall)) : Prop :=
  forall i p l now m, nth_error progs i = Some p -> In (OnMsg l now m) p -> i = t.

(** Some thread is writing a line on stream [k]. *)
Definition writing (w : mstate) (k : nat) : Prop :=
  exists t th l now x m rest, nth_error (ms_threads w) t = Some th /\ m_pc th = MPut l (Some k) now x m rest.

(** [z] is made of the members of [x] and [y], each in its own order. *)
Inductive merge {A : Type} : list A -> list A -> list A -> Prop :=
| merge_nil : merge [] [] []
| merge_left : forall a x y z, merge x y z -> merge (a :: x) y (a :: z)
| merge_right : forall a x y z, merge x y z -> merge x (a :: y) (a :: z).

(** Two threads, each with a listener of its own, write a message on the same stream. *)
Definition two_writers (t1 t2 : tm) (m1 m2 : msg) : list (list mcall) :=
  [[Direct 0 0; OnMsg 0 t1 m1]; [Direct 1 0; OnMsg 1 t2 m2]].
