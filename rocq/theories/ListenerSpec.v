(** * What threads that share a listener may rely on. *)
From Coq Require Import ZArith String Bool List Arith.
From Verif Require Import LogModel ListenerModel.
Import ListNotations.
Local Open Scope string_scope.
Local Open Scope list_scope.

(** The settings in force after a trace: what was set last, or what a new listener has. *)
Fixpoint latest {A : Type} (f : levent -> option A) (a : A) (tr : list (nat * levent)) : A :=
  match tr with
  | [] => a
  | (_, e) :: tr' => latest f (match f e with Some b => b | None => a end) tr'
  end.

Definition category_set (tr : list (nat * levent)) : string := latest (fun e => match e with DidSet re => Some re | _ => None end) "" tr.
Definition level_set (tr : list (nat * levent)) : Z := latest (fun e => match e with DidLevel z => Some z | _ => None end) TRACE tr.
Definition enabled_set (tr : list (nat * levent)) : bool := latest (fun e => match e with DidEnable b => Some b | _ => None end) true tr.
Definition detached_set (tr : list (nat * levent)) : bool := latest (fun e => match e with DidDetach => Some true | _ => None end) false tr.

Section Shared.
Context {RE : Type}.
Variable compile : string -> option RE.
Variable rmatch : string -> RE -> bool.

(** A category is accepted: there is none, there is no filter, or it matches the filter. *)
Definition accepted_by (filter cat : string) : bool :=
  String.eqb cat "" || String.eqb filter "" ||
  match compile filter with Some r => rmatch cat r | None => false end.

(** The listener and the threads came to [s], with the trace [tr]. *)
Definition lreaches (r0 : RE) (progs : list (list lcall)) (s : lstate RE) (tr : list (nat * levent)) : Prop :=
  exists sched, lrun compile rmatch sched (linit r0 progs) = Some (s, tr).

(** Two threads are about to touch the same member, one of them to write it, and not both hold
    the mutex. *)
Definition data_race (s : lstate RE) (t1 t2 : nat) : Prop :=
  t1 <> t2 /\ exists th1 th2 a b, nth_error (s_threads s) t1 = Some th1 /\ nth_error (s_threads s) t2 = Some th2 /\
    In a (laccesses th1) /\ In b (laccesses th2) /\ la_loc a = la_loc b /\ (la_write a = true \/ la_write b = true) /\
    (la_locked a = false \/ la_locked b = false).

(** Thread [t] is about to read the text through the reference that category() returned. *)
Definition reading (s : lstate RE) (t : nat) : Prop :=
  exists th todo, nth_error (s_threads s) t = Some th /\ t_pc th = Out /\ t_todo th = UseCategory :: todo /\ t_ref th = true.

(** Thread [t] is in category(re), about to assign the text. *)
Definition assigning (s : lstate RE) (t : nat) (re : string) : Prop :=
  exists th, nth_error (s_threads s) t = Some th /\ t_pc th = SetText re.

(** Thread [t] is in category(re), waiting for the mutex. *)
Definition entering (s : lstate RE) (t : nat) (re : string) : Prop :=
  exists th, nth_error (s_threads s) t = Some th /\ t_pc th = SetLock re.

End Shared.
