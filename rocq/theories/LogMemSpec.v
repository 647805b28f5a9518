(** * What the properties of LogSystem without memory speak about *)

From Coq Require Import ZArith String Bool List Arith.
From Verif Require Import Base LogModel LogSpec LogMemModel.
Import ListNotations.

(** The ordinary events. *)
Definition plain (tr : list mev) : list ev := pick (fun e => match e with Did e' => Some e' | _ => None end) tr.

(** The objects that calls of log() had when they threw. *)
Definition lost (tr : list mev) : list nat := pick (fun e => match e with Threw _ _ o => o | _ => None end) tr.

(** What became of the messages that client [i] passed to log() and that passed the level test,
    in order: queued, or std::bad_alloc was thrown. *)
Inductive fate : Type := Queued | Thrown.
Definition fates (i : nat) (tr : list mev) : list (msg * fate) :=
  pick (fun e => match e with
                 | Did (EvAccept (Client j) m) => if i =? j then Some (m, Queued) else None
                 | Threw j (CLog m) _ => if i =? j then Some (m, Thrown) else None
                 | _ => None
                 end) tr.

(** Calls of log() that threw without having obtained an object. *)
Definition unmade (tr : list mev) : nat :=
  List.length (pick (fun e => match e with Threw _ (CLog m) None => Some m | _ => None end) tr).

Section LogMemSpec.
Context {RE : Type}.
Variable compile : string -> option RE.
Variable rmatch : string -> RE -> bool.

(** As [reaches] of LogSpec.v; any number of allocations fail, at any moments. *)
Definition mreaches (sn g : bool) (ls : nat -> @listener RE) (progs : list (list call))
  (w : @world RE) (tr : list mev) : Prop :=
  exists sched, mrun compile rmatch sched (init sn g ls progs) = Some (w, tr).

(** Nothing can happen any more. *)
Definition halted (w : @world RE) : Prop := forall ch, mstep compile rmatch ch w = None.

End LogMemSpec.
