(** * Model of ~LogSystem (src/engine/logsystem.cpp L40-53).

    stop() (L42) is the call CStop of LogModel.v; what follows it is here.  The destructor
    runs when no other thread uses the object any more. *)

From Coq Require Import ZArith String Bool List Arith.
From Verif Require Import Base LogModel.
Import ListNotations.

Section LogEnd.
Context {RE : Type}.

(** L45-52 "delete message": to delete what was deleted already, or never was created, is
    undefined.  The strings of the message are destroyed with it. *)
Definition delete_msg (o : nat) : M (@sys RE) unit :=
  fun s => match nth_error (heap s) o with
           | Some (Some _) => ROk (set_torn (S (torn s)) (set_heap (upd o (fun _ => None) (heap s)) s)) tt
           | _ => RBad UB
           end.

(** The loops: for(auto* message: ...) delete message; *)
Fixpoint delete_all (os : list nat) : M (@sys RE) unit :=
  match os with
  | [] => ret tt
  | o :: os' => bind (delete_msg o) (fun _ => delete_all os')
  end.

(** L44-52: the messages in the queue, then those in the pool.  The pointers themselves go
    away with the two containers. *)
Definition destroy : M (@sys RE) unit :=
  bind get (fun s => bind (delete_all (queue s)) (fun _ =>
  bind get (fun s' => bind (delete_all (rev (pool s'))) (fun _ =>
  bind get (fun s'' => put (set_queue [] (set_pool [] s''))))))).

End LogEnd.
