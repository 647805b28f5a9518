(** * What a program with several stacks may rely on.

    The ideal state gives for each name of a stack [Some (Some l)]: a usable stack
    with the elements [l], top first; [Some None]: the stack has been moved away or
    made by copying, and may only be assigned to or destroyed; [None]: no such
    stack. *)

From Coq Require Import List Arith Bool.
From Verif Require Import PagedStackModel PagedStackSpec PagedStackValueModel.
Import ListNotations.

Section Ideal.
Context {T : Type}.

Definition ideal : Type := nat -> option (option (list T)).
Definition no_stacks : ideal := fun _ => None.
Definition bind_to (x : nat) (v : option (option (list T))) (i : ideal) : ideal :=
  fun y => if y =? x then v else i y.

(** [None]: the operation is not allowed in this state.  Results: those of the calls. *)
Definition vspec_step (c : vop T) (i : ideal) : option (ideal * list (retval T)) :=
  match c with
  | VNew x ps pa =>
      match i x with
      | None => if (1 <=? ps) && (1 <=? pa) then Some (bind_to x (Some (Some [])) i, []) else None
      | Some _ => None
      end
  | VCall x o =>
      match i x with
      | Some (Some l) =>
          if core_op o then
            match spec_step o l with
            | Some (l', r) => Some (bind_to x (Some (Some l')) i, [r])
            | None => None
            end
          else None
      | _ => None
      end
  | VCopyNew x y =>
      match i x, i y with
      | Some _, None => Some (bind_to y (Some None) i, [])
      | _, _ => None
      end
  | VMoveNew x y =>
      match i x, i y with
      | Some v, None => Some (bind_to y (Some v) (bind_to x (Some None) i), [])
      | _, _ => None
      end
  | VCopyAssign x y =>
      match i x, i y with
      | Some _, Some _ => Some (if x =? y then i else bind_to y (Some None) i, [])
      | _, _ => None
      end
  | VMoveAssign x y =>
      match i x, i y with
      | Some v, Some _ =>
          if x =? y then None else Some (bind_to y (Some v) (bind_to x (Some None) i), [])
      | _, _ => None
      end
  | VDestroy x =>
      match i x with
      | Some _ => Some (bind_to x None i, [])
      | None => None
      end
  end.

Fixpoint vspec_run (cs : list (vop T)) (i : ideal) : option (ideal * list (retval T)) :=
  match cs with
  | [] => Some (i, [])
  | c :: cs' =>
      match vspec_step c i with
      | None => None
      | Some (i', rs) =>
          match vspec_run cs' i' with
          | None => None
          | Some (i'', rs') => Some (i'', rs ++ rs')
          end
      end
  end.

End Ideal.
Arguments ideal T : clear implicits.
