(** * What the properties of Singleton and distribute speak about. *)

From Coq Require Import List Arith Bool.
From Verif Require Import Base MiscModel.
Import ListNotations.

Section Singleton.
Variable V : Type.
Variable init : nat -> V.

(** One value for each type: what the reads of a program should give. *)
Fixpoint ideal_reads (ops : list (sop V)) (objs : nat -> option nat) (cur : nat -> V) : list V :=
  match ops with
  | [] => []
  | SNew _ x t :: ops' =>
      ideal_reads ops' (match objs x with Some _ => objs | None => fun y => if y =? x then Some t else objs y end) cur
  | SAddr _ _ :: ops' => ideal_reads ops' objs cur
  | SRead _ x :: ops' => match objs x with Some t => cur t :: ideal_reads ops' objs cur | None => ideal_reads ops' objs cur end
  | SWrite _ x v :: ops' =>
      match objs x with
      | Some t => ideal_reads ops' objs (fun u => if u =? t then v else cur u)
      | None => ideal_reads ops' objs cur
      end
  end.

Definition reads (l : list (sout V)) : list V := flat_map (fun o => match o with OVal _ v => [v] | OAddr _ _ => [] end) l.

(** The state after a program. *)
Definition after (ops : list (sop V)) : sstate V := fst (sruns V init ops (s0 V)).
(** How many instances of type [t] were ever created. *)
Definition created (t : nat) (s : sstate V) : nat := count_occ Nat.eq_dec (map fst (insts V s)) t.
End Singleton.

(** The variables after storing the values in order. *)
Fixpoint store {A : Type} (targets : list nat) (vs : list A) (r : vars A) : vars A :=
  match targets, vs with x :: targets', v :: vs' => store targets' vs' (assign A x v r) | _, _ => r end.
