(** * What the properties of Code and Compiler speak about. *)

From Coq Require Import ZArith String Ascii Bool List Arith.
From Verif Require Import Base CodeModel.
Import ListNotations.
Open Scope list_scope.

(** The text has fewer than [n] characters. *)
Definition shorter (n : Z) (s : string) : Prop := (Z.of_nat (String.length s) < n)%Z.
Definition no_nul (s : string) : Prop := ~ In NUL (list_ascii_of_string s).

(** The text up to its first NUL character. *)
Fixpoint before_nul (s : string) : string :=
  match s with
  | EmptyString => EmptyString
  | String a s' => if Ascii.eqb a NUL then EmptyString else String a (before_nul s')
  end.

(** Programs that neither copy nor assign. *)
Definition no_copies (ops : list cop) : Prop :=
  Forall (fun op => match op with CCopy _ _ | CAssign _ _ => False | _ => True end) ops.
(** No text of the program is too long. *)
Definition texts_fit (ops : list cop) : Prop :=
  Forall (fun op => match op with CNew _ t => shorter 1000 t | _ => True end) ops.

(** Texts of the objects of a program without copies: creation and moves; [None]: moved away. *)
Definition texts : Type := list (nat * option string).
Fixpoint tfind (x : nat) (l : texts) : option (option string) :=
  match l with [] => None | (y, t) :: l' => if x =? y then Some t else tfind x l' end.
Fixpoint tdel (x : nat) (l : texts) : texts :=
  match l with [] => [] | (y, t) :: l' => if x =? y then l' else (y, t) :: tdel x l' end.

(** What such a program should see: the texts returned; [None]: toString() of an object that
    was moved from. *)
Fixpoint ideal (ops : list cop) (l : texts) : option (list string) :=
  match ops with
  | [] => Some []
  | CNew x t :: ops' => match tfind x l with None => ideal ops' ((x, Some t) :: l) | Some _ => ideal ops' l end
  | CMove x y :: ops' => match tfind x l, tfind y l with
                         | None, Some t => ideal ops' ((x, t) :: (y, None) :: tdel y l)
                         | _, _ => ideal ops' l
                         end
  | CDestroy x :: ops' => ideal ops' (tdel x l)
  | CToString x :: ops' => match tfind x l with
                           | Some (Some t) => option_map (cons t) (ideal ops' l)
                           | Some None => None
                           | None => ideal ops' l
                           end
  | _ :: ops' => ideal ops' l
  end.

(** Buffers not deleted, and buffers that an object points to. *)
Definition live (s : cstate) : list nat :=
  filter (fun p => match nth_error (bufs s) p with Some (Some _) => true | _ => false end) (seq 0 (List.length (bufs s))).
Definition pointed (s : cstate) : list nat :=
  flat_map (fun o => match c_data (snd o) with Some p => [p] | None => [] end) (objs s).

(** Space, horizontal and vertical tab, newline, form feed, carriage return. *)
Definition blanks : list ascii := map ascii_of_nat [32; 9; 11; 10; 12; 13].

(** [t] is the first maximal run of non-blank characters of [input] and [rest] is what follows. *)
Definition first_token (input t rest : list ascii) : Prop :=
  exists b, input = b ++ t ++ rest /\ Forall (fun c => In c blanks) b /\ Forall (fun c => ~ In c blanks) t /\
    match rest with [] => True | c :: _ => In c blanks end /\ (t = [] -> rest = []).
