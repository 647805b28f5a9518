(** * What the properties of log statements that throw speak about. *)

From Coq Require Import ZArith String Bool List.
From Verif Require Import Base LogModel StreamModel LoggerModel LoggerSpec.
Import ListNotations.
Open Scope string_scope.
Open Scope list_scope.

(** A plain statement, or try { LOG(lvl) << texts << x << lost; } catch(...) {} where the
    operand x throws, when it is evaluated or, if [late], when it is rendered. *)
Inductive risky : Type :=
| Safe (s : plain)
| Throwing (file : string) (line lvl : Z) (cat : option string) (texts : list string) (late : bool) (lost : list string).

Definition text_op (s : string) : operand := Op [] [SPut s].
Definition throwing_op (late : bool) : operand := if late then Op [] [SThrow] else Op [SThrow] [].

Definition embed_risky (r : risky) : stmt :=
  match r with
  | Safe s => embed s
  | Throwing f l v c texts late lost => STry [SLog f l v c (map text_op texts ++ throwing_op late :: map text_op lost)]
  end.

(** The same program with each throwing statement cut before the operand that throws; and without
    these statements. *)
Definition cut_short (r : risky) : plain :=
  match r with Safe s => s | Throwing f l v c texts _ _ => LogLine f l v c texts end.
Definition safe_only (p : list risky) : list plain :=
  flat_map (fun r => match r with Safe s => [s] | Throwing _ _ _ _ _ _ _ => [] end) p.
