(** * What the properties of the atomic counters speak about. *)

From Coq Require Import ZArith List Arith Bool.
From Verif Require Import Base AtomicModel.
Import ListNotations.
Open Scope Z_scope.

(** [w] is the number [z] reduced to 32 signed bits. *)
Definition int32_range (w : Z) : Prop := - 2 ^ 31 <= w < 2 ^ 31.
Definition reduced (w z : Z) : Prop := int32_range w /\ exists k, z = w + k * 2 ^ 32.

(** What an operation adds to the counter; [None]: it does something else. *)
Definition amount (op : aop) : option Z :=
  match op with AInc => Some 1 | ADec => Some (-1) | AAdd v => Some v | _ => None end.
Definition amount0 (op : aop) : Z := match amount op with Some v => v | None => 0 end.
Definition counting (op : aop) : Prop := amount op <> None.

Definition ops_of (l : list (nat * aop * aret)) : list aop := map (fun e => snd (fst e)) l.
Definition rets_of (l : list (nat * aop * aret)) : list aret := map snd l.
Definition total (l : list (nat * aop * aret)) : Z := fold_right Z.add 0 (map amount0 (ops_of l)).

(** The operations of thread [t], in order. *)
Definition done_by (t : nat) (l : list (nat * aop * aret)) : list aop := ops_of (filter (fun e => Nat.eqb (fst (fst e)) t) l).

(** Threads running the given programs from value [w0] under a schedule. *)
Definition exec (w0 : Z) (progs : list (list aop)) (sched : list nat) : astate := aruns gcc sched (mkA w0 progs []).

Definition all_ops (P : aop -> Prop) (progs : list (list aop)) : Prop := Forall (Forall P) progs.

(** The values given to and returned by atomicExchange. *)
Definition given (op : aop) : list Z := match op with AExchange v => [v] | _ => [] end.
Definition got (r : aret) : list Z := match r with RInt z => [z] | _ => [] end.
