(** * Model of the atomic counters (src/include/falcon/atomic_gcc.h, atomic_vc.h).

    The compiler built-ins and the Interlocked functions are taken to be single atomic steps with
    their documented effects; every execution is an interleaving of such steps. *)

From Coq Require Import ZArith List Arith Bool.
From Verif Require Import Base.
Import ListNotations.

(** int32 arithmetic of the atomic operations wraps. *)
Definition two32 : Z := 4294967296.
Definition wrap32 (z : Z) : Z := ((z + 2147483648) mod two32 - 2147483648)%Z.

Inductive aop : Type :=
| AInc | ADec | AAdd (v : Z) | AFetch | ASet (v : Z) | AExchange (v : Z) | ACAS (old new : Z)
| AXor (v : Z) | AAnd (v : Z) | AOr (v : Z).

Inductive aret : Type := RInt (z : Z) | RYes (b : bool) | RNone.

(** atomic_gcc.h L28-80: new value of the counter, value returned.
    __sync_add_and_fetch returns the new value, __sync_lock_test_and_set and
    __sync_fetch_and_X the old one. *)
Definition gcc (op : aop) (w : Z) : Z * aret :=
  match op with
  | AInc => let n := wrap32 (w + 1) in (n, RInt n)                     (* L28-31 *)
  | ADec => let n := wrap32 (w + -1) in (n, RInt n)                    (* L34-37 *)
  | AAdd v => let n := wrap32 (w + v) in (n, RInt n)                   (* L40-43 *)
  | AFetch => (w, RInt w)                                              (* L46-49 *)
  | ASet v => (v, RNone)                                               (* L52-54 *)
  | AExchange v => (v, RInt w)                                         (* L57-60 *)
  | ACAS o n => if (w =? o)%Z then (n, RYes true) else (w, RYes false) (* L62-65 *)
  | AXor v => (Z.lxor w v, RInt w)                                     (* L67-70 *)
  | AAnd v => (Z.land w v, RInt w)                                     (* L72-75 *)
  | AOr v => (Z.lor w v, RInt w)                                       (* L77-80 *)
  end.

(** The Win32 functions. *)
Definition InterlockedIncrement (w : Z) : Z * Z := let n := wrap32 (w + 1) in (n, n).
Definition InterlockedDecrement (w : Z) : Z * Z := let n := wrap32 (w - 1) in (n, n).
Definition InterlockedExchangeAdd (w v : Z) : Z * Z := (wrap32 (w + v), w).
Definition InterlockedAdd (w v : Z) : Z * Z := let n := wrap32 (w + v) in (n, n).
Definition InterlockedCompareExchange (w exchange comparand : Z) : Z * Z := if (w =? comparand)%Z then (exchange, w) else (w, w).
Definition InterlockedExchange (w v : Z) : Z * Z := (v, w).
Definition InterlockedXor (w v : Z) : Z * Z := (Z.lxor w v, w).
Definition InterlockedAnd (w v : Z) : Z * Z := (Z.land w v, w).
Definition InterlockedOr (w v : Z) : Z * Z := (Z.lor w v, w).

Definition int_ret (p : Z * Z) : Z * aret := (fst p, RInt (snd p)).

(** atomic_vc.h L33-100; [x86]: _M_IX86 is defined. *)
Definition vc (x86 : bool) (op : aop) (w : Z) : Z * aret :=
  match op with
  | AInc => int_ret (InterlockedIncrement w)                                              (* L33-36 *)
  | ADec => int_ret (InterlockedDecrement w)                                              (* L39-42 *)
  | AAdd v => int_ret (if x86 then InterlockedExchangeAdd w v else InterlockedAdd w v)    (* L45-52 *)
  | AFetch => int_ret (InterlockedCompareExchange w 0 0)                                  (* L55-57 *)
  | ASet v => (fst (InterlockedExchange w v), RNone)                                      (* L60-62 *)
  | AExchange v => int_ret (InterlockedExchange w v)                                      (* L65-68, L70-73 *)
  | ACAS o n => let (w', r) := InterlockedCompareExchange w n o in (w', RYes (r =? o)%Z)
  | AXor v => int_ret (InterlockedXor w v)
  | AAnd v => int_ret (InterlockedAnd w v)
  | AOr v => int_ret (InterlockedOr w v)
  end.

(** ** Threads sharing one counter *)

(** The counter, what each thread still has to do, and what happened, oldest first. *)
Record astate : Type := mkA { counter : Z; todo : list (list aop); log : list (nat * aop * aret) }.

(** The scheduler picks thread [t]; it does nothing if it has finished. *)
Definition astep (prim : aop -> Z -> Z * aret) (t : nat) (s : astate) : astate :=
  match nth_error (todo s) t with
  | Some (op :: _) =>
      let (w, r) := prim op (counter s) in
      mkA w (upd t (fun ops => tl ops) (todo s)) (log s ++ [(t, op, r)])
  | _ => s
  end.
Definition aruns (prim : aop -> Z -> Z * aret) (sched : list nat) (s : astate) : astate := fold_left (fun s t => astep prim t s) sched s.
