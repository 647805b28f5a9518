(** * Model of PagedStack objects that are moved, swapped, copied and destroyed.
    Source: /repo/src/include/falcon/engine/pagedstack.h.

    The class declares no destructor, copy or move operation (L42-723), so the
    implicit ones act member by member.  With the default mutex (L33-37, no
    members) and std::allocator:
    - moving m_base (L60, a std::list) hands its nodes over, and leaves the source
      empty; iterators stay attached to the nodes, which belong to the target now;
    - copying m_base makes new nodes;
    - m_curBase (L61), a list iterator, is copied by both: afterwards source and
      target designate the same node;
    - the other members are numbers, copied by both.

    An object owns nodes, each with an identity; its m_curBase is the identity of
    some node, maybe of another object's.
    Simplification: a call on an object whose m_curBase is not one of its own nodes
    is counted as undefined; [PagedStackCopy] models what some calls do then. *)

From Coq Require Import List Arith ZArith Bool.
From Verif Require Import Base PagedStackModel PagedStackSpec PagedStackExec.
Import ListNotations.

Section Values.
Context {T : Type}.

(** L58-66, the members. *)
Record obj : Type := mkO {
  b_ps : nat;                       (* m_pageSize *)
  b_pa : nat;                       (* m_allocSize *)
  b_nodes : list (nat * list T);    (* m_base: identity and page of each node *)
  b_cur : nat;                      (* m_curBase: identity of a node *)
  b_count : Z;                      (* m_syncIterCount *)
  b_req : bool                      (* m_shrinkRequest *)
}.

(** The objects by name, and the next node identity. *)
Record mem : Type := mkMem { m_next : nat; m_objs : list (nat * obj) }.

Fixpoint vfind {A} (x : nat) (l : list (nat * A)) : option A :=
  match l with
  | [] => None
  | (y, a) :: l' => if y =? x then Some a else vfind x l'
  end.
Fixpoint vdel {A} (x : nat) (l : list (nat * A)) : list (nat * A) :=
  match l with
  | [] => []
  | (y, a) :: l' => if y =? x then vdel x l' else (y, a) :: vdel x l'
  end.
Definition vput {A} (x : nat) (a : A) (l : list (nat * A)) : list (nat * A) := (x, a) :: vdel x l.

(** The object as the stack of [PagedStackModel]. *)
Definition view (next : nat) (o : obj) : option (stack T) :=
  match index_of (b_cur o) (map fst (b_nodes o)) with
  | Some i => Some (mkStack (b_ps o) (b_pa o) (map snd (b_nodes o)) (map fst (b_nodes o)) next i
                      (b_count o) (b_req o) false)
  | None => None
  end.
Definition build (s : stack T) : obj :=
  mkO (page_size s) (alloc_size s) (combine (ids s) (pages s)) (nth (cur s) (ids s) 0)
      (sync_count s) (shrink_req s).

(** What moving leaves: m_base is empty, the other members are unchanged. *)
Definition moved_from (o : obj) : obj := mkO (b_ps o) (b_pa o) [] (b_cur o) (b_count o) (b_req o).
(** What copying gives: new nodes, the other members are those of the source. *)
Definition copied (next : nat) (o : obj) : obj :=
  mkO (b_ps o) (b_pa o) (combine (seq next (length (b_nodes o))) (map snd (b_nodes o))) (b_cur o)
      (b_count o) (b_req o).

Inductive vop : Type :=
| VNew (x ps pa : nat)          (** PagedStack x(ps, pa) *)
| VCall (x : nat) (o : op T)    (** a call on x *)
| VCopyNew (x y : nat)          (** PagedStack y(x) *)
| VMoveNew (x y : nat)          (** PagedStack y(std::move(x)) *)
| VCopyAssign (x y : nat)       (** y = x *)
| VMoveAssign (x y : nat)       (** y = std::move(x) *)
| VDestroy (x : nat)            (** end of the lifetime of x *).

(** Names are not re-used while their object is alive ([RBad UB] otherwise: not a
    program).  y = std::move(y) is unspecified for std::list, and counted as undefined. *)
Definition vexec (debug : bool) (c : vop) (m : mem) : res mem (list (retval T)) :=
  let n := m_next m in
  let l := m_objs m in
  match c with
  | VNew x ps pa =>
      (* L423-432: growBase makes pa nodes *)
      match vfind x l with
      | Some _ => RBad UB
      | None => match pa with
                | 0 => RBad UB
                | S _ => ROk (mkMem (n + pa) (vput x (build (set_ids (seq n pa) (n + pa) (construct ps pa))) l)) []
                end
      end
  | VCall x o =>
      match vfind x l with
      | Some b => match view n b with
                  | Some s => match exec debug o s with
                              | ROk s' r => ROk (mkMem (next_id s') (vput x (build s') l)) [r]
                              | RThrow s' => RThrow (mkMem (next_id s') (vput x (build s') l))
                              | RBad e => RBad e
                              end
                  | None => RBad UB
                  end
      | None => RBad UB
      end
  | VCopyNew x y =>
      match vfind x l, vfind y l with
      | Some b, None => ROk (mkMem (n + length (b_nodes b)) (vput y (copied n b) l)) []
      | _, _ => RBad UB
      end
  | VMoveNew x y =>
      match vfind x l, vfind y l with
      | Some b, None => ROk (mkMem n (vput y b (vput x (moved_from b) l))) []
      | _, _ => RBad UB
      end
  | VCopyAssign x y =>
      match vfind x l, vfind y l with
      | Some b, Some _ =>
          if x =? y then ROk m []
          else ROk (mkMem (n + length (b_nodes b)) (vput y (copied n b) l)) []
      | _, _ => RBad UB
      end
  | VMoveAssign x y =>
      match vfind x l, vfind y l with
      | Some b, Some _ =>
          if x =? y then RBad UB
          else ROk (mkMem n (vput y b (vput x (moved_from b) l))) []
      | _, _ => RBad UB
      end
  | VDestroy x =>
      match vfind x l with
      | Some _ => ROk (mkMem n (vdel x l)) []
      | None => RBad UB
      end
  end.

Fixpoint vrun (debug : bool) (cs : list vop) (m : mem) : res mem (list (retval T)) :=
  match cs with
  | [] => ROk m []
  | c :: cs' =>
      match vexec debug c m with
      | ROk m' rs => match vrun debug cs' m' with
                     | ROk m'' rs' => ROk m'' (rs ++ rs')
                     | RThrow m'' => RThrow m''
                     | RBad e => RBad e
                     end
      | RThrow m' => RThrow m'
      | RBad e => RBad e
      end
  end.

Definition vm0 : mem := mkMem 0 [].

(** std::swap(x, y), with t the temporary. *)
Definition vswap (x y t : nat) : list vop :=
  [VMoveNew x t; VMoveAssign y x; VMoveAssign t y; VDestroy t].

End Values.
Arguments obj T : clear implicits.
Arguments mem T : clear implicits.
Arguments vop T : clear implicits.
