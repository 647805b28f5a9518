(** * Model of log statements (src/include/falcon/logger.h) when memory runs out.

    Extends LoggerModel: before each instruction the environment decides whether, and where, an
    allocation fails while the instruction is executed.  An allocation that fails throws
    std::bad_alloc, except inside an insertion in a stream, which catches it and sets badbit
    (its exceptions() mask is 0).  If the exception leaves a noexcept function or a destructor,
    std::terminate is called.

    Not modelled: the first use of LOGGER (instance(), L257-260); the small string
    optimisation, which makes some of these failures impossible for short strings. *)

From Coq Require Import ZArith String Bool List.
From Verif Require Import Base LogModel StreamModel LoggerModel.
Import ListNotations.
Open Scope string_scope.
Open Scope list_scope.

Inductive fault : Type :=
| FBegin    (** the argument string made of __FILE__ or of the category of LOG_CATEGORY (L411, L413, L423),
                or m_msgFile (L293-295), the first thing that AutoEnd and BlockEnd set (L315, L337) *)
| FCatArg   (** the string made for LOG_CAT (L369-372) *)
| FCatSet   (** m_category or m_tempCategory (L265-271) *)
| FText (n : nat) (reset : bool)
            (** the buffer of m_composer, when [n] characters have been written (L350); [reset]: whether
                the width was reset before *)
| FCommit   (** m_composer.str() or LogSystem::log (L277-287) *).

Inductive fev : Type :=
| FDid (e : lev)
| FThrew     (** std::bad_alloc is thrown in the statement *)
| FEnded     (** std::terminate *).

(** The exception leaves the statement: L311-320 and L333-342 are constructors, whose objects are not
    destroyed then. *)
Definition throws (k : list instr) (t : tls) : option (list instr * tls * list fev) :=
  if caught k then Some (IUnwind :: k, t, [FThrew]) else Some ([], t, [FThrew; FEnded]).

Definition terminates (t : tls) : option (list instr * tls * list fev) := Some ([], t, [FEnded]).

(** The first [n] characters arrive, then badbit is set (L350; std::ostream catches the exception). *)
Definition put_short (n : nat) (reset : bool) (i : ins) (t : tls) : tls :=
  let f := o_fmt (cstate t) in
  mkTls (composer t ++ substring 0 n (fst (insert i (cstate t))))%string (category t) (tempcat t) (tfile t) (tline t) (tlevel t)
        (mkOS (if reset then set_width 0 f else f) true).

(** An instruction with an allocation that fails; [None]: there is no such allocation. *)
Definition fstep (min cur : Z) (f : fault) (code : list instr) (t : tls) : option (list instr * tls * list fev) :=
  match f, code with
  | FBegin, IStmt (SLog _ _ _ _ _) :: k | FBegin, IStmt (SBlock _ _ _ _ _) :: k => throws k t
  | FBegin, IStmt (SCategory _) :: k =>
      (* L411: the argument is made if the test succeeds *)
      if (cur <=? min)%Z then throws k t else None
  | FCatArg, ICat _ _ :: k =>
      (* L369: LOG_CAT is evaluated whether the message is wanted or not *)
      throws k t
  | FCatSet, ICat true _ :: _ => terminates t   (* L269: noexcept *)
  | FCatSet, IStmt (SCategory _) :: _ => if (cur <=? min)%Z then terminates t else None   (* L265: noexcept *)
  | FText n reset, IStmt (SPut i) :: k =>
      if (n <? String.length (fst (insert i (cstate t))))%nat
      then Some (k, put_short n reset i t, [FDid (EvPut (substring 0 n (fst (insert i (cstate t)))))])
      else None
  | FCommit, IEnd true :: _ => terminates t              (* L322: a destructor *)
  | FCommit, IUnwind :: IEnd true :: _ => terminates t
  | FCommit, IComplete :: k => throws k t                (* L343: the variables stay as they are *)
  | _, _ => None
  end.

(** One instruction: nothing fails, or [f] does. *)
Definition fone (min cur : Z) (f : option fault) (code : list instr) (t : tls) : option (list instr * tls * list fev) :=
  match f with
  | Some f => fstep min cur f code t
  | None => match tstep min cur code t with
            | Some (code', t', es) => Some (code', t', map FDid es)
            | None => None
            end
  end.

(** The events of LoggerModel. *)
Definition did (es : list fev) : list lev := flat_map (fun e => match e with FDid e => [e] | _ => [] end) es.

(** A thread alone; [fs]: what fails in each instruction. *)
Fixpoint frun (min : Z) (fs : list (option fault)) (cur : Z) (code : list instr) (t : tls) : option (Z * list instr * tls * list fev) :=
  match fs with
  | [] => Some (cur, code, t, [])
  | f :: fs' =>
      match fone min cur f code t with
      | None => None
      | Some (code', t', es) =>
          match frun min fs' (cur_level (did es) cur) code' t' with
          | None => None
          | Some (cur'', code'', t'', es') => Some (cur'', code'', t'', es ++ es')
          end
      end
  end.
