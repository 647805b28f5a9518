(** * Log statements whose operands are any insertions: what the properties speak about. *)

From Coq Require Import ZArith String Bool List.
From Verif Require Import Base LogModel LogSpec StreamModel LoggerModel LoggerSpec.
Import ListNotations.
Open Scope string_scope.
Open Scope list_scope.

(** As [plain] in LoggerSpec, with texts, numbers, manipulators and insertions that fail. *)
Inductive fplain : Type :=
| FmtLine (file : string) (line lvl : Z) (cat : option string) (ops : list ins)
| FmtBlock (file : string) (line lvl : Z) (ops : list ins)
| FmtCat (c : string)
| FmtLevel (z : Z).

Definition fembed (p : fplain) : stmt :=
  match p with
  | FmtLine f l v c ops => SLog f l v c (map (fun i => Op [] [SPut i]) ops)
  | FmtBlock f l v ops => SBlock f l v (map SPut ops) false
  | FmtCat c => SCategory c
  | FmtLevel z => SLevel z
  end.

(** The text of a statement on a stream in format [f], and the format after it. *)
Definition text_in (f : fmt) (ops : list ins) : string := fst (emit ops (mkOS f false)).
Definition fmt_after (f : fmt) (ops : list ins) : fmt := o_fmt (snd (emit ops (mkOS f false))).

(** The messages of a thread, each with the text of its own operands in default format, when
    the tests give [ts]. *)
Fixpoint own_messages (cat : string) (p : list fplain) (ts : list bool) : list msg :=
  match p with
  | [] => []
  | FmtLine f l v c ops :: p' =>
      match ts with
      | b :: ts' => (if b then [mkMsg f l v (override c cat) (text_in fmt0 ops)] else []) ++ own_messages cat p' ts'
      | [] => []
      end
  | FmtBlock f l v ops :: p' =>
      match ts with
      | b :: b' :: ts' => (if b && b' then [mkMsg f l v cat (text_in fmt0 ops)] else []) ++ own_messages cat p' ts'
      | _ => []
      end
  | FmtCat c :: p' =>
      match ts with b :: ts' => own_messages (if b then c else cat) p' ts' | [] => [] end
  | FmtLevel _ :: p' => own_messages cat p' ts
  end.

(** The same, but the format passes from one statement that is executed to the next. *)
Fixpoint fexpect (fm : fmt) (cat : string) (p : list fplain) (ts : list bool) : list msg :=
  match p with
  | [] => []
  | FmtLine f l v c ops :: p' =>
      match ts with
      | b :: ts' => if b then mkMsg f l v (override c cat) (text_in fm ops) :: fexpect (fmt_after fm ops) cat p' ts'
                    else fexpect fm cat p' ts'
      | [] => []
      end
  | FmtBlock f l v ops :: p' =>
      match ts with
      | b :: b' :: ts' => if b && b' then mkMsg f l v cat (text_in fm ops) :: fexpect (fmt_after fm ops) cat p' ts'
                          else fexpect fm cat p' ts'
      | _ => []
      end
  | FmtCat c :: p' =>
      match ts with b :: ts' => fexpect fm (if b then c else cat) p' ts' | [] => [] end
  | FmtLevel _ :: p' => fexpect fm cat p' ts
  end.

(** A program that runs alone, at compile-time level [min] and level [lvl]. *)
Fixpoint fmessages (min lvl : Z) (fm : fmt) (cat : string) (p : list fplain) : list msg :=
  match p with
  | [] => []
  | FmtLine f l v c ops :: p' =>
      if (v <=? min)%Z && (v <=? lvl)%Z then mkMsg f l v (override c cat) (text_in fm ops) :: fmessages min lvl (fmt_after fm ops) cat p'
      else fmessages min lvl fm cat p'
  | FmtBlock f l v ops :: p' =>
      if (v <=? min)%Z && (v <=? lvl)%Z then mkMsg f l v cat (text_in fm ops) :: fmessages min lvl (fmt_after fm ops) cat p'
      else fmessages min lvl fm cat p'
  | FmtCat c :: p' => fmessages min lvl fm (if (lvl <=? min)%Z then c else cat) p'
  | FmtLevel z :: p' => fmessages min z fm cat p'
  end.

(** The operands of a statement. *)
Definition operands (s : fplain) : list ins :=
  match s with FmtLine _ _ _ _ ops | FmtBlock _ _ _ ops => ops | _ => [] end.

(** A statement is tidy if it leaves a stream in default format as it found it. *)
Definition tidy (s : fplain) : Prop := fmt_after fmt0 (operands s) = fmt0.

Definition is_manip (i : ins) : bool := match i with PManip _ => true | _ => false end.

(** The operands before the first one whose insertion fails. *)
Fixpoint before_failure (ops : list ins) : list ins :=
  match ops with
  | [] => []
  | PFail :: _ => []
  | i :: ops' => i :: before_failure ops'
  end.

(** The statement with its operands cut at the first failure. *)
Definition cut_failed (s : fplain) : fplain :=
  match s with
  | FmtLine f l v c ops => FmtLine f l v c (before_failure ops)
  | FmtBlock f l v ops => FmtBlock f l v (before_failure ops)
  | _ => s
  end.
