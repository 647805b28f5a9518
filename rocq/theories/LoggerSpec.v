(** * What the properties of Logger speak about. *)

From Coq Require Import ZArith String Bool List.
From Verif Require Import Base LogModel LogSpec StreamModel LoggerModel.
Import ListNotations.
Open Scope string_scope.
Open Scope list_scope.

(** ** Plain statements: no operand logs, no block is left early *)
Inductive plain : Type :=
| LogLine (file : string) (line lvl : Z) (cat : option string) (texts : list string)
| LogBlock (file : string) (line lvl : Z) (texts : list string)
| SetCat (c : string)
| SetLevel (z : Z).

Definition embed (p : plain) : stmt :=
  match p with
  | LogLine f l v c ts => SLog f l v c (map (fun t : string => Op [] [SPut t]) ts)
  | LogBlock f l v ts => SBlock f l v (map (fun t : string => SPut t) ts) false
  | SetCat c => SCategory c
  | SetLevel z => SLevel z
  end.

Definition joined (l : list string) : string := fold_right (fun a b => (a ++ b)%string) "" l.

(** The category of a message: the temporary one if there is one and it is not empty. *)
Definition override (c : option string) (cat : string) : string :=
  match c with None => cat | Some x => if String.eqb x "" then cat else x end.

(** The messages of a thread that executes [p] under category [cat], when the level tests it
    makes give the results [ts]. *)
Fixpoint expect (cat : string) (p : list plain) (ts : list bool) : list msg :=
  match p with
  | [] => []
  | LogLine f l v c texts :: p' =>
      match ts with
      | b :: ts' => (if b then [mkMsg f l v (override c cat) (joined texts)] else []) ++ expect cat p' ts'
      | [] => []
      end
  | LogBlock f l v texts :: p' =>
      match ts with
      | b :: b' :: ts' => (if b && b' then [mkMsg f l v cat (joined texts)] else []) ++ expect cat p' ts'
      | _ => []
      end
  | SetCat c :: p' =>
      match ts with b :: ts' => expect (if b then c else cat) p' ts' | [] => [] end
  | SetLevel _ :: p' => expect cat p' ts
  end.

(** The messages of a program that runs alone, at compile-time level [min] and level [lvl]. *)
Fixpoint messages (min lvl : Z) (cat : string) (p : list plain) : list msg :=
  match p with
  | [] => []
  | LogLine f l v c texts :: p' =>
      (if (v <=? min)%Z && (v <=? lvl)%Z then [mkMsg f l v (override c cat) (joined texts)] else []) ++ messages min lvl cat p'
  | LogBlock f l v texts :: p' =>
      (if (v <=? min)%Z && (v <=? lvl)%Z then [mkMsg f l v cat (joined texts)] else []) ++ messages min lvl cat p'
  | SetCat c :: p' => messages min lvl (if (lvl <=? min)%Z then c else cat) p'
  | SetLevel z :: p' => messages min z cat p'
  end.

(** The level and the category of the thread after [p] ran alone. *)
Fixpoint level_of (lvl : Z) (p : list plain) : Z :=
  match p with
  | [] => lvl
  | SetLevel z :: p' => level_of z p'
  | _ :: p' => level_of lvl p'
  end.
Fixpoint category_of (min lvl : Z) (cat : string) (p : list plain) : string :=
  match p with
  | [] => cat
  | SetLevel z :: p' => category_of min z cat p'
  | SetCat c :: p' => category_of min lvl (if (lvl <=? min)%Z then c else cat) p'
  | _ :: p' => category_of min lvl cat p'
  end.

(** [p] does not touch categories. *)
Definition no_cats (p : list plain) : Prop :=
  Forall (fun s => match s with SetCat _ => False | LogLine _ _ _ c _ => c = None | _ => True end) p.

(** ** The record of events *)
Definition of_thread (i : nat) (tr : list (nat * lev)) : list lev :=
  pick (fun e => if (i =? fst e)%nat then Some (snd e) else None) tr.
Definition commits (es : list lev) : list msg := pick (fun e => match e with EvCommit m _ => Some m | _ => None end) es.
Definition accepts (es : list lev) : list msg := pick (fun e => match e with EvCommit m true => Some m | _ => None end) es.
Definition tests (es : list lev) : list bool := pick (fun e => match e with EvTest _ b | EvGuard b => Some b | _ => None end) es.
Definition puts (es : list lev) : list string := pick (fun e => match e with EvPut s => Some s | _ => None end) es.
(** The level after these events. *)
Fixpoint level_after (tr : list (nat * lev)) (z : Z) : Z :=
  match tr with
  | [] => z
  | (_, EvSetLevel z') :: tr' => level_after tr' z'
  | _ :: tr' => level_after tr' z
  end.

(** Any number of threads, any schedule. *)
Definition lreaches (min : Z) (progs : list (list stmt)) (w : lworld) (tr : list (nat * lev)) : Prop :=
  exists sched, lwrun min sched (lwinit progs) = Some (w, tr).

(** Thread [i] has executed its whole program. *)
Definition lfinished (w : lworld) (i : nat) : Prop := exists t, nth_error (lw_threads w) i = Some ([], t).
(** Thread [i] has executed its program but for the statements [p]. *)
Definition between (w : lworld) (i : nat) (p : list stmt) : Prop :=
  exists t, nth_error (lw_threads w) i = Some (map IStmt p, t).
(** The text not yet sent by thread [i]. *)
Definition unsent (w : lworld) (i : nat) : string :=
  match nth_error (lw_threads w) i with Some (_, t) => composer t | None => "" end.

(** [n] instructions of one thread with nobody else changing the level. *)
Fixpoint trun (min : Z) (n : nat) (cur : Z) (code : list instr) (t : tls) : option (list instr * tls * list lev) :=
  match n with
  | O => Some (code, t, [])
  | S n' => match tstep min cur code t with
            | None => None
            | Some (code', t', es) =>
                match trun min n' (cur_level es cur) code' t' with
                | None => None
                | Some (code'', t'', es') => Some (code'', t'', es ++ es')
                end
            end
  end.

(** A thread with its own variables and nothing else: [curs] are the levels it finds. *)
Fixpoint solo (min : Z) (curs : list Z) (code : list instr) (t : tls) : option (list instr * tls * list lev) :=
  match curs with
  | [] => Some (code, t, [])
  | cur :: curs' =>
      match tstep min cur code t with
      | None => None
      | Some (code', t', es) => match solo min curs' code' t' with
                                | None => None
                                | Some (code'', t'', es') => Some (code'', t'', es ++ es')
                                end
      end
  end.

(** The message is one of statement [s]'s: its file, line, level and text, and its temporary
    category if it has one. *)
Definition comes_from (s : plain) (m : msg) : Prop :=
  match s with
  | LogLine f l v c texts => m_file m = f /\ m_line m = l /\ m_level m = v /\ m_text m = joined texts /\
      match c with Some x => x <> "" -> m_cat m = x | None => True end
  | LogBlock f l v texts => m_file m = f /\ m_line m = l /\ m_level m = v /\ m_text m = joined texts
  | _ => False
  end.

(** ** Filters *)
Section Filter.
Context {RE : Type}.
Variable rmatch : string -> RE -> bool.

(** Calls of categoryFilter. *)
Definition filters (fs : list (string * Z)) : list fop := map (fun f => FFilter (fst f) (snd f)) fs.

(** The filters in force: proxies that were added and not detached. *)
Definition in_force (s : @fstate RE) : list nat :=
  filter (fun k => (0 <? k)%nat && match nth_error (f_listeners s) k with Some L => negb (l_detached L) | None => false end) (f_added s).

(** How often the default listener writes [m]: for itself and through each proxy. *)
Definition copies (s : @fstate RE) (m : msg) : nat :=
  List.length (filter (fun k => match nth_error (f_listeners s) k with
                                | Some L => negb (l_detached L) && wants rmatch L m
                                | None => false
                                end) (f_added s)).
End Filter.
