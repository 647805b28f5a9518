(** * What the properties of log statements speak about when memory runs out. *)

From Coq Require Import ZArith String Bool List.
From Verif Require Import Base LogModel LogSpec StreamModel LoggerModel LoggerSpec LoggerMemModel.
Import ListNotations.
Open Scope string_scope.
Open Scope list_scope.

(** A program in which every statement has its own try { ... } catch(...) {}. *)
Definition guarded (p : list plain) : list stmt := map (fun s => STry [embed s]) p.

(** How many allocations fail. *)
Definition failures (fs : list (option fault)) : nat := List.length (pick (fun f => f) fs).

(** How often the program sees std::bad_alloc. *)
Definition thrown (es : list fev) : nat :=
  List.length (pick (fun e => match e with FThrew => Some tt | _ => None end) es).

(** The program [p], run alone at level [lvl] from the start of a thread to its end, with the
    failures [fs]; what happened is [es]. *)
Definition ran (min lvl : Z) (p : list plain) (fs : list (option fault)) (es : list fev) : Prop :=
  exists lvl' t, frun min fs lvl (map IStmt (guarded p)) tls0 = Some (lvl', [], t, es).

(** What one statement comes to: the number of failures in it, the exceptions the program sees, the
    messages, and the category afterwards. *)
Inductive outcome (min lvl : Z) (cat : string) : plain -> nat -> nat -> list msg -> string -> Prop :=
| o_done : forall s, outcome min lvl cat s 0 0 (messages min lvl cat [s]) (category_of min lvl cat [s])
    (** what it says *)
| o_nothing : forall s,
    match s with LogLine _ _ _ _ _ | LogBlock _ _ _ _ => True | SetCat _ => (lvl <= min)%Z | SetLevel _ => False end ->
    outcome min lvl cat s 1 1 [] cat
    (** an exception and nothing else *)
| o_anonymous : forall f l v x ts, (v <= min)%Z -> (v <= lvl)%Z ->
    outcome min lvl cat (LogLine f l v (Some x) ts) 1 1 [mkMsg f l v cat ""] cat
    (** an exception and a message without its category and its text *)
| o_short : forall f l v c ts t r, (v <= min)%Z -> (v <= lvl)%Z -> joined ts = (t ++ r)%string -> r <> "" ->
    outcome min lvl cat (LogLine f l v c ts) 1 0 [mkMsg f l v (override c cat) t] cat
    (** a message whose text is cut short, and no exception *)
| o_short_block : forall f l v ts t r, (v <= min)%Z -> (v <= lvl)%Z -> joined ts = (t ++ r)%string -> r <> "" ->
    outcome min lvl cat (LogBlock f l v ts) 1 0 [mkMsg f l v cat t] cat.

(** The same for a program: each statement on its own. *)
Inductive outcomes (min : Z) : Z -> string -> list plain -> nat -> nat -> list msg -> Prop :=
| os_nil : forall lvl cat, outcomes min lvl cat [] 0 0 []
| os_cons : forall lvl cat s p n x ms cat' n' x' ms',
    outcome min lvl cat s n x ms cat' -> outcomes min (level_of lvl [s]) cat' p n' x' ms' ->
    outcomes min lvl cat (s :: p) (n + n') (x + x') (ms ++ ms').
