(** * What the properties of the log stream and of the proxies speak about. *)

From Coq Require Import ZArith String Ascii Bool List.
From Verif Require Import Base LogModel LogSpec TextModel TextSpec StreamModel LogStreamModel.
Import ListNotations.
Open Scope string_scope.
Open Scope list_scope.

(** ** Reading a log line *)
Record line_fields : Type := mkFields {
  lf_year : Z; lf_month : Z; lf_day : Z; lf_hour : Z; lf_minute : Z; lf_second : Z;
  lf_tag : string; lf_category : string; lf_file : string; lf_line : Z; lf_text : string }.

Definition obind {A B : Type} (o : option A) (f : A -> option B) : option B := match o with Some a => f a | None => None end.
Notation "'let?' p := a 'in' b" := (obind a (fun x => match x with p => b end)) (at level 200, p pattern, right associativity).

Definition read_line (s : string) : option line_fields :=
  let? (y, s) := upto "-" s in
  let? (mo, s) := upto "-" s in
  let? (d, s) := upto " " s in
  let? (h, s) := upto ":" s in
  let? (mi, s) := upto ":" s in
  let? (se, s) := upto " " s in
  let? s := after "[" s in
  let? (tag, s) := cut 4 s in
  let? s := after "] " s in
  let? (cat, s) := match after "(" s with
                   | Some s' => let? (c, r) := upto ")" s' in let? r := after " " r in Some (c, r)
                   | None => Some ("", s)
                   end in
  let? (file, s) := upto ":" s in
  let? (line, s) := upto " " s in
  let? text := chop newline s in
  let? y := undec y in let? mo := undec mo in let? d := undec d in
  let? h := undec h in let? mi := undec mi in let? se := undec se in let? line := undec line in
  Some (mkFields y mo d h mi se tag cat file line text).

(** [d] in a pattern stands for a digit, other characters for themselves. *)
Fixpoint like (p s : string) : Prop :=
  match p, s with
  | "", _ => True
  | String a p', String b s' => (if Ascii.eqb a "d" then (48 <= nat_of_ascii b <= 57)%nat else a = b) /\ like p' s'
  | _, "" => False
  end.

(** What localtime guarantees, and a year of four digits. *)
Definition tm_ok (t : tm) : Prop :=
  (1000 <= tm_year t + 1900 <= 9999 /\ 0 <= tm_mon t <= 11 /\ 1 <= tm_mday t <= 31 /\ 0 <= tm_hour t <= 23 /\
   0 <= tm_min t <= 59 /\ 0 <= tm_sec t <= 60)%Z.

(** [b] is what follows the last directory separator of [f]. *)
Definition without_directory (f b : string) : Prop :=
  ~ has "/" b /\ (f = b \/ exists d, f = (d ++ "/" ++ b)%string).

(** ** Lines on a stream in any state *)

(** A stream in order, in decimal, without showpos and left adjustment, with no pending width
    beyond the four digits of a year; fill character, showbase and uppercase do not matter. *)
Definition usual (o : ostate) : Prop :=
  o_bad o = false /\ fm_base (o_fmt o) = BDec /\ fm_showpos (o_fmt o) = false /\ fm_adjust (o_fmt o) <> ALeft /\ fm_width (o_fmt o) <= 4.

(** The stream as a line leaves it: the fill character is '0' and no width is pending. *)
Definition left_behind (o : ostate) : ostate :=
  mkOS (mkFmt (fm_base (o_fmt o)) (fm_adjust (o_fmt o)) (fm_showbase (o_fmt o)) (fm_showpos (o_fmt o)) (fm_upper (o_fmt o)) "0" 0) (o_bad o).

(** One stream used by the program and by the listener: who inserts, and what. *)
Inductive use : Type := UseIns (i : ins) | UseLine (t : tm) (m : msg).
Definition use_ins (u : use) : list ins := match u with UseIns i => [i] | UseLine t m => line_ins t m end.

(** The text of each use, and all of it. *)
Fixpoint uses (us : list use) (o : ostate) : list string :=
  match us with
  | [] => []
  | u :: us' => let (s, o') := emit (use_ins u) o in s :: uses us' o'
  end.

(** Insertions of the program that keep the stream usual. *)
Definition tame (u : use) : Prop :=
  match u with
  | UseIns PFail => False
  | UseIns (PManip (MBase b)) => b = BDec
  | UseIns (PManip (MAdjust a)) => a <> ALeft
  | UseIns (PManip (MShowpos x)) => x = false
  | UseIns (PManip (MSetw n)) => n <= 4
  | UseIns _ => True
  | UseLine t _ => tm_ok t
  end.

(** ** Sinks *)

(** The lines written by a sequence of calls, each to the stream set last. *)
Fixpoint writes (cur : target) (ops : list sop) : list (nat * string) :=
  match ops with
  | [] => []
  | Own s :: ops' | Share s :: ops' | WriteOn s :: ops' => writes (to_target s) ops'
  | OnMessage line :: ops' => (match cur with Str s => [(s, line)] | _ => [] end) ++ writes cur ops'
  | _ :: ops' => writes cur ops'
  end.

(** A stream is given away with own(), or shared, or stays with the program. *)
Inductive kind : Type := Unique | Shared | Plain.

(** What a program may do: pass to own() a stream it has not passed yet, pass to share() a
    shared_ptr it holds, drop a shared_ptr it holds, delete its own streams; no null pointers. *)
Fixpoint proper (kd : nat -> kind) (held : nat -> nat) (given : list nat) (ops : list sop) : Prop :=
  match ops with
  | [] => True
  | Own (Some s) :: ops' => kd s = Unique /\ ~ In s given /\ proper kd held (s :: given) ops'
  | Share (Some s) :: ops' => kd s = Shared /\ 0 < held s /\ proper kd held given ops'
  | Own None :: _ | Share None :: _ | WriteOn None :: _ => False
  | WriteOn (Some _) :: ops' | OnMessage _ :: ops' => proper kd held given ops'
  | Release s :: ops' => kd s = Shared /\ 0 < held s /\ proper kd (fun x => if (x =? s)%nat then pred (held s) else held x) given ops'
  | Delete s :: ops' => kd s = Plain /\ proper kd held given ops'
  end.

(** The current sink was set by own() or share(). *)
Fixpoint kept (cur : option nat) (ops : list sop) : option nat :=
  match ops with
  | [] => cur
  | Own s :: ops' | Share s :: ops' => kept s ops'
  | WriteOn _ :: ops' => kept None ops'
  | _ :: ops' => kept cur ops'
  end.

(** ** Proxies *)

(** [t] is [l], the target of [l], the target of that, and so on. *)
Inductive leads_to (other : nat -> option nat) : nat -> nat -> Prop :=
| here : forall l, leads_to other l l
| next : forall l u t, other l = Some u -> leads_to other u t -> leads_to other l t.

(** The messages with which the onMessage of listener [t] is called through listener [l]. *)
Definition through (other : nat -> option nat) (n : nat) (l t : nat) (tr : list ev) : list msg :=
  flat_map (fun m => repeat m (count_occ Nat.eq_dec (chain other n l) t)) (delivered_to l tr).
