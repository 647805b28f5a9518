(** * Model of LogStreamListener (src/include/falcon/logstream.h, src/engine/logstream.cpp)
    and LogProxyListener (src/include/falcon/logproxy.h).

    The lines written are those on a stream in its default format; [line_ins] gives the insertions
    that make up a line, for a stream in any state.  Not modelled: locales. *)

From Coq Require Import ZArith String Ascii Bool List.
From Verif Require Import Base LogModel TextModel StreamModel.
Import ListNotations.
Open Scope string_scope.
Open Scope list_scope.

(** ** The line *)

(** The fields of struct tm that are used. *)
Record tm : Type := mkTm { tm_year : Z; tm_mon : Z; tm_mday : Z; tm_hour : Z; tm_min : Z; tm_sec : Z }.

(** setup.h L99: FALCON_DIR_SEP_CHR on Unix *)
Definition dir_sep : ascii := "/".

(** logstream.cpp L29-36 *)
Definition base_name (file : string) : string :=
  match rfind dir_sep file with Some fpos => drop (S fpos) file | None => file end.

(** L46-55: setfill('0') << setw(2) << z << sep *)
Definition field_ins (z : Z) (sep : ascii) : list ins := [PManip (MFill "0"); PManip (MSetw 2); PInt z; PChar sep].

(** L43-64: the insertions *)
Definition line_ins (t : tm) (m : msg) : list ins :=
  [PInt (tm_year t + 1900); PChar "-"] ++
  field_ins (tm_mon t + 1) "-" ++ field_ins (tm_mday t) " " ++
  field_ins (tm_hour t) ":" ++ field_ins (tm_min t) ":" ++ field_ins (tm_sec t) " " ++
  [PManip (MSetw 0); PText "["; PText (levelToString (m_level m)); PText "] "] ++
  (if String.eqb (m_cat m) "" then [] else [PText "("; PText (m_cat m); PText ") "]) ++
  [PText (base_name (m_file m)); PChar ":"; PInt (m_line m); PText " "; PText (m_text m); PText nl].

(** L23-67 on a stream in its default format *)
Definition log_line (t : tm) (m : msg) : string := fst (emit (line_ins t m) os0).

(** ** The sink *)

(** What m_pout points to: m_dummy, nothing, or stream number [s]. *)
Inductive target : Type := Dummy | Null | Str (s : nat).

(** The listener's members (logstream.h L66-73), the streams that were destroyed, how many
    shared_ptr to each stream exist elsewhere, and what was written where. *)
Record sink : Type := mkSink {
  pout : target; uptr : option nat; shptr : option nat;
  destroyed : list nat; ext : nat -> nat; written : list (nat * string) }.

Definition sink0 (ext0 : nat -> nat) : sink := mkSink Dummy None None [] ext0 [].

(** All the calls below are made under m_mtxStream, so a sequence of them is what any number of
    threads, the log thread included, can do.  The last two are made by the rest of the program:
    a shared_ptr to [s] goes away; a stream of its own is deleted. *)
Inductive sop : Type :=
| Own (s : option nat) | Share (s : option nat) | WriteOn (s : option nat)
| OnMessage (line : string) | Release (s : nat) | Delete (s : nat).

Definition to_target (s : option nat) : target := match s with Some s => Str s | None => Null end.
Definition same (a b : option nat) : bool :=
  match a, b with Some x, Some y => (x =? y)%nat | None, None => true | _, _ => false end.

Definition sstep (op : sop) (k : sink) : res sink unit :=
  match op with
  | Own s => (* L41-45: the stream owned so far is destroyed *)
      ROk (mkSink (to_target s) s (shptr k) (match uptr k with Some o => o :: destroyed k | None => destroyed k end) (ext k) (written k)) tt
  | Share s => (* L48-52: the stream shared so far loses a reference *)
      ROk (mkSink (to_target s) (uptr k) s
             (match shptr k with
              | Some o => if same (Some o) s then destroyed k else if (ext k o =? 0)%nat then o :: destroyed k else destroyed k
              | None => destroyed k
              end) (ext k) (written k)) tt
  | WriteOn s => (* L55-58 *)
      ROk (mkSink (to_target s) (uptr k) (shptr k) (destroyed k) (ext k) (written k)) tt
  | OnMessage line => (* logstream.cpp L40-66 *)
      match pout k with
      | Dummy => ROk k tt
      | Null => RBad UB
      | Str s => if existsb (Nat.eqb s) (destroyed k) then RBad UB
                 else ROk (mkSink (pout k) (uptr k) (shptr k) (destroyed k) (ext k) (written k ++ [(s, line)])) tt
      end
  | Release s =>
      let n := pred (ext k s) in
      ROk (mkSink (pout k) (uptr k) (shptr k)
             (if (n =? 0)%nat && negb (same (shptr k) (Some s)) then s :: destroyed k else destroyed k)
             (fun x => if (x =? s)%nat then n else ext k x) (written k)) tt
  | Delete s => ROk (mkSink (pout k) (uptr k) (shptr k) (s :: destroyed k) (ext k) (written k)) tt
  end.

Fixpoint srun (ops : list sop) (k : sink) : res sink unit :=
  match ops with
  | [] => ROk k tt
  | op :: ops' => match sstep op k with ROk k' _ => srun ops' k' | r => r end
  end.

(** ** Proxies *)

(** logproxy.h L37-43: [other l] is m_other of listener [l] if it is a proxy.  The listeners
    whose onMessage runs when that of [l] is called; the depth of the chain is bounded by the
    number of listeners, since m_other exists before the proxy. *)
Fixpoint chain (other : nat -> option nat) (n : nat) (l : nat) : list nat :=
  match n with
  | O => [l]
  | S n' => l :: match other l with Some t => chain other n' t | None => [] end
  end.
