(** * What C122 and C123 say: where synchronised iterators are.

    An ideal iterator is at a place: at an element, counted from the bottom of the stack, or at
    the end.  It does not know of pages, except that it can get lost when its stack is emptied. *)

From Coq Require Import List Arith Bool.
From Verif Require Import Base PagedStackModel PagedStackSpec PagedStackExec PagedStackSyncSpec PagedStackSyncThreadsSpec.
Import ListNotations.

Inductive place : Type :=
| AtEnd            (** past the bottom *)
| At (p : nat)     (** [p] elements below it *)
| Lost.            (** not to be used any more *)

Section Ideal.
Context {T : Type}.
Variables ps pa : nat.

(** The place of the top, and the place the iterator is at after an exception. *)
Definition top_place (l : list T) : place := match l with [] => AtEnd | _ :: l' => At (length l') end.
Definition after_throw (pl : place) : place :=
  match pl with At p => if p <? ps then pl else Lost | _ => pl end.

(** get(): the element at the place; the top if the stack has shrunk below the place. *)
Definition use_get (l : list T) (pl : place) : option (place * answer T) :=
  match l, pl with
  | _, Lost => None
  | [], _ => Some (after_throw pl, AThrown)
  | v :: _, At p => match nth_error (rev l) p with
                    | Some u => Some (pl, AVal u)
                    | None => Some (top_place l, AVal v)
                    end
  | v :: _, AtEnd => if length l <=? ps then Some (top_place l, AVal v) else None
  end.

(** ++: towards the bottom; to the top if the stack has shrunk below the place. *)
Definition use_inc (l : list T) (pl : place) : option (place * answer T) :=
  match l, pl with
  | _, Lost => None
  | [], _ => Some (after_throw pl, AThrown)
  | _, At p => Some (if p <? length l then match p with 0 => AtEnd | S q => At q end else top_place l, ADone)
  | _, AtEnd => if length l <=? ps then Some (top_place l, ADone) else None
  end.

(** --: away from the bottom.  Beyond the top it goes to the next page, if there is one. *)
Definition use_dec (blocks : nat) (l : list T) (pl : place) : option (place * answer T) :=
  match l, pl with
  | _, Lost => None
  | [], _ => Some (after_throw pl, AThrown)
  | _, At p =>
      if S p <? length l then Some (At (S p), ADone)
      else if S p =? length l then
        if S (p / ps) <? blocks then Some (At (S (p / ps) * ps), ADone) else None
      else Some (top_place l, ADone)
  | _, AtEnd => Some (if length l <=? ps then top_place l else At 0, ADone)
  end.

Definition use_place (e : event T) (x : sspec T) (pl : place) : option (place * answer T) :=
  match e with
  | SyncGet _ => use_get (ss_list x) pl
  | SyncInc _ => use_inc (ss_list x) pl
  | SyncDec _ => use_dec (ss_blocks x) (ss_list x) pl
  | _ => None
  end.

(** An event in the ideal world: the stack is [x] (as in C11), the iterators are at [pls]. *)
Definition istep (e : event T) (x : sspec T) (pls : list place) : option (sspec T * list place * answer T) :=
  match sspec_step ps pa e x with
  | None => None
  | Some x' =>
      match e with
      | Op o => match spec_step o (ss_list x) with Some (_, r) => Some (x', pls, ARet r) | None => None end
      | SyncBegin => Some (x', pls ++ [top_place (ss_list x)], ADone)
      | SyncEnd => Some (x', pls ++ [AtEnd], ADone)
      | SyncGet k | SyncInc k | SyncDec k =>
          match nth_error pls k with
          | None => None
          | Some pl => match use_place e x pl with
                       | Some (pl', a) => Some (x', upd k (fun _ => pl') pls, a)
                       | None => None
                       end
          end
      | SyncDestroy k => Some (x', remove_nth k pls, ADone)
      | SyncCopy _ => None
      end
  end.

Fixpoint irun (es : list (event T)) (x : sspec T) (pls : list place) : option (sspec T * list place * list (answer T)) :=
  match es with
  | [] => Some (x, pls, [])
  | e :: r => match istep e x pls with
              | None => None
              | Some (x', pls', a) => match irun r x' pls' with
                                      | None => None
                                      | Some (x'', pls'', rs) => Some (x'', pls'', a :: rs)
                                      end
              end
  end.

Definition place_eqb (a b : place) : bool :=
  match a, b with AtEnd, AtEnd => true | At p, At q => p =? q | _, _ => false end.

(** ** Loops over the stack *)

(** The calls of a client: events, and the comparison of two of its iterators. *)
Inductive call : Type := Do (e : event T) | Compare (i j : nat).
Inductive reply : Type := Answered (a : answer T) | Compared (b : bool).

Definition cexec (debug : bool) (c : call) (w : world T) : res (world T) reply :=
  match c with
  | Do e => match wexec debug e w with
            | ROk w' a => ROk w' (Answered a)
            | RThrow w' => RThrow w'
            | RBad b => RBad b
            end
  | Compare i j =>
      match nth_error (w_live w) i, nth_error (w_live w) j with
      | Some a, Some b => match s_eq a b (w_stack w) with
                          | ROk s r => ROk (mkW s (w_live w)) (Compared r)
                          | RThrow s => RThrow (mkW s (w_live w))
                          | RBad b => RBad b
                          end
      | _, _ => RBad UB
      end
  end.

Fixpoint crun (debug : bool) (cs : list call) (w : world T) : res (world T) (list reply) :=
  match cs with
  | [] => ROk w []
  | c :: r => match cexec debug c w with
              | ROk w' a => match crun debug r w' with
                            | ROk w'' l => ROk w'' (a :: l)
                            | RThrow w'' => RThrow w''
                            | RBad b => RBad b
                            end
              | RThrow w' => RThrow w'
              | RBad b => RBad b
              end
  end.

(** What the client knows of an iterator: it came from sync_end() and was not used since; or it
    compared unequal to such a one and was not moved since; or it has thrown. *)
Inductive known : Type := IsEnd | NotEnd | Anywhere | HasThrown.

(** The discipline of the usual loop
      for(auto it = s.sync_begin(); it != s.sync_end(); ++it) it.get(v);
    left at the first exception: get() and ++ only right after a comparison with sync_end() said
    that it is not there, ++ at most once; -- not at all; no use after an exception.  Other
    iterators and other threads may do anything that keeps to it, at any moment. *)
Definition allowed (c : call) (st : list known) : bool :=
  match c with
  | Do (SyncGet k) | Do (SyncInc k) => match nth_error st k with Some NotEnd => true | _ => false end
  | Do (SyncDec _) | Do (SyncCopy _) => false
  | Do _ => true
  | Compare i j => match nth_error st i, nth_error st j with
                   | Some HasThrown, _ | _, Some HasThrown | None, _ | _, None => false
                   | _, _ => true
                   end
  end.

Definition learn (c : call) (r : reply) (st : list known) : list known :=
  match c, r with
  | Do SyncBegin, _ => st ++ [Anywhere]
  | Do SyncEnd, _ => st ++ [IsEnd]
  | Do (SyncGet k), Answered AThrown | Do (SyncInc k), Answered AThrown => upd k (fun _ => HasThrown) st
  | Do (SyncInc k), _ => upd k (fun _ => Anywhere) st
  | Do (SyncDestroy k), _ => remove_nth k st
  | Compare i j, Compared false =>
      match nth_error st i, nth_error st j with
      | Some Anywhere, Some IsEnd => upd i (fun _ => NotEnd) st
      | _, _ => st
      end
  | _, _ => st
  end.

Definition events (cs : list call) : list (event T) :=
  flat_map (fun c => match c with Do e => [e] | Compare _ _ => [] end) cs.

Definition answered (rs : list reply) : list (answer T) :=
  flat_map (fun r => match r with Answered a => [a] | Compared _ => [] end) rs.

(** Every call keeps to the discipline and is legal for the stack. *)
Fixpoint disciplined (debug : bool) (cs : list call) (w : world T) (x : sspec T) (st : list known) : Prop :=
  match cs with
  | [] => True
  | c :: r =>
      allowed c st = true /\
      exists x', sspec_run ps pa (events [c]) x = Some x' /\
        forall w' a, cexec debug c w = ROk w' a -> disciplined debug r w' x' (learn c a st)
  end.

(** A loop in the company of others: before each get() and each ++ of iterator [k], others call
    the stack. *)
Definition loop_events (k : nat) (envs : list (list (op T) * list (op T))) : list (event T) :=
  flat_map (fun env => map Op (fst env) ++ [SyncGet k] ++ map Op (snd env) ++ [SyncInc k]) envs.

(** The values get() gave. *)
Definition values (rs : list (answer T)) : list T := flat_map (fun a => match a with AVal v => [v] | _ => [] end) rs.

(** The calls [ops] leave [base] at the bottom: at every moment the contents are [base] and
    something above it. *)
Fixpoint keeps_base (base : list T) (ops : list (op T)) (l : list T) : Prop :=
  match ops with
  | [] => True
  | o :: r => exists m x, spec_step o l = Some (m ++ base, x) /\ core_op o = true /\ keeps_base base r (m ++ base)
  end.

End Ideal.
Arguments call T : clear implicits.
Arguments reply T : clear implicits.
