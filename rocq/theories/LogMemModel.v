(** * Model of LogSystem when memory runs out (src/engine/logsystem.cpp,
    src/include/falcon/logsystem.h).

    The steps of LogModel.v, and beside them the steps in which an allocation fails and
    std::bad_alloc is thrown.  Simplifications: any push_back may fail, although a std::deque
    allocates only now and then; std::regex_match may throw on any expression; a client
    catches the exception and goes on with its next call; a callback does not catch it. *)

From Coq Require Import ZArith String Bool List Arith.
From Verif Require Import Base LogModel.
Import ListNotations.
Open Scope list_scope.

(** What happened: an event of LogModel.v, or std::bad_alloc reached client [i] from its call
    [k].  [lost] is for the record: the message object that log() had at that moment. *)
Inductive mev : Type := Did (e : ev) | Threw (i : nat) (k : call) (lost : option nat).

(** Who moves: as in LogModel.v, or client [i] or the log thread does so and an allocation fails. *)
Inductive mchoice : Type := Normal (ch : choice) | Fails (i : nat) | FailsLog.

Section LogMem.
Context {RE : Type}.
Variable compile : string -> option RE.
Variable rmatch : string -> RE -> bool.
Notation sys := (@sys RE).
Notation world := (@world RE).

(** An allocation fails in the next step of client [i]; [None]: there is none in it. *)
Definition fail_client (i : nat) (c : cthread) (s : sys) : option (cthread * sys * list mev) :=
  match c_pc c with
  | Idle =>
      match c_todo c with
      | CAdd l :: todo =>
          (* L140 push_back *)
          Some (mkC Idle todo, s, [Threw i (CAdd l) None])
      | CCategory l re :: todo =>
          (* logsystem.h L127: the construction of std::regex; std::bad_alloc is not a
             std::runtime_error.  L128 failing is in [category_half]. *)
          Some (mkC Idle todo, s, [Threw i (CCategory l re) None])
      | _ => None
      end
  | LogMake m =>
      (* L225: new Message fails, after the counter was changed *)
      Some (mkC Idle (c_todo c), s, [Threw i (CLog m) None])
  | LogCtor m o =>
      (* L92: the constructor fails to copy a string.  No operator delete corresponds to the
         placement new: the object stays where it is, and the pointer is gone.  Its strings are
         garbage then; the old contents stand for that. *)
      Some (mkC Idle (c_todo c), s, [Threw i (CLog m) (Some o)])
  | LogPush _ _ =>
      (* L100 push_back, in a noexcept function *)
      Some (c, set_crashed (Some Terminate) s, [])
  | StartLock =>
      (* L57-59: new std::thread fails; the lock_guard releases m_mtxThread *)
      match mtx s with
      | Some _ => None
      | None => if no_thread s then Some (mkC Idle (c_todo c), s, [Threw i CStart None]) else None
      end
  | _ => None
  end.

(** An allocation, or std::regex_match, fails in the next step of the log thread.  All of it is
    in noexcept functions (L147, L180, L188, L201, L229). *)
Definition fail_log (s : sys) : option (sys * list mev) :=
  let dies := Some (set_crashed (Some Terminate) s, []) in
  match logt s with
  | TGot _ =>
      (* L183 back_inserter *)
      match pending s with [] => None | _ :: _ => dies end
  | TCat o l _ =>
      (* L203-209 *)
      if String.eqb (m_cat (content s o)) "" then None
      else if String.eqb (l_category (lst s l)) "" then None
      else dies
  | TCall _ _ c =>
      match fail_client 0 c s with Some _ => dies | None => None end
  | TDispose _ =>
      (* L233-234 push_back *)
      if length (pool s) <? POOL then dies else None
  | _ => None
  end.

Definition mstep (ch : mchoice) (w : world) : option (world * list mev) :=
  match ch with
  | Normal ch' =>
      match step compile rmatch ch' w with
      | Some (w', es) => Some (w', map Did es)
      | None => None
      end
  | Fails i =>
      match crashed (w_sys w), nth_error (w_clients w) i with
      | None, Some c =>
          match fail_client i c (w_sys w) with
          | Some (c', s', es) => Some (mkWorld s' (upd i (fun _ => c') (w_clients w)), es)
          | None => None
          end
      | _, _ => None
      end
  | FailsLog =>
      match crashed (w_sys w) with
      | Some _ => None
      | None => match fail_log (w_sys w) with
                | Some (s', es) => Some (mkWorld s' (w_clients w), es)
                | None => None
                end
      end
  end.

Fixpoint mrun (sched : list mchoice) (w : world) : option (world * list mev) :=
  match sched with
  | [] => Some (w, [])
  | ch :: sched' =>
      match mstep ch w with
      | None => None
      | Some (w', es) => match mrun sched' w' with
                         | None => None
                         | Some (w'', es') => Some (w'', es ++ es')
                         end
      end
  end.

(** logsystem.h L124-129 when L128 fails: m_catRegex is the new one, m_category the old one. *)
Definition category_half (re : string) (l : @listener RE) : option (@listener RE) :=
  match compile re with
  | Some r => Some (mkL (l_category l) r (l_level l) (l_enabled l) (l_detached l))
  | None => None
  end.

(** logsystem.cpp L21-37, the constructor, [f k] telling whether the [k]-th allocation succeeds:
    the first is the message of the first round, the second its place in m_pool, and so on; the
    last is the thread.  [inl]: it throws; then m_pool, a container of plain pointers, is destroyed,
    the destructor is not called, and these are the message objects that exist.
    Simplification: every push_back allocates. *)
Fixpoint fill (f : nat -> bool) (n : nat) (heap : list (option msg)) (pool : list nat)
  : list (option msg) + list (option msg) * list nat :=
  match n with
  | 0 => inr (heap, pool)
  | S n' =>
      let k := 2 * length heap in
      if f k then
        let heap' := heap ++ [Some empty_msg] in
        if f (S k) then fill f n' heap' (length heap :: pool) else inl heap'
      else inl heap
  end.

Definition construct_mem (f : nat -> bool) (startNow garbage : bool) (ls : nat -> @listener RE)
  : list (option msg) + sys :=
  match fill f POOL [] [] with
  | inl h => inl h
  | inr (h, p) =>
      if startNow && negb (f (2 * POOL)) then inl h
      else inr (mkSys h p [] garbage 0 0 0 0 TRACE [] [] ls None (if startNow then TCheck else TNone) None (length h) 0)
  end.

End LogMem.
