(** * Model of LogSystem with the statements of its critical sections one by one
    (src/engine/logsystem.cpp).

    LogModel.v takes what a thread does under m_mtxMessage, m_mtxPool or m_mtxListeners as one
    step.  Here these mutexes are locked and unlocked, and the statements in between are steps,
    among which any steps of the other threads may come.  The steps outside these sections are
    those of LogModel.v.  Simplification: what is done under m_mtxCategory stays one step
    (statement by statement in ListenerModel.v). *)

From Coq Require Import ZArith String Bool List Arith.
From Verif Require Import Base LogModel LogAccess.
Import ListNotations.
Open Scope list_scope.

(** The next statement of a thread that holds one of the mutexes. *)
Inductive sect : Type :=
| SPush                      (** L100 m_messages.push_back(msg) *)
| SMax                       (** L101 m_messages.size() > m_maxMsgQueueSize *)
| SMaxSet                    (** L102 *)
| SNotify                    (** L104 *)
| SStop                      (** L67 m_isTerminated = true *)
| SAdd                       (** L140 m_pendingListeners.push_back(l) *)
| SAlloc                     (** L218-219 m_pool.empty(), m_pool.back() *)
| SPop (o : nat)             (** L220 m_pool.pop_back() *)
| SRead                      (** L264, L268, L272 *)
| SWait                      (** L151-154: test, and perhaps sleep *)
| STerm                      (** L157 *)
| SFront                     (** L161 *)
| SPopFront (o : nat)        (** L162 *)
| SCopy (n : nat)            (** L183-184, where the first n listeners were copied *)
| SClear                     (** L185 *)
| SDispose                   (** L233 *)
| SGive                      (** L234 *)
| SUnlock                    (** the mutex is released *).

Definition lock_eqb (a b : lock) : bool :=
  match a, b with
  | MPool, MPool | MMessage, MMessage | MListeners, MListeners | MThread, MThread => true
  | MCategory l, MCategory l' => l =? l'
  | _, _ => false
  end.

Definition tid_eqb (a b : tid) : bool :=
  match a, b with
  | Client i, Client j => i =? j
  | LogThread, LogThread => true
  | _, _ => false
  end.

(** The next thing a thread that makes API calls does is to lock this mutex; the first
    statement after that. *)
Definition needs (c : cthread) : option (lock * sect) :=
  match c_pc c with
  | Idle =>
      match c_todo c with
      | CAdd _ :: _ => Some (MListeners, SAdd)     (* L139 *)
      | CStop :: _ => Some (MMessage, SStop)       (* L66 *)
      | _ => None
      end
  | LogAlloc _ => Some (MPool, SAlloc)             (* L217 *)
  | LogPush _ _ => Some (MMessage, SPush)          (* L99 *)
  | Diag (FMaxQueue :: _) => Some (MMessage, SRead)    (* L263 *)
  | Diag (FPool :: _) => Some (MPool, SRead)           (* L267 *)
  | Diag (FPending :: _) => Some (MListeners, SRead)   (* L271 *)
  | _ => None
  end.

Section LogLock.
Context {RE : Type}.
Variable compile : string -> option RE.
Variable rmatch : string -> RE -> bool.
Notation sys := (@sys RE).
Notation world := (@world RE).

(** The same for the log thread. *)
Definition tneeds (s : sys) : option (lock * sect) :=
  match logt s with
  | TCheck => Some (MMessage, SWait)                      (* L150 *)
  | TGot _ => Some (MListeners, SCopy 0)                  (* L182 *)
  | TDispose _ => Some (MPool, SDispose)                  (* L232 *)
  | TCall _ _ c => needs c
  | _ => None
  end.

(** One statement of a call under its mutex.  The result: the thread, its next statement, the
    data, the events. *)
Definition csec (w : tid) (q : sect) (c : cthread) (s : sys) : option (cthread * sect * sys * list ev) :=
  let go pc q' s' es := Some (mkC pc (c_todo c), q', s', es) in
  match q, c_pc c, c_todo c with
  | SPush, LogPush m o, _ => go Idle SMax (set_queue (queue s ++ [o]) s) [EvAccept w m]
  | SMax, _, _ => Some (c, if maxq s <? length (queue s) then SMaxSet else SNotify, s, [])
  | SMaxSet, _, _ => Some (c, SNotify, set_maxq (length (queue s)) s, [])
  | SNotify, _, _ => Some (c, SUnlock, notify s, [])
  | SStop, Idle, CStop :: todo => Some (mkC StopNotify todo, SUnlock, set_terminated true s, [])
  | SAdd, Idle, CAdd l :: todo => Some (mkC Idle todo, SUnlock, set_pending (pending s ++ [l]) s, [EvAdd l])
  | SAlloc, LogAlloc m, _ =>
      match pool s with
      | [] => go (LogNew m) SUnlock s []
      | o :: _ => Some (c, SPop o, s, [])
      end
  | SPop o, LogAlloc m, _ => go (LogCtor m o) SUnlock (set_pool (tl (pool s)) s) []
  | SRead, Diag (f :: fs), _ => go (Diag fs) SUnlock s [EvRead w f (read_field s f)]
  | _, _, _ => None
  end.

(** One statement of the log thread, not in a callback, under its mutex; [None] for the next
    statement: the mutex is released with it. *)
Definition tsec (q : sect) (s : sys) : option (option sect * sys * list ev) :=
  match q, logt s with
  | SWait, TCheck =>
      (* wait() sleeps and releases the mutex in one *)
      match queue s with
      | [] => if terminated s then Some (Some STerm, s, []) else Some (None, set_logt TAsleep s, [])
      | _ => Some (Some STerm, s, [])
      end
  | STerm, TCheck =>
      (* L158: return, with the destructor of msgl *)
      if terminated s then Some (None, set_logt TExited s, []) else Some (Some SFront, s, [])
  | SFront, TCheck =>
      match queue s with
      | [] => Some (None, set_crashed (Some UB) s, [])
      | o :: _ => Some (Some (SPopFront o), s, [])
      end
  | SPopFront o, TCheck => Some (Some SUnlock, set_logt (TGot o) (set_queue (tl (queue s)) s), [EvPop (content s o)])
  | SCopy n, _ =>
      match nth_error (pending s) n with
      | Some l => Some (Some (SCopy (S n)), set_active (active s ++ [l]) s, [])
      | None => Some (Some SClear, s, [])
      end
  | SClear, _ => Some (Some SUnlock, set_pending [] s, [])
  | SDispose, TDispose o =>
      if length (pool s) <? POOL then Some (Some SGive, s, [])
      else Some (Some SUnlock, set_logt (TDelete o) s, [])
  | SGive, TDispose o => Some (Some SUnlock, set_logt TCheck (set_pool (o :: pool s) s), [])
  | _, _ => None
  end.

(** The world of LogModel.v, who holds each mutex, and the next statement of the threads that
    hold one. *)
Record fworld : Type := mkF { f_world : world; f_held : lock -> option tid; f_sect : tid -> option (lock * sect) }.

Definition set_held (k : lock) (x : option tid) (h : lock -> option tid) : lock -> option tid :=
  fun k' => if lock_eqb k k' then x else h k'.
Definition set_sect (t : tid) (x : option (lock * sect)) (f : tid -> option (lock * sect)) : tid -> option (lock * sect) :=
  fun t' => if tid_eqb t t' then x else f t'.

(** Thread [t] locks mutex [k]; blocked: [None].  [es]: what happens with it, for the record. *)
Definition acquire (t : tid) (k : lock) (q : sect) (w : world) (fw : fworld) (es : list ev) : option (fworld * list ev) :=
  match f_held fw k with
  | Some _ => None
  | None => Some (mkF w (set_held k (Some t) (f_held fw)) (set_sect t (Some (k, q)) (f_sect fw)), es)
  end.

(** The thread goes on to statement [q], or releases the mutex. *)
Definition next_sect (t : tid) (k : lock) (q : option sect) (w : world) (fw : fworld) : fworld :=
  match q with
  | Some q' => mkF w (f_held fw) (set_sect t (Some (k, q')) (f_sect fw))
  | None => mkF w (set_held k None (f_held fw)) (set_sect t None (f_sect fw))
  end.

(** getDiags() looks at m_activeListeners (L257-259, no mutex) while processNewListeners()
    changes it: undefined behaviour.  Simplification: a loop of L258-259 that was begun before the
    change and goes on after it visits the listeners of before ([DiagCount]); that this is a race,
    and that the loop can go on after the vector has lost its elements, is in C43. *)
Definition looks (c : cthread) : bool :=
  match c_pc c with Diag (FActive :: _) | Diag (FEnabled :: _) | DiagCount _ _ _ => true | _ => false end.
Definition copying (fw : fworld) : bool :=
  match f_sect fw LogThread with Some (_, SCopy _) => true | _ => false end.

(** One step.  [None]: nothing to do, or blocked. *)
Definition fstep (ch : choice) (fw : fworld) : option (fworld * list ev) :=
  let w := f_world fw in
  let s := w_sys w in
  match crashed s with
  | Some _ => None
  | None =>
      match ch with
      | Go i =>
          match nth_error (w_clients w) i with
          | None => None
          | Some c =>
              let put c' s' := mkWorld s' (upd i (fun _ => c') (w_clients w)) in
              match f_sect fw (Client i) with
              | Some (k, SUnlock) => Some (next_sect (Client i) k None w fw, [])
              | Some (k, q) =>
                  match csec (Client i) q c s with
                  | Some (c', q', s', es) => Some (next_sect (Client i) k (Some q') (put c' s') fw, es)
                  | None => None
                  end
              | None =>
                  match needs c with
                  | Some (k, q) => acquire (Client i) k q w fw []
                  | None =>
                      if looks c && copying fw then Some (mkF (put c (set_crashed (Some UB) s)) (f_held fw) (f_sect fw), [])
                      else match cstep compile (Client i) c s with
                           | Some (c', s', es) => Some (mkF (put c' s') (f_held fw) (f_sect fw), es)
                           | None => None
                           end
                  end
              end
          end
      | GoLog cb =>
          let put s' := mkWorld s' (w_clients w) in
          match f_sect fw LogThread with
          | Some (k, SUnlock) => Some (next_sect LogThread k None w fw, [])
          | Some (k, q) =>
              match logt s with
              | TCall o rest c =>
                  match csec LogThread q c s with
                  | Some (c', q', s', es) => Some (next_sect LogThread k (Some q') (put (set_logt (TCall o rest c') s')) fw, es)
                  | None => None
                  end
              | _ =>
                  match tsec q s with
                  | Some (q', s', es) => Some (next_sect LogThread k q' (put s') fw, es)
                  | None => None
                  end
              end
          | None =>
              match tneeds s with
              | Some (k, q) =>
                  match logt s with
                  | TGot o => acquire LogThread k q (put (set_logt (TCount o) s)) fw [EvBegin (content s o)]
                  | _ => acquire LogThread k q w fw []
                  end
              | None =>
                  match lstep compile rmatch cb s with
                  | Some (s', es) => Some (mkF (put s') (f_held fw) (f_sect fw), es)
                  | None => None
                  end
              end
          end
      | Wake =>
          match logt s with
          | TAsleep => Some (mkF (mkWorld (set_logt TCheck s) (w_clients w)) (f_held fw) (f_sect fw), [])
          | _ => None
          end
      end
  end.

Fixpoint frun (sched : list choice) (fw : fworld) : option (fworld * list ev) :=
  match sched with
  | [] => Some (fw, [])
  | ch :: sched' =>
      match fstep ch fw with
      | None => None
      | Some (fw', es) => match frun sched' fw' with
                          | None => None
                          | Some (fw'', es') => Some (fw'', es ++ es')
                          end
      end
  end.

(** Nobody holds a mutex. *)
Definition finit (w : world) : fworld := mkF w (fun _ => None) (fun _ => None).

End LogLock.
