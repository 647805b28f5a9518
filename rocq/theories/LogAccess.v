(** * Which shared memory each step of LogSystem touches, and under which mutex.

    One entry per access of src/engine/logsystem.cpp to memory that two threads can
    reach.  The std::atomic members (m_level, m_unpooled, m_destroyed and m_level,
    m_enabled, m_detached of listeners, logsystem.h L174-176, L261-263) cannot be raced
    on and are left out, as is the object that "new Message" (logsystem.cpp L225) has
    just created. *)

From Coq Require Import ZArith String Bool List Arith.
From Verif Require Import Base LogModel LogSpec.
Import ListNotations.

Inductive loc : Type :=
| LPool        (** m_pool *)
| LQueue       (** m_messages *)
| LTerm        (** m_isTerminated *)
| LMaxQ        (** m_maxMsgQueueSize *)
| LPending     (** m_pendingListeners *)
| LActive      (** m_activeListeners *)
| LReceived    (** m_msgReceived *)
| LThreadPtr   (** m_logThread *)
| LObj (o : nat)  (** a message object *)
| LCat (l : nat)  (** m_category and m_catRegex of a listener *).

Inductive lock : Type := MPool | MMessage | MListeners | MThread | MCategory (l : nat).

Record access : Type := mkA { a_loc : loc; a_write : bool; a_lock : option lock }.

(** The next step of a thread that makes API calls. *)
Definition c_accesses (c : cthread) : list access :=
  match c_pc c with
  | Idle =>
      match c_todo c with
      | CAdd _ :: _ => [mkA LPending true (Some MListeners)]            (* L139-140 *)
      | CStop :: _ => [mkA LTerm true (Some MMessage)]                  (* L66-68 *)
      | CCategory l _ :: _ => [mkA (LCat l) true (Some (MCategory l))]  (* logsystem.h L124-128 *)
      | _ => []
      end
  | LogAlloc _ => [mkA LPool true (Some MPool)]                         (* L217-221 *)
  | LogNew _ | LogMake _ => []                                          (* L224-225 *)
  | LogCtor _ o => [mkA (LObj o) true None]                             (* L92 *)
  | LogPush _ _ => [mkA LQueue true (Some MMessage); mkA LMaxQ true (Some MMessage)]  (* L99-103 *)
  | StopNotify => []                                                    (* L69 *)
  | StopLock => [mkA LThreadPtr false (Some MThread)]                   (* L73-76 *)
  | StopJoin => [mkA LThreadPtr true (Some MThread)]                    (* L79-81 *)
  | StartLock => [mkA LThreadPtr true (Some MThread)]                   (* L57-59 *)
  | Diag (FActive :: _) | Diag (FEnabled :: _) => [mkA LActive false None]   (* L257-259 *)
  | DiagCount _ _ _ => [mkA LActive false None]                         (* L258-259 *)
  | Diag (FReceived :: _) => [mkA LReceived false None]                 (* L260 *)
  | Diag (FMaxQueue :: _) => [mkA LMaxQ false (Some MMessage)]          (* L263-264 *)
  | Diag (FPool :: _) => [mkA LPool false (Some MPool)]                 (* L267-268 *)
  | Diag (FPending :: _) => [mkA LPending false (Some MListeners)]      (* L271-272 *)
  | Diag _ => []                                                        (* L255-256 *)
  end.

(** The next step of the log thread. *)
Definition t_accesses (t : tpc) : list access :=
  match t with
  | TNone | TAsleep | TExited => []
  | TCheck => [mkA LQueue true (Some MMessage); mkA LTerm false (Some MMessage)]      (* L150-162 *)
  | TGot _ => [mkA LPending true (Some MListeners); mkA LActive true (Some MListeners)]  (* L182-185 *)
  | TCount _ => [mkA LReceived true None; mkA LActive false None]                     (* L190-191 *)
  | TSend _ _ => [mkA LActive false None]                                             (* L191-192 *)
  | TLevel o _ _ => [mkA (LObj o) false None]                                         (* L193 *)
  | TCat o l _ => [mkA (LObj o) false None; mkA (LCat l) false (Some (MCategory l))]  (* L194, L203-209 *)
  | TCall o _ c => mkA (LObj o) false None :: c_accesses c                            (* L196: the callback reads the message *)
  | TClean _ _ _ => [mkA LActive true None]                                               (* L245-248 *)
  | TDispose _ => [mkA LPool true (Some MPool)]                                       (* L232-234 *)
  | TDelete _ => []                                                                   (* L238 *)
  | TFree o => [mkA (LObj o) true None]                                               (* L239 *)
  end.

Section Access.
Context {RE : Type}.

Definition accesses_of (w : @world RE) (t : tid) : list access :=
  match t with
  | Client i => match nth_error (w_clients w) i with Some c => c_accesses c | None => [] end
  | LogThread => t_accesses (logt (w_sys w))
  end.

(** Two accesses to the same memory, one of them a write, with no common mutex. *)
Definition conflict (a b : access) : Prop :=
  a_loc a = a_loc b /\ a_write a || a_write b = true /\
  match a_lock a, a_lock b with Some x, Some y => x <> y | _, _ => True end.

(** A data race on [x]: both threads are about to make conflicting accesses to it. *)
Definition race (w : @world RE) (t1 t2 : tid) (x : loc) : Prop :=
  t1 <> t2 /\ exists a b, In a (accesses_of w t1) /\ In b (accesses_of w t2) /\ conflict a b /\ a_loc a = x.

(** The thread that moves when [ch] is chosen. *)
Definition mover (ch : choice) : tid := match ch with Go i => Client i | GoLog _ | Wake => LogThread end.

(** [x] is among the memory written. *)
Definition writes (x : loc) (l : list access) : Prop := exists a, In a l /\ a_loc a = x /\ a_write a = true.

(** The contents of [x] are the same in both states. *)
Definition same_at (x : loc) (s s' : @sys RE) : Prop :=
  match x with
  | LPool => pool s' = pool s
  | LQueue => queue s' = queue s
  | LTerm => terminated s' = terminated s
  | LMaxQ => maxq s' = maxq s
  | LPending => pending s' = pending s
  | LActive => active s' = active s
  | LReceived => received s' = received s
  | LThreadPtr => no_thread s' = no_thread s
  | LObj o => o < List.length (heap s) -> nth_error (heap s') o = nth_error (heap s) o
  | LCat l => l_category (lst s' l) = l_category (lst s l) /\ l_regex (lst s' l) = l_regex (lst s l)
  end.

(** Client [i] is reading an unprotected counter in getDiags. *)
Definition in_diags (w : @world RE) (i : nat) : Prop :=
  (exists f fs, at_pc w i (Diag (f :: fs)) /\ In f [FActive; FEnabled; FReceived]) \/
  (exists n rest fs, at_pc w i (DiagCount n rest fs)).

End Access.
