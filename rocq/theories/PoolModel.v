(** Model of the worker pool of LDA::partial_fit and LDA::transform
    (src/ldaplusplus/LDA.cpp 90-176, 232-291) as a small-step transition system. *)
Require Import List Arith Bool.
Import ListNotations.
Set Implicit Arguments.
Set Contextual Implicit.
Set Maximal Implicit Insertion.

(** Which public function runs: partial_fit (90-135) or transform (138-176). *)
Inductive mode := Fit | Transform.

(** Who holds a mutex. *)
Inductive who := Main | Wk (w : nat).

Section Pool.
  (** [V]: variational parameters; [P]: what the E step reads (the model parameters and
      the E step's own fields); [S]: the state private to the calling thread (the M step's
      buffers, or the matrix transform fills); [R]: the payload of an expectation event (it
      depends on random sampling, so it is chosen freely); [X]: the payload of M-step
      events. *)
  Variables V P S R X : Type.

  (** The events (include/ldaplusplus/events/ProgressEvents.hpp 16-63). *)
  Inductive event :=
  | Expect (i : nat) (r : R)
  | Maxi (x : X)
  | Epoch.

  (** [estep p i]: result of doc_e_step on the document at position [i] of the corpus.
      [feed s p i v]: what the calling thread does with a result: doc_m_step
      (115-119), or the column assignment (165); new states and the M-step
      events dispatched.  [e_end]: EStep::e_step (126).  [m_end]: MStep::m_step (129-131). *)
  Variable estep : P -> nat -> V.
  Variable feed : S -> P -> nat -> V -> S * P * list X.
  Variable e_end : P -> P.
  Variable m_end : S -> P -> S * P * list X.
  (** [owner]: the calling thread is the one that built the LDA object
      (SameThreadEventDispatcher, events/Events.cpp 114-124). *)
  Variable md : mode.
  Variable owner : bool.
  (** [docs]: corpus->size(). *)
  Variable docs : nat.

  (** Program counter of a worker: doc_e_step_worker, 250-279.  The dispatch inside
      doc_e_step locks the events mutex (Events.cpp 65-69); every E step dispatches exactly
      one event, just before returning (em/*EStep.cpp). *)
  Inductive wpc :=
  | WUnborn                           (* the std::thread is not started *)
  | WTop                              (* 258: about to lock queue_in_mutex_ *)
  | WTest                             (* 259: holds it *)
  | WTake                             (* 261-262: holds it, front and pop_front *)
  | WRelease (i : nat)                (* 263: holds it, leaves the block *)
  | WBreak                            (* 260: holds it, leaves the loop *)
  | WEstep (i : nat)                  (* 266: inside doc_e_step, reading the parameters *)
  | WEvLock (i : nat) (v : V) (r : R) (* in dispatch: about to lock the events mutex *)
  | WEvPush (i : nat) (v : V) (r : R) (* holds it *)
  | WEvUnlock (i : nat) (v : V)       (* holds it *)
  | WOutLock (i : nat) (v : V)        (* 273: about to lock queue_out_mutex_ *)
  | WOutPush (i : nat) (v : V)        (* 274: holds it *)
  | WOutUnlock                        (* 275: holds it *)
  | WNotify                           (* 277: notify_one *)
  | WExit                             (* returned *)
  | WJoined.                          (* joined by the calling thread *)

  (** process_events (Events.cpp 71-111): the queue is taken under the events mutex and
      then delivered.  Simplified: one listener, registered before and not removed
      (the listener lists are modelled in EventsModel.v); copy and clear are one step. *)
  Inductive proc :=
  | PLock | PTake | PUnlock (b : list event) | PDeliver (b : list event).

  (** dispatch by the calling thread (Events.cpp 65-69, 118-124). *)
  Inductive disp :=
  | DLock (e : event) | DPush (e : event) | DUnlock | DProc (q : proc).

  (** Program counter of the calling thread; [c] counts the results consumed. *)
  Inductive mpc :=
  | MQueue (i : nat)                              (* 96-98, 152-154 *)
  | MSpawn (w : nat)                              (* 101, 232-239 *)
  | MWait (c : nat)                               (* 284, and the wake-up in 285: lock *)
  | MCheck (c : nat)                              (* 285: test the predicate, lock held *)
  | MAsleep (c : nat)                             (* 285: waiting, lock released *)
  | MPop (c : nat)                                (* 287-288, lock held *)
  | MUnlock (c : nat) (i : nat) (v : V)           (* 290-291 *)
  | MProcess (c : nat) (i : nat) (v : V) (q : proc)    (* 112, 169 *)
  | MFeed (c : nat) (i : nat) (v : V)             (* 115-119, 165 *)
  | MFeedEv (c : nat) (i : nat) (v : V) (d : disp) (xs : list X)    (* events of doc_m_step *)
  | MJoin (w : nat)                               (* 123, 173, 242-247 *)
  | MEEnd                                         (* 126 *)
  | MMEnd                                         (* 129-131 *)
  | MEndEv (d : disp) (xs : list X)               (* events of m_step *)
  | MEpoch (d : disp)                             (* 134 *)
  | MDone.

  (** What an observer can record, in order. *)
  Inductive obs :=
  | OEstep (i : nat) (v : V)     (* a worker computes the E step of document i *)
  | OFeed (i : nat) (v : V)      (* the calling thread consumes the result *)
  | OEEnd                        (* e_step() *)
  | OMEnd                        (* m_step() *)
  | ODeliver (e : event) (p : P).  (* the listener gets e (on the calling thread); p: parameters then *)

  Record state := mk_state {
    qin : list nat;
    qout : list (nat * V);
    qev : list event;
    lin : option who;
    lout : option who;
    lev : option who;
    workers : list wpc;
    main : mpc;
    priv : S;
    param : P;
    log : list obs
  }.

  Definition replace {A} (w : nat) (x : A) (l : list A) : list A :=
    firstn w l ++ x :: skipn (Datatypes.S w) l.

  Definition set_worker (w : nat) (x : wpc) (s : state) : state :=
    mk_state (qin s) (qout s) (qev s) (lin s) (lout s) (lev s) (replace w x (workers s))
             (main s) (priv s) (param s) (log s).
  Definition set_main (m : mpc) (s : state) : state :=
    mk_state (qin s) (qout s) (qev s) (lin s) (lout s) (lev s) (workers s)
             m (priv s) (param s) (log s).
  Definition set_qin (q : list nat) (s : state) : state :=
    mk_state q (qout s) (qev s) (lin s) (lout s) (lev s) (workers s) (main s) (priv s) (param s) (log s).
  Definition set_qout (q : list (nat * V)) (s : state) : state :=
    mk_state (qin s) q (qev s) (lin s) (lout s) (lev s) (workers s) (main s) (priv s) (param s) (log s).
  Definition set_qev (q : list event) (s : state) : state :=
    mk_state (qin s) (qout s) q (lin s) (lout s) (lev s) (workers s) (main s) (priv s) (param s) (log s).
  Definition set_lin (o : option who) (s : state) : state :=
    mk_state (qin s) (qout s) (qev s) o (lout s) (lev s) (workers s) (main s) (priv s) (param s) (log s).
  Definition set_lout (o : option who) (s : state) : state :=
    mk_state (qin s) (qout s) (qev s) (lin s) o (lev s) (workers s) (main s) (priv s) (param s) (log s).
  Definition set_lev (o : option who) (s : state) : state :=
    mk_state (qin s) (qout s) (qev s) (lin s) (lout s) o (workers s) (main s) (priv s) (param s) (log s).
  Definition set_data (d : S * P) (s : state) : state :=
    mk_state (qin s) (qout s) (qev s) (lin s) (lout s) (lev s) (workers s) (main s) (fst d) (snd d) (log s).
  Definition note (o : obs) (s : state) : state :=
    mk_state (qin s) (qout s) (qev s) (lin s) (lout s) (lev s) (workers s) (main s) (priv s) (param s)
             (log s ++ [o]).

  (** One step of worker [w]; [r] is the payload of its event if it produces one. *)
  Definition wstep (w : nat) (r : R) (s : state) : option state :=
    match nth_error (workers s) w with
    | None => None
    | Some pc =>
      match pc with
      | WUnborn | WExit | WJoined => None
      | WTop =>
          match lin s with
          | None => Some (set_lin (Some (Wk w)) (set_worker w WTest s))
          | Some _ => None
          end
      | WTest => Some (set_worker w (match qin s with [] => WBreak | _ => WTake end) s)
      | WTake =>
          match qin s with
          | [] => None
          | i :: q => Some (set_qin q (set_worker w (WRelease i) s))
          end
      | WRelease i => Some (set_lin None (set_worker w (WEstep i) s))
      | WBreak => Some (set_lin None (set_worker w WExit s))
      | WEstep i =>
          let v := estep (param s) i in
          Some (note (OEstep i v) (set_worker w (WEvLock i v r) s))
      | WEvLock i v r =>
          match lev s with
          | None => Some (set_lev (Some (Wk w)) (set_worker w (WEvPush i v r) s))
          | Some _ => None
          end
      | WEvPush i v r => Some (set_qev (qev s ++ [Expect i r]) (set_worker w (WEvUnlock i v) s))
      | WEvUnlock i v => Some (set_lev None (set_worker w (WOutLock i v) s))
      | WOutLock i v =>
          match lout s with
          | None => Some (set_lout (Some (Wk w)) (set_worker w (WOutPush i v) s))
          | Some _ => None
          end
      | WOutPush i v => Some (set_qout (qout s ++ [(i, v)]) (set_worker w WOutUnlock s))
      | WOutUnlock => Some (set_lout None (set_worker w WNotify s))
      | WNotify =>
          (* notify_one wakes the only possible waiter; lost if nobody waits *)
          Some (set_worker w WTop
                 (match main s with MAsleep c => set_main (MWait c) s | _ => s end))
      end
    end.

  (** One step of process_events; [k q]: the main counter while at [q]; [done]: after it. *)
  Definition proc_step (q : proc) (k : proc -> mpc) (done : mpc) (s : state) : option state :=
    match q with
    | PLock => match lev s with
               | None => Some (set_lev (Some Main) (set_main (k PTake) s))
               | Some _ => None
               end
    | PTake => Some (set_qev [] (set_main (k (PUnlock (qev s))) s))
    | PUnlock b => Some (set_lev None (set_main (k (PDeliver b)) s))
    | PDeliver [] => Some (set_main done s)
    | PDeliver (e :: b) => Some (note (ODeliver e (param s)) (set_main (k (PDeliver b)) s))
    end.

  (** One step of dispatch by the calling thread; only the owner also processes
      (Events.cpp 121-123). *)
  Definition disp_step (d : disp) (k : disp -> mpc) (done : mpc) (s : state) : option state :=
    match d with
    | DLock e => match lev s with
                 | None => Some (set_lev (Some Main) (set_main (k (DPush e)) s))
                 | Some _ => None
                 end
    | DPush e => Some (set_qev (qev s ++ [e]) (set_main (k DUnlock) s))
    | DUnlock => Some (set_lev None (set_main (if owner then k (DProc PLock) else done) s))
    | DProc q => proc_step q (fun q => k (DProc q)) done s
    end.

  (** Loop control 104 / 160: next result, or leave for destroy_worker_pool. *)
  Definition next (c : nat) : mpc :=
    if Nat.ltb c docs then MWait c else MJoin 0.
  (** After process_events: doc_m_step in partial_fit, the next round in transform. *)
  Definition after_process (c i : nat) (v : V) : mpc :=
    match md with Fit => MFeed c i v | Transform => next (Datatypes.S c) end.
  (** After the result is consumed and [xs] remain to be dispatched. *)
  Definition after_feed (c i : nat) (v : V) (xs : list X) : mpc :=
    match xs with
    | x :: xs => MFeedEv c i v (DLock (Maxi x)) xs
    | [] => match md with Fit => next (Datatypes.S c) | Transform => MProcess c i v PLock end
    end.
  Definition after_m_end (xs : list X) : mpc :=
    match xs with
    | x :: xs => MEndEv (DLock (Maxi x)) xs
    | [] => MEpoch (DLock Epoch)
    end.

  (** One step of the calling thread. *)
  Definition mstep (s : state) : option state :=
    match main s with
    | MQueue i =>
        if Nat.ltb i docs then Some (set_qin (qin s ++ [i]) (set_main (MQueue (Datatypes.S i)) s))
        else Some (set_main (MSpawn 0) s)
    | MSpawn w =>
        if Nat.ltb w (length (workers s))
        then Some (set_worker w WTop (set_main (MSpawn (Datatypes.S w)) s))
        else Some (set_main (next 0) s)
    | MWait c =>
        match lout s with
        | None => Some (set_lout (Some Main) (set_main (MCheck c) s))
        | Some _ => None
        end
    | MCheck c =>
        match qout s with
        | [] => Some (set_lout None (set_main (MAsleep c) s))
        | _ => Some (set_main (MPop c) s)
        end
    | MAsleep _ => None
    | MPop c =>
        match qout s with
        | [] => None
        | (i, v) :: q => Some (set_qout q (set_main (MUnlock c i v) s))
        end
    | MUnlock c i v =>
        Some (set_lout None (set_main (match md with Fit => MProcess c i v PLock
                                                 | Transform => MFeed c i v end) s))
    | MProcess c i v q => proc_step q (MProcess c i v) (after_process c i v) s
    | MFeed c i v =>
        let r := feed (priv s) (param s) i v in
        Some (note (OFeed i v) (set_data (fst r) (set_main (after_feed c i v (snd r)) s)))
    | MFeedEv c i v d xs => disp_step d (fun d => MFeedEv c i v d xs) (after_feed c i v xs) s
    | MJoin w =>
        if Nat.ltb w (length (workers s))
        then match nth_error (workers s) w with
             | Some WExit => Some (set_worker w WJoined (set_main (MJoin (Datatypes.S w)) s))
             | _ => None
             end
        else Some (set_main (match md with Fit => MEEnd | Transform => MDone end) s)
    | MEEnd => Some (note OEEnd (set_data (priv s, e_end (param s)) (set_main MMEnd s)))
    | MMEnd =>
        let r := m_end (priv s) (param s) in
        Some (note OMEnd (set_data (fst r) (set_main (after_m_end (snd r)) s)))
    | MEndEv d xs => disp_step d (fun d => MEndEv d xs) (after_m_end xs) s
    | MEpoch d => disp_step d MEpoch MDone s
    | MDone => None
    end.

  (** A spurious wake-up of the condition variable. *)
  Definition spurious (s : state) : option state :=
    match main s with MAsleep c => Some (set_main (MWait c) s) | _ => None end.

  (** Any interleaving. *)
  Inductive label := LMain | LWorker (w : nat) (r : R) | LSpurious.
  Definition step (l : label) (s : state) : option state :=
    match l with
    | LMain => mstep s
    | LWorker w r => wstep w r s
    | LSpurious => spurious s
    end.

  (** On entry the queues are empty, the locks free and the workers not started. *)
  Definition initial (nworkers : nat) (s0 : S) (p0 : P) : state :=
    mk_state [] [] [] None None None (repeat WUnborn nworkers) (MQueue 0) s0 p0 [].

  Inductive reachable (nworkers : nat) (s0 : S) (p0 : P) : state -> Prop :=
  | reach_init : reachable nworkers s0 p0 (initial nworkers s0 p0)
  | reach_step l s s' : reachable nworkers s0 p0 s -> step l s = Some s' -> reachable nworkers s0 p0 s'.
End Pool.
