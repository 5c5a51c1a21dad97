(** Model of the event dispatchers (src/ldaplusplus/events/Events.cpp). *)
Require Import List Arith Bool.
Import ListNotations.

(** Listeners and events are shared pointers; only their identity matters
    (include/ldaplusplus/events/Events.hpp 18-80).  Threads are numbered. *)
Notation listener := nat (only parsing).
Notation event := nat (only parsing).
Notation tid := nat (only parsing).

(** ** The plain EventDispatcher (not thread safe) *)

(** Events.cpp 27-29: push_back. *)
Definition plain_add (ls : list listener) (l : listener) : list listener := ls ++ [l].

(** Events.cpp 32-39: erases the first equal pointer, then breaks. *)
Fixpoint plain_remove (ls : list listener) (l : listener) : list listener :=
  match ls with
  | [] => []
  | x :: r => if Nat.eqb x l then r else x :: plain_remove r l
  end.

(** Events.cpp 42-46: the (listener, event) calls made, in order. *)
Definition plain_dispatch (ls : list listener) (e : event) : list (event * listener) :=
  map (fun l => (e, l)) ls.

(** ** The thread-safe dispatchers as a concurrent program *)

(** Events.hpp 222-231: the three mutexes (listeners, deleted listeners, events). *)
Inductive mutex := ML | MD | ME.
Definition mutex_eqb (a b : mutex) : bool :=
  match a, b with ML, ML | MD, MD | ME, ME => true | _, _ => false end.

(** The public calls a thread can make (Events.hpp 209-220). *)
Inductive call :=
| CAdd (l : listener)
| CRemove (l : listener)
| CDispatch (e : event)
| CProcess.

(** Which class the dispatcher is (Events.hpp 206 and 240); a SameThread
    dispatcher remembers the thread that built it (Events.cpp 114-116). *)
Inductive kind := ThreadSafe | SameThread (owner : tid).

(** Micro-steps.  [IErase] to [IDeliver] carry the number of the process_events
    activation they belong to (a ghost) and its local variables. *)
Inductive instr :=
| IBegin (c : call)                      (* entry of a public call *)
| IReturn (c : call)                     (* its return *)
| ILock (m : mutex)                      (* std::lock_guard constructor *)
| IUnlock (m : mutex)                    (* its destructor *)
| ILockBoth                              (* std::lock(l1, l2) of ML and MD *)
| IPushListener (l : listener)
| IInsertDeleted (l : listener)
| IPushEvent (e : event)
| IStart                                 (* entry of process_events *)
| IErase (n : nat)
| IClearDeleted
| ICopyEvents (n : nat)
| IClearEvents (n : nat) (batch : list event)
| ICopyListeners (n : nat) (batch : list event)
| IDeliver (n : nat) (todo : list (event * listener)).

(** What an outside observer can record of an execution, in order. *)
Inductive obs :=
| OCall (t : tid) (c : call)
| OReturn (t : tid) (c : call)
| OAdded (t : tid) (l : listener)        (* a listener is appended *)
| ORemoved (t : tid) (l : listener)      (* a listener is marked for removal *)
| ODispatched (t : tid) (e : event)      (* an event is queued *)
| OStart (t : tid) (n : nat)             (* process_events number n starts *)
| OPurged (t : tid) (n : nat)            (* it erases the marked listeners *)
| OTaken (t : tid) (n : nat) (batch : list event)      (* it takes the queue *)
| OSnapshot (t : tid) (n : nat) (ls : list listener)   (* it copies the listeners *)
| ODelivered (t : tid) (n : nat) (e : event) (l : listener).  (* it calls l->on_event(e) *)

(** The shared object (Events.hpp 222-231), the threads (remaining micro-steps of
    the call in progress and remaining calls) and ghost state. *)
Record world := mk_world {
  w_listeners : list listener;
  w_deleted : list listener;
  w_events : list event;
  w_locks : mutex -> option tid;
  w_code : tid -> list instr;
  w_prog : tid -> list call;
  w_next : nat;
  w_trace : list obs;
  w_ub : bool
}.

Definition upd {A} (f : nat -> A) (t : nat) (a : A) : nat -> A :=
  fun t' => if Nat.eqb t' t then a else f t'.
Definition set_lock (f : mutex -> option tid) (m : mutex) (o : option tid) : mutex -> option tid :=
  fun m' => if mutex_eqb m' m then o else f m'.

(** Events.cpp 80-85: the erase loop, by iterator position.  After
    [l = erase(l)] the iterator is at the same position of the shorter list and
    [l--; l++] brings it back, except at position 0, where [l--] decrements begin():
    undefined by the standard, the sentinel in a circular list ([circular]), from
    which [l++] returns to begin().  [fuel] bounds the iterations by the length. *)
Definition mem (l : listener) (ds : list listener) : bool := existsb (Nat.eqb l) ds.
Fixpoint erase_loop (circular : bool) (fuel : nat) (ls ds : list listener) (pos : nat)
  : option (list listener) :=
  match fuel with
  | 0 => Some ls
  | S fuel =>
    if Nat.eqb pos (length ls) then Some ls
    else if mem (nth pos ls 0) ds then
      let ls' := firstn pos ls ++ skipn (S pos) ls in
      if Nat.eqb pos 0 then (if circular then erase_loop circular fuel ls' ds 0 else None)
      else erase_loop circular fuel ls' ds pos
    else erase_loop circular fuel ls ds (S pos)
  end.

(** The micro-steps of each public call:
    add_listener 49-55, remove_listener 57-63, dispatch 65-69 and 118-124
    (a SameThread dispatch by the owner also processes), process_events 71-111. *)
Definition call_body (k : kind) (t : tid) (c : call) : list instr :=
  match c with
  | CAdd l => [ILock ML; IPushListener l; IUnlock ML]
  | CRemove l => [ILock MD; IInsertDeleted l; IUnlock MD]
  | CDispatch e =>
      [ILock ME; IPushEvent e; IUnlock ME]
      ++ match k with
         | ThreadSafe => []
         | SameThread o => if Nat.eqb t o then [IStart] else []
         end
  | CProcess => [IStart]
  end.
Definition call_code (k : kind) (t : tid) (c : call) : list instr :=
  IBegin c :: call_body k t c ++ [IReturn c].

Section Exec.
  (** [h t e l]: the dispatcher calls that listener [l] makes, on thread [t], while it
      handles event [e] (listeners may use the dispatcher; they do not throw). *)
  Variable k : kind.
  Variable h : tid -> event -> listener -> list call.
  Variable circular : bool.

  Definition emit (o : obs) (w : world) : world :=
    mk_world (w_listeners w) (w_deleted w) (w_events w) (w_locks w) (w_code w) (w_prog w)
             (w_next w) (w_trace w ++ [o]) (w_ub w).
  Definition goto (t : tid) (c : list instr) (w : world) : world :=
    mk_world (w_listeners w) (w_deleted w) (w_events w) (w_locks w) (upd (w_code w) t c) (w_prog w)
             (w_next w) (w_trace w) (w_ub w).
  Definition with_listeners (ls : list listener) (w : world) : world :=
    mk_world ls (w_deleted w) (w_events w) (w_locks w) (w_code w) (w_prog w)
             (w_next w) (w_trace w) (w_ub w).
  Definition with_deleted (ls : list listener) (w : world) : world :=
    mk_world (w_listeners w) ls (w_events w) (w_locks w) (w_code w) (w_prog w)
             (w_next w) (w_trace w) (w_ub w).
  Definition with_events (es : list event) (w : world) : world :=
    mk_world (w_listeners w) (w_deleted w) es (w_locks w) (w_code w) (w_prog w)
             (w_next w) (w_trace w) (w_ub w).
  Definition with_lock (m : mutex) (o : option tid) (w : world) : world :=
    mk_world (w_listeners w) (w_deleted w) (w_events w) (set_lock (w_locks w) m o) (w_code w) (w_prog w)
             (w_next w) (w_trace w) (w_ub w).
  Definition with_prog (t : tid) (p : list call) (w : world) : world :=
    mk_world (w_listeners w) (w_deleted w) (w_events w) (w_locks w) (w_code w) (upd (w_prog w) t p)
             (w_next w) (w_trace w) (w_ub w).
  Definition with_next (n : nat) (w : world) : world :=
    mk_world (w_listeners w) (w_deleted w) (w_events w) (w_locks w) (w_code w) (w_prog w)
             n (w_trace w) (w_ub w).
  Definition crash (w : world) : world :=
    mk_world (w_listeners w) (w_deleted w) (w_events w) (w_locks w) (w_code w) (w_prog w)
             (w_next w) (w_trace w) true.

  (** One micro-step of thread [t]; [None] when it is finished or blocked. *)
  Definition exec (t : tid) (w : world) : option world :=
    if w_ub w then None else
    match w_code w t with
    | [] => match w_prog w t with
            | [] => None
            | c :: p => Some (goto t (call_code k t c) (with_prog t p w))
            end
    | i :: rest =>
      match i with
      | IBegin c => Some (emit (OCall t c) (goto t rest w))
      | IReturn c => Some (emit (OReturn t c) (goto t rest w))
      | ILock m =>
          match w_locks w m with
          | None => Some (with_lock m (Some t) (goto t rest w))
          | Some _ => None
          end
      | IUnlock m => Some (with_lock m None (goto t rest w))
      | ILockBoth =>
          match w_locks w ML, w_locks w MD with
          | None, None => Some (with_lock ML (Some t) (with_lock MD (Some t) (goto t rest w)))
          | _, _ => None
          end
      | IPushListener l => (* 54 *)
          Some (emit (OAdded t l) (with_listeners (w_listeners w ++ [l]) (goto t rest w)))
      | IInsertDeleted l => (* 62; a set, so repetitions in the list are harmless *)
          Some (emit (ORemoved t l) (with_deleted (l :: w_deleted w) (goto t rest w)))
      | IPushEvent e => (* 68 *)
          Some (emit (ODispatched t e) (with_events (w_events w ++ [e]) (goto t rest w)))
      | IStart => (* 71-78 *)
          Some (emit (OStart t (w_next w))
                 (goto t (ILockBoth :: IErase (w_next w) :: rest) (with_next (S (w_next w)) w)))
      | IErase n => (* 80-85 *)
          match erase_loop circular (S (length (w_listeners w))) (w_listeners w) (w_deleted w) 0 with
          | None => Some (crash w)
          | Some ls =>
              Some (emit (OPurged t n) (with_listeners ls
                     (goto t (IClearDeleted :: IUnlock MD :: IUnlock ML :: ILock ME
                              :: ICopyEvents n :: rest) w)))
          end
      | IClearDeleted => (* 87 *)
          Some (with_deleted [] (goto t rest w))
      | ICopyEvents n => (* 94 *)
          Some (goto t (IClearEvents n (w_events w) :: IUnlock ME :: ILock ML
                        :: ICopyListeners n (w_events w) :: rest) w)
      | IClearEvents n b => (* 95 *)
          Some (emit (OTaken t n b) (with_events [] (goto t rest w)))
      | ICopyListeners n b => (* 102; then the nested loops 106-110 *)
          Some (emit (OSnapshot t n (w_listeners w))
                 (goto t (IUnlock ML :: IDeliver n (list_prod b (w_listeners w)) :: rest) w))
      | IDeliver n [] => Some (goto t rest w)
      | IDeliver n ((e, l) :: todo) => (* 108; the listener's own calls run inside it *)
          Some (emit (ODelivered t n e l)
                 (goto t (concat (map (call_code k t) (h t e l)) ++ IDeliver n todo :: rest) w))
      end
    end.

  (** Any interleaving: at each step any one thread moves. *)
  Inductive reachable (progs : tid -> list call) : world -> Prop :=
  | reach_init :
      reachable progs (mk_world [] [] [] (fun _ => None) (fun _ => []) progs 0 [] false)
  | reach_step w w' t :
      reachable progs w -> exec t w = Some w' -> reachable progs w'.
End Exec.
