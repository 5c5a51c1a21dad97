(** Property theorems C11-C13 (event dispatchers).  [reachable k h true progs w] says that [w] is
    a state some interleaving reaches when thread [t] makes the calls [progs t] and
    listener [l] makes the calls [h t e l] while handling [e] on thread [t]. *)
Require Import List Arith Bool Lia.
Require Import Verif.EventsModel Verif.EventsSpec Verif.EventsProofs.
Import ListNotations.

(** C11.  At every moment the events handed to process_events calls, followed by
    those still queued, are exactly the dispatched events in order. *)
Theorem C11_no_event_lost_or_duplicated :
  forall k h progs w, reachable k h true progs w ->
    dispatched (w_trace w) = taken (w_trace w) ++ w_events w.
Proof. exact (fun k h progs w H => proj1 (inv_events k h progs w H)). Qed.
Print Assumptions C11_no_event_lost_or_duplicated.

(** C11.  A process_events call delivers its batch, in order, each event to the listeners
    registered at its snapshot in registration order, once each: the deliveries so
    far are an initial part of that list, and all of it once the thread is idle. *)
Theorem C11_deliveries :
  forall k h progs w t n ls, reachable k h true progs w -> In (OSnapshot t n ls) (w_trace w) ->
    exists pre post b done todo,
      w_trace w = pre ++ OSnapshot t n ls :: post /\ ls = registered pre
      /\ tagged n (w_trace w)
         = [OStart t n; OPurged t n; OTaken t n b; OSnapshot t n ls]
           ++ map (fun p => ODelivered t n (fst p) (snd p)) done
      /\ list_prod b ls = done ++ todo
      /\ (w_code w t = [] -> todo = []).
Proof. exact snapshot_deliveries. Qed.
Print Assumptions C11_deliveries.

(** C11.  Every process_events call of a thread that is between calls is complete. *)
Theorem C11_process_calls_complete :
  forall k h progs w t n, reachable k h true progs w ->
    In (OStart t n) (w_trace w) -> w_code w t = [] ->
    exists pre post b ls,
      w_trace w = pre ++ OSnapshot t n ls :: post /\ ls = registered pre
      /\ tagged n (w_trace w)
         = [OStart t n; OPurged t n; OTaken t n b; OSnapshot t n ls]
           ++ map (fun p => ODelivered t n (fst p) (snd p)) (list_prod b ls).
Proof. exact completed. Qed.
Print Assumptions C11_process_calls_complete.

(** C11.  No data race on the listeners, the removal set or the queue. *)
Theorem C11_race_free :
  forall k h progs w, reachable k h true progs w -> ~ race w.
Proof. exact race_free. Qed.
Print Assumptions C11_race_free.

(** C11.  No deadlock: while any thread is unfinished some thread can move. *)
Theorem C11_no_deadlock :
  forall k h progs w t, reachable k h true progs w -> ~ finished w t ->
    exists t' w', exec k h true t' w = Some w'.
Proof. exact no_deadlock. Qed.
Print Assumptions C11_no_deadlock.

(** A concrete run: thread 1 dispatches event 7 and 8 while thread 0, whose listener 5
    dispatches 9 when it hears 7, processes twice. *)
Definition ex_progs (t : nat) : list call :=
  match t with
  | 0 => [CAdd 5; CAdd 6; CProcess; CProcess]
  | 1 => [CDispatch 7; CDispatch 8]
  | _ => []
  end.
Definition ex_handler (t e l : nat) : list call :=
  if Nat.eqb e 7 && Nat.eqb l 5 then [CDispatch 9] else [].
Definition deliveries_of (tr : list obs) : list (nat * nat * nat * nat) :=
  flat_map (fun o => match o with ODelivered t n e l => [(t, n, e, l)] | _ => [] end) tr.
Example C11_example :
  exists w, reachable ThreadSafe ex_handler true ex_progs w
    /\ finished w 0 /\ finished w 1
    /\ deliveries_of (w_trace w)
       = [(0, 0, 7, 5); (0, 0, 7, 6); (0, 1, 8, 5); (0, 1, 8, 6); (0, 1, 9, 5); (0, 1, 9, 6)].
Proof.
  eexists. split.
  - apply (run_initial ThreadSafe ex_handler true ex_progs
             (repeat 0 12 ++ repeat 1 6 ++ repeat 0 14 ++ repeat 1 6 ++ repeat 0 47)).
  - vm_compute. auto.
Qed.

(** C12.  A process_events call that starts after l was removed (and l is not
    added again) never notifies l. *)
Theorem C12_removed_listener_silent :
  forall k h progs w p t l q1 t' n q2, reachable k h true progs w ->
    w_trace w = p ++ ORemoved t l :: q1 ++ OStart t' n :: q2 ->
    ~ In l (added (q1 ++ q2)) ->
    forall t'' e, ~ In (ODelivered t'' n e l) (w_trace w).
Proof. exact removed_silent. Qed.
Print Assumptions C12_removed_listener_silent.

(** C12.  The listeners that were never removed are heard, as often as added and in
    order: whatever is kept of the snapshot by a filter that drops all removed
    listeners is what is kept of the additions before it. *)
Theorem C12_other_listeners_unaffected :
  forall k h progs w pre t n ls post f, reachable k h true progs w ->
    w_trace w = pre ++ OSnapshot t n ls :: post ->
    (forall l, In l (removed pre) -> f l = false) ->
    filter f ls = filter f (added pre).
Proof.
  exact (fun k h progs w pre t n ls post f H E F =>
    eq_ind_r (fun x => filter f x = _) (keep f pre F) (snapshot_registered k h progs w pre t n ls post H E)).
Qed.
Print Assumptions C12_other_listeners_unaffected.

(** Hypotheses met: listeners 5, 6, 5 are added, 5 is removed, then a process call starts. *)
Definition rm_progs (t : nat) : list call :=
  match t with 0 => [CAdd 5; CAdd 6; CAdd 5; CDispatch 1; CRemove 5; CProcess] | _ => [] end.
Example C12_example :
  exists w, reachable ThreadSafe (fun _ _ _ => []) true rm_progs w
    /\ (exists p q1 q2, w_trace w = p ++ ORemoved 0 5 :: q1 ++ OStart 0 0 :: q2 /\ ~ In 5 (added (q1 ++ q2)))
    /\ deliveries_of (w_trace w) = [(0, 0, 1, 6)].
Proof.
  set (w := run ThreadSafe (fun _ _ _ => []) true (repeat 0 60) (initial rm_progs)).
  exists w. split; [apply run_initial|].
  assert (E : w_trace w =
     [OCall 0 (CAdd 5); OAdded 0 5; OReturn 0 (CAdd 5);
      OCall 0 (CAdd 6); OAdded 0 6; OReturn 0 (CAdd 6);
      OCall 0 (CAdd 5); OAdded 0 5; OReturn 0 (CAdd 5);
      OCall 0 (CDispatch 1); ODispatched 0 1; OReturn 0 (CDispatch 1); OCall 0 (CRemove 5)]
     ++ ORemoved 0 5 :: [OReturn 0 (CRemove 5); OCall 0 CProcess]
     ++ OStart 0 0 :: [OPurged 0 0; OTaken 0 0 [1]; OSnapshot 0 0 [6]; ODelivered 0 0 1 6; OReturn 0 CProcess])
    by (vm_compute; reflexivity).
  rewrite E. split; [|reflexivity]. do 3 eexists. split; [reflexivity|]. cbn. tauto.
Qed.

(** C12 relies on std::list being circular.  By the standard alone, removing the first listener
    is undefined behaviour (the loop decrements begin()). *)
Theorem C12_remove_first_refuted :
  exists progs w, reachable ThreadSafe (fun _ _ _ => []) false progs w
    /\ progs 0 = [CAdd 5; CRemove 5; CProcess] /\ w_ub w = true.
Proof.
  exists (fun t => match t with 0 => [CAdd 5; CRemove 5; CProcess] | _ => [] end). eexists. split.
  - apply (run_initial ThreadSafe (fun _ _ _ => []) false _ (repeat 0 30)).
  - split; vm_compute; reflexivity.
Qed.
Print Assumptions C12_remove_first_refuted.

(** C12.  A listener that is removed and added again before the next process_events
    call is not notified: the later registration is lost too. *)
Theorem C12_readded_listener_lost_refuted :
  exists progs w, reachable ThreadSafe (fun _ _ _ => []) true progs w
    /\ progs 0 = [CAdd 5; CRemove 5; CAdd 5; CDispatch 1; CProcess]
    /\ finished w 0 /\ deliveries_of (w_trace w) = [].
Proof.
  exists (fun t => match t with 0 => [CAdd 5; CRemove 5; CAdd 5; CDispatch 1; CProcess] | _ => [] end).
  eexists. split.
  - apply (run_initial ThreadSafe (fun _ _ _ => []) true _ (repeat 0 60)).
  - vm_compute. auto.
Qed.
Print Assumptions C12_readded_listener_lost_refuted.

(** C12, plain dispatcher: a listener registered once is silent after removal, and
    the others keep registration and order. *)
Theorem C12_plain_removed_silent :
  forall ls l e, count_occ Nat.eq_dec ls l <= 1 -> ~ In (e, l) (plain_dispatch (plain_remove ls l) e).
Proof. exact plain_removed_silent. Qed.
Print Assumptions C12_plain_removed_silent.

Theorem C12_plain_others_unaffected :
  forall f ls l, f l = false -> filter f (plain_remove ls l) = filter f ls.
Proof. exact plain_remove_others. Qed.
Print Assumptions C12_plain_others_unaffected.

(** C12, plain dispatcher: a listener registered twice still hears events after removal. *)
Theorem C12_plain_registered_twice_refuted :
  exists ls l, ls = plain_add (plain_add [] l) l
    /\ forall e, In (e, l) (plain_dispatch (plain_remove ls l) e).
Proof. exists [3; 3], 3. split; [reflexivity|]. intros e. left. reflexivity. Qed.
Print Assumptions C12_plain_registered_twice_refuted.

(** C13.  If only the owner calls process_events explicitly, every delivery, whoever dispatched
    the event, happens on the owner's thread. *)
Theorem C13_delivered_on_owner_thread :
  forall owner h progs w t n e l,
    (forall t, t <> owner -> ~ In CProcess (progs t)) ->
    reachable (SameThread owner) h true progs w ->
    In (ODelivered t n e l) (w_trace w) -> t = owner.
Proof. exact delivered_by_owner. Qed.
Print Assumptions C13_delivered_on_owner_thread.

(** C13.  Once the owner's dispatch(e) is over, a batch was taken after e was
    queued that contains everything dispatched before and not yet taken; by C11_process_calls_complete
    it has been delivered completely. *)
Theorem C13_owner_dispatch_delivers :
  forall owner h progs w p e q,
    reachable (SameThread owner) h true progs w ->
    w_trace w = p ++ OCall owner (CDispatch e) :: q -> w_code w owner = [] ->
    exists q1 n b q2,
      q = q1 ++ OTaken owner n b :: q2 /\ In (ODispatched owner e) q1
      /\ dispatched (p ++ q1) = taken (p ++ q1) ++ b.
Proof. exact owner_dispatch_delivers. Qed.
Print Assumptions C13_owner_dispatch_delivers.

Definition st_progs (t : nat) : list call :=
  match t with 0 => [CAdd 5; CDispatch 1] | 1 => [CDispatch 2] | _ => [] end.
Example C13_example :
  exists w p q, reachable (SameThread 0) (fun _ _ _ => []) true st_progs w
    /\ w_trace w = p ++ OCall 0 (CDispatch 1) :: q /\ w_code w 0 = []
    /\ deliveries_of (w_trace w) = [(0, 0, 2, 5); (0, 0, 1, 5)].
Proof.
  set (w := run (SameThread 0) (fun _ _ _ => []) true (repeat 0 6 ++ repeat 1 6 ++ repeat 0 36)
              (initial st_progs)).
  exists w. do 2 eexists. split; [apply run_initial|].
  assert (E : w_trace w =
     [OCall 0 (CAdd 5); OAdded 0 5; OReturn 0 (CAdd 5);
      OCall 1 (CDispatch 2); ODispatched 1 2; OReturn 1 (CDispatch 2)]
     ++ OCall 0 (CDispatch 1) :: [ODispatched 0 1; OStart 0 0; OPurged 0 0; OTaken 0 0 [2; 1];
      OSnapshot 0 0 [5]; ODelivered 0 0 2 5; ODelivered 0 0 1 5; OReturn 0 (CDispatch 1)])
    by (vm_compute; reflexivity).
  rewrite E. split; [reflexivity|]. split; vm_compute; reflexivity.
Qed.

(** C13.  Nothing enforces the documented rule that only the owner may process events:
    a call from another thread is delivered on that thread. *)
Theorem C13_foreign_process_refuted :
  exists progs w, reachable (SameThread 0) (fun _ _ _ => []) true progs w
    /\ progs 1 = [CAdd 5; CDispatch 2; CProcess]
    /\ deliveries_of (w_trace w) = [(1, 0, 2, 5)].
Proof.
  exists (fun t => match t with 1 => [CAdd 5; CDispatch 2; CProcess] | _ => [] end). eexists. split.
  - apply (run_initial (SameThread 0) (fun _ _ _ => []) true _ (repeat 1 50)).
  - split; vm_compute; reflexivity.
Qed.
Print Assumptions C13_foreign_process_refuted.
