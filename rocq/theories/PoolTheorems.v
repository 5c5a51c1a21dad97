(** Property theorems C14-C19 (worker pool).  [reachable estep feed e_end m_end md owner docs W s0 p0 s]
    says that some interleaving of the calling thread and [W] workers leads a call
    that starts with M-step buffers [s0] and parameters [p0] to the state [s]; [main s = MDone]
    says that the call has returned. *)
Require Import List Arith Bool Lia Permutation.
Require Import Verif.PoolModel Verif.PoolSpec Verif.PoolProofs Verif.PoolDone.
Import ListNotations.

(** C14.  When partial_fit returns, the E step of every document was computed exactly once and
    its result consumed exactly once. *)
Theorem C14_each_document_once :
  forall V P S R X (estep : P -> nat -> V) (feed : S -> P -> nat -> V -> S * P * list X) e_end m_end
         owner docs W s0 p0 (s : state V P S R X),
    reachable estep feed e_end m_end Fit owner docs W s0 p0 s -> main s = MDone ->
    Permutation (map fst (esteps (log s))) (seq 0 docs)
    /\ Permutation (fed (log s)) (esteps (log s)).
Proof. exact each_document_once. Qed.
Print Assumptions C14_each_document_once.

(** C14.  A consumed result was computed before, and is an E step of that very document. *)
Theorem C14_paired_with_own_result :
  forall V P S R X (estep : P -> nat -> V) (feed : S -> P -> nat -> V -> S * P * list X) e_end m_end
         owner docs W s0 p0 (s : state V P S R X) l1 i v l2,
    reachable estep feed e_end m_end Fit owner docs W s0 p0 s -> log s = l1 ++ OFeed i v :: l2 ->
    In (OEstep i v) l1
    /\ exists s' : state V P S R X,
         reachable estep feed e_end m_end Fit owner docs W s0 p0 s' /\ v = estep (param s') i.
Proof. exact paired_with_own_result. Qed.
Print Assumptions C14_paired_with_own_result.

(** C14.  The E step and then the M step are finished, once each, after all documents; the
    final state is what they make of the consumed results. *)
Theorem C14_finished_once_in_order :
  forall V P S R X (estep : P -> nat -> V) (feed : S -> P -> nat -> V -> S * P * list X) e_end m_end
         owner docs W s0 p0 (s : state V P S R X),
    reachable estep feed e_end m_end Fit owner docs W s0 p0 s -> main s = MDone ->
    (exists work, computation (log s) = work ++ [OEEnd; OMEnd] /\ Forall on_document work)
    /\ let d := consume feed (fed (log s)) (s0, p0) in
       (priv s, param s) = fst (m_end (fst d) (e_end (snd d))).
Proof. exact finished_once_in_order. Qed.
Print Assumptions C14_finished_once_in_order.

(** C15.  transform returns the E-step result of document [i] in column [i], whatever the
    matrix held before, and leaves the parameters alone. *)
Theorem C15_transform_columns :
  forall V P R X (gamma : P -> nat -> V) e_end m_end owner docs W s0 p0 (s : state V P (list V) R X),
    length s0 = docs ->
    reachable gamma (fun m p i v => (replace i v m, p, [])) e_end m_end Transform owner docs W s0 p0 s ->
    main s = MDone ->
    priv s = map (gamma p0) (seq 0 docs) /\ param s = p0.
Proof. exact transform_columns. Qed.
Print Assumptions C15_transform_columns.

(** C16.  With at least one worker no reachable state is stuck: some thread can move, without
    counting on spurious wake-ups. *)
Theorem C16_no_deadlock :
  forall V P S R X (estep : P -> nat -> V) (feed : S -> P -> nat -> V -> S * P * list X) e_end m_end
         md owner docs W s0 p0 (s : state V P S R X),
    inhabited R -> 0 < W ->
    reachable estep feed e_end m_end md owner docs W s0 p0 s -> main s <> MDone ->
    exists l s', is_spurious l = false /\ step estep feed e_end m_end md owner docs l s = Some s'.
Proof. exact no_deadlock. Qed.
Print Assumptions C16_no_deadlock.

(** C16.  Every execution is bounded, if one call of the M step dispatches at most [k] events. *)
Theorem C16_bounded :
  forall V P S R X (estep : P -> nat -> V) (feed : S -> P -> nat -> V -> S * P * list X) e_end m_end
         md owner docs k W s0 p0 (ls : list (label R)) (s : state V P S R X),
    (forall s p i v, length (snd (feed s p i v)) <= k) ->
    (forall s p, length (snd (m_end s p)) <= k) ->
    run estep feed e_end m_end md owner docs ls (initial W s0 p0) s ->
    length (filter (fun l => negb (is_spurious l)) ls)
    <= docs * (9 * k + 30) + 5 * W + 9 * k + 15 + 2 * length (filter (fun l => is_spurious l) ls).
Proof. exact steps_bounded. Qed.
Print Assumptions C16_bounded.

(** C16.  From every reachable state the call can be completed. *)
Theorem C16_can_complete :
  forall V P S R X (estep : P -> nat -> V) (feed : S -> P -> nat -> V -> S * P * list X) e_end m_end
         md owner docs k W s0 p0 (s : state V P S R X),
    inhabited R -> 0 < W ->
    (forall s p i v, length (snd (feed s p i v)) <= k) ->
    (forall s p, length (snd (m_end s p)) <= k) ->
    reachable estep feed e_end m_end md owner docs W s0 p0 s ->
    exists ls s', run estep feed e_end m_end md owner docs ls s s' /\ main s' = MDone.
Proof. exact can_complete. Qed.
Print Assumptions C16_can_complete.

(** C16.  On return the queues are empty, the locks free and the workers joined, so that the next
    call starts as the first one did. *)
Theorem C16_cleaned_up :
  forall V P S R X (estep : P -> nat -> V) (feed : S -> P -> nat -> V -> S * P * list X) e_end m_end
         md docs W s0 p0 (s : state V P S R X),
    reachable estep feed e_end m_end md true docs W s0 p0 s -> main s = MDone -> cleaned_up s.
Proof. exact all_cleaned_up. Qed.
Print Assumptions C16_cleaned_up.

(** C16, the same from any calling thread, except for the queue of events. *)
Theorem C16_joined_any_thread :
  forall V P S R X (estep : P -> nat -> V) (feed : S -> P -> nat -> V -> S * P * list X) e_end m_end
         md owner docs W s0 p0 (s : state V P S R X),
    reachable estep feed e_end m_end md owner docs W s0 p0 s -> main s = MDone ->
    qin s = [] /\ qout s = [] /\ Forall (fun pc => pc = WJoined) (workers s).
Proof. exact joined_any_thread. Qed.
Print Assumptions C16_joined_any_thread.

(** The hypothesis "at least one worker" is needed: with none the call never returns. *)
Theorem C16_no_workers_never_returns :
  forall V P S R X (estep : P -> nat -> V) (feed : S -> P -> nat -> V -> S * P * list X) e_end m_end
         md owner docs s0 p0 (s : state V P S R X),
    0 < docs -> reachable estep feed e_end m_end md owner docs 0 s0 p0 s -> main s <> MDone.
Proof. exact @no_workers. Qed.
Print Assumptions C16_no_workers_never_returns.

(** C17, when the calling thread is the one that built the LDA: one expectation event per document. *)
Theorem C17_one_event_per_document_partial :
  forall V P S R X (estep : P -> nat -> V) (feed : S -> P -> nat -> V -> S * P * list X) e_end m_end
         owner docs W s0 p0 (s : state V P S R X),
    reachable estep feed e_end m_end Fit owner docs W s0 p0 s -> main s = MDone ->
    Permutation (expects (delivered (log s))) (seq 0 docs).
Proof. exact one_event_per_document. Qed.
Print Assumptions C17_one_event_per_document_partial.

(** C17.  At every moment: a document's event was delivered before its M-step contribution. *)
Theorem C17_event_before_m_step_partial :
  forall V P S R X (estep : P -> nat -> V) (feed : S -> P -> nat -> V -> S * P * list X) e_end m_end
         owner docs W s0 p0 (s : state V P S R X) l1 i v l2,
    reachable estep feed e_end m_end Fit owner docs W s0 p0 s -> log s = l1 ++ OFeed i v :: l2 ->
    exists r p, In (ODeliver (Expect i r) p) l1.
Proof. exact event_before_m_step. Qed.
Print Assumptions C17_event_before_m_step_partial.

(** C17, when the calling thread is the one that built the LDA: the epoch event is delivered
    once, last, and shows the final parameters. *)
Theorem C17_epoch_event_last_partial :
  forall V P S R X (estep : P -> nat -> V) (feed : S -> P -> nat -> V -> S * P * list X) e_end m_end
         docs W s0 p0 (s : state V P S R X),
    reachable estep feed e_end m_end Fit true docs W s0 p0 s -> main s = MDone ->
    exists l, log s = l ++ [ODeliver Epoch (param s)] /\ Forall not_epoch l.
Proof. exact epoch_event_last. Qed.
Print Assumptions C17_epoch_event_last_partial.

(** C18, for an M step whose doc_m_step leaves the model alone: whoever writes the parameters does
    so after all workers were joined. *)
Theorem C18_batch_no_concurrent_write_partial :
  forall V P S R X (estep : P -> nat -> V) (feed : S -> P -> nat -> V -> S * P * list X) e_end m_end
         md owner docs W s0 p0 (s : state V P S R X) l s',
    (forall s p i v, snd (fst (feed s p i v)) = p) ->
    reachable estep feed e_end m_end md owner docs W s0 p0 s ->
    step estep feed e_end m_end md owner docs l s = Some s' ->
    param s' = param s \/ Forall (fun pc => pc = WJoined) (workers s).
Proof. exact @param_writes. Qed.
Print Assumptions C18_batch_no_concurrent_write_partial.

(** C19, for an M step that does not touch the model before its end and does not depend on
    the order of its inputs: two calls with different schedules and worker counts leave
    the same parameters and buffers, namely those of the sequential pass. *)
Theorem C19_schedule_independent_partial :
  forall V P S R X (estep : P -> nat -> V) (feed : S -> P -> nat -> V -> S * P * list X) e_end m_end
         owner docs W s0 p0 (s : state V P S R X),
    (forall s p i v, snd (fst (feed s p i v)) = p) ->
    (forall l l', Permutation l l' ->
       fst (m_end (fst (consume feed l (s0, p0))) (e_end p0))
       = fst (m_end (fst (consume feed l' (s0, p0))) (e_end p0))) ->
    reachable estep feed e_end m_end Fit owner docs W s0 p0 s -> main s = MDone ->
    (priv s, param s)
    = fst (m_end (fst (consume feed (map (fun i => (i, estep p0 i)) (seq 0 docs)) (s0, p0))) (e_end p0)).
Proof. exact schedule_independent. Qed.
Print Assumptions C19_schedule_independent_partial.

(** ** Concrete executions *)
(** Three documents and two workers (the instance is defined in PoolSpec.v). *)
Definition ex_end owner : state nat nat nat nat nat :=
  play ex_estep ex_feed S ex_m_end Fit owner 3 (ex_sched 60) (initial 2 0 1).

Example pool_example_reachable owner :
  reachable ex_estep ex_feed S ex_m_end Fit owner 3 2 0 1 (ex_end owner).
Proof. unfold ex_end. apply play_reach, reach_init. Qed.
Example pool_example_done : main (ex_end true) = MDone.
Proof. vm_compute. reflexivity. Qed.
(** The results arrive out of order. *)
Example pool_example_log :
  map fst (fed (log (ex_end true))) <> seq 0 3 /\ param (ex_end true) = 35.
Proof. vm_compute. split; [discriminate|reflexivity]. Qed.
Example pool_example_bounds :
  (forall s p i v, length (snd (ex_feed s p i v)) <= 1) /\ (forall s p, length (snd (ex_m_end s p)) <= 1).
Proof. split; intros; cbn; lia. Qed.
Example pool_example_batch : forall s p i v, snd (fst (ex_feed s p i v)) = p.
Proof. reflexivity. Qed.
Example pool_example_order :
  forall l l', Permutation l l' ->
    fst (ex_m_end (fst (consume ex_feed l (0, 1))) 2) = fst (ex_m_end (fst (consume ex_feed l' (0, 1))) 2).
Proof.
  enough (K : forall l l', Permutation l l' -> forall d, consume ex_feed l d = consume ex_feed l' d).
  { intros l l' H. now rewrite (K l l' H). }
  induction 1 as [|[i v] l l' H IH|[i v] [j w] l|l l' l'' _ IH1 _ IH2]; intros d; [reflexivity| | |congruence].
  - apply IH.
  - unfold consume. cbn. do 2 f_equal. lia.
Qed.

(** transform with the same schedule. *)
Example transform_example :
  let s := play ex_estep (fun m p i v => (replace i v m, p, [])) S (fun m p => (m, p, [])) Transform true 3
                (ex_sched 60) (initial 2 [9; 9; 9] 1) in
  main s = (MDone : mpc nat nat nat) /\ map fst (fed (log s)) <> seq 0 3 /\ priv s = [10; 11; 12].
Proof. vm_compute. split; [reflexivity|]. split; [discriminate|reflexivity]. Qed.

(** C17 is false on another thread than the one that built the LDA: the epoch event stays in
    the queue and is not delivered. *)
Theorem C17_other_thread_refuted :
  exists s : state nat nat nat nat nat,
    reachable ex_estep ex_feed S ex_m_end Fit false 3 2 0 1 s /\ main s = MDone
    /\ In Epoch (qev s) /\ Forall not_epoch (log s).
Proof. exact other_thread. Qed.
Print Assumptions C17_other_thread_refuted.

(** C18 is false of an M step that updates the model inside doc_m_step (the online M
    step): the calling thread writes the parameters while a worker is inside an E step. *)
Theorem C18_online_refuted :
  exists s s' : state nat nat nat nat nat,
    reachable ex_estep ex_online_feed S ex_m_end Fit true 2 2 0 1 s
    /\ step ex_estep ex_online_feed S ex_m_end Fit true 2 LMain s = Some s'
    /\ In (WEstep 1) (workers s) /\ param s' <> param s.
Proof. exact online_race. Qed.
Print Assumptions C18_online_refuted.
