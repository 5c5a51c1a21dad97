(** Vocabulary of the worker-pool theorems: what an observer reads off a log. *)
Require Import List Arith Bool.
Require Import Verif.PoolModel.
Import ListNotations.
Set Implicit Arguments.

Section Spec.
  Context {V P R X : Type}.

  (** The E steps computed, in order: (document, result). *)
  Fixpoint esteps (l : list (obs V P R X)) : list (nat * V) :=
    match l with
    | [] => []
    | OEstep i v :: l => (i, v) :: esteps l
    | _ :: l => esteps l
    end.

  (** The results handed to the M step (or written to the matrix), in order. *)
  Fixpoint fed (l : list (obs V P R X)) : list (nat * V) :=
    match l with
    | [] => []
    | OFeed i v :: l => (i, v) :: fed l
    | _ :: l => fed l
    end.

  (** The events the listener received, in order. *)
  Fixpoint delivered (l : list (obs V P R X)) : list (event R X) :=
    match l with
    | [] => []
    | ODeliver e _ :: l => e :: delivered l
    | _ :: l => delivered l
    end.

  (** The documents of the expectation events in a list of events. *)
  Fixpoint expects (l : list (event R X)) : list nat :=
    match l with
    | [] => []
    | Expect i _ :: l => i :: expects l
    | _ :: l => expects l
    end.

  (** The computation alone: the log without the deliveries of events. *)
  Fixpoint computation (l : list (obs V P R X)) : list (obs V P R X) :=
    match l with
    | [] => []
    | ODeliver _ _ :: l => computation l
    | o :: l => o :: computation l
    end.
  (** Work on one document. *)
  Definition on_document (o : obs V P R X) : Prop :=
    match o with OEstep _ _ | OFeed _ _ => True | _ => False end.
  (** Work or events belonging to the part of the epoch before its last event. *)
  Definition not_epoch (o : obs V P R X) : Prop :=
    match o with ODeliver Epoch _ => False | _ => True end.
End Spec.

(** Nothing of the call is left behind. *)
Definition cleaned_up {V P S R X} (s : state V P S R X) : Prop :=
  qin s = [] /\ qout s = [] /\ qev s = []
  /\ lin s = None /\ lout s = None /\ lev s = None
  /\ Forall (fun pc => pc = WJoined) (workers s).

(** Consuming a list of results one after the other. *)
Definition consume {V P S X} (feed : S -> P -> nat -> V -> S * P * list X)
  (l : list (nat * V)) (d : S * P) : S * P :=
  fold_left (fun d iv => fst (feed (fst d) (snd d) (fst iv) (snd iv))) l d.

(** An execution: the labels of its steps. *)
Inductive run {V P S R X} (estep : P -> nat -> V) feed e_end m_end md owner docs :
  list (label R) -> state V P S R X -> state V P S R X -> Prop :=
| run_nil s : run estep feed e_end m_end md owner docs [] s s
| run_cons l ls s s' s'' :
    step estep feed e_end m_end md owner docs l s = Some s' ->
    run estep feed e_end m_end md owner docs ls s' s'' ->
    run estep feed e_end m_end md owner docs (l :: ls) s s''.

Definition is_spurious {R} (l : label R) : bool :=
  match l with LSpurious => true | _ => false end.

(** Running a schedule, ignoring the choices that cannot move. *)
Fixpoint play {V P S R X} (estep : P -> nat -> V) feed e_end m_end md owner docs
  (ls : list (label R)) (s : state V P S R X) : state V P S R X :=
  match ls with
  | [] => s
  | l :: ls => play estep feed e_end m_end md owner docs ls
                 (match step estep feed e_end m_end md owner docs l s with Some s' => s' | None => s end)
  end.

(** ** An example instance *)
(** The E step of document i is p * 10 + i; the M step sums what it gets and at the end adds
    the sum to the parameter, reporting it. *)
Definition ex_estep (p i : nat) : nat := p * 10 + i.
Definition ex_feed (s p i v : nat) : nat * nat * list nat := (s + v, p, []).
Definition ex_m_end (s p : nat) : nat * nat * list nat := (0, p + s, [s]).
(** An M step that updates the model at every document, as the online M step does at the
    end of every minibatch. *)
Definition ex_online_feed (s p i v : nat) : nat * nat * list nat := (s, p + v, []).
Definition ex_sched (n : nat) : list (label nat) :=
  repeat LMain 8 ++ repeat (LWorker 1 5) 4 ++ repeat (LWorker 0 6) 20
  ++ concat (repeat [LMain; LWorker 1 5; LMain; LSpurious; LWorker 0 6; LWorker 1 7] n).
