(** Vocabulary of the builder properties, read off the history of calls (most recent call
    first) without running the builder. *)
Require Import Reals ZArith List Arith.
Require Import Verif.Scalar Verif.Mat Verif.BuilderModel.
Import ListNotations.

Section History.
  Context {T : Type}.
  Implicit Types h : list (bcall T).

  (** How many topics the most recent topic initialisation left; 0 if there was none. *)
  Fixpoint topics_left h : nat :=
    match h with
    | [] => 0
    | TopicsSeeded _ k _ _ :: _ => k
    | TopicsRandom _ k _ :: _ => k
    | TopicsFromModel m :: _ => mrows (p_beta m)
    | _ :: r => topics_left r
    end.

  (** For how many topics there are supervised parameters: eta_zeros and eta_uniform take the number
      of topics at the time of the call (and fail when there are none), eta_from_model copies. *)
  Fixpoint eta_left h : nat :=
    match h with
    | [] => 0
    | EtaZeros _ :: r | EtaUniform _ :: r =>
        match topics_left r with 0 => eta_left r | k => k end
    | EtaFromModel m :: _ => mrows (p_eta m)
    | _ :: r => eta_left r
    end.

  (** The E step was chosen last with the setter of a supervised step. *)
  Fixpoint e_supervised h : bool :=
    match h with
    | [] => false
    | SetEStep EClassic :: _ => false
    | SetEStep _ :: _ => true
    | SetE _ :: _ => false
    | _ :: r => e_supervised r
    end.
  Fixpoint m_supervised h : bool :=
    match h with
    | [] => false
    | SetMStep MClassic :: _ => false
    | SetMStep _ :: _ => true
    | SetM _ :: _ => false
    | _ :: r => m_supervised r
    end.

  (** The most recent values of the plain settings. *)
  Fixpoint iterations_left h : nat :=
    match h with [] => 20 | SetIterations n :: _ => n | _ :: r => iterations_left r end.
  Fixpoint workers_left (hw : nat) h : nat :=
    match h with [] => hw | SetWorkers n :: _ => n | _ :: r => workers_left hw r end.
  Fixpoint e_left h : estep :=
    match h with [] => EClassic | SetEStep e :: _ | SetE e :: _ => e | _ :: r => e_left r end.
  Fixpoint m_left h : mstep :=
    match h with [] => MClassic | SetMStep m :: _ | SetM m :: _ => m | _ :: r => m_left r end.

  (** A corpus one can seed from: not empty, all documents over one vocabulary. *)
  Definition seedable (X : list (list Z)) : Prop :=
    exists V, X <> [] /\ forall d, In d X -> length d = V.
  Definition call_defined (x : bcall T) : Prop :=
    match x with TopicsSeeded X _ _ _ => seedable X | _ => True end.
  (** A model handed to initialize_topics_from_model has one prior entry per topic. *)
  Definition call_proper (x : bcall T) : Prop :=
    match x with TopicsFromModel m => length (p_alpha m) = mrows (p_beta m) | _ => True end.

  Definition sets_topics (x : bcall T) : bool :=
    match x with TopicsSeeded _ _ _ _ | TopicsRandom _ _ _ | TopicsFromModel _ => true | _ => false end.
  Definition sets_eta (x : bcall T) : bool :=
    match x with EtaZeros _ | EtaUniform _ | EtaFromModel _ => true | _ => false end.
  (** the two calls that size eta by the topics *)
  Definition sizes_eta (x : bcall T) : bool :=
    match x with EtaZeros _ | EtaUniform _ => true | _ => false end.
End History.

(** Row [k] of a matrix with [V] columns is a probability distribution. *)
Definition row_distribution {O : ops R} (m : mat R) (k V : nat) : Prop :=
  (forall w, (w < V)%nat -> (0 <= mget m k w)%R) /\ rsum V (fun w => mget m k w) = 1%R.
