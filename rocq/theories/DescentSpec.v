(** Vocabulary for gradient descent with a constant step. *)
Require Import List Arith Reals.
Require Import Verif.Base Verif.Scalar Verif.Mat Verif.OptModel Verif.OptSpec.
Local Open Scope R_scope.

(** [p] computes the objective [f] and its gradient [G] on all K x C matrices. *)
Definition computes_with (K C : nat) (p : problem R) (f : entries -> R) (G : entries -> entries) : Prop :=
  forall e, value p (mtab K C e) = Ok (f e) /\ gradient p (mtab K C e) = Ok (mtab K C (G e)) /\ gradient_at K C f e (G e).
(** The gradient grows at most [L] times as fast as one moves: <G (e + d) - G e, d> <= L |d|^2.  (A gradient with Lipschitz constant L does.) *)
Definition curvature (K C : nat) (G : entries -> entries) (L : R) : Prop :=
  forall e d, inner K C (G (along e 1 d)) d - inner K C (G e) d <= L * inner K C d d.
(** The n-th point: from every point one goes [a] times the gradient back. *)
Fixpoint point (G : entries -> entries) (a : R) (e : entries) (n : nat) : entries :=
  match n with
  | 0%nat => e
  | S n => along (point G a e n) (- a) (G (point G a e n))
  end.
(** The state of a callback that has been told the values at the points 0, ..., n - 1, and its answer for the point n. *)
Fixpoint told_state {St} (progress : St -> R -> nat -> bool * St) (values : nat -> R) (s : St) (n : nat) : St :=
  match n with
  | 0%nat => s
  | S n => snd (progress (told_state progress values s n) (values n) n)
  end.
Definition answer {St} (progress : St -> R -> nat -> bool * St) (values : nat -> R) (s : St) (n : nat) : bool :=
  fst (progress (told_state progress values s n) (values n) n).
