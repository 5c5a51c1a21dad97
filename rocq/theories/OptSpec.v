(** Vocabulary of the optimisation properties: objectives on real K x C matrices given by their
    entries, and what it means to be their gradient. *)
Require Import Reals ZArith List Arith.
From Coquelicot Require Import Coquelicot.
Require Import Verif.Base Verif.Scalar Verif.Mat.
Import ListNotations.
Open Scope R_scope.

(** A matrix's entries; the sum of the entries' products of two matrices. *)
Definition entries := nat -> nat -> R.
Definition inner (K C : nat) (a b : entries) : R := rsum K (fun i => rsum C (fun c => a i c * b i c)).
(** The point reached from [e] by going [t] times along [d]. *)
Definition along (e : entries) (t : R) (d : entries) : entries := fun i c => e i c + t * d i c.
(** [e] with entry (i, c) replaced by [t]. *)
Definition with_entry (e : entries) (i c : nat) (t : R) : entries :=
  fun i' c' => if (Nat.eqb i' i && Nat.eqb c' c)%bool then t else e i' c'.

(** [g] is the gradient of [f] at [e]: it gives the derivative of [f] in every direction ... *)
Definition gradient_at (K C : nat) (f : entries -> R) (e g : entries) : Prop :=
  forall d, is_derive (fun t => f (along e t d)) 0 (inner K C g d).
(** ... and each entry is a partial derivative. *)
Definition partials_at (K C : nat) (f : entries -> R) (e g : entries) : Prop :=
  forall i c, (i < K)%nat -> (c < C)%nat -> is_derive (fun t => f (with_entry e i c t)) (e i c) (g i c).

(** ** The objectives *)

(** How often a label occurs; the number of classes (the largest label plus one); the balanced weight of a class. *)
Definition occurrences (y : list Z) (l : Z) : nat := count_occ Z.eq_dec y l.
Definition largest (y : list Z) : Z := fold_right Z.max 0%Z y.
Definition balanced (y : list Z) (l : Z) : R :=
  INR (length y) / (INR (occurrences y l) * IZR (largest y + 1)).

(** The score of class c for the features [x d]; the probability the softmax model gives to class c. *)
Definition score (K : nat) (e : entries) (x : nat -> R) (c : nat) : R := rsum K (fun i => e i c * x i).
Definition softmax (K C : nat) (e : entries) (x : nat -> R) (c : nat) : R :=
  exp (score K e x c) / rsum C (fun c => exp (score K e x c)).
(** Weighted negative log likelihood plus penalty; [x d i] is feature i of document d. *)
Definition mlr_objective (K C : nat) (x : nat -> nat -> R) (y : list Z) (L : R) (e : entries) : R :=
  - rsum (length y) (fun d => balanced y (nth d y 0%Z) * ln (softmax K C e (x d) (Z.to_nat (nth d y 0%Z))))
  + L / 2 * inner K C e e.

(** The second-order approximation of E[exp(eta_c^T z)] for z with mean x and covariance v: exp(eta_c^T x) (1 + eta_c^T v eta_c / 2). *)
Definition quadratic (K : nat) (e : entries) (v : nat -> nat -> R) (c : nat) : R :=
  rsum K (fun i => rsum K (fun j => e i c * v i j * e j c)).
Definition approx_exp (K : nat) (e : entries) (x : nat -> R) (v : nat -> nat -> R) (c : nat) : R :=
  exp (score K e x c) * (1 + quadratic K e v c / 2).
Definition so_objective (K C : nat) (x : nat -> nat -> R) (v : nat -> nat -> nat -> R) (y : list Z) (L : R) (e : entries) : R :=
  - rsum (length y) (fun d => balanced y (nth d y 0%Z) *
      (score K e (x d) (Z.to_nat (nth d y 0%Z)) - ln (rsum C (fun c => approx_exp K e (x d) (v d) c))))
  + L / 2 * inner K C e e.
(** Covariance matrices give non-negative quadratic forms. *)
Definition psd (K : nat) (v : nat -> nat -> R) : Prop :=
  forall u : nat -> R, 0 <= rsum K (fun i => rsum K (fun j => u i * v i j * u j)).

(** ** Minimisation *)
Require Import Verif.OptModel.

(** Problem [p] computes the objective [f] and its gradient on all K x C matrices. *)
Definition computes (K C : nat) (p : problem R) (f : entries -> R) : Prop :=
  (forall e, value p (mtab K C e) = Ok (f e)) /\
  (forall e, exists g, gradient p (mtab K C e) = Ok (mtab K C g) /\ gradient_at K C f e g).
(** Every entry is at most the next. *)
Definition non_decreasing (l : list R) : Prop :=
  forall i, (S i < length l)%nat -> nth i l 0 <= nth (S i) l 0.
(** The last reported log likelihood [b] improved on the one before, [a], by at most [tolerance] times its absolute value. *)
Definition small_step (tolerance : R) (reported : list R) : Prop :=
  exists l a b, reported = l ++ [a; b] /\ ~ tolerance < (b - a) / (- b).
