(** Vocabulary of the E-step properties. *)
Require Import Reals ZArith List Arith.
Require Import Verif.Base Verif.Scalar Verif.Mat Verif.BuilderModel Verif.EStepModel.
Import ListNotations.

(** The part of a result one looks at; failures are kept. *)
Definition omap {A B} (f : A -> B) (o : outcome A) : outcome B :=
  match o with Ok a => Ok (f a) | Throw e => Throw e | UB => UB end.

(** Two models that differ only in the topics' entries for words that do not occur in [X]. *)
Definition same_on_words {T} {O : ops T} (X : list Z) (m m' : params T) : Prop :=
  p_alpha m = p_alpha m' /\ p_eta m = p_eta m' /\
  mrows (p_beta m) = mrows (p_beta m') /\ ncols (p_beta m) = ncols (p_beta m') /\
  forall i n, nth n X 0%Z <> 0%Z -> mget (p_beta m) i n = mget (p_beta m') i n.

(** [runs step limit stop s0 n s]: from [s0], [n] applications of [step] lead to [s]; before each of them,
    [stop] (comparing with the state before, none at first) was false; and either [n] is the limit
    or [stop] holds at the end. *)
Inductive runs {A} (step : A -> outcome A) (stop : option A -> A -> Prop) : nat -> option A -> A -> nat -> A -> Prop :=
| runs_limit p s : runs step stop 0 p s 0 s
| runs_stop l p s : stop p s -> runs step stop (S l) p s 0 s
| runs_step l p s s' n t : ~ stop p s -> step s = Ok s' -> runs step stop l (Some s) s' n t ->
    runs step stop (S l) p s (S n) t.

(** The mean absolute difference of two vectors (the second gives the length). *)
Definition mean_change {T} {O : ops T} (old new : list T) : T :=
  div (redux (vtab (length new) (fun i => sabs (sub (vget old i) (vget new i))))) (ofZ (Z.of_nat (length new))).
(** The stopping criterion: the change since the state before, or since the zero vector of
    size [K] at the start, is below the tolerance. *)
Definition below {T} {O : ops T} {A} (K : nat) (gamma_of : A -> list T) (tolerance : T) (prev : option A) (s : A) : Prop :=
  ltb (mean_change (match prev with Some p => gamma_of p | None => vtab K (fun _ => zero) end) (gamma_of s)) tolerance = true.

(** ** Exact arithmetic *)
Section Exact.
  Context {O : ops R}.
  Open Scope R_scope.
  (** Some topic gives the word positive probability. *)
  Definition supported (beta : mat R) (n : nat) : Prop := exists i, (i < mrows beta)%nat /\ mget beta i n <> 0.

  (** The words are counts over the vocabulary, alpha is positive, the topics are non-negative, there
      is at least one topic, and the document has fewer than 2^31 words. *)
  Record proper_input (X : list Z) (m : params R) : Prop := {
    pi_topics : (0 < mrows (p_beta m))%nat;
    pi_alpha : length (p_alpha m) = mrows (p_beta m);
    pi_words : length X = ncols (p_beta m);
    pi_alpha_pos : forall i, (i < mrows (p_beta m))%nat -> 0 < vget (p_alpha m) i;
    pi_beta_nonneg : forall i n, (i < mrows (p_beta m))%nat -> (n < ncols (p_beta m))%nat -> 0 <= mget (p_beta m) i n;
    pi_counts : forall x, In x X -> (0 <= x)%Z;
    pi_length : (fold_right Z.add 0 X < 2 ^ 31)%Z
  }.

  Record valid_posterior (X : list Z) (m : params R) (gamma : list R) (phi : mat R) : Prop := {
    vp_rows : mrows phi = mrows (p_beta m);
    vp_cols : ncols phi = ncols (p_beta m);
    vp_len : length gamma = mrows (p_beta m);
    vp_nonneg : forall i n, (i < mrows (p_beta m))%nat -> (n < ncols (p_beta m))%nat -> 0 <= mget phi i n;
    vp_sum : forall n, (n < ncols (p_beta m))%nat ->
      rsum (mrows (p_beta m)) (fun i => mget phi i n) = 1 \/
      rsum (mrows (p_beta m)) (fun i => mget phi i n) = 0 /\ ~ supported (p_beta m) n;
    vp_gamma : forall i, (i < mrows (p_beta m))%nat ->
      vget gamma i = vget (p_alpha m) i + rsum (ncols (p_beta m)) (fun n => IZR (nth n X 0%Z) * mget phi i n);
    vp_mass : (forall n, (n < ncols (p_beta m))%nat -> nth n X 0%Z <> 0%Z -> supported (p_beta m) n) ->
      rsum (mrows (p_beta m)) (vget gamma) =
      rsum (mrows (p_beta m)) (vget (p_alpha m)) + rsum (ncols (p_beta m)) (fun n => IZR (nth n X 0%Z))
  }.

  (** A class with supervised parameters for every topic. *)
  Definition class_in_range (y : Z) (m : params R) : Prop :=
    mrows (p_eta m) = mrows (p_beta m) /\ (0 <= y < Z.of_nat (ncols (p_eta m)))%Z.

  (** The evidence lower bound of LDA (Blei, Ng, Jordan 2003, equation 15) of a document with counts
      [X], for the logarithm of the gamma function [lg] and the digamma function [psi]. *)
  Section Elbo.
    Variables (lg psi : R -> R) (X : list Z) (m : params R) (gamma : list R) (phi : mat R).
    Let K := mrows (p_beta m).
    Let V := ncols (p_beta m).
    (** E_q[ln theta_i] *)
    Definition e_ln_theta (i : nat) : R := psi (vget gamma i) - psi (rsum K (vget gamma)).
    (** E_q[ln Dirichlet(theta; a)] *)
    Definition e_ln_dirichlet (a : list R) : R :=
      lg (rsum K (vget a)) - rsum K (fun i => lg (vget a i)) + rsum K (fun i => (vget a i - 1) * e_ln_theta i).
    (** the part that depends on phi: E_q[ln p(z | theta)] + E_q[ln p(w | z, beta)] - E_q[ln q(z)] *)
    Definition phi_part : R :=
      rsum V (fun n => IZR (nth n X 0%Z) *
        rsum K (fun i => mget phi i n * (e_ln_theta i + ln (mget (p_beta m) i n) - ln (mget phi i n)))).
    Definition elbo : R := e_ln_dirichlet (p_alpha m) + phi_part - e_ln_dirichlet gamma.
  End Elbo.

  (** ** sLDA *)
  Definition rprod (n : nat) (f : nat -> R) : R := fold_right Rmult 1 (vtab n f).
  (** phi_l^T E(X_l / N eta_c), for an exponential function [E] *)
  Definition word_factor (E : R -> R) (X : list Z) (N : Z) (eta phi : mat R) (c l : nat) : R :=
    rsum (mrows phi) (fun i => E (mget eta i c * (IZR (nth l X 0%Z) / IZR N)) * mget phi i l).
  (** e_step_utils.hpp 99-101, the documented h: coordinate [i] of
      h_n = sum over classes of (product over the words l <> n of their factors) times E(X_n / N eta_c) *)
  Definition documented_h (E : R -> R) (X : list Z) (N : Z) (eta phi : mat R) (n i : nat) : R :=
    rsum (ncols eta) (fun c =>
      rprod (ncols phi) (fun l => if Nat.eqb l n then 1 else word_factor E X N eta phi c l) *
      E (mget eta i c * (IZR (nth n X 0%Z) / IZR N))).
  (** The expected normaliser of the class distribution: the sum over classes of the product of all factors. *)
  Definition class_normaliser (E : R -> R) (X : list Z) (N : Z) (eta phi : mat R) : R :=
    rsum (ncols eta) (fun c => rprod (ncols phi) (word_factor E X N eta phi c)).

  (** What the sLDA E step keeps true of its variables: phi has distributions as columns, gamma is
      alpha + sum_n X_n phi_n, and the running product of class c is the product of all factors. *)
  Record consistent (E : R -> R) (X : list Z) (N : Z) (m : params R) (s : slda R) : Prop := {
    co_rows : mrows (s_phi s) = mrows (p_beta m);
    co_cols : ncols (s_phi s) = ncols (p_beta m);
    co_phi : forall n, (n < ncols (p_beta m))%nat ->
      (forall i, (i < mrows (p_beta m))%nat -> 0 <= mget (s_phi s) i n) /\
      rsum (mrows (p_beta m)) (fun i => mget (s_phi s) i n) = 1;
    co_gamma_length : length (s_gamma s) = mrows (p_beta m);
    co_gamma : forall i, (i < mrows (p_beta m))%nat ->
      vget (s_gamma s) i = vget (p_alpha m) i +
        rsum (ncols (p_beta m)) (fun n => IZR (nth n X 0%Z) * mget (s_phi s) i n);
    co_products_length : length (s_products s) = ncols (p_eta m);
    co_products : forall c, (c < ncols (p_eta m))%nat ->
      vget (s_products s) c = rprod (ncols (p_beta m)) (word_factor E X N (p_eta m) (s_phi s) c)
  }.

  (** [q] has distributions as columns for the words of [X] and puts no mass where the topic excludes
      the word (there the bound is minus infinity). *)
  Definition competitor (X : list Z) (beta q : mat R) : Prop :=
    forall n, (n < ncols beta)%nat -> nth n X 0%Z <> 0%Z ->
      rsum (mrows beta) (fun i => mget q i n) = 1 /\
      forall i, (i < mrows beta)%nat -> 0 <= mget q i n /\ (mget beta i n = 0 -> mget q i n = 0).
End Exact.
