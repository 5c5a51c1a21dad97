(** Vocabulary: corpora and first models of a training in double precision. *)
Require Import Reals ZArith List Arith String.
From Flocq Require Import Core.Core IEEE754.BinarySingleNaN.
Require Import Verif.Base Verif.Scalar Verif.Mat Verif.HostModel Verif.BuilderModel Verif.EStepModel Verif.DoubleSpec Verif.DoubleTrainSpec Verif.AppsModel.
Import ListNotations.
Local Notation length := List.length.
Open Scope R_scope.

(** At least one document and at most 2^30, over a vocabulary of V words (at most 2^30), with counts that are not negative and fewer than 2^31
    words in each; and not all of the documents are empty. *)
Record plain_corpus (X : list (list Z)) (V : nat) : Prop := {
  pc_documents : (1 <= Z.of_nat (length X) <= 2 ^ 30)%Z;
  pc_words : (Z.of_nat V <= 2 ^ 30)%Z;
  pc_counts : forall x, In x X -> length x = V /\ (forall c, In c x -> 0 <= c)%Z /\ (fold_right Z.add 0 x < 2 ^ 31)%Z;
  pc_some : exists x c, In x X /\ In c x /\ c <> 0%Z
}.

(** Random numbers for topics: between 2^-200 and 1 (those of a generator of multiples of 2^-53 are, unless they are 0). *)
Definition usable_draws (V K : nat) (draw : nat -> nat -> double) : Prop :=
  forall k w, (k < K)%nat -> (w < V)%nat -> is_finite (draw k w) = true /\ / 2 ^ 200 <= B2R (draw k w) <= 1.

(** The options of a lda train from scratch: no --continue; at most 300 topics; the other options can be read; with --initialize_random the random numbers are
    usable; snapshots, if any, are counted by an int. *)
Record fresh_options (args : string -> value) (stol : string -> outcome Z) (stof : string -> outcome double) (uniform_draws : Z -> nat -> nat -> double)
  (path : string) (K V iterations workers : nat) : Prop := {
  fo_model : args "MODEL"%string = VString path;
  fo_continue : args "--continue"%string = VEmpty;
  fo_topics : exists k, long_arg args stol "--topics" = Ok k /\ K = size k;
  fo_few : (1 <= K <= 300)%nat;
  fo_start : exists r seed, args "--initialize_random"%string = VBool r /\ long_arg args stol "--random_state" = Ok seed /\
    (r = true -> usable_draws V K (uniform_draws seed));
  fo_iterations : exists n, long_arg args stol "--iterations" = Ok n /\ iterations = size n;
  fo_workers : exists n, long_arg args stol "--workers" = Ok n /\ workers = size n;
  fo_e_step : exists ei et l, long_arg args stol "--e_step_iterations" = Ok ei /\ float_arg args stof "--e_step_tolerance" = Ok et /\
    float_arg args stof "--compute_likelihood" = Ok l;
  fo_quiet : exists q, args "--quiet"%string = VBool q;
  fo_snapshots : exists n, long_arg args stol "--snapshot_every" = Ok n /\ ((n <= 0)%Z \/ (n < 2 ^ 31)%Z /\ (Z.of_nat iterations < 2 ^ 31)%Z)
}.

(** A model of K topics over V words: alpha is 1 / K, rounded; the topics are distributions up to rounding (DoubleTrainSpec.v). *)
Definition sound_model {O : ops double} (K V : nat) (m : params double) : Prop :=
  p_alpha m = vtab K (fun _ => inverse K) /\ mrows (p_beta m) = K /\ ncols (p_beta m) = V /\ double_topics (p_beta m).

(** A document over the vocabulary of [X] all of whose words occur in [X]. *)
Definition known_document (X : list (list Z)) (V : nat) (words : list Z) : Prop :=
  length words = V /\ (forall c, In c words -> 0 <= c)%Z /\ (fold_right Z.add 0 words < 2 ^ 31)%Z /\
  forall n, nth n words 0%Z <> 0%Z -> exists x, In x X /\ nth n x 0%Z <> 0%Z.
