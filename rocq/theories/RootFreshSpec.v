(** Vocabulary for the training from scratch of the root directory's application, with distributions of classes. *)
Require Import Reals ZArith List Bool String.
From Flocq Require Import Core.Core IEEE754.BinarySingleNaN.
Require Import Verif.Base Verif.Scalar Verif.HostModel Verif.SettingsModel Verif.AppsModel Verif.FreshSpec Verif.RootSpec.
Import ListNotations.
Local Open Scope nat_scope.

(** The labels are classes below [C], and the last of these classes occurs. *)
Definition labels_below (C : nat) (y : list Z) : Prop := (forall c, In c y -> 0 <= c < Z.of_nat C)%Z /\ In (Z.of_nat C - 1)%Z y.

(** train without --continue, for [n] iterations with [w] workers, of [K] topics; the model goes to [path]. *)
Record scratch_options {T} {O : ops T} (args : string -> value) (stol : string -> outcome Z) (stof : string -> outcome T) (path : string) (K n w : nat) : Prop := {
  so_continue : args "--continue"%string = VEmpty;
  so_model : args "MODEL"%string = VString path;
  so_topics : exists i, long_arg args stol "--topics" = Ok i /\ size i = K;
  so_steps : off args "--semi_supervised" /\ off args "--unsupervised_e_step" /\ off args "--fast_e_step" /\ off args "--online_m_step" /\ off args "--second_order_m_step";
  so_iterations : exists i, long_arg args stol "--iterations" = Ok i /\ size i = n;
  so_workers : exists i, long_arg args stol "--workers" = Ok i /\ size i = w;
  so_e_step : exists i t l, long_arg args stol "--e_step_iterations" = Ok i /\ float_arg args stof "--e_step_tolerance" = Ok t /\ likelihood_of args l;
  so_quiet : exists q, args "--quiet"%string = VBool q;
  so_snapshots : exists s, long_arg args stol "--snapshot_every" = Ok s /\ ((s <= 0)%Z \/ (s < 2 ^ 31 /\ Z.of_nat n < 2 ^ 31)%Z)
}.

(** All words of the documents [X] *)
Definition all_words (X : list (list Z)) : Z := fold_right Z.add 0%Z (map (fold_right Z.add 0%Z) X).
(** A smoothing mu between 1 + 2^-30 and 2^30. *)
Definition usual_mu (mu : double) : Prop := is_finite mu = true /\ (1 + / 2 ^ 30 <= B2R mu <= 2 ^ 30)%R.
(** The bounds of C86 and C85 on the words of the corpus, for N words and C classes. *)
Definition corresponding_bound (mu : double) (N : Z) (C : nat) : Prop := (2 * (IZR N + INR C * (B2R mu - 1)) <= 2 ^ 30 * (B2R mu - 1))%R.
Definition multinomial_bound (mu weight : double) (N : Z) (C : nat) : Prop :=
  is_finite weight = true /\ (Rabs (B2R weight) * ln (2 * (IZR N + INR C * (B2R mu - 1)) / (B2R mu - 1)) <= 20)%R.

(** The two variants of training with distributions of classes from scratch, with the limits of C102 *)
Inductive class_variant (args : string -> value) (stof : string -> outcome double) (K C : nat) (X : list (list Z)) (mu : double) : Prop :=
| variant_correspondence : off args "--multinomial" -> on args "--correspondence" -> K <= 139 -> (Z.of_nat (List.length X) <= 2 ^ 28)%Z ->
    corresponding_bound mu (all_words X) C -> class_variant args stof K C X mu
| variant_multinomial weight : on args "--multinomial" -> float_arg args stof "--eta_weight" = Ok weight -> K <= 100 -> (Z.of_nat C <= 2 ^ 29)%Z ->
    multinomial_bound mu weight (all_words X) C -> class_variant args stof K C X mu.
