(** Vocabulary for the snapshots of train in the root directory's application, and for its training in double precision. *)
Require Import ZArith Bool String.
Require Import Verif.Base Verif.Scalar Verif.Mat Verif.HostModel Verif.BuilderModel Verif.EStepModel Verif.OptModel Verif.MStepModel Verif.SettingsModel Verif.AppsModel Verif.RootSpec.
Local Open Scope nat_scope.

(** The maximizer that an M step is, and its state when it is new; [ofuel] bounds the iterations of a search. *)
Inductive maximizes {T} {O : ops T} (ofuel : nat) : m_step T -> forall St, maximizer T St -> St -> Prop :=
| classic_maximizes : maximizes ofuel ClassicM _ unsupervised_maximizer empty_mat
| slda_maximizes i t L : maximizes ofuel (SldaM i t L) _ (sup_maximizer ofuel i t L) new_sup
| fast_maximizes i t L : maximizes ofuel (FastM i t L) _ (fast_maximizer ofuel i t L) new_fast
| online_maximizes cf : maximizes ofuel (OnlineM cf) _ (online_maximizer cf) new_online
| semi_maximizes i t L : maximizes ofuel (SemiM i t L) _ (semi_maximizer ofuel i t L) new_fast
| multinomial_maximizes mu : maximizes ofuel (MultinomialM mu) _ (multinomial_maximizer mu) new_stats
| correspondence_maximizes mu : maximizes ofuel (CorrespondenceM mu) _ (correspondence_maximizer mu) new_stats.

(** train --continue [f], for [n] iterations with [w] workers, of a model with distributions of classes; the model goes to [path]. *)
Record class_options {T} {O : ops T} (args : string -> value) (stol : string -> outcome Z) (stof : string -> outcome T) (f path : string) (n w : nat) : Prop := {
  co_continue : args "--continue"%string = VString f;
  co_model : args "MODEL"%string = VString path;
  co_steps : off args "--semi_supervised" /\ off args "--unsupervised_e_step" /\ off args "--fast_e_step" /\ off args "--online_m_step" /\ off args "--second_order_m_step";
  co_iterations : exists i, long_arg args stol "--iterations" = Ok i /\ size i = n;
  co_workers : exists i, long_arg args stol "--workers" = Ok i /\ size i = w;
  co_e_step : exists i t l, long_arg args stol "--e_step_iterations" = Ok i /\ float_arg args stof "--e_step_tolerance" = Ok t /\ likelihood_of args l;
  co_quiet : exists q, args "--quiet"%string = VBool q;
  co_snapshots : exists s, long_arg args stol "--snapshot_every" = Ok s /\ ((s <= 0)%Z \/ (s < 2 ^ 31 /\ Z.of_nat n < 2 ^ 31)%Z)
}.
