(** Vocabulary for the sizes of a model. *)
Require Import List Arith.
Require Import Verif.Base Verif.Scalar Verif.Mat Verif.UtilsModel Verif.BuilderModel Verif.EStepModel Verif.OptModel Verif.MStepModel.
Import ListNotations.

(** r rows and c columns, none of them cut short *)
Definition exact_size {T} (r c : nat) (m : mat T) : Prop := mrows m = r /\ ncols m = c /\ Forall (fun x => length x = r) (mcols m).
(** K topics, V words, C classes *)
Definition has_size {T} (K V C : nat) (m : params T) : Prop := length (p_alpha m) = K /\ exact_size K V (p_beta m) /\ exact_size K C (p_eta m).

(** The seven M steps of the library, each with a new object. *)
Inductive library_step {T} {O : ops T} : forall St, maximizer T St -> St -> Prop :=
| lib_unsupervised : library_step _ unsupervised_maximizer empty_mat
| lib_fast fuel limit tolerance L : library_step _ (fast_maximizer fuel limit tolerance L) new_fast
| lib_semi fuel limit tolerance L : library_step _ (semi_maximizer fuel limit tolerance L) new_fast
| lib_slda fuel limit tolerance L : library_step _ (sup_maximizer fuel limit tolerance L) new_sup
| lib_multinomial mu : library_step _ (multinomial_maximizer mu) new_stats
| lib_correspondence mu : library_step _ (correspondence_maximizer mu) new_stats
| lib_online cf : library_step _ (online_maximizer cf) new_online.
