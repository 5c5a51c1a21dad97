(** Property theorems C09, C10, C55 (corpora). *)
Require Import List Arith ZArith Lia Permutation Reals.
Require Import Verif.Base Verif.Scalar Verif.CorpusModel Verif.CorpusProofs.
Import ListNotations.

(** C09.  After any number of shuffles with any draws, reading all positions gives
    every column of the matrix exactly once. *)
Theorem C09_shuffle_keeps_documents :
  forall X ds,
    let c := fold_left (fun c d => ec_shuffle d c) ds (new_ecorpus X) in
    ec_size c = length X
    /\ exists docs, map (ec_at c) (seq 0 (length X)) = map Ok docs /\ Permutation docs X.
Proof. exact ec_permutation. Qed.
Print Assumptions C09_shuffle_keeps_documents.

(** C09, labelled corpus: every document keeps its own label. *)
Theorem C09_shuffle_keeps_labels :
  forall (T : Type) (O : ops T) X y c0 ds,
    length y = length X -> new_ccorpus X y = Ok c0 ->
    let c := fold_left (fun c d => cc_shuffle d c) ds c0 in
    cc_size c = length X
    /\ exists docs, map (cc_at c) (seq 0 (length X)) = map Ok docs /\ Permutation docs (combine X y).
Proof. exact @cc_permutation. Qed.
Print Assumptions C09_shuffle_keeps_labels.

(** C09.  A position from the size on has no document, whatever the shuffles: reading it is undefined. *)
Theorem C09_outside X ds i : length X <= i -> ec_at (fold_left (fun c d => ec_shuffle d c) ds (new_ecorpus X)) i = UB.
Proof. exact (ec_outside X ds i). Qed.
Print Assumptions C09_outside.
Theorem C09_outside_labelled (T : Type) (O : ops T) X y c0 ds i : new_ccorpus X y = Ok c0 -> length X <= i -> cc_at (fold_left (fun c d => cc_shuffle d c) ds c0) i = UB.
Proof. exact (cc_outside X y c0 ds i). Qed.
Print Assumptions C09_outside_labelled.

(** A shuffle that really moves documents, with labels. *)
Example C09_example :
  match @new_ccorpus R (Rops (fun x => x)) [[1]; [2]; [3]]%Z [7; 8; 9]%Z with
  | Ok c => map (cc_at (cc_shuffle (fun i => i * i + 1) c)) (seq 0 3)
            = map Ok [([2], 8); ([1], 7); ([3], 9)]%Z
  | _ => False
  end.
Proof. reflexivity. Qed.

(** C10.  In exact arithmetic the priors are the label frequencies, before and after
    shuffling, and they sum to one. *)
Theorem C10_priors_are_frequencies :
  forall lg X y ds,
    y <> [] -> Forall (fun l => 0 <= l)%Z y ->
    exists c0, @new_ccorpus R (Rops lg) X y = Ok c0 /\
    let c := fold_left (fun c d => cc_shuffle d c) ds c0 in
    (forall l, (0 <= l)%Z -> (exists l', In l' y /\ (l <= l')%Z) ->
       @get_prior R (Rops lg) c l = Ok (INR (count_occ Z.eq_dec y l) / INR (length y))%R)
    /\ fold_right Rplus 0%R (cc_priors c) = 1%R.
Proof. exact priors_frequencies. Qed.
Print Assumptions C10_priors_are_frequencies.

Example C10_hypotheses_met :
  [2; 0; 2]%Z <> [] /\ Forall (fun l => 0 <= l)%Z [2; 0; 2]%Z.
Proof. split; [discriminate|repeat constructor; lia]. Qed.

(** C55 is false of the code: one negative label anywhere is an out-of-bounds write, for
    every scalar type and every other label. *)
Theorem C55_negative_label_refuted :
  forall (T : Type) (O : ops T) X y,
    (exists l, In l y /\ (l < 0)%Z) -> new_ccorpus (T := T) X y = UB.
Proof. exact @negative_label_ub. Qed.
Print Assumptions C55_negative_label_refuted.
Example C55_hypotheses_met : exists l, In l [0; -1; 1]%Z /\ (l < 0)%Z.
Proof. exists (-1)%Z. cbn. split; [auto|lia]. Qed.
