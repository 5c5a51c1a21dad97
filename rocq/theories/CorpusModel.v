(** Model of the corpora (src/ldaplusplus/Document.cpp). *)
Require Import List Arith ZArith.
Require Import Verif.Base Verif.Scalar.
Import ListNotations.

(** std::swap of two entries of a vector. *)
Definition swap {A} (d : A) (l : list A) (i j : nat) : list A :=
  map (fun k => if Nat.eqb k i then nth j l d else if Nat.eqb k j then nth i l d else nth k l d)
      (seq 0 (length l)).

(** Document.cpp 55-60: CorpusIndexes starts as 0, 1, ..., N-1. *)
Definition new_indices (n : nat) : list nat := seq 0 n.

(** Document.cpp 62-64: std::shuffle, Fisher-Yates: the i-th entry is swapped with a
    random one at or before it.  [draws i] stands for the uniform draw from
    prng_ (any function; reduced to the range 0..i as the distribution does). *)
Fixpoint shuffle_from (draws : nat -> nat) (count i : nat) (l : list nat) : list nat :=
  match count with
  | 0 => l
  | S c => shuffle_from draws c (S i) (swap 0 l i (draws i mod S i))
  end.
Definition shuffle (draws : nat -> nat) (l : list nat) : list nat :=
  shuffle_from draws (length l - 1) 1 l.

(** Document.hpp 155: unchecked access. *)
Definition get_index (indices : list nat) (i : nat) : outcome nat :=
  match nth_error indices i with Some k => Ok k | None => UB end.

(** A word-count matrix, as the list of its columns (documents). *)
Notation words := (list Z) (only parsing).

(** Document.cpp 70-87: EigenCorpus. *)
Record eigen_corpus := mk_ecorpus { ec_indices : list nat; ec_X : list words }.
Definition new_ecorpus (X : list words) : eigen_corpus := mk_ecorpus (new_indices (length X)) X.
Definition ec_size (c : eigen_corpus) : nat := length (ec_X c).
Definition ec_at (c : eigen_corpus) (i : nat) : outcome words :=
  let* k := get_index (ec_indices c) i in
  match nth_error (ec_X c) k with Some x => Ok x | None => UB end.
Definition ec_shuffle (draws : nat -> nat) (c : eigen_corpus) : eigen_corpus :=
  mk_ecorpus (shuffle draws (ec_indices c)) (ec_X c).

(** Document.cpp 93-131: EigenClassificationCorpus. *)
Record class_corpus (T : Type) := mk_ccorpus {
  cc_indices : list nat; cc_X : list words; cc_y : list Z; cc_priors : list T
}.
Arguments mk_ccorpus {T}. Arguments cc_indices {T}. Arguments cc_X {T}.
Arguments cc_y {T}. Arguments cc_priors {T}.

Section Priors.
  Context {T : Type} {O : ops T}.
  (** 104: priors_[y_[i]]++, undefined outside the vector. *)
  Definition bump (p : list T) (y : Z) : outcome (list T) :=
    if ((0 <=? y) && (y <? Z.of_nat (length p)))%Z%bool then
      Ok (map (fun k => if Nat.eqb k (Z.to_nat y) then add (nth k p zero) one else nth k p zero)
              (seq 0 (length p)))
    else UB.
  Fixpoint bump_all (p : list T) (ys : list Z) : outcome (list T) :=
    match ys with
    | [] => Ok p
    | y :: r => let* p' := bump p y in bump_all p' r
    end.
  (** 100: y.maxCoeff(), undefined for an empty vector. *)
  Definition max_label (ys : list Z) : outcome Z :=
    match ys with [] => UB | y :: r => Ok (fold_left Z.max r y) end.
  (** 93-107; a vector of negative size (all labels below -1) is an Eigen assertion,
      counted as undefined. *)
  Definition new_ccorpus (X : list words) (y : list Z) : outcome (class_corpus T) :=
    let* mx := max_label y in
    if (mx + 1 <? 0)%Z then UB else
    let* counts := bump_all (repeat zero (Z.to_nat (mx + 1))) y in
    let s := redux counts in
    Ok (mk_ccorpus (new_indices (length X)) X y (map (fun p => div p s) counts)).
  (** 129-131 *)
  Definition get_prior (c : class_corpus T) (y : Z) : outcome T :=
    if ((0 <=? y) && (y <? Z.of_nat (length (cc_priors c))))%Z%bool then
      Ok (nth (Z.to_nat y) (cc_priors c) zero)
    else UB.
End Priors.

Definition cc_size {T} (c : class_corpus T) : nat := length (cc_X c).
(** 113-123 *)
Definition cc_at {T} (c : class_corpus T) (i : nat) : outcome (words * Z) :=
  let* k := get_index (cc_indices c) i in
  match nth_error (cc_X c) k, nth_error (cc_y c) k with
  | Some x, Some y => Ok (x, y)
  | _, _ => UB
  end.
Definition cc_shuffle {T} (draws : nat -> nat) (c : class_corpus T) : class_corpus T :=
  mk_ccorpus (shuffle draws (cc_indices c)) (cc_X c) (cc_y c) (cc_priors c).
