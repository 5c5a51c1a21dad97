(** lda train from scratch on the two documents of CommandCases.v. *)
Require Import Reals ZArith List Bool Arith Lia Lra String.
From Flocq Require Import Core.Core IEEE754.BinarySingleNaN.
Require Import Verif.Base Verif.Scalar Verif.NumpyModel Verif.HostModel Verif.AppsModel Verif.CommandModel Verif.CommandSpec Verif.CommandCases Verif.FreshSpec Verif.MoreSpec.
Import ListNotations.
Local Open Scope nat_scope.

(** The options of CommandCases.v (two topics, a snapshot after every epoch), with or without --initialize_random. *)
Definition fresh_args (random : bool) (key : string) : value := if String.eqb key "--initialize_random" then VBool random else case_args key.
Definition half : double := @B754_finite 53 1024 false 4503599627370496 (-53) eq_refl.
Definition whole : double := @B754_finite 53 1024 false 4503599627370496 (-52) eq_refl.
(** Random numbers 1/2 and 1. *)
Definition fresh_draws (seed : Z) (k w : nat) : double := if Nat.even (k + w) then half else whole.

Lemma half_value : B2R half = (/ 2)%R.
Proof. unfold half, B2R, F2R, cond_Zopp. cbn [Fnum Fexp]. change (bpow radix2 (-53)) with (/ IZR (2 ^ 53))%R. lra. Qed.
Lemma whole_value : B2R whole = 1%R.
Proof. unfold whole, B2R, F2R, cond_Zopp. cbn [Fnum Fexp]. change (bpow radix2 (-52)) with (/ IZR (2 ^ 52))%R. lra. Qed.
Lemma draws_usable V K seed : usable_draws V K (fresh_draws seed).
Proof.
  intros k w _ _. assert (P : (/ 2 ^ 200 <= / 2)%R).
  { apply Rinv_le_contravar; [lra|]. replace 2%R with (2 ^ 1)%R at 1 by ring. apply Rle_pow; [lra|lia]. }
  unfold fresh_draws. destruct (Nat.even (k + w)); (split; [reflexivity|]); [rewrite half_value|rewrite whole_value]; lra.
Qed.

Lemma case_columns : columns case_x = [[2; 0; 1]; [0; 3; 1]]%Z.
Proof. vm_compute. reflexivity. Qed.
Lemma case_plain : plain_corpus (columns case_x) (em_rows case_x).
Proof.
  rewrite case_columns. change (em_rows case_x) with 3. constructor.
  - cbn. lia.
  - cbn. lia.
  - intros x [<-|[<-|[]]]; (split; [reflexivity|]; split; [intros c Hc; cbn in Hc; lia|cbn; lia]).
  - exists [2; 0; 1]%Z, 2%Z. cbn. split; [auto|]. split; [auto|lia].
Qed.
Lemma case_options random : fresh_options (fresh_args random) case_stol case_stof fresh_draws "model.npy" 2 3 1 2.
Proof.
  constructor; try reflexivity.
  - now exists 2%Z.
  - lia.
  - exists random, 0%Z. split; [reflexivity|]. split; [reflexivity|]. intros _. apply draws_usable.
  - now exists 1%Z.
  - now exists 2%Z.
  - eexists 2%Z, _, _. split; [reflexivity|]. split; reflexivity.
  - now exists true.
  - exists 1%Z. split; [reflexivity|]. right. cbn. lia.
Qed.
Lemma case_read random : data_x (fresh_args random) case_junk case_disk = Ok case_x.
Proof. vm_compute. reflexivity. Qed.
Lemma case_known : Forall (known_document (columns case_x) (em_rows case_x)) (columns case_x).
Proof.
  apply Forall_forall. intros x Hx. destruct (pc_counts _ _ case_plain x Hx) as (A & B & C). split; [exact A|]. split; [exact B|]. split; [exact C|]. intros n N. now exists x.
Qed.

(** The same with --continue. *)
Definition more_args (from key : string) : value := if String.eqb key "--continue" then VString from else case_args key.
Lemma case_more file : more_options (more_args file) case_stol case_stof file "model.npy" 1 2.
Proof.
  constructor; try reflexivity.
  - exists 0%Z. reflexivity.
  - exists 1%Z. split; reflexivity.
  - exists 2%Z. split; reflexivity.
  - eexists 2%Z, _, _. split; [reflexivity|]. split; reflexivity.
  - exists true. reflexivity.
  - exists 1%Z. split; [reflexivity|]. right. cbn. lia.
Qed.
Lemma case_extends : extends (columns case_x) (em_rows case_x) (columns case_x).
Proof. exact (conj (incl_refl _) (conj case_known (proj2 (pc_documents _ _ case_plain)))). Qed.
