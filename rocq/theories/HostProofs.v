(** Numbers and matrices survive being written as bytes. *)
Require Import ZArith NArith List Bool Arith Lia Ascii.
From Flocq Require Import Core.Core IEEE754.BinarySingleNaN IEEE754.Binary IEEE754.Bits.
Require Import Verif.Base Verif.Scalar Verif.Mat Verif.NumpyModel Verif.NumpySpec Verif.NumpyProofs Verif.BuilderModel Verif.HostModel.
Import ListNotations.
Local Open Scope nat_scope.

Lemma le_bytes_length n z : length (le_bytes n z) = n.
Proof. revert z. induction n as [|n IH]; intros z; cbn [le_bytes length]; [reflexivity|]. now rewrite IH. Qed.
Lemma le_round n : forall z, (0 <= z < 256 ^ Z.of_nat n)%Z -> le_value (le_bytes n z) = z.
Proof.
  induction n as [|n IH]; intros z H; cbn [le_bytes le_value].
  - cbn in H. lia.
  - rewrite Nat2Z.inj_succ, Z.pow_succ_r in H by lia.
    pose proof (Z.mod_pos_bound z 256 ltac:(lia)) as B.
    rewrite N_ascii_embedding by lia. rewrite Z2N.id by lia.
    rewrite IH.
    + pose proof (Z.div_mod z 256). lia.
    + split; [apply Z.div_pos; lia|]. apply Z.div_lt_upper_bound; lia.
Qed.
Lemma int_round z : (- 2 ^ 31 <= z < 2 ^ 31)%Z -> int_of (int_bytes z) = z.
Proof.
  intros H. unfold int_of, int_bytes. rewrite le_round.
  - unfold wrap32. rewrite <- Z.add_mod_idemp_l, Z.mod_mod, Z.add_mod_idemp_l by lia. rewrite Z.mod_small; lia.
  - pose proof (Z.mod_pos_bound z (2 ^ 32) ltac:(lia)). change (256 ^ Z.of_nat 4)%Z with (2 ^ 32)%Z. lia.
Qed.
Lemma double_bytes_length x : length (double_bytes x) = 8.
Proof. apply le_bytes_length. Qed.
Lemma double_round x : double_of (double_bytes x) = x.
Proof.
  unfold double_of, double_bytes. rewrite le_round.
  - unfold b64_of_bits, bits_of_b64. rewrite binary_float_of_bits_of_binary_float. apply B2BSN_BSN2B.
  - change (256 ^ Z.of_nat 8)%Z with (2 ^ (52 + 11 + 1))%Z. unfold bits_of_b64. apply (bits_of_binary_float_range 52 11); reflexivity.
Qed.

Lemma concat_const {A} n r (f : nat -> list A) : (forall i, i < n -> length (f i) = r) -> length (concat (vtab n f)) = n * r.
Proof.
  revert f. induction n as [|n IH]; intros f H; [reflexivity|]. rewrite vtab_S. cbn [concat]. rewrite app_length, H by lia.
  rewrite (IH (fun i => f (S i))) by (intros; apply H; lia). lia.
Qed.
Lemma nth_concat_const {A} (d : A) r n (f : nat -> list A) i j : (forall i, i < n -> length (f i) = r) -> i < n -> j < r ->
  nth (i * r + j) (concat (vtab n f)) d = nth j (f i) d.
Proof.
  revert f i. induction n as [|n IH]; intros f i H Hi Hj; [lia|]. rewrite vtab_S. cbn [concat]. destruct i as [|i].
  - rewrite app_nth1 by (rewrite H; lia). reflexivity.
  - rewrite app_nth2 by (rewrite H by lia; lia). rewrite H by lia. replace (S i * r + j - r) with (i * r + j) by lia.
    rewrite (IH (fun i => f (S i)) i); auto; try lia. intros k Hk. apply H. lia.
Qed.

(** A matrix whose columns all have the announced length. *)
Definition tabulated {T} (m : mat T) : Prop := Forall (fun c => length c = mrows m) (mcols m).
Lemma tabulated_tab {T} r c (f : nat -> nat -> T) : tabulated (mtab r c f).
Proof. unfold tabulated. cbn. apply Forall_forall. intros x Hx. apply in_map_iff in Hx. destruct Hx as (j & <- & _). apply vtab_length. Qed.

Section Arrays.
  Context {T : Type} {O : ops T}.
  Variable to_bytes : T -> elem.
  Variable of_bytes : elem -> T.
  Hypothesis round : forall x, of_bytes (to_bytes x) = x.
  Hypothesis width : forall x, length (to_bytes x) = 8.

  Lemma mtab_eta (m : mat T) : tabulated m -> mtab (mrows m) (ncols m) (mget m) = m.
  Proof.
    intros H. destruct m as [r cols]. unfold mtab, ncols, mget. cbn [mrows mcols] in *. f_equal.
    rewrite <- (vtab_eta cols []) at 2. apply vtab_ext. intros j Hj.
    unfold tabulated in H. cbn in H. rewrite Forall_forall in H. rewrite <- (H (nth j cols []) (nth_In _ _ Hj)) at 1. apply vtab_eta.
  Qed.
  Lemma emat_get (m : mat T) j i : j < mrows m -> i < ncols m -> em_get (emat_of to_bytes m) j i = to_bytes (mget m j i).
  Proof.
    intros Hj Hi. unfold em_get, emat_of. cbn [em_rowmajor em_store em_rows].
    rewrite (nth_concat_const [] (mrows m)); auto.
    - rewrite (nth_indep _ [] (to_bytes zero)) by (unfold mcol; rewrite map_length, vtab_length; exact Hj).
      rewrite map_nth. unfold mcol. now rewrite vtab_nth.
    - intros k _. unfold mcol. now rewrite map_length, vtab_length.
  Qed.
  Lemma emat_round (m : mat T) : tabulated m -> mat_of of_bytes (emat_of to_bytes m) = m.
  Proof.
    intros H. unfold mat_of. cbn [em_rows em_cols emat_of]. transitivity (mtab (mrows m) (ncols m) (mget m)); [|exact (mtab_eta m H)]. apply mtab_ext. intros i j Hi Hj.
    rewrite (emat_get m i j Hi Hj). apply round.
  Qed.
  Lemma ecol_round (v : list T) : col_of of_bytes (ecol_of to_bytes v) = v.
  Proof.
    unfold col_of, ecol_of, em_get. cbn [em_rows em_rowmajor em_store]. transitivity (vtab (length v) (fun i => nth i v zero)); [|apply vtab_eta]. apply vtab_ext. intros i Hi.
    cbn [Nat.mul Nat.add]. rewrite (nth_indep _ [] (to_bytes zero)) by (now rewrite map_length). rewrite map_nth. apply round.
  Qed.
  Lemma emat_valid (m : mat T) : 1 <= mrows m -> 1 <= ncols m -> (Z.of_nat (mrows m) * Z.of_nat (ncols m) < 2 ^ 31)%Z -> valid_matrix F8 (emat_of to_bytes m).
  Proof.
    intros H1 H2 H3. unfold valid_matrix. cbn [em_rows em_cols em_store emat_of]. repeat split; auto.
    - rewrite (concat_const _ (mrows m)); [lia|]. intros i _. unfold mcol. now rewrite map_length, vtab_length.
    - apply Forall_forall. intros e He. apply in_concat in He. destruct He as (l & Hl & He). apply in_map_iff in Hl. destruct Hl as (i & <- & _).
      apply in_map_iff in He. destruct He as (x & <- & _). apply width.
  Qed.
  Lemma ecol_valid (v : list T) : 1 <= length v -> (Z.of_nat (length v) < 2 ^ 31)%Z -> valid_matrix F8 (ecol_of to_bytes v).
  Proof.
    intros H1 H2. unfold valid_matrix. cbn [em_rows em_cols em_store ecol_of]. repeat split; auto; try lia.
    - rewrite map_length. lia.
    - apply Forall_forall. intros e He. apply in_map_iff in He. destruct He as (x & <- & _). apply width.
  Qed.
  Lemma file_round (m : params T) : tabulated (p_beta m) -> tabulated (p_eta m) -> params_of of_bytes (file_of to_bytes m) = m.
  Proof.
    intros H1 H2. unfold params_of, file_of. cbn [mf_alpha mf_beta mf_eta]. rewrite ecol_round, !emat_round by assumption. now destruct m.
  Qed.
End Arrays.
