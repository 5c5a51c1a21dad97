(** Training with the correspondence E and M steps in double precision. *)
Require Import Reals ZArith List Bool Arith Lia Lra Psatz Permutation.
From Flocq Require Import Core.Core IEEE754.BinarySingleNaN Relative.
Require Import Verif.Base Verif.Scalar Verif.Mat Verif.HostModel Verif.UtilsModel Verif.BuilderModel Verif.EStepModel Verif.EStepAny Verif.EStepReal Verif.OptModel Verif.MStepModel Verif.MStepSpec Verif.MStepAny Verif.MStepBatch
  Verif.PoolModel Verif.LdaModel Verif.TrainSizes Verif.TrainPerm Verif.TrainProofs.
Require Import Verif.DoubleSpec Verif.DoubleTrainSpec Verif.DoubleClassSpec Verif.DoubleMultiTrainSpec Verif.DoubleCorrTrainSpec Verif.DoubleArith Verif.DoubleUtils Verif.DoubleProofs Verif.DoubleTrain Verif.DoubleMultiTrain Verif.DoubleCorrespondence.
Import ListNotations.
Open Scope R_scope.

Section Train.
  Variables (lg ex lga : double -> double) (sum : list double -> double).
  Local Hint Extern 0 (ops _) => exact (DO lg ex lga sum) : typeclass_instances.
  Hypothesis Hlg : rough_log lg.
  Hypothesis Hlb : rough_log_below lg.
  Hypothesis Hex : rough_exp ex.
  Hypothesis Hsum : forall l, summed l (sum l).

  (** What a word of a document adds to a topic *)
  Lemma share_d (w t : double) (c : Z) : is_finite w = true -> 0 <= B2R w <= 1 -> is_finite t = true -> 0 <= B2R t <= 1 -> (0 <= c <= 2 ^ 31)%Z ->
    let p := mul w (mul (ofZ c) t) in let e := IZR c * (B2R w * B2R t) in
    is_finite p = true /\ 0 <= B2R p <= pow 31 /\ 0 <= e <= IZR c /\ Rabs (B2R p - e) <= 3 * U * e + T0 /\
    (forall j, (-850 <= j <= 0)%Z -> c <> 0%Z -> pow (-128) <= B2R t -> pow j <= B2R w -> pow (j - 128) <= B2R p).
  Proof.
    intros Fw Bw Ft Bt Hc p e. destruct unit_facts as (PU & SU & PT & ST & _ & _ & _). destruct (int_d lg ex lga sum c ltac:(lia)) as [Fc Vc].
    assert (C1 : 0 <= IZR c <= pow 31) by (split; [apply (IZR_le 0); lia|change (pow 31) with (IZR (2 ^ 31)); apply IZR_le; lia]).
    assert (X1 : 0 <= IZR c * B2R t <= IZR c). { split; [apply Rmult_le_pos; lra|]. apply Rle_trans with (IZR c * 1); [apply Rmult_le_compat_l; lra|lra]. }
    destruct (mul_in (ofZ c) t Fc Ft 0 (pow 31) (rep_Z 0 ltac:(lia)) (rep_pow 31 ltac:(lia))) as (Fq & Vq & Bq); [rewrite Vc; lra|].
    rewrite Vc in Vq. pose proof (rnd_mul_int t c) as Eq. rewrite (Rmult_comm (B2R t)), <- Vq, (Rabs_pos_eq (IZR c * B2R t)) in Eq by lra.
    change p with (dmul w (dmul (ofZ c) t)). set (q := dmul (ofZ c) t) in *.
    assert (X2 : 0 <= B2R w * B2R q <= pow 31). { split; [apply Rmult_le_pos; lra|]. apply Rle_trans with (1 * pow 31); [apply Rmult_le_compat; lra|lra]. }
    destruct (mul_in w q Fw Fq 0 (pow 31) (rep_Z 0 ltac:(lia)) (rep_pow 31 ltac:(lia)) X2) as (Fp & Vp & Bp).
    assert (E0 : 0 <= e <= IZR c). { unfold e. replace (IZR c * (B2R w * B2R t)) with (B2R w * (IZR c * B2R t)) by ring. split; [apply Rmult_le_pos; lra|]. apply Rle_trans with (1 * (IZR c * B2R t)); [apply Rmult_le_compat_r; lra|lra]. }
    split; [exact Fp|]. split; [exact Bp|]. split; [exact E0|]. split.
    - pose proof (rnd_error (B2R w * B2R q)) as Ep. rewrite <- Vp in Ep. rewrite (Rabs_pos_eq (B2R w * B2R q)) in Ep by lra. change (pow (-53)) with U in Ep. change (pow (-1075)) with T0 in Ep.
      assert (W1 : Rabs (B2R w * B2R q - e) <= U * e).
      { unfold e. replace (IZR c * (B2R w * B2R t)) with (B2R w * (IZR c * B2R t)) by ring. rewrite <- Rmult_minus_distr_l, Rabs_mult, (Rabs_pos_eq (B2R w)) by lra.
        replace (U * (B2R w * (IZR c * B2R t))) with (B2R w * (U * (IZR c * B2R t))) by ring. apply Rmult_le_compat_l; [lra|exact Eq]. }
      assert (W2 : U * e <= 1 * e) by (apply Rmult_le_compat_r; lra).
      assert (W3 : U * (B2R w * B2R q) <= U * (2 * e)) by (apply Rmult_le_compat_l; [lra|]; apply Rabs_le_inv in W1; lra).
      replace (U * (2 * e)) with (2 * (U * e)) in W3 by ring. replace (3 * U * e) with (3 * (U * e)) by ring. apply Rabs_le. apply Rabs_le_inv in W1, Ep. lra.
    - intros j Hj Nc Lt Lw. assert (1 <= IZR c) by (apply (IZR_le 1); lia).
      destruct (mul_in (ofZ c) t Fc Ft (pow (-128)) (pow 31) (rep_pow (-128) ltac:(lia)) (rep_pow 31 ltac:(lia))) as (_ & _ & B1).
      { rewrite Vc. split; [|lra]. apply Rle_trans with (1 * B2R t); [lra|]. apply Rmult_le_compat_r; lra. }
      fold q in B1. destruct (mul_in w q Fw Fq (pow (j - 128)) (pow 31) (rep_pow (j - 128) ltac:(lia)) (rep_pow 31 ltac:(lia))) as (_ & _ & B2); [|exact (proj1 B2)].
      split; [|apply X2]. unfold Z.sub. rewrite bpow_plus. apply Rmult_le_compat; try apply bpow_ge_0; [exact Lw|apply B1].
  Qed.

  (** A total over the chosen documents, with an error by underflow *)
  Lemma piled_d {A} (sel : A -> bool) (t : A -> double) (e : A -> R) (a d : R) l : (Z.of_nat (length l) <= 2 ^ 28)%Z -> 0 <= a <= / 1000 -> 0 <= d ->
    (forall x, In x l -> is_finite (t x) = true /\ 0 <= B2R (t x) <= pow 32 /\ 0 <= e x /\ Rabs (B2R (t x) - e x) <= a * e x + d) ->
    let r := fold_left (fun h x => if sel x then add h (t x) else h) l zero in let E := lsum (map (fun x => if sel x then e x else 0) l) in
    is_finite r = true /\ 0 <= B2R r <= INR (length l) * pow 32 /\ 0 <= E /\ Rabs (B2R r - E) <= (a + INR (length l) * (4 * U)) * E + INR (length l) * (2 * d) /\
    (forall x, In x l -> sel x = true -> B2R (t x) <= B2R r).
  Proof.
    destruct unit_facts as (PU & SU & PT & ST & _ & _ & _). intros Hn Ha Hd. revert Hn. induction l as [|y l IH] using rev_ind; intros Hn Hw.
    - cbn. unfold lsum. cbn. split; [reflexivity|]. split; [lra|]. split; [lra|]. split; [|contradiction]. rewrite Rminus_0_r, Rabs_R0. lra.
    - rewrite app_length in *. cbn [length] in *. destruct IH as (Fr & Br & E0 & Er & Mr); [lia|intros x Hx; apply Hw; apply in_or_app; now left|].
      cbv zeta. rewrite fold_left_app, map_app, lsum_app. cbn [fold_left map]. set (r := fold_left _ l zero) in *. clearbody r.
      set (E := lsum (map (fun x => if sel x then e x else 0) l)) in *. clearbody E. unfold lsum at 1 2 3. cbn [fold_right]. rewrite Rplus_0_r.
      destruct (Hw y) as (Ft & Bt & E1 & Et); [apply in_or_app; right; now left|].
      assert (NL : INR (length l + 1) = INR (length l) + 1) by (rewrite plus_INR; reflexivity). pose proof (bpow_gt_0 radix2 32) as P32.
      assert (N0 : 0 <= INR (length l) <= 1073741824). { split; [apply pos_INR|]. apply (INR_small (length l)). lia. }
      assert (Mt : B2R (t y) <= B2R r + B2R (t y)) by lra.
      set (n := INR (length l)) in *.
      assert (UE : 0 <= U * E) by (apply Rmult_le_pos; lra). assert (ND : 0 <= n * (2 * d)) by (apply Rmult_le_pos; lra).
      destruct (sel y) eqn:Sy.
      + assert (Rhi : rep (INR (length l + 1) * pow 32)) by (rewrite INR_IZR_INZ; apply rep_scale; lia).
        destruct (add_in r (t y) Fr Ft 0 (INR (length l + 1) * pow 32) (rep_Z 0 ltac:(lia)) Rhi) as (Fs & Vs & Bs); [rewrite NL; lra|].
        change (add r (t y)) with (dadd r (t y)). split; [exact Fs|]. split; [exact Bs|]. split; [lra|]. split.
        * pose proof (rnd_add_error r (t y)) as Es. rewrite <- Vs in Es. rewrite (Rabs_pos_eq (B2R r + B2R (t y))) in Es by lra.
          set (v := B2R (dadd r (t y))) in *. rewrite NL. clearbody v.
          assert (NU : n * (4 * U) <= / 2) by (apply Rle_trans with (1073741824 * (4 * U)); [apply Rmult_le_compat_r; lra|lra]).
          assert (NE : (a + n * (4 * U)) * E <= 1 * E) by (apply Rmult_le_compat_r; lra).
          assert (AE : a * e y <= 1 * e y) by (apply Rmult_le_compat_r; lra).
          assert (S2 : U * (B2R r + B2R (t y)) <= U * (2 * E + 2 * e y + (n * (2 * d) + d))) by (apply Rmult_le_compat_l; [lra|]; apply Rabs_le_inv in Er, Et; lra).
          assert (UT : 0 <= U * e y) by (apply Rmult_le_pos; lra). assert (NT : 0 <= n * (U * e y)) by (apply Rmult_le_pos; lra).
          assert (UD : U * (n * (2 * d) + d) <= d). { replace (U * (n * (2 * d) + d)) with ((n * (2 * U) + U) * d) by ring. apply Rle_trans with (1 * d); [apply Rmult_le_compat_r; [exact Hd|]|lra]. lra. }
          replace ((a + (n + 1) * (4 * U)) * (E + e y)) with ((a + n * (4 * U)) * E + a * e y + 4 * (n * (U * e y)) + 4 * (U * E) + 4 * (U * e y)) by ring.
          replace (U * (2 * E + 2 * e y + (n * (2 * d) + d))) with (2 * (U * E) + 2 * (U * e y) + U * (n * (2 * d) + d)) in S2 by ring.
          replace ((n + 1) * (2 * d)) with (n * (2 * d) + 2 * d) by ring.
          apply Rabs_le. apply Rabs_le_inv in Er, Et, Es. change (pow (-53)) with U in Es. split; lra.
        * intros x Hx Sx. assert (Q : B2R (t x) <= B2R r + B2R (t y)).
          { apply in_app_or in Hx. destruct Hx as [Hx|[<-|[]]]; [specialize (Mr x Hx Sx); lra|exact Mt]. }
          rewrite Vs. apply round_ge_generic; [apply fexp_valid|apply valid_rnd_N|apply generic_format_B2R|exact Q].
      + split; [exact Fr|]. rewrite NL, Rplus_0_r. split; [lra|]. split; [exact E0|]. split.
        * eapply Rle_trans; [exact Er|]. apply Rplus_le_compat; [apply Rmult_le_compat_r; lra|lra].
        * intros x Hx Sx. apply in_app_or in Hx. destruct Hx as [Hx|[<-|[]]]; [exact (Mr x Hx Sx)|congruence].
  Qed.

  (** The shares of a topic in a document *)
  Lemma shares_d V (w t : nat -> double) (c : nat -> Z) N : (Z.of_nat V <= 2 ^ 30)%Z ->
    (forall n, (n < V)%nat -> is_finite (w n) = true /\ 0 <= B2R (w n) <= 1 /\ is_finite (t n) = true /\ 0 <= B2R (t n) <= 1 /\ (0 <= c n <= 2 ^ 31)%Z) ->
    rsum V (fun n => IZR (c n)) <= N -> N <= pow 31 ->
    let r := redux (vtab V (fun n => mul (w n) (mul (ofZ (c n)) (t n)))) in let E := rsum V (fun n => IZR (c n) * (B2R (w n) * B2R (t n))) in
    is_finite r = true /\ 0 <= B2R r <= pow 32 /\ 0 <= E <= N /\ Rabs (B2R r - E) <= (INR V + 1) * (4 * U) * E + INR V * (2 * T0).
  Proof.
    intros HV Hw HN N31 r E. destruct unit_facts as (PU & SU & PT & ST & _ & _ & E52). destruct (INR_small V HV) as [V0 V1].
    assert (P : forall n, (n < V)%nat -> _) by exact (fun n Hn => match Hw n Hn with conj h1 (conj h2 (conj h3 (conj h4 h5))) => share_d (w n) (t n) (c n) h1 h2 h3 h4 h5 end). cbv zeta in P.
    assert (S : summed (vtab V (fun n => mul (w n) (mul (ofZ (c n)) (t n)))) r) by exact (Hsum _).
    destruct (summed_in 31 _ r S ltac:(lia)) as (Fs & Bs & _ & Es).
    { rewrite vtab_length. lia. }
    { apply Forall_forall. intros x Hx. unfold vtab in Hx. apply in_map_iff in Hx. destruct Hx as (i & <- & Hi). apply in_seq in Hi. destruct (P i ltac:(lia)) as (F & B & _). split; [exact F|exact B]. }
    rewrite vtab_length, E52 in Es.
    assert (Ep : lval (vtab V (fun n => mul (w n) (mul (ofZ (c n)) (t n)))) = rsum V (fun i => B2R (mul (w i) (mul (ofZ (c i)) (t i))))) by (unfold lval, rsum; now rewrite vtab_map).
    rewrite Ep in Es. set (Q := rsum V (fun i => B2R (mul (w i) (mul (ofZ (c i)) (t i))))) in *.
    assert (QE : Rabs (Q - E) <= 3 * U * E + INR V * T0). { unfold E. rewrite <- rsum_mult_l, <- rsum_const, <- rsum_plus. apply rsum_dist. intros n Hn. apply (P n Hn). }
    assert (E0 : 0 <= E) by (apply rsum_nonneg; intros n Hn; apply (P n Hn)).
    assert (EN : E <= N). { eapply Rle_trans; [|exact HN]. apply rsum_le. intros n Hn. apply (P n Hn). }
    assert (UE : 0 <= U * E <= / 100 * E) by (split; [apply Rmult_le_pos; lra|apply Rmult_le_compat_r; lra]).
    assert (VT : 0 <= INR V * T0) by (apply Rmult_le_pos; lra).
    assert (VU : 0 <= INR V * (2 * U) <= / 8). { split; [apply Rmult_le_pos; lra|]. apply Rle_trans with (1073741824 * (2 * U)); [apply Rmult_le_compat_r; lra|lra]. }
    assert (VE : 0 <= INR V * (U * E)) by (apply Rmult_le_pos; lra).
    assert (QE2 : INR V * (2 * U) * Q <= INR V * (2 * U) * (2 * E + INR V * T0)) by (apply Rmult_le_compat_l; [lra|]; apply Rabs_le_inv in QE; lra).
    assert (QE3 : INR V * (2 * U) * (INR V * T0) <= / 8 * (INR V * T0)) by (apply Rmult_le_compat_r; lra).
    assert (B4 : Rabs (B2R r - E) <= (INR V + 1) * (4 * U) * E + INR V * (2 * T0)).
    { replace ((INR V + 1) * (4 * U) * E) with (4 * (INR V * (U * E)) + 4 * (U * E)) by ring. replace (INR V * (2 * T0)) with (2 * (INR V * T0)) by ring.
      replace (INR V * (2 * U) * (2 * E + INR V * T0)) with (4 * (INR V * (U * E)) + INR V * (2 * U) * (INR V * T0)) in QE2 by ring.
      replace (3 * U * E) with (3 * (U * E)) in QE by ring. apply Rabs_le. apply Rabs_le_inv in Es, QE. split; lra. }
    split; [exact Fs|]. split; [|split; [lra|exact B4]]. split; [apply Bs|].
    change (pow 31) with 2147483648 in N31. change (pow 32) with 4294967296. apply Rabs_le_inv in B4.
    assert ((INR V + 1) * (4 * U) * E <= / 2 * E) by (apply Rmult_le_compat_r; [exact E0|]; apply Rle_trans with (1073741825 * (4 * U)); [apply Rmult_le_compat_r; lra|lra]).
    assert (INR V * (2 * T0) <= 1). { apply Rle_trans with (1073741824 * (2 * T0)); [apply Rmult_le_compat_r; lra|lra]. }
    lra.
  Qed.

  Lemma pow_inv k : pow (- Z.of_nat k) = / 2 ^ k.
  Proof. rewrite bpow_opp. f_equal. rewrite bpow_powerRZ. change (IZR radix2) with 2. symmetry. apply pow_powerRZ. Qed.

  (** A topic from the counts of the words *)
  Lemma topic_d V (b : nat -> double) (E : nat -> R) (a d : R) n0 : (Z.of_nat V <= 2 ^ 30)%Z -> 0 <= a <= / 10000 -> 0 <= d <= pow (-1040) ->
    (forall n, (n < V)%nat -> is_finite (b n) = true /\ 0 <= B2R (b n) <= pow 60 /\ 0 <= E n /\ Rabs (B2R (b n) - E n) <= a * E n + d) ->
    (n0 < V)%nat -> pow (-810) <= B2R (b n0) ->
    let s := redux (vtab V b) in let q n := div (b n) s in
    eqb s zero = false /\ 0 < rsum V E /\
    (forall n, (n < V)%nat -> is_finite (q n) = true /\ 0 <= B2R (q n) <= 1 /\
      Rabs (B2R (q n) - E n / rsum V E) <= (3 * a + 4 * INR V * U + 5 * U) * (E n / rsum V E) + pow (-220)) /\
    Rabs (rsum V (fun n => B2R (q n)) - 1) <= (INR V + 1) / 2 ^ 50 /\
    (forall n, (n < V)%nat -> pow (-160) <= B2R (b n) -> pow (-250) <= B2R (q n)).
  Proof.
    intros HV Ha Hd Hb H0 L0 s q. destruct unit_facts as (PU & SU & PT & ST & _ & _ & _). destruct (INR_small V HV) as [V0 V1].
    assert (P0 : 0 < B2R (b n0)) by (pose proof (bpow_gt_0 radix2 (-810)); lra).
    destruct (row_d lg ex lga sum Hsum V b 60 n0 HV ltac:(lia)) as (R1 & R2 & R3 & Ps & Es); try assumption.
    { intros n Hn. destruct (Hb n Hn) as (F & B & _). auto. }
    fold s in R1, R2, R3, Ps, Es.
    assert (Z : eqb s zero = false).
    { destruct (eqb s zero) eqn:Z; [|reflexivity]. exfalso. assert (F : is_finite s = true) by (destruct s; cbn in Ps; try lra; reflexivity). apply (is_zero lg ex lga sum s F) in Z. lra. }
    set (S := rsum V E) in *. set (B := rsum V (fun n => B2R (b n))) in *. set (k := INR V * (2 * U)) in *.
    assert (K2 : 0 <= k <= / 1000) by (split; [apply Rmult_le_pos; lra|apply Rle_trans with (1073741824 * (2 * U)); [apply Rmult_le_compat_r; lra|lra]]).
    assert (BS : Rabs (B - S) <= a * S + INR V * d). { unfold S. rewrite <- rsum_mult_l, <- rsum_const, <- rsum_plus. apply rsum_dist. intros n Hn. apply (Hb n Hn). }
    assert (B0 : pow (-810) <= B). { eapply Rle_trans; [exact L0|]. apply (rsum_le_term V (fun n => B2R (b n)) n0); [|exact H0]. intros n Hn. apply (Hb n Hn). }
    assert (Vd : 0 <= INR V * d <= pow (-1010)). { split; [apply Rmult_le_pos; lra|]. change (-1010)%Z with (30 + -1040)%Z. rewrite bpow_plus. change (pow 30) with 1073741824. apply Rmult_le_compat; lra. }
    assert (S00 : 0 <= S) by (apply rsum_nonneg; intros n Hn; apply (Hb n Hn)).
    assert (aS : 0 <= a * S <= / 10000 * S) by (split; [apply Rmult_le_pos; lra|apply Rmult_le_compat_r; lra]).
    assert (D811 : pow (-810) = 2 * pow (-811)) by (change (-810)%Z with (1 + -811)%Z; rewrite bpow_plus; reflexivity).
    assert (D812 : pow (-811) = 2 * pow (-812)) by (change (-811)%Z with (1 + -812)%Z; rewrite bpow_plus; reflexivity).
    assert (G10 : pow (-1010) <= / 2 * pow (-811)). { apply Rle_trans with (pow (-812)); [apply bpow_le; lia|lra]. }
    pose proof (bpow_gt_0 radix2 (-812)) as P812.
    assert (S1 : pow (-811) <= S) by (apply Rabs_le_inv in BS; lra).
    assert (VdU : INR V * d <= U * S).
    { apply Rle_trans with (pow (-1010)); [lra|]. apply Rle_trans with (U * pow (-811)); [|apply Rmult_le_compat_l; lra]. change U with (pow (-53)); rewrite <- bpow_plus. apply bpow_le. lia. }
    assert (s1 : pow (-812) <= B2R s). { assert (k * B <= / 1000 * B) by (apply Rmult_le_compat_r; lra). apply Rabs_le_inv in Es. lra. }
    split; [exact Z|]. split; [lra|]. split; [|split; [exact R2|]].
    2:{ intros n Hn Ln. apply (R3 n (-160)%Z Hn Ln). lia. }
    intros n Hn. destruct (R1 n Hn) as (Fq & Bq & Eq). split; [exact Fq|]. split; [exact Bq|]. change (div (b n) s) with (q n) in Eq.
    destruct (Hb n Hn) as (_ & Bb & E0 & Eb).
    assert (aE : 0 <= a * E n <= / 10000 * E n) by (split; [apply Rmult_le_pos; lra|apply Rmult_le_compat_r; lra]).
    (* the part of the count within the relative error *)
    set (c := Rmax (E n - a * E n) (Rmin (B2R (b n)) (E n + a * E n))).
    assert (C1 : Rabs (c - E n) <= a * E n /\ Rabs (B2R (b n) - c) <= d).
    { apply Rabs_le_inv in Eb. unfold c, Rmax, Rmin. destruct (Rle_dec (B2R (b n)) (E n + a * E n)); destruct (Rle_dec (E n - a * E n) _); split; apply Rabs_le; lra. }
    destruct C1 as [C1 C2]. set (r := E n / S) in *.
    assert (r0 : 0 <= r) by (apply Rle_mult_inv_pos; lra).
    assert (QE : Rabs (c / B2R s - r) <= (3 * (a + U) + 2 * k) * r).
    { unfold r. apply (quotient_error c (B2R s) (E n) S (a + U) k); try lra.
      - assert (0 <= U * E n) by (apply Rmult_le_pos; lra). lra.
      - apply Rabs_le_inv in BS, Es. split.
        + apply Rle_trans with ((1 - k) * B); [|lra]. rewrite (Rmult_comm (1 - (a + U))), Rmult_assoc. apply Rmult_le_compat_l; lra.
        + apply Rle_trans with ((1 + k) * B); [lra|]. rewrite (Rmult_comm (1 + (a + U))), Rmult_assoc. apply Rmult_le_compat_l; lra. }
    assert (QD : Rabs (B2R (b n) / B2R s - c / B2R s) <= pow (-228)).
    { replace (B2R (b n) / B2R s - c / B2R s) with ((B2R (b n) - c) / B2R s) by (field; lra). unfold Rdiv. rewrite Rabs_mult, (Rabs_pos_eq (/ B2R s)) by (apply Rlt_le, Rinv_0_lt_compat; lra).
      apply Rle_div_l; [lra|]. apply Rle_trans with d; [exact C2|]. apply Rle_trans with (pow (-228) * pow (-812)); [rewrite <- bpow_plus; apply Hd|apply Rmult_le_compat_l; [apply bpow_ge_0|exact s1]]. }
    pose proof (rnd_error (B2R (b n) / B2R s)) as Er. rewrite <- Eq in Er. rewrite (Rabs_pos_eq (B2R (b n) / B2R s)) in Er by (apply Rle_mult_inv_pos; lra).
    change (pow (-53)) with U in Er. change (pow (-1075)) with T0 in Er.
    set (g := B2R (b n) / B2R s) in *. set (h := c / B2R s) in *.
    assert (kk : 4 * INR V * U = 2 * k) by (unfold k; ring).
    assert (X3 : (3 * (a + U) + 2 * k) * r <= / 2 * r) by (apply Rmult_le_compat_r; [exact r0|lra]).
    assert (Ug : U * g <= U * (3 / 2 * r + pow (-228))) by (apply Rmult_le_compat_l; [lra|]; apply Rabs_le_inv in QE, QD; lra).
    assert (UP : U * pow (-228) <= pow (-228)) by (apply Rle_trans with (1 * pow (-228)); [apply Rmult_le_compat_r; [apply bpow_ge_0|lra]|lra]).
    assert (TP : T0 <= pow (-228)) by (apply bpow_le; lia).
    assert (P220 : pow (-220) = 256 * pow (-228)) by (change (-220)%Z with (8 + -228)%Z; rewrite bpow_plus; reflexivity).
    assert (Ur : 0 <= U * r) by (apply Rmult_le_pos; lra). pose proof (bpow_gt_0 radix2 (-228)) as P228.
    rewrite kk, P220. replace ((3 * a + 2 * k + 5 * U) * r) with ((3 * (a + U) + 2 * k) * r + 2 * (U * r)) by ring. replace (U * (3 / 2 * r + pow (-228))) with (3 / 2 * (U * r) + U * pow (-228)) in Ug by ring.
    apply Rabs_le. apply Rabs_le_inv in QE, QD, Er. split; lra.
  Qed.

  (** A class's total with the smoothing, where the total has an error by underflow *)
  Lemma smooth_under_d (h mu : double) (H a d : R) : is_finite h = true -> 0 <= B2R h <= pow 62 -> is_finite mu = true -> 1 + / 2 ^ 30 <= B2R mu <= 2 ^ 30 -> 0 <= H -> 0 <= a <= / 10000 ->
    0 <= d <= pow (-1000) -> Rabs (B2R h - H) <= a * H + d ->
    let p := sub (add h mu) one in
    is_finite p = true /\ 0 <= B2R p <= pow 63 /\ Rabs (B2R p - (H + (B2R mu - 1))) <= (a + U + 5 * U * (B2R mu / (B2R mu - 1))) * (H + (B2R mu - 1)).
  Proof.
    intros Fh Bh Fm Bm H0 Ha Hd Eh p. destruct unit_facts as (PU & SU & PT & ST & _ & _ & _).
    destruct (smooth_d lg ex lga sum h mu (B2R h) 0 Fh Bh Fm Bm ltac:(lra) ltac:(lra)) as (Fp & Bp & Ep); [rewrite Rminus_eq_0, Rabs_R0; lra|].
    split; [exact Fp|]. split; [exact Bp|]. change (sub (add h mu) one) with p in Ep. set (M := B2R mu) in *. assert (E30 : 2 ^ 30 = 1073741824) by lra. rewrite E30 in Bm.
    assert (dU : d <= U * (M - 1)).
    { apply Rle_trans with (pow (-1000)); [lra|]. apply Rle_trans with (U * pow (-30)); [change U with (pow (-53)); rewrite <- bpow_plus; apply bpow_le; lia|]. apply Rmult_le_compat_l; [lra|]. change (pow (-30)) with (/ 1073741824). lra. }
    set (G := H + (M - 1)) in *. assert (G0 : 0 < G) by (unfold G; lra).
    assert (EG : Rabs (B2R h + (M - 1) - G) <= (a + U) * G).
    { replace (B2R h + (M - 1) - G) with (B2R h - H) by (unfold G; ring). eapply Rle_trans; [exact Eh|].
      assert (0 <= a * (M - 1)) by (apply Rmult_le_pos; lra). assert (0 <= U * H) by (apply Rmult_le_pos; lra). unfold G. lra. }
    set (M0 := M / (M - 1)) in *. assert (B0 : 0 <= M0) by (apply Rle_mult_inv_pos; lra).
    assert (aG : (a + U) * G <= / 8 * G) by (apply Rmult_le_compat_r; lra).
    assert (U0 : 0 <= 4 * U * M0) by (apply Rmult_le_pos; lra).
    assert (X : (0 + 4 * U * M0) * (B2R h + (M - 1)) <= (0 + 4 * U * M0) * (9 / 8 * G)) by (apply Rmult_le_compat_l; [lra|]; apply Rabs_le_inv in EG; lra).
    assert (0 <= U * M0 * G) by (apply Rmult_le_pos; [|lra]; lra).
    replace ((a + U + 5 * U * M0) * G) with ((a + U) * G + 5 * (U * M0 * G)) by ring. replace ((0 + 4 * U * M0) * (9 / 8 * G)) with (9 / 2 * (U * M0 * G)) in X by field.
    apply Rabs_le. apply Rabs_le_inv in EG, Ep. split; lra.
  Qed.
End Train.
