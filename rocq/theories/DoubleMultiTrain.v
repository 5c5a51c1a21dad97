(** Training with the multinomial E and M steps in double precision. *)
Require Import Reals ZArith List Bool Arith Lia Lra Psatz Permutation.
From Flocq Require Import Core.Core IEEE754.BinarySingleNaN Relative.
Require Import Verif.Base Verif.Scalar Verif.Mat Verif.HostModel Verif.UtilsModel Verif.BuilderModel Verif.EStepModel Verif.EStepAny Verif.EStepReal Verif.OptModel Verif.MStepModel Verif.MStepSpec Verif.MStepAny Verif.MStepBatch
  Verif.PoolModel Verif.LdaModel Verif.TrainSizes Verif.TrainPerm Verif.TrainProofs.
Require Import Verif.DoubleSpec Verif.DoubleTrainSpec Verif.DoubleClassSpec Verif.DoubleMultiTrainSpec Verif.DoubleArith Verif.DoubleUtils Verif.DoubleProofs Verif.DoubleTrain Verif.DoubleMultinomial.
Import ListNotations.
Open Scope R_scope.

Section Train.
  Variables (lg ex lga : double -> double) (sum : list double -> double).
  Local Hint Extern 0 (ops _) => exact (DO lg ex lga sum) : typeclass_instances.
  Hypothesis Hlg : rough_log lg.
  Hypothesis Hlb : rough_log_below lg.
  Hypothesis Hex : rough_exp ex.
  Hypothesis Hsum : forall l, summed l (sum l).

  (** A total over the chosen documents *)
  Lemma heaped_d {A} (sel : A -> bool) (t : A -> double) (e : A -> R) (a : R) l : (Z.of_nat (length l) <= 2 ^ 30)%Z -> 0 <= a <= / 1000 ->
    (forall x, In x l -> is_finite (t x) = true /\ 0 <= B2R (t x) <= pow 32 /\ 0 <= e x /\ Rabs (B2R (t x) - e x) <= a * e x) ->
    let r := fold_left (fun h x => if sel x then add h (t x) else h) l zero in let E := lsum (map (fun x => if sel x then e x else 0) l) in
    is_finite r = true /\ 0 <= B2R r <= INR (length l) * pow 32 /\ 0 <= E /\ Rabs (B2R r - E) <= (a + INR (length l) * (4 * U)) * E.
  Proof.
    destruct unit_facts as (PU & SU & PT & ST & _ & _ & _). intros Hn Ha. revert Hn. induction l as [|y l IH] using rev_ind; intros Hn Hw.
    - cbn. unfold lsum. cbn. split; [reflexivity|]. split; [lra|]. split; [lra|]. rewrite Rminus_0_r, Rabs_R0. lra.
    - rewrite app_length in *. cbn [length] in *. destruct IH as (Fr & Br & E0 & Er); [lia|intros x Hx; apply Hw; apply in_or_app; now left|].
      cbv zeta. rewrite fold_left_app, map_app, lsum_app. cbn [fold_left map]. set (r := fold_left _ l zero) in *. clearbody r.
      set (E := lsum (map (fun x => if sel x then e x else 0) l)) in *. clearbody E. unfold lsum at 1 2 3. cbn [fold_right]. rewrite Rplus_0_r.
      destruct (Hw y) as (Ft & Bt & E1 & Et); [apply in_or_app; right; now left|].
      assert (NL : INR (length l + 1) = INR (length l) + 1) by (rewrite plus_INR; reflexivity). pose proof (bpow_gt_0 radix2 32) as P32.
      assert (N0 : 0 <= INR (length l) <= 1073741824). { split; [apply pos_INR|]. apply (INR_small (length l)). lia. }
      set (n := INR (length l)) in *.
      assert (UE : 0 <= U * E) by (apply Rmult_le_pos; lra).
      destruct (sel y).
      + assert (Rhi : rep (INR (length l + 1) * pow 32)) by (rewrite INR_IZR_INZ; apply rep_scale; lia).
        destruct (add_in r (t y) Fr Ft 0 (INR (length l + 1) * pow 32) (rep_Z 0 ltac:(lia)) Rhi) as (Fs & Vs & Bs); [rewrite NL; lra|].
        change (add r (t y)) with (dadd r (t y)). split; [exact Fs|]. split; [exact Bs|]. split; [lra|].
        pose proof (rnd_add_error r (t y)) as Es. rewrite <- Vs in Es. rewrite (Rabs_pos_eq (B2R r + B2R (t y))) in Es by lra.
        set (v := B2R (dadd r (t y))) in *. rewrite NL. clearbody v.
        assert (NU : n * (4 * U) <= / 2) by (apply Rle_trans with (1073741824 * (4 * U)); [apply Rmult_le_compat_r; lra|lra]).
        assert (NE : (a + n * (4 * U)) * E <= 1 * E) by (apply Rmult_le_compat_r; lra).
        assert (AE : a * e y <= 1 * e y) by (apply Rmult_le_compat_r; lra).
        assert (S2 : U * (B2R r + B2R (t y)) <= U * (2 * E + 2 * e y)) by (apply Rmult_le_compat_l; [lra|]; apply Rabs_le_inv in Er, Et; lra).
        assert (UT : 0 <= U * e y) by (apply Rmult_le_pos; lra). assert (NT : 0 <= n * (U * e y)) by (apply Rmult_le_pos; lra).
        replace ((a + (n + 1) * (4 * U)) * (E + e y)) with ((a + n * (4 * U)) * E + a * e y + 4 * (n * (U * e y)) + 4 * (U * E) + 4 * (U * e y)) by ring.
        replace (U * (2 * E + 2 * e y)) with (2 * (U * E) + 2 * (U * e y)) in S2 by ring.
        apply Rabs_le. apply Rabs_le_inv in Er, Et, Es. change (pow (-53)) with U in Es. split; lra.
      + split; [exact Fr|]. rewrite NL, Rplus_0_r. split; [lra|]. split; [exact E0|]. eapply Rle_trans; [exact Er|]. apply Rmult_le_compat_r; lra.
  Qed.

  (** The words of a topic in a document *)
  Lemma mass_d V (w : nat -> double) (c : nat -> Z) N : (Z.of_nat V <= 2 ^ 30)%Z -> (forall n, (n < V)%nat -> is_finite (w n) = true /\ 0 <= B2R (w n) <= 1 /\ (0 <= c n <= 2 ^ 31)%Z) ->
    rsum V (fun n => IZR (c n)) <= N -> N <= pow 31 ->
    let t := redux (vtab V (fun n => mul (w n) (ofZ (c n)))) in let E := rsum V (fun n => IZR (c n) * B2R (w n)) in
    is_finite t = true /\ 0 <= B2R t <= pow 32 /\ 0 <= E <= N /\ Rabs (B2R t - E) <= (INR V + 1) * (4 * U) * E.
  Proof.
    intros HV Hw HN N31 t E. destruct unit_facts as (PU & SU & PT & ST & _ & _ & E52). destruct (INR_small V HV) as [V0 V1].
    assert (P : forall n, (n < V)%nat -> is_finite (mul (w n) (ofZ (c n))) = true /\ 0 <= B2R (mul (w n) (ofZ (c n))) <= pow 31 /\ Rabs (B2R (mul (w n) (ofZ (c n))) - IZR (c n) * B2R (w n)) <= U * (IZR (c n) * B2R (w n)) /\ 0 <= IZR (c n) * B2R (w n) <= IZR (c n)).
    { intros n Hn. destruct (Hw n Hn) as (Fw & Bw & Cy).
      assert (C1 : 0 <= IZR (c n) <= pow 31) by (split; [apply (IZR_le 0); lia|change (pow 31) with (IZR (2 ^ 31)); apply IZR_le; lia]).
      destruct (int_d lg ex lga sum (c n) ltac:(lia)) as [Fc Vc].
      assert (T2 : 0 <= IZR (c n) * B2R (w n) <= IZR (c n)).
      { split; [apply Rmult_le_pos; lra|]. apply Rle_trans with (IZR (c n) * 1); [apply Rmult_le_compat_l; lra|lra]. }
      destruct (mul_in (w n) (ofZ (c n)) Fw Fc 0 (pow 31) (rep_Z 0 ltac:(lia)) (rep_pow 31 ltac:(lia))) as (Fm & Vm & Bm).
      { rewrite Vc, Rmult_comm. lra. }
      rewrite Vc in Vm. pose proof (rnd_mul_int (w n) (c n)) as Em. rewrite <- Vm in Em. rewrite (Rmult_comm (B2R (w n))) in Em. rewrite (Rabs_pos_eq (IZR (c n) * B2R (w n))) in Em by lra.
      split; [exact Fm|]. split; [exact Bm|]. split; [exact Em|exact T2]. }
    assert (S : summed (vtab V (fun n => mul (w n) (ofZ (c n)))) t) by exact (Hsum _).
    destruct (summed_in 31 _ t S ltac:(lia)) as (Fs & Bs & _ & Es).
    { rewrite vtab_length. lia. }
    { apply Forall_forall. intros x Hx. unfold vtab in Hx. apply in_map_iff in Hx. destruct Hx as (i & <- & Hi). apply in_seq in Hi. destruct (P i ltac:(lia)) as (F & B & _). split; [exact F|exact B]. }
    rewrite vtab_length, E52 in Es.
    assert (Ep : lval (vtab V (fun n => mul (w n) (ofZ (c n)))) = rsum V (fun i => B2R (mul (w i) (ofZ (c i))))) by (unfold lval, rsum; now rewrite vtab_map).
    rewrite Ep in Es. set (Q := rsum V (fun i => B2R (mul (w i) (ofZ (c i))))) in *.
    assert (QE : Rabs (Q - E) <= U * E). { unfold E. rewrite <- rsum_mult_l. apply rsum_dist. intros n Hn. apply P, Hn. }
    assert (E0 : 0 <= E) by (apply rsum_nonneg; intros n Hn; apply P, Hn).
    assert (EN : E <= N). { eapply Rle_trans; [|exact HN]. apply rsum_le. intros n Hn. apply P, Hn. }
    assert (UE : 0 <= U * E <= E) by (split; [apply Rmult_le_pos; lra|replace E with (1 * E) at 2 by ring; apply Rmult_le_compat_r; lra]).
    assert (VU : 0 <= INR V * (2 * U) <= / 8). { split; [apply Rmult_le_pos; lra|]. apply Rle_trans with (1073741824 * (2 * U)); [apply Rmult_le_compat_r; lra|lra]. }
    assert (QE2 : INR V * (2 * U) * Q <= INR V * (2 * U) * (2 * E)) by (apply Rmult_le_compat_l; [lra|]; apply Rabs_le_inv in QE; lra).
    assert (B4 : Rabs (B2R t - E) <= (INR V + 1) * (4 * U) * E).
    { replace ((INR V + 1) * (4 * U) * E) with (INR V * (2 * U) * (2 * E) + 4 * (U * E)) by ring. apply Rabs_le. apply Rabs_le_inv in Es, QE. split; lra. }
    split; [exact Fs|]. split; [|split; [lra|exact B4]]. split; [apply Bs|].
    change (pow 31) with 2147483648 in N31. change (pow 32) with 4294967296. apply Rabs_le_inv in B4.
    assert ((INR V + 1) * (4 * U) * E <= / 2 * E) by (apply Rmult_le_compat_r; [exact E0|]; apply Rle_trans with (1073741825 * (4 * U)); [apply Rmult_le_compat_r; lra|lra]). lra.
  Qed.

  (** A class's total with the smoothing *)
  Lemma smooth_d (h mu : double) (H b : R) : is_finite h = true -> 0 <= B2R h <= pow 62 -> is_finite mu = true -> 1 + / 2 ^ 30 <= B2R mu <= 2 ^ 30 -> 0 <= H -> 0 <= b <= / 1000 -> Rabs (B2R h - H) <= b * H ->
    let p := sub (add h mu) one in
    is_finite p = true /\ 0 <= B2R p <= pow 63 /\ Rabs (B2R p - (H + (B2R mu - 1))) <= (b + 4 * U * (B2R mu / (B2R mu - 1))) * (H + (B2R mu - 1)).
  Proof.
    intros Fh Bh Fm Bm H0 Hb Eh p. destruct unit_facts as (PU & SU & PT & ST & _ & _ & _). destruct (one_d lg ex lga sum) as [F1 V1].
    assert (P30 : 2 ^ 30 <= 1073741824) by lra. assert (I30 : 0 < / 2 ^ 30) by (apply Rinv_0_lt_compat; lra).
    assert (P63 : 2 * pow 62 = pow 63) by reflexivity. assert (L62 : 1073741824 <= pow 62) by (change (pow 62) with (IZR (2 ^ 62)); apply IZR_le; lia).
    destruct (add_in h mu Fh Fm 1 (pow 63) (rep_Z 1 ltac:(lia)) (rep_pow 63 ltac:(lia))) as (Fa & Va & Ba); [lra|].
    destruct (sub_in (dadd h mu) one Fa F1 0 (pow 63) (rep_Z 0 ltac:(lia)) (rep_pow 63 ltac:(lia))) as (Fs & Vs & Bs); [rewrite V1; lra|].
    change p with (dsub (dadd h mu) one). split; [exact Fs|]. split; [exact Bs|].
    pose proof (rnd_add_error h mu) as Ea. rewrite <- Va in Ea. pose proof (rnd_add_error (dadd h mu) (Bopp one)) as Es. rewrite B2R_Bopp in Es. fold (Rminus (B2R (dadd h mu)) (B2R (one : double))) in Es. rewrite <- Vs, V1 in Es.
    change (pow (-53)) with U in Ea, Es. rewrite (Rabs_pos_eq (B2R h + B2R mu)) in Ea by lra. rewrite (Rabs_pos_eq (B2R (dadd h mu) - 1)) in Es by lra.
    set (q := B2R (dadd h mu)) in *. set (v := B2R (dsub (dadd h mu) one)) in *. set (M := B2R mu) in *. set (x := B2R h) in *. clearbody q v M x.
    assert (MR : M / (M - 1) * (M - 1) = M) by (field; lra). assert (MR1 : 0 <= M / (M - 1)) by (apply Rle_mult_inv_pos; lra).
    assert (HM : H + M <= M / (M - 1) * (H + (M - 1))).
    { rewrite Rmult_plus_distr_l, MR. assert (1 <= M / (M - 1)) by (apply Rle_div_r; lra). assert (1 * H <= M / (M - 1) * H) by (apply Rmult_le_compat_r; lra). lra. }
    assert (bH : b * H <= / 1000 * H) by (apply Rmult_le_compat_r; lra).
    assert (bH2 : b * H <= b * (H + (M - 1))) by (apply Rmult_le_compat_l; lra).
    assert (X1 : U * (x + M) <= U * (1001 / 1000 * (H + M))) by (apply Rmult_le_compat_l; [lra|]; apply Rabs_le_inv in Eh; lra).
    assert (UX : U * (x + M) <= / 9007199254740992 * (x + M)) by (apply Rmult_le_compat_r; lra).
    assert (X2 : U * (q - 1) <= U * (2 * (H + M))) by (apply Rmult_le_compat_l; [lra|]; apply Rabs_le_inv in Eh, Ea; lra).
    assert (X3 : U * (H + M) <= U * (M / (M - 1) * (H + (M - 1)))) by (apply Rmult_le_compat_l; lra).
    assert (X4 : 0 <= U * (H + M)) by (apply Rmult_le_pos; lra).
    replace ((b + 4 * U * (M / (M - 1))) * (H + (M - 1))) with (b * (H + (M - 1)) + 4 * (U * (M / (M - 1) * (H + (M - 1))))) by ring.
    replace (U * (1001 / 1000 * (H + M))) with (1001 / 1000 * (U * (H + M))) in X1 by ring. replace (U * (2 * (H + M))) with (2 * (U * (H + M))) in X2 by ring.
    apply Rabs_le. apply Rabs_le_inv in Eh, Ea, Es. split; lra.
  Qed.

  (** The probabilities of the classes *)
  Lemma classes_d (C : nat) (p : nat -> double) (P : nat -> R) (a : R) : (0 < C)%nat -> (Z.of_nat C <= 2 ^ 30)%Z -> 0 <= a <= / 1000 ->
    (forall c, (c < C)%nat -> is_finite (p c) = true /\ 0 <= B2R (p c) <= pow 63 /\ 0 < P c /\ Rabs (B2R (p c) - P c) <= a * P c) ->
    let s := redux (vtab C p) in
    eqb s zero = false /\
    (forall c, (c < C)%nat -> is_finite (div (p c) s) = true /\ 0 <= B2R (div (p c) s) <= 1 /\
      Rabs (B2R (div (p c) s) - P c / rsum C P) <= (3 * a + 4 * INR C * U + 2 * U) * (P c / rsum C P) + T0) /\
    Rabs (rsum C (fun c => B2R (div (p c) s)) - 1) <= (INR C + 1) / 2 ^ 50.
  Proof.
    intros HC C30 Ha Hp s. destruct unit_facts as (PU & SU & PT & ST & _ & _ & _). destruct (INR_small C C30) as [C0 C1].
    assert (Pp : forall c, (c < C)%nat -> 0 < B2R (p c)).
    { intros c Hc. destruct (Hp c Hc) as (_ & _ & Q & E). apply Rabs_le_inv in E. assert (a * P c <= / 1000 * P c) by (apply Rmult_le_compat_r; lra). lra. }
    destruct (row_d lg ex lga sum Hsum C p 63 0 C30 ltac:(lia)) as (R1 & R2 & _ & Ps & Es).
    { intros c Hc. destruct (Hp c Hc) as (F & B & _). split; [exact F|exact B]. }
    { exact HC. }
    { apply Pp, HC. }
    fold s in R1, R2, Ps, Es.
    assert (Z : eqb s zero = false).
    { destruct (eqb s zero) eqn:Z; [|reflexivity]. assert (S : summed (vtab C p) s) by exact (Hsum _). destruct (summed_in 63 _ s S ltac:(lia)) as (Fs & _).
      { rewrite vtab_length. lia. }
      { apply Forall_forall. intros x Hx. unfold vtab in Hx. apply in_map_iff in Hx. destruct Hx as (i & <- & Hi). apply in_seq in Hi. destruct (Hp i ltac:(lia)) as (F & B & _). split; [exact F|exact B]. }
      apply (is_zero lg ex lga sum s Fs) in Z. lra. }
    split; [exact Z|]. split; [|exact R2]. intros c Hc. destruct (R1 c Hc) as (F & B & Eq). split; [exact F|]. split; [exact B|].
    set (S := rsum C P) in *. set (Q := rsum C (fun n => B2R (p n))) in *.
    assert (QS : Rabs (Q - S) <= a * S) by (unfold S; rewrite <- rsum_mult_l; apply rsum_dist; intros j Hj; apply Hp, Hj).
    assert (S0 : 0 < S). { apply (rsum_pos C P 0%nat); [|exact HC|apply Hp, HC]. intros j Hj. destruct (Hp j Hj) as (_ & _ & X & _). lra. }
    set (k := INR C * (2 * U)) in *. assert (K2 : 0 <= k <= / 1000) by (split; [apply Rmult_le_pos; lra|apply Rle_trans with (1073741824 * (2 * U)); [apply Rmult_le_compat_r; lra|lra]]).
    destruct (Hp c Hc) as (_ & _ & P0 & Ep).
    assert (QE : Rabs (B2R (p c) / B2R s - P c / S) <= (3 * a + 2 * k) * (P c / S)).
    { apply quotient_error; try assumption; try lra. apply Rabs_le_inv in QS, Es. split.
      - apply Rle_trans with ((1 - k) * Q); [|lra]. rewrite (Rmult_comm (1 - a)), Rmult_assoc. apply Rmult_le_compat_l; lra.
      - apply Rle_trans with ((1 + k) * Q); [lra|]. rewrite (Rmult_comm (1 + a)), Rmult_assoc. apply Rmult_le_compat_l; lra. }
    set (X := P c / S) in *. assert (X0 : 0 <= X) by (apply Rle_mult_inv_pos; lra). set (r := B2R (p c) / B2R s) in *.
    pose proof (rnd_error r) as Er. rewrite <- Eq in Er.
    assert (r0 : 0 <= r) by (apply Rle_mult_inv_pos; [specialize (Pp c Hc); lra|exact Ps]). rewrite (Rabs_pos_eq r) in Er by exact r0.
    assert (X3 : (3 * a + 2 * k) * X <= 1 * X) by (apply Rmult_le_compat_r; lra).
    assert (UR : U * r <= U * (2 * X)) by (apply Rmult_le_compat_l; [lra|]; apply Rabs_le_inv in QE; lra).
    replace ((3 * a + 4 * INR C * U + 2 * U) * X) with ((3 * a + 2 * k) * X + U * (2 * X)) by (unfold k; ring).
    change (pow (-53)) with U in Er. change (pow (-1075)) with T0 in Er. apply Rabs_le. apply Rabs_le_inv in QE, Er. split; lra.
  Qed.

  (** *** An epoch *)
  Section Epoch.
    Variables (mu weight : double) (D : list (doc double)) (m : params double).
    Hypothesis DL : double_labelled mu weight D m.
    Notation K := (mrows (p_beta m)).
    Notation V := (ncols (p_beta m)).
    Notation C := (ncols (p_eta m)).
    Variable l : list (item double).
    Hypothesis Pl : Permutation (map fst l) D.
    Hypothesis Gl : forall x, In x l -> double_posterior (d_words (fst x)) m (v_gamma (snd x)) (v_phi (snd x)).
    Notation topics := (over_row_sums K V (word_counts K V l)).
    Let DC : double_corpus D m := dl_corpus _ _ _ _ DL.

    Lemma topics_normal : normalize_rows (totals K V assigned l) = topics.
    Proof.
      unfold normalize_rows. destruct (totals_shape K V assigned l) as [S1 S2]. rewrite S1, S2. apply mtab_ext. intros i n Hi Hn. cbv zeta.
      change (totals K V assigned l) with (word_counts K V l) in *.
      assert (Er : mrow (word_counts K V l) i = vtab V (fun n => mget (word_counts K V l) i n)) by (unfold mrow; now rewrite S2).
      rewrite Er. destruct (alive lg ex lga sum D m DC l Pl Gl i Hi) as (n0 & H0 & P0). destruct (Ktopics lg ex lga sum D m DC) as [_ HV].
      destruct (row_d lg ex lga sum Hsum V (fun n => mget (word_counts K V l) i n) 61 n0 HV ltac:(lia)) as (_ & _ & _ & Ps & _); try assumption.
      { intros j Hj. destruct (gather_at lg ex lga sum D m DC l Pl Gl i j Hi Hj) as (F & B & _). auto. }
      set (s := redux (vtab V (fun n => mget (word_counts K V l) i n))) in *.
      destruct (eqb s zero) eqn:Z; [|reflexivity]. exfalso.
      assert (F : is_finite s = true) by (destruct s; cbn in Ps; try lra; reflexivity). apply (is_zero lg ex lga sum s F) in Z. lra.
    Qed.

    Lemma item_class x : In x l -> exists y, class_of x = Z.of_nat y /\ (y < C)%nat /\ d_class (fst x) = Some (Z.of_nat y).
    Proof.
      intros Hx. destruct (dl_documents _ _ _ _ DL (fst x) (item_doc D l Pl x Hx)) as (y & Ey & _ & DM). exists y. split; [unfold class_of; now rewrite Ey|].
      split; [exact (dc_class _ _ _ _ (dm_classes _ _ _ _ DM))|exact Ey].
    Qed.
    Lemma class_at i c : (i < K)%nat -> (c < C)%nat ->
      mget (class_totals K V C assigned l) i c =
      fold_left (fun h x => if Z.eqb (class_of x) (Z.of_nat c) then add h (redux (vtab V (fun n => assigned x i n))) else h) l zero.
    Proof.
      intros Hi Hc. assert (CL : forall x, In x l -> (0 <= class_of x)%Z) by (intros x Hx; destruct (item_class x Hx) as (y & -> & _); lia).
      clear Pl Gl. induction l as [|x t IH] using rev_ind; [unfold class_totals; cbn [fold_left]; now rewrite mget_tab|].
      rewrite class_totals_snoc, mget_tab, fold_left_app by assumption. cbn [fold_left]. rewrite IH by (intros z Hz; apply CL; apply in_or_app; now left).
      specialize (CL x ltac:(apply in_or_app; right; now left)).
      destruct (Nat.eqb_spec c (Z.to_nat (class_of x))) as [E|E]; destruct (Z.eqb_spec (class_of x) (Z.of_nat c)) as [E'|E']; try reflexivity; exfalso; lia.
    Qed.
    Lemma words_total : lsum (map (fun x : item double => IZR (Zsum (d_words (fst x)))) l) = IZR (corpus_words D).
    Proof.
      unfold corpus_words. transitivity (lsum (map (fun d : doc double => IZR (Zsum (d_words d))) D)).
      - transitivity (lsum (map (fun d : doc double => IZR (Zsum (d_words d))) (map fst l))); [rewrite map_map; reflexivity|]. apply lsum_perm, Permutation_map, Pl.
      - clear. induction D as [|d t IH]; [reflexivity|]. cbn [map]. unfold lsum, Zsum in *. cbn [fold_right]. rewrite plus_IZR. fold (Zsum (d_words d)). now rewrite IH.
    Qed.

    (** what topic i gives in the document *)
    Definition given (i : nat) (x : item double) : R := rsum V (fun n => IZR (cnt n x) * B2R (mget (v_phi (snd x)) i n)).
    Lemma given_d i x : (i < K)%nat -> In x l -> let t := redux (vtab V (fun n => assigned x i n)) in
      is_finite t = true /\ 0 <= B2R t <= pow 32 /\ 0 <= given i x <= IZR (Zsum (d_words (fst x))) /\ Rabs (B2R t - given i x) <= (INR V + 1) * (4 * U) * given i x.
    Proof.
      intros Hi Hx. pose proof (DoubleTrainSpec.dc_input _ _ DC _ (item_doc D l Pl x Hx)) as DI.
      apply (mass_d V (fun n => mget (v_phi (snd x)) i n) (fun n => cnt n x)).
      - apply (Ktopics lg ex lga sum D m DC).
      - intros n Hn. destruct (dp_phi_finite _ _ _ _ (Gl x Hx) i n Hi Hn) as [F B]. split; [exact F|]. split; [exact B|]. exact (count_range lg ex lga sum D m DC l Pl x n Hx).
      - rewrite Zsum_rsum. rewrite (di_words _ _ _ DI). apply Rle_refl.
      - change (pow 31) with (IZR (2 ^ 31)). apply IZR_le. pose proof (di_length _ _ _ DI). unfold Zsum. lia.
    Qed.
    Let a : R := (INR V + 1) * (4 * U) + INR (length D) * (4 * U).
    Lemma a_small : 0 <= (INR V + 1) * (4 * U) <= / 1000000 /\ 0 <= INR (length D) * (4 * U) <= / 1000000.
    Proof.
      destruct unit_facts as (PU & SU & _). destruct (Ktopics lg ex lga sum D m DC) as [_ HV]. destruct (INR_small V HV) as [V0 V1]. destruct (INR_small _ (dc_size _ _ DC)) as [N0 N1].
      split; (split; [apply Rmult_le_pos; lra|]); apply Rle_trans with (1073741825 * (4 * U)); try (apply Rmult_le_compat_r; lra); lra.
    Qed.
    Lemma heap_at i c : (i < K)%nat -> (c < C)%nat -> let h := mget (class_totals K V C assigned l) i c in
      is_finite h = true /\ 0 <= B2R h <= pow 62 /\ 0 <= exact_class_count V l i c /\ Rabs (B2R h - exact_class_count V l i c) <= a * exact_class_count V l i c.
    Proof.
      intros Hi Hc h. subst h. rewrite class_at by assumption. destruct (len_l lg ex lga sum D m DC l Pl) as [L1 L2]. destruct a_small as [A1 A2].
      destruct (heaped_d (fun x : item double => Z.eqb (class_of x) (Z.of_nat c)) (fun x => redux (vtab V (fun n => assigned x i n))) (given i) ((INR V + 1) * (4 * U)) l L1) as (F & B & E0 & E).
      - lra.
      - intros x Hx. destruct (given_d i x Hi Hx) as (G1 & G2 & G3 & G4). split; [exact G1|]. split; [exact G2|]. split; [apply G3|exact G4].
      - split; [exact F|]. split.
        + split; [apply B|]. eapply Rle_trans; [apply B|]. change 62%Z with (30 + 32)%Z. rewrite bpow_plus. apply Rmult_le_compat_r; [apply bpow_ge_0|]. change (pow 30) with 1073741824. now apply INR_small.
        + split; [exact E0|]. unfold a. rewrite <- L2. exact E.
    Qed.

    (** the smoothed counts, exactly *)
    Definition exact_smoothed (i c : nat) : R := exact_class_count V l i c + (B2R mu - 1).
    Lemma some_class : (0 < C)%nat.
    Proof.
      pose proof (dc_some _ _ DC) as N. destruct D as [|d D'] eqn:E; [congruence|]. destruct (dl_documents _ _ _ _ DL d (or_introl eq_refl)) as (y & _ & _ & DM).
      pose proof (dc_class _ _ _ _ (dm_classes _ _ _ _ DM)). lia.
    Qed.
    Lemma mu_facts : / 1073741824 <= B2R mu - 1 <= 1073741824 /\ 1 <= B2R mu / (B2R mu - 1) <= 1073741825.
    Proof.
      destruct (dl_mu _ _ _ _ DL) as [_ B]. assert (E : 2 ^ 30 = 1073741824) by lra. rewrite E in B. split; [lra|].
      split; [apply Rle_div_r; lra|apply Rle_div_l; lra].
    Qed.
    Lemma classes_total i : (i < K)%nat -> 0 < rsum C (exact_smoothed i) <= IZR (corpus_words D) + INR C * (B2R mu - 1).
    Proof.
      intros Hi. destruct mu_facts as [M1 M2]. split.
      - apply (rsum_pos C (exact_smoothed i) 0%nat); [| exact some_class|]; [intros c Hc|pose proof some_class as Hc]; unfold exact_smoothed; destruct (heap_at i _ Hi Hc) as (_ & _ & E & _); lra.
      - unfold exact_smoothed. rewrite rsum_plus, rsum_const. apply Rplus_le_compat_r. rewrite <- words_total.
        assert (G : forall x, In x l -> 0 <= given i x <= IZR (Zsum (d_words (fst x))) /\ exists y, class_of x = Z.of_nat y) by (intros x Hx; split; [apply given_d; assumption|destruct (item_class x Hx) as (y & E & _); eauto]).
        unfold exact_class_count. clear -G. induction l as [|x t IH].
        + cbn. rewrite rsum_zero by reflexivity. unfold lsum. cbn. lra.
        + cbn [map]. unfold lsum in *. cbn [fold_right]. rewrite rsum_plus. apply Rplus_le_compat; [|apply IH; intros z Hz; apply G; now right].
          destruct (G x (or_introl eq_refl)) as [B (y & ->)]. fold (given i x).
          apply Rle_trans with (given i x); [|apply B]. destruct (lt_dec y C) as [Hy|Hy].
          * rewrite (rsum_single C y _ Hy); [rewrite Z.eqb_refl; apply Rle_refl|]. intros c Hc N. destruct (Z.eqb_spec (Z.of_nat y) (Z.of_nat c)); [lia|reflexivity].
          * rewrite rsum_zero; [apply B|]. intros c Hc. destruct (Z.eqb_spec (Z.of_nat y) (Z.of_nat c)); [lia|reflexivity].
    Qed.
    Notation classes := (normalize_rows (smoothed K C mu (class_totals K V C assigned l))).
    Let b : R := a + 4 * U * (B2R mu / (B2R mu - 1)).
    Lemma b_small : 0 <= b <= / 100000.
    Proof.
      destruct a_small as [A1 A2]. destruct mu_facts as [_ M]. destruct unit_facts as (PU & SU & _). unfold b, a. set (M0 := B2R mu / (B2R mu - 1)) in *.
      assert (0 <= 4 * U * M0 <= / 1000000). { split; [apply Rmult_le_pos; lra|]. apply Rle_trans with (4 * U * 1073741825); [apply Rmult_le_compat_l; lra|lra]. }
      lra.
    Qed.
    Lemma classes_at i : (i < K)%nat ->
      (forall c, (c < C)%nat -> is_finite (mget classes i c) = true /\ 0 <= B2R (mget classes i c) <= 1 /\
        Rabs (B2R (mget classes i c) - exact_smoothed i c / rsum C (exact_smoothed i)) <= (3 * b + 4 * INR C * U + 2 * U) * (exact_smoothed i c / rsum C (exact_smoothed i)) + T0) /\
      Rabs (rsum C (fun c => B2R (mget classes i c)) - 1) <= (INR C + 1) / 2 ^ 50.
    Proof.
      intros Hi. destruct mu_facts as [M1 M2]. destruct b_small as [b0 b1]. destruct a_small as [A1 A2].
      set (p := fun c => sub (add (mget (class_totals K V C assigned l) i c) mu) one).
      destruct (classes_d C p (exact_smoothed i) b some_class (dl_classes _ _ _ _ DL) ltac:(lra)) as (Z & Q1 & Q2).
      { intros c Hc. destruct (heap_at i c Hi Hc) as (F & B & E0 & E). destruct (dl_mu _ _ _ _ DL) as [Fm Bm].
        destruct (smooth_d (mget (class_totals K V C assigned l) i c) mu (exact_class_count V l i c) a F B Fm Bm E0 ltac:(unfold a; lra) E) as (Fp & Bp & Ep).
        split; [exact Fp|]. split; [exact Bp|]. split; [unfold exact_smoothed; lra|exact Ep]. }
      assert (At : forall c, (c < C)%nat -> mget classes i c = div (p c) (redux (vtab C p))).
      { intros c Hc. unfold normalize_rows. unfold smoothed at 1 2. rewrite mrows_tab, ncols_tab, mget_tab by assumption. cbv zeta.
        assert (Er : mrow (smoothed K C mu (class_totals K V C assigned l)) i = vtab C p).
        { unfold smoothed. rewrite mrow_tab by assumption. reflexivity. }
        rewrite Er, Z. unfold smoothed. rewrite mget_tab by assumption. reflexivity. }
      split.
      - intros c Hc. rewrite At by assumption. exact (Q1 c Hc).
      - rewrite (rsum_ext C _ (fun c => B2R (div (p c) (redux (vtab C p))))) by (intros c Hc; now rewrite At). exact Q2.
    Qed.
    Lemma classes_double : double_topics classes.
    Proof.
      intros i Hi. assert (R1 : mrows classes = K) by reflexivity. assert (C1 : ncols classes = C) by (unfold normalize_rows; rewrite ncols_tab; unfold smoothed; now rewrite ncols_tab).
      rewrite R1 in Hi. rewrite C1. destruct (classes_at i Hi) as [A B]. split; [|exact B]. intros n Hn. destruct (A n Hn) as (F & Bn & _). split; [exact F|exact Bn].
    Qed.
    Lemma classes_error i c : (i < K)%nat -> (c < C)%nat ->
      let exact := exact_smoothed i c / rsum C (exact_smoothed i) in
      Rabs (B2R (mget classes i c) - exact) <= (INR (length D) + INR V + INR C + B2R mu / (B2R mu - 1) + 1) / 2 ^ 49 * exact + / 2 ^ 1074.
    Proof.
      intros Hi Hc exact. destruct (classes_at i Hi) as [A _]. destruct (A c Hc) as (_ & _ & E). fold exact in E. destruct unit_facts as (PU & SU & PT & ST & _ & E49 & _).
      eapply Rle_trans; [exact E|]. destruct mu_facts as [M1 M2]. destruct (classes_total i Hi) as [S0 _].
      assert (X0 : 0 <= exact). { apply Rle_mult_inv_pos; [|exact S0]. unfold exact_smoothed. destruct (heap_at i c Hi Hc) as (_ & _ & E0 & _). lra. }
      assert (T1 : T0 <= / 2 ^ 1074).
      { replace (/ 2 ^ 1074) with (pow (-1074)); [apply bpow_le; lia|]. change (-1074)%Z with (- (1074))%Z. rewrite bpow_opp. f_equal. now rewrite bpow_powerRZ. }
      apply Rplus_le_compat; [|exact T1]. apply Rmult_le_compat_r; [exact X0|]. unfold b, a. set (M0 := B2R mu / (B2R mu - 1)) in *. unfold Rdiv. rewrite E49.
      pose proof (pos_INR V). pose proof (pos_INR (length D)). pose proof (pos_INR C).
      assert (0 <= INR V * U) by (apply Rmult_le_pos; lra). assert (0 <= INR (length D) * U) by (apply Rmult_le_pos; lra). assert (0 <= INR C * U) by (apply Rmult_le_pos; lra). assert (0 <= M0 * U) by (apply Rmult_le_pos; lra).
      lra.
    Qed.
    (** a class is never out of reach of a topic *)
    Lemma classes_low i c : (i < K)%nat -> (c < C)%nat ->
      let T := IZR (corpus_words D) + INR C * (B2R mu - 1) in
      0 < T /\ pow (-93) <= (B2R mu - 1) / (2 * T) /\ (B2R mu - 1) / (2 * T) <= B2R (mget classes i c) <= 1.
    Proof.
      intros Hi Hc T. destruct (classes_at i Hi) as [A _]. destruct (A c Hc) as (_ & B & E). destruct mu_facts as [M1 M2]. destruct (classes_total i Hi) as [S0 S1].
      destruct (heap_at i c Hi Hc) as (_ & _ & E0 & _). destruct b_small as [b0 b1]. destruct unit_facts as (PU & SU & PT & ST & _ & _ & _). destruct (INR_small C (dl_classes _ _ _ _ DL)) as [C0 C1].
      set (S := rsum C (exact_smoothed i)) in *. fold T in S1.
      assert (T0' : 0 < T) by lra. assert (TU : T <= pow 62).
      { unfold T. replace (pow 62) with (IZR (2 ^ 61) + 1073741824 * 1073741824 * 2) by (change (pow 62) with (IZR (2 ^ 62)); cbn; lra). apply Rplus_le_compat.
        - rewrite <- words_total. apply Rle_trans with (INR (length l) * IZR (2 ^ 31)).
          + assert (G : forall x, In x l -> IZR (Zsum (d_words (fst x))) <= IZR (2 ^ 31)).
            { intros x Hx. apply IZR_le. pose proof (di_length _ _ _ (DoubleTrainSpec.dc_input _ _ DC _ (item_doc D l Pl x Hx))). unfold Zsum. lia. }
            clear -G. induction l as [|x t IH]; [unfold lsum; cbn; lra|]. cbn [map length]. unfold lsum in *. cbn [fold_right]. rewrite S_INR.
            assert (IZR (Zsum (d_words (fst x))) <= IZR (2 ^ 31)) by (apply G; now left). specialize (IH (fun z Hz => G z (or_intror Hz))). lra.
          + destruct (len_l lg ex lga sum D m DC l Pl) as [L _]. destruct (INR_small _ L). change (2 ^ 61)%Z with (1073741824 * 2 ^ 31)%Z. rewrite mult_IZR. apply Rmult_le_compat_r; [apply (IZR_le 0); lia|lra].
        - apply Rle_trans with (1073741824 * 1073741824); [apply Rmult_le_compat; lra|lra]. }
      set (X := exact_smoothed i c / S) in *. assert (X1 : (B2R mu - 1) / T <= X).
      { unfold X, Rdiv. apply Rmult_le_compat; [lra|apply Rlt_le, Rinv_0_lt_compat; lra|unfold exact_smoothed; lra|apply Rinv_le_contravar; lra]. }
      assert (X2 : pow (-92) <= (B2R mu - 1) / T).
      { apply Rle_div_r; [exact T0'|]. apply Rle_trans with (pow (-92) * pow 62); [apply Rmult_le_compat_l; [apply bpow_ge_0|exact TU]|]. rewrite <- bpow_plus. change (pow (-92 + 62)) with (/ 1073741824). lra. }
      assert (X3 : T0 <= / 4 * X). { apply Rle_trans with (pow (-2) * pow (-92)); [rewrite <- bpow_plus; apply bpow_le; lia|change (pow (-2)) with (/ 4); lra]. }
      assert (X4 : (3 * b + 4 * INR C * U + 2 * U) * X <= / 4 * X).
      { apply Rmult_le_compat_r; [pose proof (bpow_gt_0 radix2 (-92)); lra|]. assert (INR C * U <= 1073741824 * U) by (apply Rmult_le_compat_r; lra). lra. }
      replace ((B2R mu - 1) / (2 * T)) with (/ 2 * ((B2R mu - 1) / T)) by (field; lra). apply Rabs_le_inv in E. split; [exact T0'|]. split; [|lra].
      change (-93)%Z with (-1 + -92)%Z. rewrite bpow_plus. change (pow (-1)) with (/ 2). lra.
    Qed.

    Lemma labelled_next : double_labelled mu weight D (mk_params (p_alpha m) topics classes).
    Proof.
      assert (C1 : ncols classes = C) by (unfold normalize_rows; rewrite ncols_tab; unfold smoothed; now rewrite ncols_tab).
      assert (DC1 : double_corpus D (mk_params (p_alpha m) topics classes)).
      { destruct (epoch_corpus lg ex lga sum Hsum D m DC l Pl Gl) as [Q1 Q2 Q3 Q4]. split; [exact Q1|exact Q2| |exact Q4].
        intros d Hd. destruct (Q3 d Hd) as [A1 A2 A3 A4 A5 A6 A7 A8 A9]. split; assumption. }
      split; [exact DC1| |cbn [p_eta]; rewrite C1; exact (dl_classes _ _ _ _ DL)|exact (dl_mu _ _ _ _ DL)|cbn [p_eta]; rewrite C1; exact (dl_weight _ _ _ _ DL)].
      intros d Hd. destruct (dl_documents _ _ _ _ DL d Hd) as (y & Ey & Hy & [[DI E1 E2 E3] [W1 W2] W3]). exists y. split; [exact Ey|]. split; [exact Hy|].
      assert (Hyc : forall i, (i < K)%nat -> _) by (intros i Hi; exact (conj (proj1 (proj1 (classes_at i Hi) y E2)) (classes_low i y Hi E2))).
      destruct mu_facts as [M1 M2].
      set (T := IZR (corpus_words D) + INR C * (B2R mu - 1)) in *.
      split; [split|split|].
      - destruct (DoubleTrainSpec.dc_input _ _ DC1 d Hd) as [A1 A2 A3 A4 A5 A6 A7 A8 A9]. destruct DI as [B1 B2 B3 B4 B5 B6 B7 B8 B9]. split; try assumption.
      - reflexivity.
      - cbn [p_eta]. rewrite C1. exact E2.
      - intros i Hi. change (i < K)%nat in Hi. cbn [p_eta]. destruct (Hyc i Hi) as [F (_ & P & L & H)]. split; [exact F|]. split; [|exact H]. eapply Rle_trans; [|exact L]. eapply Rle_trans; [|exact P].
        replace (/ 2 ^ 100) with (pow (-100)); [apply bpow_le; lia|]. change (-100)%Z with (- (100))%Z. rewrite bpow_opp. f_equal. now rewrite bpow_powerRZ.
      - exact W1.
      - intros i Hi. change (i < K)%nat in Hi. cbn [p_eta]. destruct (Hyc i Hi) as [F (T1 & P & L & H)]. eapply Rle_trans; [|exact (dl_weight _ _ _ _ DL)]. fold T. apply Rmult_le_compat_l; [apply Rabs_pos|].
        fold T in T1, P, L. pose proof (bpow_gt_0 radix2 (-93)). replace (2 * T / (B2R mu - 1)) with (/ ((B2R mu - 1) / (2 * T))) by (field; lra). rewrite ln_Rinv by lra. apply Ropp_le_contravar. apply ln_le; lra.
      - exact W3.
    Qed.
  End Epoch.

  (** *** Training *)
  Lemma multinomial_posterior cf mu' weight epochs (m : params double) d y : d_class d = Some (Z.of_nat y) -> (y < length (d_priors d))%nat -> double_multinomial weight (d_words d) y m ->
    exists gamma phi, posterior 7 (Multinomial cf mu' weight) epochs d m = Ok (mk_vparams gamma phi []) /\ double_posterior (d_words d) m gamma phi.
  Proof.
    intros Ey Hy P. unfold posterior. cbn [doc_e_step].
    destruct (multinomial_double lg ex lga sum Hlg Hlb Hex Hsum weight (d_words d) y m P cf mu' true d eq_refl Ey Hy) as (g1 & p1 & e1 & E1 & _). rewrite E1. cbn [bind].
    destruct (multinomial_double lg ex lga sum Hlg Hlb Hex Hsum weight (d_words d) y m P cf mu' false d eq_refl Ey Hy) as (g & p & e & E & Vp & _). rewrite E. cbn [bind]. exists g, p. split; [reflexivity|exact Vp].
  Qed.
  Lemma multinomial_items cf mu' weight ep (m : params double) D :
    (forall d, In d D -> exists y, d_class d = Some (Z.of_nat y) /\ (y < length (d_priors d))%nat /\ double_multinomial weight (d_words d) y m) ->
    exists l, map fst l = D /\ Forall (found 7 (Multinomial cf mu' weight) (m, ep)) l /\ Forall (sized (mrows (p_beta m)) (ncols (p_beta m))) l /\
      (forall x, In x l -> double_posterior (d_words (fst x)) m (v_gamma (snd x)) (v_phi (snd x))).
  Proof.
    induction D as [|d D IH]; intros H; [exists []; repeat split; try constructor; contradiction|]. destruct IH as (l & L1 & L2 & L3 & L4); [intros e He; apply H; now right|].
    destruct (H d (or_introl eq_refl)) as (y & Ey & Hy & DM).
    destruct (multinomial_posterior cf mu' weight ep m d y Ey Hy DM) as (gamma & phi & E & Vp). exists ((d, mk_vparams gamma phi []) :: l). cbn [map fst]. rewrite L1.
    split; [reflexivity|]. split; [constructor; [exact E|assumption]|]. split; [constructor; [|assumption]|].
    - exact (posterior_sized 7 (Multinomial cf mu' weight) ep d m _ E).
    - intros x [<-|Hx]; [exact Vp|now apply L4].
  Qed.
  Lemma multinomial_same mu : forall s m d v m' s' e, ms_doc (multinomial_maximizer (T := double) mu) s m d v = Ok (m', s', e) -> m' = m.
  Proof. intros s m d v m' s' e E. cbn [ms_doc multinomial_maximizer] in E. apply bind_ok' in E. destruct E as (b & _ & E). now injection E as <- <- <-. Qed.
  (** an epoch of the M step, with the state it leaves *)
  Lemma multinomial_run mu K V C s l (m : params double) : (0 < K)%nat -> stats_fresh K V C s -> mrows (p_eta m) = K -> ncols (p_eta m) = C ->
    Forall (sized K V) l -> Forall (classified C) l -> l <> [] ->
    mrun (multinomial_maximizer mu) (epoch l) m s =
    Ok (mk_params (p_alpha m) (normalize_rows (totals K V assigned l)) (normalize_rows (smoothed K C mu (class_totals K V C assigned l))),
        mk_stats (MStepAny.zeros K V) (mtab K C (fun _ _ => zero)) (Some zero), [class_log K V assigned (p_eta m) l]).
  Proof.
    intros HK F E1 E2 Hs Hc Hl. unfold epoch. rewrite mrun_app, (mrun_docs (multinomial_maximizer mu) multinomial_doc) by reflexivity.
    destruct (stats_docs K V HK C scaled_m assigned (scaled_m_eq K V) multinomial_doc (fun _ => True) (multinomial_doc_eq K V) s m l s [] E1 E2 F) as (s' & E & At); try assumption; [now left|apply Forall_forall; trivial|]. rewrite E. cbn [bind mrun ms_end multinomial_maximizer app] in *.
    destruct At as [[? _]|[_ (A1 & A2 & A3)]]; [congruence|]. unfold stats_m. rewrite A1, A2, A3. cbn [bind app].
    destruct (class_totals_shape K V C assigned l) as [-> ->]. destruct (totals_shape K V assigned l) as [-> ->]. reflexivity.
  Qed.

  Lemma epoch_multinomial cf mu mu' weight D W m ep s st p : double_labelled mu weight D m -> stats_fresh (mrows (p_beta m)) (ncols (p_beta m)) (ncols (p_eta m)) s ->
    partial_fit_call 7 (multinomial_maximizer mu) (Multinomial cf mu' weight) W D (Ok s) (m, ep) st p ->
    exists l, Permutation (map fst l) D /\ Forall (found 7 (Multinomial cf mu' weight) (m, ep)) l /\
      (forall x, In x l -> double_posterior (d_words (fst x)) m (v_gamma (snd x)) (v_phi (snd x))) /\
      (exists s', st = Ok s' /\ stats_fresh (mrows (p_beta m)) (ncols (p_beta m)) (ncols (p_eta m)) s') /\
      p = (mk_params (p_alpha m) (over_row_sums (mrows (p_beta m)) (ncols (p_beta m)) (word_counts (mrows (p_beta m)) (ncols (p_beta m)) l))
             (normalize_rows (smoothed (mrows (p_beta m)) (ncols (p_eta m)) mu (class_totals (mrows (p_beta m)) (ncols (p_beta m)) (ncols (p_eta m)) assigned l))), S ep).
  Proof.
    intros DL Hs E. pose proof (dl_corpus _ _ _ _ DL) as DC. set (K := mrows (p_beta m)) in *. set (V := ncols (p_beta m)) in *. set (C := ncols (p_eta m)) in *.
    assert (HK : (0 < K)%nat) by (destruct (Ktopics lg ex lga sum D m DC); unfold K; lia).
    destruct (multinomial_items cf mu' weight ep m D (dl_documents _ _ _ _ DL)) as (l & L1 & L2 & L3 & L4).
    destruct (partial_fit_run 7 (multinomial_maximizer mu) (Multinomial cf mu' weight) (multinomial_same mu) W D s (m, ep) st p l E (Permutation_refl' L1) L2) as (l2 & P2 & Run). cbn [fst snd] in Run.
    assert (S2 : Forall (sized K V) l2). { apply Forall_forall. intros x Hx. rewrite Forall_forall in L3. apply L3. eapply Permutation_in; eassumption. }
    assert (Hl2 : l2 <> []). { intros ->. apply Permutation_nil in P2. subst l. cbn in L1. pose proof (dc_some _ _ DC). congruence. }
    assert (Pl2 : Permutation (map fst l2) D) by (rewrite P2, L1; reflexivity).
    assert (G2 : forall x, In x l2 -> double_posterior (d_words (fst x)) m (v_gamma (snd x)) (v_phi (snd x))) by (intros x Hx; apply L4; eapply Permutation_in; eassumption).
    assert (E1 : mrows (p_eta m) = K).
    { pose proof (dc_some _ _ DC) as N. destruct D as [|d D'] eqn:ED; [congruence|]. destruct (dl_documents _ _ _ _ DL d (or_introl eq_refl)) as (y & _ & _ & DM). exact (dc_topics _ _ _ _ (dm_classes _ _ _ _ DM)). }
    assert (C2 : Forall (classified C) l2).
    { apply Forall_forall. intros x Hx. destruct (item_class mu weight D m DL l2 Pl2 x Hx) as (y & _ & Hy & Ey). exists (Z.of_nat y). split; [exact Ey|]. fold C in Hy. lia. }
    destruct (Run _ _ _ (multinomial_run mu K V C s l2 m HK Hs E1 eq_refl S2 C2 Hl2)) as [-> ->].
    exists l2. split; [exact Pl2|]. split; [|split; [exact G2|split]].
    - apply Forall_forall. intros x Hx. rewrite Forall_forall in L2. apply L2. eapply Permutation_in; eassumption.
    - eexists. split; [reflexivity|]. right. repeat split.
    - unfold K, V. now rewrite (topics_normal mu weight D m DL l2 Pl2 G2).
  Qed.

  Lemma fit_multinomial cf mu mu' weight D W n : forall m ep s st p, double_labelled mu weight D m -> stats_fresh (mrows (p_beta m)) (ncols (p_beta m)) (ncols (p_eta m)) s ->
    fit_call 7 (multinomial_maximizer mu) (Multinomial cf mu' weight) W D n (Ok s) (m, ep) st p ->
    (exists s', st = Ok s' /\ stats_fresh (mrows (p_beta (fst p))) (ncols (p_beta (fst p))) (ncols (p_eta (fst p))) s') /\ snd p = (ep + n)%nat /\ p_alpha (fst p) = p_alpha m /\
    mrows (p_beta (fst p)) = mrows (p_beta m) /\ ncols (p_beta (fst p)) = ncols (p_beta m) /\ ncols (p_eta (fst p)) = ncols (p_eta m) /\
    double_labelled mu weight D (fst p) /\ ((0 < n)%nat -> double_topics (p_beta (fst p)) /\ double_topics (p_eta (fst p))).
  Proof.
    induction n as [|n IH]; intros m ep s st p DL Hs F; inversion F; subst.
    - cbn [fst snd]. split; [exists s; split; [reflexivity|exact Hs]|]. split; [lia|]. do 4 (split; [reflexivity|]). split; [exact DL|]. intros X. exfalso. lia.
    - match goal with H : partial_fit_call _ _ _ _ _ _ _ _ _ |- _ => rename H into E end. match goal with H : fit_call _ _ _ _ _ _ _ _ _ _ |- _ => rename H into G end.
      destruct (epoch_multinomial cf mu mu' weight D W m ep s st1 p1 DL Hs E) as (l & P & _ & Gl & (s1 & -> & Hs1) & ->).
      set (beta := over_row_sums (mrows (p_beta m)) (ncols (p_beta m)) (word_counts (mrows (p_beta m)) (ncols (p_beta m)) l)) in *.
      set (eta := normalize_rows (smoothed (mrows (p_beta m)) (ncols (p_eta m)) mu (class_totals (mrows (p_beta m)) (ncols (p_beta m)) (ncols (p_eta m)) assigned l))) in *.
      assert (B1 : mrows beta = mrows (p_beta m)) by reflexivity. assert (B2 : ncols beta = ncols (p_beta m)) by apply ncols_tab.
      assert (B3 : ncols eta = ncols (p_eta m)) by (unfold eta, normalize_rows; rewrite ncols_tab; unfold smoothed; now rewrite ncols_tab).
      pose proof (labelled_next mu weight D m DL l P Gl) as DL1. pose proof (topics_double lg ex lga sum Hsum D m (dl_corpus _ _ _ _ DL) l P Gl) as DT. pose proof (classes_double mu weight D m DL l P Gl) as DK.
      fold beta eta in DL1, DT, DK.
      destruct (IH (mk_params (p_alpha m) beta eta) (S ep) s1 st p DL1) with (2 := G) as (I1 & I2 & I3 & I4 & I5 & I6 & I7 & I8).
      { cbn [p_beta p_eta]. rewrite B1, B2, B3. exact Hs1. }
      cbn [p_beta p_alpha p_eta] in *. split; [exact I1|]. split; [lia|]. split; [exact I3|]. split; [exact I4|]. split; [now rewrite I5|]. split; [now rewrite I6|]. split; [exact I7|].
      intros _. destruct n as [|n]; [|apply I8; lia]. inversion G; subst. split; [exact DT|exact DK].
  Qed.
  (** from a new M step *)
  Lemma fit_multinomial_new cf mu mu' weight D W n m ep st p : double_labelled mu weight D m -> fit_call 7 (multinomial_maximizer mu) (Multinomial cf mu' weight) W D n (Ok new_stats) (m, ep) st p ->
    (exists s, st = Ok s) /\ snd p = (ep + n)%nat /\ p_alpha (fst p) = p_alpha m /\
    mrows (p_beta (fst p)) = mrows (p_beta m) /\ ncols (p_beta (fst p)) = ncols (p_beta m) /\ ncols (p_eta (fst p)) = ncols (p_eta m) /\
    double_labelled mu weight D (fst p) /\ ((0 < n)%nat -> double_topics (p_beta (fst p)) /\ double_topics (p_eta (fst p))).
  Proof.
    intros DL F. destruct (fit_multinomial cf mu mu' weight D W n m ep new_stats st p DL (or_introl eq_refl) F) as ((s & -> & _) & R). split; [eexists; reflexivity|exact R].
  Qed.
  Lemma next_multinomial cf mu mu' weight D W n m ep st p st' p' : double_labelled mu weight D m -> fit_call 7 (multinomial_maximizer mu) (Multinomial cf mu' weight) W D n (Ok new_stats) (m, ep) st p ->
    partial_fit_call 7 (multinomial_maximizer mu) (Multinomial cf mu' weight) W D st p st' p' ->
    let K := mrows (p_beta m) in let V := ncols (p_beta m) in let C := ncols (p_eta m) in
    exists l, Permutation (map fst l) D /\ (forall x, In x l -> posterior 7 (Multinomial cf mu' weight) (snd p) (fst x) (fst p) = Ok (snd x)) /\
      (forall x, In x l -> double_posterior (d_words (fst x)) (fst p) (v_gamma (snd x)) (v_phi (snd x))) /\
      (forall i n, (i < K)%nat -> (n < V)%nat ->
        let exact := exact_count l i n / rsum V (exact_count l i) in
        Rabs (B2R (mget (p_beta (fst p')) i n) - exact) <= (INR (length D) + INR V + 1) / 2 ^ 49 * exact + / 2 ^ 1074) /\
      (forall i c, (i < K)%nat -> (c < C)%nat ->
        let exact := (exact_class_count V l i c + (B2R mu - 1)) / rsum C (fun c => exact_class_count V l i c + (B2R mu - 1)) in
        Rabs (B2R (mget (p_eta (fst p')) i c) - exact) <= (INR (length D) + INR V + INR C + B2R mu / (B2R mu - 1) + 1) / 2 ^ 49 * exact + / 2 ^ 1074).
  Proof.
    intros DL F E K V C. destruct (fit_multinomial cf mu mu' weight D W n m ep new_stats st p DL (or_introl eq_refl) F) as ((s & -> & Hs) & _ & _ & B1 & B2 & B3 & DL' & _). destruct p as [m' ep']. cbn [fst snd] in *.
    destruct (epoch_multinomial cf mu mu' weight D W m' ep' s st' p' DL' Hs E) as (l & P & Fl & Gl & _ & ->). exists l. split; [exact P|]. split; [apply Forall_forall; exact Fl|]. split; [exact Gl|].
    unfold K, V, C. rewrite <- B1, <- B2, <- B3. cbn [fst p_beta p_eta]. split.
    - intros i j Hi Hj. exact (topics_error lg ex lga sum Hsum D m' (dl_corpus _ _ _ _ DL') l P Gl i j Hi Hj).
    - intros i c Hi Hc. exact (classes_error mu weight D m' DL' l P Gl i c Hi Hc).
  Qed.
End Train.
