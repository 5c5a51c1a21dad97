(** Inference in double precision. *)
Require Import Reals ZArith List Bool Arith Lia Lra Psatz Permutation.
From Flocq Require Import Core.Core IEEE754.BinarySingleNaN Relative.
Require Import Verif.Base Verif.Scalar Verif.Mat Verif.HostModel Verif.UtilsModel Verif.BuilderModel Verif.EStepModel Verif.EStepAny Verif.OptModel Verif.MStepModel Verif.MStepSpec Verif.MStepAny
  Verif.PoolModel Verif.LdaModel Verif.InferSpec Verif.InferProofs.
Require Import Verif.DoubleSpec Verif.DoubleInferSpec Verif.DoubleArith Verif.DoubleUtils Verif.DoubleProofs Verif.DoubleTrain Verif.DoubleTrainRefute.
Import ListNotations.
Open Scope R_scope.

(** ** Sums in any order, of numbers of any sign *)
Definition labs (l : list double) : R := lsum (map (fun x => Rabs (B2R x)) l).
Lemma labs_nonneg l : 0 <= labs l.
Proof. unfold labs, lsum. induction l as [|x l IH]; cbn [map fold_right]; [lra|]. pose proof (Rabs_pos (B2R x)). lra. Qed.
Lemma lval_labs l : Rabs (lval l) <= labs l.
Proof.
  unfold lval, labs, lsum. induction l as [|x l IH]; cbn [map fold_right]; [rewrite Rabs_R0; lra|]. eapply Rle_trans; [apply Rabs_triang|]. lra.
Qed.
Lemma summed_signed k l s : summed l s -> (-1074 <= k <= 970)%Z -> (Z.of_nat (length l) <= 2 ^ 52)%Z ->
  Forall (fun x => is_finite x = true /\ Rabs (B2R x) <= pow k) l ->
  is_finite s = true /\ Rabs (B2R s) <= INR (length l) * pow k /\ Rabs (B2R s - lval l) <= INR (length l) * pow (-52) * labs l.
Proof.
  intros H Hk. induction H as [|x|l1 s1 l2 s2 l S1 IH1 S2 IH2 P]; intros Hl A.
  - unfold lval, labs, lsum. cbn. rewrite Rminus_0_r, Rabs_R0. split; [reflexivity|]. lra.
  - apply Forall_inv in A. destruct A as [Fx Bx]. unfold lval, labs, lsum. cbn [map fold_right length INR].
    split; [assumption|]. split; [lra|]. replace (B2R x - (B2R x + 0)) with 0 by ring. rewrite Rabs_R0, Rmult_1_l, Rplus_0_r.
    apply Rmult_le_pos; [apply bpow_ge_0|apply Rabs_pos].
  - assert (L : length l = (length l1 + length l2)%nat) by (rewrite (Permutation_length P), app_length; reflexivity).
    assert (A' := A). rewrite P in A'. apply Forall_app in A'. destruct A' as [A1 A2].
    destruct (IH1 ltac:(lia) A1) as (F1 & B1 & E1). destruct (IH2 ltac:(lia) A2) as (F2 & B2 & E2).
    assert (LV : lval l = lval l1 + lval l2).
    { unfold lval. rewrite (lsum_perm _ _ (Permutation_map B2R P)), map_app, lsum_app. reflexivity. }
    assert (LA : labs l = labs l1 + labs l2).
    { unfold labs. rewrite (lsum_perm _ _ (Permutation_map (fun x => Rabs (B2R x)) P)), map_app, lsum_app. reflexivity. }
    assert (Rhi : rep (INR (length l) * pow k)). { rewrite INR_IZR_INZ. apply rep_scale; [lia|exact Hk]. }
    assert (Rlo : rep (- (INR (length l) * pow k))).
    { rewrite INR_IZR_INZ, Ropp_mult_distr_l, <- opp_IZR. apply rep_scale; [lia|exact Hk]. }
    assert (N : INR (length l) = INR (length l1) + INR (length l2)) by (rewrite L; apply plus_INR).
    destruct (add_in s1 s2 F1 F2 _ _ Rlo Rhi) as (F3 & V3 & B3).
    { rewrite N. apply Rabs_le_inv in B1, B2. lra. }
    split; [assumption|]. split; [apply Rabs_le; exact B3|]. rewrite V3.
    pose proof (labs_nonneg l1) as G1. pose proof (labs_nonneg l2) as G2. pose proof (lval_labs l1) as W1. pose proof (lval_labs l2) as W2.
    destruct l1 as [|a l1].
    { destruct (summed_none _ _ S1 eq_refl) as [_ Z1]. rewrite Z1, Rplus_0_l, (rnd_exact _ (rep_val s2 F2)).
      rewrite LV, LA, L. unfold lval, labs in *. cbn [map lsum fold_right length plus] in *. rewrite !Rplus_0_l. exact E2. }
    destruct l2 as [|b l2].
    { destruct (summed_none _ _ S2 eq_refl) as [_ Z2]. rewrite Z2, Rplus_0_r, (rnd_exact _ (rep_val s1 F1)).
      rewrite LV, LA, L, Nat.add_0_r. change (lval []) with 0. change (labs []) with 0. rewrite !Rplus_0_r. exact E1. }
    pose proof (rnd_add_error s1 s2) as E3.
    set (n1 := INR (length (a :: l1))) in *. set (n2 := INR (length (b :: l2))) in *.
    assert (H1 : 1 <= n1) by (subst n1; cbn [length]; rewrite S_INR; pose proof (pos_INR (length l1)); lra).
    assert (H2 : 1 <= n2) by (subst n2; cbn [length]; rewrite S_INR; pose proof (pos_INR (length l2)); lra).
    assert (H3 : n1 + n2 <= pow 52).
    { rewrite <- N, INR_IZR_INZ. rewrite <- IZR_Zpower by lia. apply IZR_le. exact Hl. }
    rewrite N, LV, LA.
    set (u := pow (-53)) in *. assert (U : pow (-52) = 2 * u). { subst u. change (-52)%Z with (1 + -53)%Z. rewrite bpow_plus. cbn [bpow]. change (Z.pow_pos radix2 1) with 2%Z. lra. }
    rewrite U in E1, E2 |- *. assert (U1 : pow 52 * (2 * u) = 1). { rewrite <- U, <- bpow_plus. reflexivity. }
    assert (U0 : 0 < u) by apply bpow_gt_0.
    set (v1 := lval (a :: l1)) in *. set (v2 := lval (b :: l2)) in *. set (a1 := labs (a :: l1)) in *. set (a2 := labs (b :: l2)) in *.
    assert (Q : (n1 + n2) * (2 * u) <= 1) by (rewrite <- U1; apply Rmult_le_compat_r; lra).
    assert (E4 : Rabs (B2R s1 + B2R s2 - (v1 + v2)) <= (n1 + n2 - 1) * (2 * u) * (a1 + a2)).
    { replace (B2R s1 + B2R s2 - (v1 + v2)) with ((B2R s1 - v1) + (B2R s2 - v2)) by ring.
      eapply Rle_trans; [apply Rabs_triang|].
      assert (n1 * (2 * u) * a1 <= (n1 + n2 - 1) * (2 * u) * a1) by (apply Rmult_le_compat_r; [lra|]; apply Rmult_le_compat_r; lra).
      assert (n2 * (2 * u) * a2 <= (n1 + n2 - 1) * (2 * u) * a2) by (apply Rmult_le_compat_r; [lra|]; apply Rmult_le_compat_r; lra).
      lra. }
    set (w := rnd (B2R s1 + B2R s2)) in *. set (t := B2R s1 + B2R s2) in *. set (v := v1 + v2) in *. set (AA := a1 + a2) in *.
    assert (VA : Rabs v <= AA) by (eapply Rle_trans; [apply Rabs_triang|]; unfold AA; lra).
    assert (A0 : 0 <= AA) by (subst AA; lra).
    assert (Q2 : (n1 + n2 - 1) * (2 * u) * AA <= 1 * AA) by (apply Rmult_le_compat_r; lra).
    assert (Tb : Rabs t <= 2 * AA). { replace t with ((t - v) + v) by ring. eapply Rle_trans; [apply Rabs_triang|]. lra. }
    replace (w - v) with ((w - t) + (t - v)) by ring. eapply Rle_trans; [apply Rabs_triang|].
    assert (u * Rabs t <= u * (2 * AA)) by (apply Rmult_le_compat_l; lra).
    eapply Rle_trans; [apply Rplus_le_compat; [exact E3|exact E4]|].
    replace ((n1 + n2) * (2 * u) * AA) with ((n1 + n2 - 1) * (2 * u) * AA + 2 * u * AA) by ring. lra.
Qed.

Section Infer.
  Variables (lg ex lga : double -> double) (sum : list double -> double).
  Local Hint Extern 0 (ops _) => exact (DO lg ex lga sum) : typeclass_instances.
  Hypothesis Hlg : rough_log lg.
  Hypothesis Hex : rough_exp ex.
  Hypothesis Hsum : forall l, summed l (sum l).
  Local Ltac norm := change (@add double (DO lg ex lga sum)) with dadd; change (@sub double (DO lg ex lga sum)) with dsub;
    change (@mul double (DO lg ex lga sum)) with dmul; change (@div double (DO lg ex lga sum)) with ddiv.

  Section Document.
    Variables (H : R) (X : list Z) (m : params double) (gamma : list double) (phi : mat double).
    Hypothesis DQ : double_query H X m.
    Hypothesis DP : double_posterior X m gamma phi.
    Notation K := (mrows (p_beta m)).
    Notation V := (ncols (p_beta m)).
    Notation alpha := (p_alpha m).
    Notation a i := (B2R (vget alpha i)).
    Notation c i := (rsum V (fun n => IZR (nth n X 0%Z) * B2R (mget phi i n))).
    Notation N := (IZR (Zsum X)).
    Notation A := (rsum K (fun i => B2R (vget alpha i))).
    Definition diff i : double := sub (vget gamma i) (vget alpha i).
    Let DI := dq_input _ _ _ DQ.

    Lemma N_pos : 1 <= N.
    Proof. apply (IZR_le 1). pose proof (dq_words _ _ _ DQ). unfold Zsum. lia. Qed.
    Lemma A_pos : 0 <= A.
    Proof. apply rsum_nonneg. intros i Hi. pose proof (di_alpha _ _ _ DI i Hi). lra. Qed.
    Lemma c_pos i : (i < K)%nat -> 0 <= c i.
    Proof. intros Hi. apply rsum_nonneg. intros n Hn. apply Rmult_le_pos; [apply (count_pos lg ex lga sum X m DI)|apply (dp_phi_finite _ _ _ _ DP); assumption]. Qed.
    Lemma c_le i : (i < K)%nat -> c i <= pow 31.
    Proof.
      intros Hi. apply Rle_trans with N; [|change (pow 31) with 2147483648; pose proof (count_total lg ex lga sum X m DI); lra].
      rewrite <- (count_sum lg ex lga sum X m DI). apply rsum_le. intros n Hn. rewrite <- (Rmult_1_r (IZR (nth n X 0%Z))) at 2.
      apply Rmult_le_compat_l; [apply (count_pos lg ex lga sum X m DI)|apply (dp_phi_finite _ _ _ _ DP); assumption].
    Qed.
    Lemma c_total : Rabs (rsum K (fun i => c i) - N) <= (INR K + 1) * (8 * U) * N.
    Proof.
      destruct unit_facts as (PU & SU & _ & _ & E50 & E49 & _). rewrite rsum_swap, <- (count_sum lg ex lga sum X m DI), <- rsum_mult_l. apply rsum_dist. intros n Hn. rewrite rsum_mult_l.
      destruct (Z.eq_dec (nth n X 0%Z) 0) as [Z|NZ].
      - rewrite Z, !Rmult_0_l, Rmult_0_r, Rminus_0_r, Rabs_R0. lra.
      - replace (_ - _) with (IZR (nth n X 0%Z) * (rsum K (fun i => B2R (mget phi i n)) - 1)) by ring.
        rewrite Rabs_mult, Rabs_pos_eq by apply (count_pos lg ex lga sum X m DI). rewrite Rmult_comm. apply Rmult_le_compat_r; [apply (count_pos lg ex lga sum X m DI)|].
        pose proof (dp_sum _ _ _ _ DP n Hn NZ) as S. unfold Rdiv in S. rewrite E50 in S. exact S.
    Qed.
    (** gamma - alpha *)
    Lemma diff_d i : (i < K)%nat -> is_finite (diff i) = true /\ 0 <= B2R (diff i) <= pow 34 /\
      Rabs (B2R (diff i) - c i) <= (INR V + 2) * (8 * U) * (a i + c i).
    Proof.
      intros Hi. destruct unit_facts as (PU & SU & PT & ST & E50 & _). destruct (INR_small V (di_vocabulary _ _ _ DI)) as [V0 V1].
      destruct (dp_gamma_finite _ _ _ _ DP i Hi) as [Fg Bg]. destruct (di_alpha _ _ _ DI i Hi) as [Fa Ba].
      pose proof (dp_gamma _ _ _ _ DP i Hi) as Eg. cbv zeta in Eg. unfold Rdiv in Eg. rewrite E50 in Eg. pose proof (c_pos i Hi) as C0. pose proof (c_le i Hi) as C1.
      set (E := a i + c i) in *. set (g := B2R (vget gamma i)) in *. assert (E0 : 0 <= E) by (unfold E; lra).
      assert (VU : (INR V + 1) * (8 * U) <= / 2) by (apply Rle_trans with (1073741825 * (8 * U)); [apply Rmult_le_compat_r; lra|lra]).
      assert (VE : (INR V + 1) * (8 * U) * E <= / 2 * E) by (apply Rmult_le_compat_r; lra).
      assert (P34 : pow 34 = 17179869184) by reflexivity. change (pow 31) with 2147483648 in C1.
      destruct (sub_in (vget gamma i) (vget alpha i) Fg Fa 0 (pow 34) (rep_Z 0 ltac:(lia)) (rep_pow 34 ltac:(lia))) as (F & D & B).
      { fold g. split; [lra|]. apply Rabs_le_inv in Eg. unfold E in *. lra. }
      unfold diff. norm. split; [exact F|]. split; [exact B|]. rewrite D. fold g.
      pose proof (rnd_add_error (vget gamma i) (Bopp (vget alpha i))) as Er. rewrite B2R_Bopp in Er. fold g in Er.
      replace (g + - a i) with (g - a i) in Er by ring. rewrite (Rabs_pos_eq (g - a i)) in Er by lra.
      assert (G2 : g - a i <= 2 * E) by (apply Rabs_le_inv in Eg; unfold E in *; lra).
      assert (U * (g - a i) <= U * (2 * E)) by (apply Rmult_le_compat_l; lra).
      replace (rnd (g - a i) - c i) with ((rnd (g - a i) - (g - a i)) + (g - E)) by (unfold E; ring).
      eapply Rle_trans; [apply Rabs_triang|]. assert (0 <= U * E) by (apply Rmult_le_pos; lra).
      replace ((INR V + 2) * (8 * U) * E) with ((INR V + 1) * (8 * U) * E + 8 * (U * E)) by ring. change (pow (-53)) with U in Er. lra.
    Qed.
    Notation M := (A + N).
    Notation ratio := ((A + N) / N).
    Lemma ratio_1 : 1 <= ratio.
    Proof. pose proof N_pos. pose proof A_pos. apply Rle_div_r; lra. Qed.
    Lemma unit_small : (INR K + INR V + 3) * (64 * U) * M <= / 4 * N.
    Proof.
      destruct unit_facts as (PU & SU & PT & ST & E50 & _). pose proof (dq_unit _ _ _ DQ) as Q. unfold score_unit in Q. cbv zeta in Q.
      change (fold_right Z.add 0%Z X) with (Zsum X) in Q. pose proof N_pos.
      assert (E46 : / 2 ^ 46 = 128 * U). { replace (/ 2 ^ 46) with (16 * / 2 ^ 50) by (cbn [pow]; lra). rewrite E50. ring. }
      unfold Rdiv in Q. rewrite E46 in Q. apply Rmult_le_reg_r with (/ N); [apply Rinv_0_lt_compat; lra|]. rewrite (Rmult_assoc (/ 4)), Rinv_r by lra.
      replace ((INR K + INR V + 3) * (64 * U) * M * / N) with (/ 2 * ((INR K + INR V + 3) * (128 * U) * (M * / N))) by (field; lra). lra.
    Qed.
    Notation total := (rsum K (fun i => B2R (diff i))).
    Lemma total_d : Rabs (total - N) <= (INR V + 2) * (16 * U) * M + (INR K + 1) * (8 * U) * N /\ / 2 * N <= total /\ total <= 2 * M.
    Proof.
      destruct unit_facts as (PU & SU & PT & ST & E50 & _). destruct (INR_small V (di_vocabulary _ _ _ DI)) as [V0 V1].
      destruct (INR_small K ltac:(apply (di_topics _ _ _ DI))) as [K0 K1]. pose proof N_pos as N0. pose proof A_pos as A0. pose proof c_total as Ec. pose proof unit_small as Us.
      assert (B : Rabs (total - rsum K (fun i => c i)) <= (INR V + 2) * (8 * U) * (A + rsum K (fun i => c i))).
      { rewrite <- rsum_plus, <- rsum_mult_l. apply rsum_dist. intros i Hi. apply diff_d; exact Hi. }
      set (C := rsum K (fun i => c i)) in *. set (D := total) in *. set (n := N) in *. set (al := A) in *. clearbody C D n al.
      assert (KU : (INR K + 1) * (8 * U) * n <= / 1000 * n) by (apply Rmult_le_compat_r; [lra|]; apply Rle_trans with (1073741825 * (8 * U)); [apply Rmult_le_compat_r; lra|lra]).
      assert (VU : 0 <= (INR V + 2) * (8 * U) <= / 1000) by (split; [apply Rmult_le_pos; lra|]; apply Rle_trans with (1073741826 * (8 * U)); [apply Rmult_le_compat_r; lra|lra]).
      assert (C2 : (INR V + 2) * (8 * U) * (al + C) <= (INR V + 2) * (8 * U) * (2 * (al + n))).
      { apply Rmult_le_compat_l; [lra|]. apply Rabs_le_inv in Ec. lra. }
      replace ((INR V + 2) * (8 * U) * (2 * (al + n))) with ((INR V + 2) * (16 * U) * (al + n)) in C2 by ring.
      assert (MU : 0 <= U * (al + n)) by (apply Rmult_le_pos; lra). assert (KM : 0 <= INR K * (U * (al + n))) by (apply Rmult_le_pos; lra). assert (VM : 0 <= INR V * (U * (al + n))) by (apply Rmult_le_pos; lra).
      assert (S1 : (INR V + 2) * (16 * U) * (al + n) <= / 16 * n).
      { replace ((INR K + INR V + 3) * (64 * U) * (al + n)) with (64 * (INR K * (U * (al + n))) + 64 * (INR V * (U * (al + n))) + 192 * (U * (al + n))) in Us by ring.
        replace ((INR V + 2) * (16 * U) * (al + n)) with (16 * (INR V * (U * (al + n))) + 32 * (U * (al + n))) by ring. lra. }
      apply Rabs_le_inv in Ec, B. split; [apply Rabs_le|]; split; lra.
    Qed.
    Lemma some_diff : exists i, (i < K)%nat /\ 0 < B2R (diff i).
    Proof.
      destruct total_d as (_ & T & _). pose proof N_pos. assert (P : 0 < total) by lra. clear T. revert P. generalize K as k. induction k as [|k IH]; intros P; [rewrite rsum_0 in P; lra|].
      rewrite rsum_S in P. destruct (Rlt_le_dec 0 (B2R (diff k))) as [L|L]; [exists k; split; [lia|exact L]|]. destruct IH as (i & Hi & Q); [lra|]. exists i. split; [lia|exact Q].
    Qed.

    Notation s := (redux (vtab K diff)).
    Notation q i := (div (diff i) (redux (vtab K diff))).
    Lemma shares_d : (forall i, (i < K)%nat -> is_finite (q i) = true /\ 0 <= B2R (q i) <= 1) /\
      rsum K (fun i => Rabs (B2R (q i) - exact_share X phi i)) <= (INR K + INR V + 3) * (64 * U) * ratio.
    Proof.
      destruct some_diff as (n0 & H0 & P0). destruct unit_facts as (PU & SU & PT & ST & E50 & _). destruct (INR_small V (di_vocabulary _ _ _ DI)) as [V0 V1].
      destruct (INR_small K ltac:(apply (di_topics _ _ _ DI))) as [K0 K1]. pose proof N_pos as N0. pose proof A_pos as A0. destruct total_d as (Et & T1 & T2). pose proof c_total as Ec.
      destruct (row_d lg ex lga sum Hsum K diff 34 n0 ltac:(apply (di_topics _ _ _ DI)) ltac:(lia)) as (R1 & _ & _ & Ps & Es); try assumption.
      { intros i Hi. destruct (diff_d i Hi) as (F & B & _). auto. }
      set (S := B2R s) in *. split; [intros i Hi; destruct (R1 i Hi) as (F & B & _); auto|].
      assert (D0 : forall i, (i < K)%nat -> 0 <= B2R (diff i)) by (intros i Hi; apply diff_d; exact Hi).
      assert (Eqs : forall i, exact_share X phi i = c i / N) by (intros i; unfold exact_share; rewrite (dp_cols _ _ _ _ DP); reflexivity).
      (* each share *)
      assert (One : forall i, (i < K)%nat -> Rabs (B2R (q i) - exact_share X phi i) <=
        U * (B2R (diff i) / S) + T0 + B2R (diff i) * (Rabs (N - S) / (S * N)) + (INR V + 2) * (8 * U) * (a i + c i) / N).
      { intros i Hi. destruct (R1 i Hi) as (_ & _ & ->). rewrite Eqs. destruct (diff_d i Hi) as (_ & B & E). specialize (D0 i Hi). fold S.
        set (d := B2R (diff i)) in *. pose proof (rnd_error (d / S)) as Er. rewrite (Rabs_pos_eq (d / S)) in Er by (apply Rle_mult_inv_pos; lra).
        replace (rnd (d / S) - c i / N) with ((rnd (d / S) - d / S) + (d * ((N - S) / (S * N)) + (d - c i) / N)) by (field; lra).
        eapply Rle_trans; [apply Rabs_triang|]. rewrite !Rplus_assoc. rewrite <- Rplus_assoc. apply Rplus_le_compat; [exact Er|].
        eapply Rle_trans; [apply Rabs_triang|]. apply Rplus_le_compat.
        - rewrite Rabs_mult, (Rabs_pos_eq d) by lra. apply Rmult_le_compat_l; [lra|]. unfold Rdiv. rewrite Rabs_mult. right. f_equal. apply Rabs_pos_eq.
          left. apply Rinv_0_lt_compat, Rmult_lt_0_compat; lra.
        - unfold Rdiv. rewrite Rabs_mult, (Rabs_pos_eq (/ N)) by (left; apply Rinv_0_lt_compat; lra). apply Rmult_le_compat_r; [left; apply Rinv_0_lt_compat; lra|exact E]. }
      eapply Rle_trans; [apply rsum_le; exact One|]. rewrite !rsum_plus, rsum_mult_l, rsum_mult_r, !rsum_div, rsum_const, rsum_mult_l, rsum_plus.
      set (C := rsum K (fun i => c i)) in *. set (D := total) in *. set (n := N) in *. set (al := A) in *.
      assert (KU : INR K * (2 * U) <= / 1000) by (apply Rle_trans with (1073741824 * (2 * U)); [apply Rmult_le_compat_r; lra|lra]).
      assert (KD : INR K * (2 * U) * D <= / 1000 * D) by (apply Rmult_le_compat_r; lra).
      assert (DS : D <= 2 * S) by (apply Rabs_le_inv in Es; lra).
      assert (DS' : D / S <= 2) by (apply Rle_div_l; lra).
      assert (MU : 0 <= U * (al + n)) by (apply Rmult_le_pos; lra). assert (KM : 0 <= INR K * (U * (al + n))) by (apply Rmult_le_pos; lra). assert (VM : 0 <= INR V * (U * (al + n))) by (apply Rmult_le_pos; lra).
      assert (NS : Rabs (n - S) <= (INR K + INR V + 3) * (16 * U) * (al + n)).
      { replace (n - S) with (- ((S - D) + (D - n))) by ring. rewrite Rabs_Ropp. eapply Rle_trans; [apply Rabs_triang|].
        assert (G1 : INR K * (2 * U) * D <= INR K * (2 * U) * (2 * (al + n))) by (apply Rmult_le_compat_l; [apply Rmult_le_pos; lra|lra]).
        assert (G2 : (INR K + 1) * (8 * U) * n <= (INR K + 1) * (8 * U) * (al + n)) by (apply Rmult_le_compat_l; [apply Rmult_le_pos; lra|lra]).
        replace ((INR K + INR V + 3) * (16 * U) * (al + n)) with ((INR V + 2) * (16 * U) * (al + n) + 16 * (INR K * (U * (al + n))) + 16 * (U * (al + n))) by ring.
        replace ((INR K + 1) * (8 * U) * (al + n)) with (8 * (INR K * (U * (al + n))) + 8 * (U * (al + n))) in G2 by ring.
        replace (INR K * (2 * U) * (2 * (al + n))) with (4 * (INR K * (U * (al + n)))) in G1 by ring. lra. }
      assert (I0 : 0 < / n) by (apply Rinv_0_lt_compat; lra).
      assert (Z1 : D * (Rabs (n - S) / (S * n)) <= 2 * ((INR K + INR V + 3) * (16 * U) * ((al + n) / n))).
      { replace (D * (Rabs (n - S) / (S * n))) with (D / S * (Rabs (n - S) * / n)) by (field; lra). apply Rmult_le_compat; [apply Rle_mult_inv_pos; lra| |exact DS'|].
        - apply Rmult_le_pos; [apply Rabs_pos|lra].
        - unfold Rdiv. rewrite <- Rmult_assoc. apply Rmult_le_compat_r; [lra|exact NS]. }
      assert (Z2 : (INR V + 2) * (8 * U) * (al + C) / n <= (INR V + 2) * (16 * U) * ((al + n) / n)).
      { unfold Rdiv. replace ((INR V + 2) * (16 * U) * ((al + n) * / n)) with ((INR V + 2) * (8 * U) * (2 * (al + n)) * / n) by ring. apply Rmult_le_compat_r; [lra|].
        apply Rmult_le_compat_l; [apply Rmult_le_pos; lra|]. apply Rabs_le_inv in Ec.
        assert ((INR K + 1) * (8 * U) * n <= / 1000 * n) by (apply Rmult_le_compat_r; [lra|]; apply Rle_trans with (1073741825 * (8 * U)); [apply Rmult_le_compat_r; lra|lra]). lra. }
      assert (Z3 : U * (D / S) <= U * 2) by (apply Rmult_le_compat_l; lra). assert (Z4 : INR K * T0 <= INR K * U) by (apply Rmult_le_compat_l; lra).
      pose proof ratio_1 as R0. fold al n in R0. set (r := (al + n) / n) in *. clearbody r.
      assert (Y1 : U <= U * r) by (rewrite <- (Rmult_1_r U) at 1; apply Rmult_le_compat_l; lra).
      assert (Y2 : INR K * U <= INR K * (U * r)) by (apply Rmult_le_compat_l; lra). assert (Y3 : 0 <= INR V * (U * r)) by (apply Rmult_le_pos; lra). assert (Y4 : 0 <= INR K * U) by (apply Rmult_le_pos; lra).
      replace (2 * ((INR K + INR V + 3) * (16 * U) * r)) with (32 * (INR K * (U * r)) + 32 * (INR V * (U * r)) + 96 * (U * r)) in Z1 by ring.
      replace ((INR V + 2) * (16 * U) * r) with (16 * (INR V * (U * r)) + 32 * (U * r)) in Z2 by ring.
      replace ((INR K + INR V + 3) * (64 * U) * r) with (64 * (INR K * (U * r)) + 64 * (INR V * (U * r)) + 192 * (U * r)) by ring. fold D. lra.
    Qed.
    Lemma share_total : rsum K (fun i => B2R (q i)) <= 2.
    Proof.
      destruct shares_d as [_ E]. destruct unit_facts as (PU & SU & PT & ST & E50 & _). destruct (INR_small K ltac:(apply (di_topics _ _ _ DI))) as [K0 K1]. pose proof N_pos as N0. pose proof c_total as Ec. pose proof unit_small as Us.
      assert (Eqs : rsum K (fun i => exact_share X phi i) = rsum K (fun i => c i) / N) by (rewrite <- rsum_div; apply rsum_ext; intros i _; unfold exact_share; rewrite (dp_cols _ _ _ _ DP); reflexivity).
      assert (B : Rabs (rsum K (fun i => B2R (q i)) - rsum K (fun i => exact_share X phi i)) <= / 4).
      { eapply Rle_trans; [apply (rsum_dist K _ _ (fun i => Rabs (B2R (q i) - exact_share X phi i))); intros i Hi; lra|]. eapply Rle_trans; [exact E|].
        unfold Rdiv. rewrite <- Rmult_assoc. apply Rle_div_l; lra. }
      rewrite Eqs in B. assert (C : rsum K (fun i => c i) / N <= 3 / 2).
      { apply Rle_div_l; [lra|]. apply Rabs_le_inv in Ec. assert ((INR K + 1) * (8 * U) * N <= / 1000 * N) by (apply Rmult_le_compat_r; [lra|]; apply Rle_trans with (1073741825 * (8 * U)); [apply Rmult_le_compat_r; lra|lra]). lra. }
      apply Rabs_le_inv in B. lra.
    Qed.

    (** the scores *)
    Lemma score_d j : (j < ncols (p_eta m))%nat -> let w := redux (vtab K (fun i => mul (mget (p_eta m) i j) (q i))) in
      is_finite w = true /\ Rabs (B2R w - exact_score X m phi j) <= score_unit X m * H + / 2 ^ 1000.
    Proof.
      intros Hj w. destruct shares_d as [Q1 Q2]. pose proof share_total as Q3. destruct unit_facts as (PU & SU & PT & ST & E50 & _).
      destruct (INR_small V (di_vocabulary _ _ _ DI)) as [V0 V1]. destruct (INR_small K ltac:(apply (di_topics _ _ _ DI))) as [K0 K1]. pose proof ratio_1 as R1.
      assert (H0 : 0 <= H <= pow 900).
      { split.
        - destruct (dq_eta _ _ _ DQ 0%nat j) as [_ B]; [|exact Hj|pose proof (Rabs_pos (B2R (mget (p_eta m) 0 j))); lra]. destruct (di_topics _ _ _ DI). lia.
        - rewrite bpow_powerRZ. exact (dq_bound _ _ _ DQ). }
      set (e i := B2R (mget (p_eta m) i j)). set (p i := mul (mget (p_eta m) i j) (q i)) in *.
      assert (P : forall i, (i < K)%nat -> is_finite (p i) = true /\ Rabs (B2R (p i)) <= pow 900 /\ Rabs (B2R (p i) - e i * B2R (q i)) <= U * (H * B2R (q i)) + T0).
      { intros i Hi. destruct (dq_eta _ _ _ DQ i j Hi Hj) as [Fe Be]. destruct (Q1 i Hi) as [Fq Bq]. fold (e i) in Be. set (qi := q i) in *.
        assert (Ab : Rabs (e i * B2R qi) <= H * B2R qi) by (rewrite Rabs_mult, (Rabs_pos_eq (B2R qi)) by lra; apply Rmult_le_compat_r; lra).
        assert (Ab' : H * B2R qi <= H) by (rewrite <- (Rmult_1_r H) at 2; apply Rmult_le_compat_l; lra).
        destruct (mul_in (mget (p_eta m) i j) qi Fe Fq (- pow 900) (pow 900)) as (F & E & B).
        { replace (- pow 900) with (IZR (-1) * pow 900) by lra. apply rep_scale; lia. }
        { apply rep_pow. lia. }
        { fold (e i). apply Rabs_le_inv. lra. }
        change (p i) with (dmul (mget (p_eta m) i j) qi). split; [exact F|]. split; [apply Rabs_le; exact B|]. rewrite E. fold (e i). eapply Rle_trans; [apply rnd_error|].
        apply Rplus_le_compat_r. apply Rmult_le_compat_l; [lra|exact Ab]. }
      destruct (summed_signed 900 (vtab K p) w (Hsum _) ltac:(lia)) as (Fw & _ & Ew).
      { rewrite vtab_length. destruct (di_topics _ _ _ DI). lia. }
      { apply Forall_forall. intros x Hx. unfold vtab in Hx. apply in_map_iff in Hx. destruct Hx as (i & <- & Hi). apply in_seq in Hi. destruct (P i ltac:(lia)) as (F & B & _). auto. }
      split; [exact Fw|]. rewrite vtab_length in Ew.
      assert (Lv : lval (vtab K p) = rsum K (fun i => B2R (p i))) by (unfold lval, rsum; now rewrite vtab_map).
      assert (La : labs (vtab K p) = rsum K (fun i => Rabs (B2R (p i)))) by (unfold labs, rsum; now rewrite vtab_map). rewrite Lv, La in Ew.
      set (Q := rsum K (fun i => B2R (q i))) in *.
      assert (Q0 : 0 <= Q) by (apply rsum_nonneg; intros i Hi; apply Q1; exact Hi).
      assert (X1 : Rabs (rsum K (fun i => B2R (p i)) - rsum K (fun i => e i * B2R (q i))) <= U * (H * Q) + INR K * T0).
      { unfold Q. rewrite <- !rsum_mult_l, <- rsum_const, <- rsum_plus. apply rsum_dist. intros i Hi. apply P. exact Hi. }
      assert (X2 : Rabs (rsum K (fun i => e i * B2R (q i)) - exact_score X m phi j) <= H * ((INR K + INR V + 3) * (64 * U) * ratio)).
      { apply Rle_trans with (H * rsum K (fun i => Rabs (B2R (q i) - exact_share X phi i))); [|apply Rmult_le_compat_l; [lra|exact Q2]].
        unfold exact_score. rewrite <- rsum_mult_l. apply rsum_dist. intros i Hi. fold (e i). replace (_ - _) with (e i * (B2R (q i) - exact_share X phi i)) by ring.
        rewrite Rabs_mult. apply Rmult_le_compat_r; [apply Rabs_pos|]. apply (dq_eta _ _ _ DQ); assumption. }
      assert (X3 : rsum K (fun i => Rabs (B2R (p i))) <= 2 * (H * Q) + INR K * T0).
      { unfold Q. rewrite <- !rsum_mult_l, <- rsum_const, <- rsum_plus. apply rsum_le. intros i Hi. destruct (P i Hi) as (_ & _ & E). destruct (Q1 i Hi) as [_ Bq]. destruct (dq_eta _ _ _ DQ i j Hi Hj) as [_ Be]. fold (e i) in Be.
        assert (Ab : Rabs (e i * B2R (q i)) <= H * B2R (q i)) by (rewrite Rabs_mult, (Rabs_pos_eq (B2R (q i))) by lra; apply Rmult_le_compat_r; lra).
        assert (HQ : 0 <= H * B2R (q i)) by (apply Rmult_le_pos; lra). assert (U * (H * B2R (q i)) <= 1 * (H * B2R (q i))) by (apply Rmult_le_compat_r; lra).
        replace (B2R (p i)) with ((B2R (p i) - e i * B2R (q i)) + e i * B2R (q i)) by ring. eapply Rle_trans; [apply Rabs_triang|]. lra. }
      assert (E52 : pow (-52) = 2 * U) by (apply unit_facts). rewrite E52 in Ew.
      assert (KU : 0 <= INR K * (2 * U) <= 1) by (split; [apply Rmult_le_pos; lra|]; apply Rle_trans with (1073741824 * (2 * U)); [apply Rmult_le_compat_r; lra|lra]).
      assert (X4 : INR K * (2 * U) * rsum K (fun i => Rabs (B2R (p i))) <= INR K * (2 * U) * (2 * (H * Q) + INR K * T0)) by (apply Rmult_le_compat_l; [apply KU|exact X3]).
      assert (HQ : 0 <= H * Q <= H * 2) by (split; [apply Rmult_le_pos; lra|apply Rmult_le_compat_l; lra]).
      assert (Y1 : U * (H * Q) <= U * (H * 2)) by (apply Rmult_le_compat_l; lra).
      assert (Y2 : INR K * (2 * U) * (2 * (H * Q)) <= INR K * (2 * U) * (2 * (H * 2))) by (apply Rmult_le_compat_l; [apply KU|lra]).
      assert (Y3 : INR K * (2 * U) * (INR K * T0) <= 1 * (INR K * T0)) by (apply Rmult_le_compat_r; [apply Rmult_le_pos; lra|apply KU]).
      assert (Y4 : 2 * (INR K * T0) <= / 2 ^ 1000).
      { apply Rle_trans with (pow 31 * T0); [change (pow 31) with 2147483648; rewrite <- Rmult_assoc; apply Rmult_le_compat_r; lra|]. rewrite <- bpow_plus.
        replace (/ 2 ^ 1000) with (pow (-1000)); [apply bpow_le; lia|]. change (-1000)%Z with (- (1000))%Z. rewrite bpow_opp. f_equal. now rewrite bpow_powerRZ. }
      assert (E46 : / 2 ^ 46 = 128 * U). { replace (/ 2 ^ 46) with (16 * / 2 ^ 50) by (cbn [pow]; lra). rewrite E50. ring. }
      unfold score_unit. cbv zeta. change (fold_right Z.add 0%Z X) with (Zsum X). unfold Rdiv at 1. rewrite E46.
      set (r := ratio) in *. set (ti := / 2 ^ 1000) in *. clearbody r ti.
      assert (UH : 0 <= U * H) by (apply Rmult_le_pos; lra). assert (Z1 : U * H <= U * H * r) by (rewrite <- (Rmult_1_r (U * H)) at 1; apply Rmult_le_compat_l; lra).
      assert (Z2 : INR K * (U * H) <= INR K * (U * H * r)) by (apply Rmult_le_compat_l; lra). assert (Z3 : 0 <= INR V * (U * H * r)) by (apply Rmult_le_pos; lra). assert (Z4 : 0 <= INR K * (U * H)) by (apply Rmult_le_pos; lra).
      replace ((INR K + INR V + 3) * (128 * U) * r * H) with (128 * (INR K * (U * H * r)) + 128 * (INR V * (U * H * r)) + 384 * (U * H * r)) by ring.
      replace (H * ((INR K + INR V + 3) * (64 * U) * r)) with (64 * (INR K * (U * H * r)) + 64 * (INR V * (U * H * r)) + 192 * (U * H * r)) in X2 by ring.
      replace (INR K * (2 * U) * (2 * (H * 2))) with (8 * (INR K * (U * H))) in Y2 by ring. replace (U * (H * 2)) with (2 * (U * H)) in Y1 by ring.
      rewrite Rmult_plus_distr_l in X4.
      replace (B2R w - exact_score X m phi j) with ((B2R w - rsum K (fun i => B2R (p i))) + ((rsum K (fun i => B2R (p i)) - rsum K (fun i => e i * B2R (q i))) + (rsum K (fun i => e i * B2R (q i)) - exact_score X m phi j))) by ring.
      eapply Rle_trans; [apply Rabs_triang|]. eapply Rle_trans; [apply Rplus_le_compat_l, Rabs_triang|]. lra.
    Qed.
  End Document.

  (** ** The calls *)
  Lemma double_gammas cf epochs (m : params double) X : Forall (fun x => double_input (/ 300) x m) X ->
    exists g, gammas 7 (Classic cf) epochs m X = Ok g /\ mrows g = mrows (p_beta m) /\ ncols g = length X /\
      forall d, (d < length X)%nat -> exists phi, posterior 7 (Classic cf) epochs (unlabelled (nth d X [])) m = Ok (mk_vparams (mcol g d) phi []) /\ double_posterior (nth d X []) m (mcol g d) phi.
  Proof.
    intros H.
    assert (A : exists cols, seqM (map (fun x => let* v := posterior 7 (Classic cf) epochs (unlabelled x) m in Ok (v_gamma v)) X) = Ok cols /\
      length cols = length X /\ forallb (fun c => Nat.eqb (length c) (mrows (p_beta m))) cols = true /\
      forall d, (d < length X)%nat -> exists phi, posterior 7 (Classic cf) epochs (unlabelled (nth d X [])) m = Ok (mk_vparams (nth d cols []) phi []) /\ double_posterior (nth d X []) m (nth d cols []) phi).
    { induction X as [|x X IH]; [exists []; split; [reflexivity|split; [reflexivity|split; [reflexivity|intros d Hd; cbn in Hd; lia]]]|].
      destruct (IH (Forall_inv_tail H)) as (cols & E & L & F & Hd).
      destruct (posterior_double lg ex lga sum Hlg Hex Hsum cf epochs m (unlabelled x) (Forall_inv H)) as (gamma & phi & Ex & Vx). cbn [map seqM]. rewrite Ex. cbn [bind v_gamma]. rewrite E. cbn [bind].
      exists (gamma :: cols). split; [reflexivity|]. split; [cbn; lia|]. split; [cbn; rewrite F, (dp_length _ _ _ _ Vx), Nat.eqb_refl; reflexivity|].
      intros [|d] Hd'; cbn [nth]; [exists phi; split; [exact Ex|exact Vx]|]. apply Hd. cbn in Hd'. lia. }
    destruct A as (cols & E & L & F & Hd). unfold gammas, gather. rewrite E. cbn [bind]. rewrite F. eexists. split; [reflexivity|].
    split; [reflexivity|]. split; [exact L|]. intros d Hd'. destruct (Hd d Hd') as (phi & E' & V). exists phi.
    replace (mcol (mk_mat (mrows (p_beta m)) cols) d) with (nth d cols []); [split; [exact E'|exact V]|].
    unfold mcol. cbn [mrows]. rewrite <- (dp_length _ _ _ _ V). symmetry. exact (vtab_eta (nth d cols []) zero).
  Qed.
  Lemma vget_mcol (g : mat double) d i : (i < mrows g)%nat -> vget (mcol g d) i = mget g i d.
  Proof. intros Hi. unfold mcol. now rewrite vget_tab. Qed.

  Theorem predict_double H cf epochs W (m : params double) X r : Forall (fun x => double_query H x m) X -> X <> [] ->
    predict_call 7 (Classic cf) epochs W m X r ->
    exists g s p, transform_call 7 (Classic cf) epochs W m X (Ok g) /\ decision_call 7 (Classic cf) epochs W m X (Ok s) /\ r = Ok p /\ length p = length X /\
      forall d, (d < length X)%nat -> exists phi,
        posterior 7 (Classic cf) epochs (unlabelled (nth d X [])) m = Ok (mk_vparams (mcol g d) phi []) /\ double_posterior (nth d X []) m (mcol g d) phi /\
        let error := score_unit (nth d X []) m * H + / 2 ^ 1000 in let exact := exact_score (nth d X []) m phi in
        (forall c, (c < ncols (p_eta m))%nat -> is_finite (mget s c d) = true /\ Rabs (B2R (mget s c d) - exact c) <= error) /\
        first_best (ncols (p_eta m)) (fun c => B2R (mget s c d)) (nth d p 0%nat) /\
        (forall c, (c < ncols (p_eta m))%nat -> exact c <= exact (nth d p 0%nat) + 2 * error).
  Proof.
    intros HX Hn (g0 & G & ->). destruct (double_gammas cf epochs m X) as (g & Eg & G1 & G2 & G3).
    { eapply Forall_impl; [|exact HX]. intros x Q. exact (dq_input _ _ _ Q). }
    pose proof (transform_unique _ _ _ _ _ _ _ G) as E0. rewrite Eg in E0. subst g0. exists g. cbn [bind].
    destruct X as [|x0 X']; [congruence|]. pose proof (Forall_inv HX) as Q0.
    assert (Ha : length (p_alpha m) = mrows g) by (rewrite G1; apply (di_alpha_length _ _ _ (dq_input _ _ _ Q0))).
    assert (He : mrows (p_eta m) = mrows g) by (rewrite G1; apply (dq_topics _ _ _ Q0)).
    assert (Ed : decision_function m g = Ok (mtab (ncols (p_eta m)) (ncols g) (fun c d => redux (vtab (mrows g) (fun i => mul (mget (p_eta m) i c)
      (div (diff m (mcol g d) i) (redux (vtab (mrows g) (diff m (mcol g d)))))))))).
    { unfold decision_function. rewrite Ha, He, Nat.eqb_refl. cbn [andb negb]. cbv zeta. f_equal. apply mtab_ext. intros c d Hc Hd. f_equal. apply vtab_ext. intros i Hi. f_equal.
      rewrite mget_tab by assumption. rewrite mget_tab by assumption. rewrite mcol_tab by assumption. unfold diff. rewrite vget_mcol by assumption. f_equal. f_equal.
      apply vtab_ext. intros j Hj. now rewrite vget_mcol. }
    set (s := mtab _ _ _) in Ed. rewrite Ed. cbn [bind]. exists s.
    assert (Sc : forall d, (d < length (x0 :: X'))%nat -> exists phi,
        posterior 7 (Classic cf) epochs (unlabelled (nth d (x0 :: X') [])) m = Ok (mk_vparams (mcol g d) phi []) /\ double_posterior (nth d (x0 :: X') []) m (mcol g d) phi /\
        (forall c, (c < ncols (p_eta m))%nat -> is_finite (mget s c d) = true /\ Rabs (B2R (mget s c d) - exact_score (nth d (x0 :: X') []) m phi c) <= score_unit (nth d (x0 :: X') []) m * H + / 2 ^ 1000)).
    { intros d Hd. destruct (G3 d Hd) as (phi & E & V). exists phi. split; [exact E|]. split; [exact V|]. intros c Hc. unfold s. rewrite mget_tab by (rewrite ?G2; assumption). rewrite G1.
      refine (score_d H (nth d (x0 :: X') []) m (mcol g d) phi _ V c Hc). rewrite Forall_forall in HX. apply HX, nth_In, Hd. }
    destruct (predict_float 53 1024 lg ex lga sum s) as (p & Ep & P1 & P2).
    { apply (dq_classes _ _ _ Q0). }
    { intros c d Hc Hd. cbn [s mrows mtab] in Hc. unfold s in Hd. rewrite ncols_tab, G2 in Hd. destruct (Sc d Hd) as (phi & _ & _ & B). apply B. exact Hc. }
    exists p. split; [exact G|]. split; [exists (Ok g); split; [exact G|cbn [bind]; now rewrite Ed]|]. split; [exact Ep|].
    assert (Ns : ncols s = length (x0 :: X')) by (unfold s; now rewrite ncols_tab). rewrite Ns in P1, P2. split; [exact P1|].
    intros d Hd. destruct (Sc d Hd) as (phi & E & V & B). exists phi. split; [exact E|]. split; [exact V|]. cbv zeta. split; [exact B|].
    pose proof (P2 d Hd) as FB. change (first_best (ncols (p_eta m)) (fun c => B2R (mget s c d)) (nth d p 0%nat)) in FB. split; [exact FB|]. destruct FB as (F1 & F2 & _).
    intros c Hc. destruct (B c Hc) as [_ B1]. destruct (B _ F1) as [_ B2]. specialize (F2 c Hc). cbv beta in F2. apply Rabs_le_inv in B1, B2. set (er := score_unit _ m * H + _) in *. clearbody er. lra.
  Qed.

  (** ** A document without words *)
  Lemma add_zero (x z : double) : is_finite x = true -> 0 < B2R x -> is_finite z = true -> B2R z = 0 -> dadd x z = x.
  Proof.
    intros Fx Px Fz Z. destruct (add_in x z Fx Fz (B2R x) (B2R x) (rep_val x Fx) (rep_val x Fx)) as (F & _ & B); [rewrite Z, Rplus_0_r; split; apply Rle_refl|].
    apply B2R_inj.
    - destruct (dadd x z); try reflexivity; try discriminate F. cbn in B. lra.
    - destruct x; try reflexivity; try discriminate Fx. cbn in Px. lra.
    - lra.
  Qed.
  Lemma empty_counts X : (forall x, In x X -> (0 <= x)%Z) -> Zsum X = 0%Z -> forall n, nth n X 0%Z = 0%Z.
  Proof.
    induction X as [|x X IH]; intros H S n; [destruct n; reflexivity|]. cbn [Zsum fold_right] in S.
    assert (P : (0 <= Zsum X)%Z). { clear -H. induction X as [|y X IH]; [cbn; lia|]. cbn [Zsum fold_right]. pose proof (H y). assert (0 <= Zsum X)%Z by (apply IH; intros z [->|Hz]; apply H; cbn; auto). unfold Zsum in *. cbn in *. specialize (H0 ltac:(auto)). lia. }
    pose proof (H x (or_introl eq_refl)). unfold Zsum in *. destruct n as [|n]; cbn [nth]; [lia|]. apply IH; [intros z Hz; apply H; now right|lia].
  Qed.
  Lemma empty_posterior cf epochs (m : params double) X gamma phi : double_input (/ 300) X m -> Zsum X = 0%Z ->
    posterior 7 (Classic cf) epochs (unlabelled X) m = Ok (mk_vparams gamma phi []) -> gamma = p_alpha m.
  Proof.
    intros DI S0 E. pose proof (empty_counts X (di_counts _ _ _ DI) S0) as Z.
    pose proof (step_sound lg ex lga sum Hlg Hex Hsum X m DI) as Step. pose proof (init_sound lg ex lga sum X m DI) as Init. rewrite S0 in Init.
    assert (I0 : init_gamma (p_alpha m) 0 (mrows (p_beta m)) = p_alpha m).
    { unfold init_gamma. rewrite <- (map_id (p_alpha m)) at 2. apply map_ext_in. intros x Hx. apply (In_nth _ _ (zero : double)) in Hx. destruct Hx as (i & Hi & <-). rewrite (di_alpha_length _ _ _ DI) in Hi.
      destruct (di_alpha _ _ _ DI i Hi) as [F B]. change (nth i (p_alpha m) (zero : double)) with (vget (p_alpha m) i). norm.
      destruct (int_d lg ex lga sum (Z.of_nat (mrows (p_beta m)))) as [Fk Vk]; [destruct (di_topics _ _ _ DI); lia|].
      assert (Pk : 0 < IZR (Z.of_nat (mrows (p_beta m)))) by (apply (IZR_lt 0); apply (di_topics _ _ _ DI)).
      destruct (int_d lg ex lga sum 0) as [F0 V0]; [lia|].
      destruct (div_in (ofZ 0) (ofZ (Z.of_nat (mrows (p_beta m)))) F0 0 0 (rep_Z 0 ltac:(lia)) (rep_Z 0 ltac:(lia))) as (Fd & _ & Bd); [rewrite Vk; lra|rewrite V0; unfold Rdiv; rewrite Rmult_0_l; lra|].
      apply add_zero; [exact F|lra|exact Fd|lra]. }
    assert (G : forall ph, compute_gamma X (p_alpha m) ph = p_alpha m).
    { intros ph. destruct (gamma_coefficient X (p_alpha m) ph) as [L C]. apply nth_ext with (d := zero) (d' := zero); [exact L|]. rewrite L. intros i Hi.
      change (vget (compute_gamma X (p_alpha m) ph) i = vget (p_alpha m) i). rewrite (C i Hi). clear C. generalize (vget (p_alpha m) i). induction (seq 0 (ncols ph)) as [|j l IH]; intros x; [reflexivity|].
      cbn [fold_left]. unfold acc_step at 2. rewrite (Z j). cbn [Z.eqb]. apply IH. }
    rewrite I0 in Init. unfold posterior in E. apply bind_ok' in E. destruct E as ((v1 & e1) & _ & E). apply bind_ok' in E. destruct E as ((v2 & e2) & E & Ev). injection Ev as ->.
    cbn [doc_e_step] in E. unfold unsupervised_doc_e_step in E. apply bind_ok' in E. destruct E as (N & EN & E). cbn [unlabelled d_words] in EN, E.
    assert (N0 : N = 0%Z). { unfold int_sum in EN. cbv zeta in EN. destruct (_ && _)%bool in EN; [|discriminate EN]. injection EN as <-. exact S0. }
    subst N. rewrite I0 in E. destruct (negb _) in E; [discriminate E|]. cbv zeta in E.
    destruct (em_loop_inv (fun s => sound lg ex lga sum X m s /\ fst s = p_alpha m) fst (fun s => let* ph := compute_unsupervised_phi 7 (p_beta m) (fst s) in Ok (compute_gamma X (p_alpha m) ph, ph)) (e_tolerance cf)) with (limit := e_iterations cf) (old := EStepModel.zeros (mrows (p_beta m))) (s := (p_alpha m, init_phi (mrows (p_beta m)) (length X))) as ([g ph] & El & _ & Eg).
    { intros s [S _]. destruct (Step s S) as (s' & E' & S'). exists s'. split; [exact E'|]. split; [exact S'|]. apply bind_ok' in E'. destruct E' as (ph & _ & E'). injection E' as <-. apply G. }
    { split; [exact Init|reflexivity]. }
    rewrite El in E. cbn [bind] in E. apply bind_ok' in E. destruct E as (ev & _ & E). injection E as <- _ _. exact Eg.
  Qed.
  Lemma sub_self (x : double) : is_finite x = true -> exists z, dsub x x = B754_zero z.
  Proof.
    intros F. destruct (sub_in x x F F 0 0 (rep_Z 0 ltac:(lia)) (rep_Z 0 ltac:(lia))) as (Fd & _ & B); [rewrite Rminus_eq_0; split; apply Rle_refl|].
    apply finite_zero; [exact Fd|]. lra.
  Qed.
  Theorem predict_empty cf epochs W (m : params double) X r : Forall (fun x => double_input (/ 300) x m) X -> X <> [] ->
    mrows (p_eta m) = mrows (p_beta m) -> (0 < ncols (p_eta m))%nat -> predict_call 7 (Classic cf) epochs W m X r ->
    exists s p, decision_call 7 (Classic cf) epochs W m X (Ok s) /\ r = Ok p /\
      forall d, (d < length X)%nat -> Zsum (nth d X []) = 0%Z -> (forall c, (c < ncols (p_eta m))%nat -> mget s c d = nan) /\ nth d p 0%nat = 0%nat.
  Proof.
    intros HX Hn He HC (g0 & G & ->). destruct (double_gammas cf epochs m X HX) as (g & Eg & G1 & G2 & G3).
    pose proof (transform_unique _ _ _ _ _ _ _ G) as E0. rewrite Eg in E0. subst g0. cbn [bind].
    destruct X as [|x0 X']; [congruence|]. pose proof (Forall_inv HX) as Q0.
    assert (Ha : length (p_alpha m) = mrows g) by (rewrite G1; apply (di_alpha_length _ _ _ Q0)). assert (He' : mrows (p_eta m) = mrows g) by congruence.
    set (s := mtab (ncols (p_eta m)) (ncols g) (fun c d => redux (vtab (mrows g) (fun i => mul (mget (p_eta m) i c)
      (div (sub (mget g i d) (vget (p_alpha m) i)) (redux (vtab (mrows g) (fun j => sub (mget g j d) (vget (p_alpha m) j))))))))).
    assert (Ed : decision_function m g = Ok s).
    { unfold decision_function. rewrite Ha, He', Nat.eqb_refl. cbn [andb negb]. cbv zeta. f_equal. apply mtab_ext. intros c d Hc Hd. f_equal. apply vtab_ext. intros i Hi. f_equal.
      rewrite mget_tab by assumption. rewrite mget_tab by assumption. now rewrite mcol_tab by assumption. }
    rewrite Ed. cbn [bind]. exists s. assert (Ns : ncols s = length (x0 :: X')) by (unfold s; now rewrite ncols_tab).
    assert (Nan : forall d, (d < length (x0 :: X'))%nat -> Zsum (nth d (x0 :: X') []) = 0%Z -> forall c, (c < ncols (p_eta m))%nat -> mget s c d = nan).
    { intros d Hd Z c Hc. destruct (G3 d Hd) as (phi & Ep & _). rewrite Forall_forall in HX.
      apply empty_posterior in Ep; [|apply HX, nth_In, Hd|exact Z]. unfold s. rewrite mget_tab by (rewrite ?G2; assumption).
      assert (Df : forall i, (i < mrows g)%nat -> exists z, sub (mget g i d) (vget (p_alpha m) i) = B754_zero z).
      { intros i Hi. rewrite <- vget_mcol, Ep by exact Hi. apply sub_self. rewrite G1 in Hi. apply (di_alpha _ _ _ Q0 i Hi). }
      set (t := redux (vtab (mrows g) (fun j => sub (mget g j d) (vget (p_alpha m) j)))). assert (Et : exists z, t = B754_zero z).
      { destruct (summed_in 0 (vtab (mrows g) (fun j => sub (mget g j d) (vget (p_alpha m) j))) t (Hsum _) ltac:(lia)) as (Ft & _ & _ & Es).
        - rewrite vtab_length, G1. destruct (di_topics _ _ _ Q0). lia.
        - apply Forall_forall. intros x Hx. unfold vtab in Hx. apply in_map_iff in Hx. destruct Hx as (i & <- & Hi). apply in_seq in Hi. destruct (Df i ltac:(lia)) as (z & ->). split; [reflexivity|]. change (B2R (B754_zero z)) with 0. change (pow 0) with 1. lra.
        - apply finite_zero; [exact Ft|]. assert (L0 : lval (vtab (mrows g) (fun j => sub (mget g j d) (vget (p_alpha m) j))) = 0).
          { unfold lval. rewrite vtab_map. apply (rsum_zero (mrows g)). intros i Hi. destruct (Df i Hi) as (z & ->). reflexivity. }
          rewrite L0, Rmult_0_r, Rminus_0_r in Es. apply Rabs_le_inv in Es. lra. }
      destruct Et as (z & ->). eapply summed_nan; [apply Hsum|]. unfold vtab. apply in_map_iff. exists 0%nat. split; [|apply in_seq; rewrite G1; destruct (di_topics _ _ _ Q0); lia].
      destruct (Df 0%nat) as (z' & ->); [rewrite G1; destruct (di_topics _ _ _ Q0); lia|]. norm. replace (ddiv (B754_zero z') (B754_zero z)) with nan by reflexivity. apply mul_nan_r. }
    destruct (seqM_tab (ncols s) (fun d => max_index (mcol s d)) (fun d p => max_index (mcol s d) = Ok p)) as (p & E & L & P).
    { intros d Hd. unfold mcol at 1 2. change (mrows s) with (ncols (p_eta m)). destruct (ncols (p_eta m)) as [|C]; [lia|]. rewrite vtab_S. eexists. split; reflexivity. }
    exists p. split; [exists (Ok g); split; [exact G|cbn [bind]; now rewrite Ed]|]. split; [exact E|]. intros d Hd Z. split; [intros c Hc; now apply Nan|].
    specialize (P d 0%nat). rewrite Ns in P. specialize (P Hd). unfold mcol in P. change (mrows s) with (ncols (p_eta m)) in P. specialize (Nan d Hd Z 0%nat HC).
    destruct (ncols (p_eta m)) as [|C] eqn:EC; [lia|]. rewrite vtab_S, Nan in P. cbn [max_index] in P. injection P as <-.
    generalize (vtab C (fun i => mget s (S i) d)) as l. generalize 1%nat as k. intros k l. revert k. induction l as [|x l IH]; intros k; [reflexivity|]. cbn [max_from].
    replace (ltb nan x) with false by (destruct x; reflexivity). apply IH.
  Qed.
End Infer.
