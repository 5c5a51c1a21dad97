(** Training with the correspondence E and M steps in double precision: the epochs. *)
Require Import Reals ZArith List Bool Arith Lia Lra Psatz Permutation.
From Flocq Require Import Core.Core IEEE754.BinarySingleNaN Relative.
Require Import Verif.Base Verif.Scalar Verif.Mat Verif.HostModel Verif.UtilsModel Verif.BuilderModel Verif.EStepModel Verif.EStepAny Verif.EStepReal Verif.OptModel Verif.MStepModel Verif.MStepSpec Verif.MStepAny Verif.MStepBatch
  Verif.PoolModel Verif.LdaModel Verif.TrainSizes Verif.TrainPerm Verif.TrainProofs.
Require Import Verif.DoubleSpec Verif.DoubleTrainSpec Verif.DoubleClassSpec Verif.DoubleMultiTrainSpec Verif.DoubleCorrTrainSpec Verif.DoubleArith Verif.DoubleUtils Verif.DoubleProofs Verif.DoubleTrain Verif.DoubleMultiTrain Verif.DoubleCorrespondence
  Verif.DoubleCorrTrain.
Import ListNotations.
Open Scope R_scope.

Section Train.
  Variables (lg ex lga : double -> double) (sum : list double -> double).
  Local Hint Extern 0 (ops _) => exact (DO lg ex lga sum) : typeclass_instances.
  Hypothesis Hlg : rough_log lg.
  Hypothesis Hlb : rough_log_below lg.
  Hypothesis Hex : rough_exp ex.
  Hypothesis Hsum : forall l, summed l (sum l).

  (** What the E step leaves for a document *)
  Record fine (m : params double) (x : item double) : Prop := {
    fi_posterior : double_posterior (d_words (fst x)) m (v_gamma (snd x)) (v_phi (snd x));
    fi_shares : double_shares (ncols (p_beta m)) (v_tau (snd x));
    fi_tau : forall n, (n < ncols (p_beta m))%nat -> pow (-128) <= B2R (vget (v_tau (snd x)) n);
    fi_phi : forall i n, (i < mrows (p_beta m))%nat -> (n < ncols (p_beta m))%nat -> pow (-40) <= B2R (mget (p_beta m) i n) -> pow (-682) <= B2R (mget (v_phi (snd x)) i n)
  }.

  (** *** An epoch *)
  Section Epoch.
    Variables (mu : double) (D : list (doc double)) (m : params double).
    Hypothesis DK : double_corresponding mu D m.
    Notation K := (mrows (p_beta m)).
    Notation V := (ncols (p_beta m)).
    Notation C := (ncols (p_eta m)).
    Variable l : list (item double).
    Hypothesis Pl : Permutation (map fst l) D.
    Hypothesis Gl : forall x, In x l -> fine m x.
    Notation topics := (normalize_rows (totals K V assigned_tau l)).
    Let DC : double_corpus D m := dk_corpus _ _ _ DK.

    Lemma short_l : (Z.of_nat (length l) <= 2 ^ 28)%Z /\ length l = length D.
    Proof. destruct (len_l lg ex lga sum D m DC l Pl) as [_ E]. split; [rewrite E; exact (dk_size _ _ _ DK)|exact E]. Qed.
    Definition part (i n : nat) (x : item double) : R := IZR (nth n (d_words (fst x)) 0%Z) * (B2R (mget (v_phi (snd x)) i n) * B2R (vget (v_tau (snd x)) n)).
    Lemma part_d i n x : (i < K)%nat -> (n < V)%nat -> In x l -> let p := assigned_tau x i n in
      is_finite p = true /\ 0 <= B2R p <= pow 31 /\ 0 <= part i n x <= IZR (cnt n x) /\ Rabs (B2R p - part i n x) <= 3 * U * part i n x + T0 /\
      (forall j, (-850 <= j <= 0)%Z -> cnt n x <> 0%Z -> pow j <= B2R (mget (v_phi (snd x)) i n) -> pow (j - 128) <= B2R p).
    Proof.
      intros Hi Hn Hx. destruct (Gl x Hx) as [G1 (_ & G2 & _) G3 _]. destruct (dp_phi_finite _ _ _ _ G1 i n Hi Hn) as [F B]. destruct (G2 n Hn) as [Ft Bt].
      destruct (share_d lg ex lga sum (mget (v_phi (snd x)) i n) (vget (v_tau (snd x)) n) (cnt n x) F B Ft Bt (count_range lg ex lga sum D m DC l Pl x n Hx)) as (A1 & A2 & A3 & A4 & A5).
      split; [exact A1|]. split; [exact A2|]. split; [exact A3|]. split; [exact A4|]. intros j Hj Nc Lj. exact (A5 j Hj Nc (G3 n Hn) Lj).
    Qed.
    Lemma total_at i n : (i < K)%nat -> (n < V)%nat -> mget (totals K V assigned_tau l) i n = fold_left (fun b x => if (fun _ => true) x then add b (assigned_tau x i n) else b) l zero.
    Proof.
      intros Hi Hn. unfold totals. clear Pl Gl. induction l as [|x t IH] using rev_ind; [cbn [fold_left]; now rewrite mget_tab|].
      rewrite !fold_left_app. cbn [fold_left]. rewrite mget_tab by assumption. now rewrite IH.
    Qed.
    Lemma pile_at i n : (i < K)%nat -> (n < V)%nat -> let r := mget (totals K V assigned_tau l) i n in
      is_finite r = true /\ 0 <= B2R r <= pow 60 /\ 0 <= exact_share l i n /\ Rabs (B2R r - exact_share l i n) <= (3 * U + INR (length D) * (4 * U)) * exact_share l i n + pow (-1040) /\
      (forall x j, In x l -> cnt n x <> 0%Z -> (-850 <= j <= 0)%Z -> pow j <= B2R (mget (v_phi (snd x)) i n) -> pow (j - 128) <= B2R r).
    Proof.
      intros Hi Hn r. subst r. rewrite total_at by assumption. destruct short_l as [L1 L2]. destruct unit_facts as (PU & SU & PT & ST & _ & _ & _).
      destruct (piled_d lg ex lga sum (fun _ : item double => true) (fun x => assigned_tau x i n) (part i n) (3 * U) T0 l L1 ltac:(lra) ltac:(lra)) as (A & B & E0 & E & M).
      { intros x Hx. destruct (part_d i n x Hi Hn Hx) as (P1 & P2 & P3 & P4 & _). split; [exact P1|]. split; [|split; [apply P3|exact P4]]. split; [apply P2|]. eapply Rle_trans; [apply P2|]. apply bpow_le. lia. }
      assert (LN : 0 <= INR (length l) <= pow 28). { split; [apply pos_INR|]. rewrite INR_IZR_INZ. change (pow 28) with (IZR (2 ^ 28)). apply IZR_le. exact L1. }
      split; [exact A|]. split; [|split; [exact E0|split]].
      - split; [apply B|]. eapply Rle_trans; [apply B|]. change 60%Z with (28 + 32)%Z. rewrite bpow_plus. apply Rmult_le_compat_r; [apply bpow_ge_0|apply LN].
      - rewrite <- L2. eapply Rle_trans; [exact E|]. apply Rplus_le_compat_l. apply Rle_trans with (pow 28 * (2 * T0)); [apply Rmult_le_compat_r; lra|].
        change 2 with (pow 1). rewrite <- !bpow_plus. apply bpow_le. lia.
      - intros x j Hx Nc Hj Lj. eapply Rle_trans; [|exact (M x Hx eq_refl)]. destruct (part_d i n x Hi Hn Hx) as (_ & _ & _ & _ & P5). now apply P5.
    Qed.
    Lemma awake i : (i < K)%nat -> exists n0, (n0 < V)%nat /\ pow (-810) <= B2R (mget (totals K V assigned_tau l) i n0).
    Proof.
      intros Hi. destruct (dk_alive _ _ _ DK i Hi) as (d & n & Hd & Hn & Nc & B). destruct (doc_item D l Pl d Hd) as (x & Hx & <-). exists n. split; [exact Hn|].
      destruct (pile_at i n Hi Hn) as (_ & _ & _ & _ & M). apply (M x (-682)%Z Hx Nc ltac:(lia)). apply (fi_phi _ _ (Gl x Hx) i n Hi Hn). change (-40)%Z with (- Z.of_nat 40)%Z. rewrite pow_inv. exact B.
    Qed.
    Lemma small_a : 0 <= (INR V + 1) * (4 * U) <= / 1000000 /\ 0 <= INR (length D) * (4 * U) <= / 1000000.
    Proof.
      destruct unit_facts as (PU & SU & _). destruct (Ktopics lg ex lga sum D m DC) as [_ HV]. destruct (INR_small V HV) as [V0 V1]. destruct (INR_small _ (dc_size _ _ DC)) as [N0 N1].
      split; (split; [apply Rmult_le_pos; lra|]); apply Rle_trans with (1073741825 * (4 * U)); try (apply Rmult_le_compat_r; lra); lra.
    Qed.
    Lemma topics_at i : (i < K)%nat ->
      0 < rsum V (exact_share l i) /\
      (forall n, (n < V)%nat -> is_finite (mget topics i n) = true /\ 0 <= B2R (mget topics i n) <= 1 /\
        Rabs (B2R (mget topics i n) - exact_share l i n / rsum V (exact_share l i)) <= (3 * (3 * U + INR (length D) * (4 * U)) + 4 * INR V * U + 5 * U) * (exact_share l i n / rsum V (exact_share l i)) + pow (-220)) /\
      Rabs (rsum V (fun n => B2R (mget topics i n)) - 1) <= (INR V + 1) / 2 ^ 50 /\
      (forall n, (n < V)%nat -> pow (-160) <= B2R (mget (totals K V assigned_tau l) i n) -> pow (-250) <= B2R (mget topics i n)).
    Proof.
      intros Hi. destruct (awake i Hi) as (n0 & H0 & L0). destruct (Ktopics lg ex lga sum D m DC) as [_ HV]. destruct small_a as [A1 A2]. destruct unit_facts as (PU & SU & _).
      set (b := fun n => mget (totals K V assigned_tau l) i n) in *.
      destruct (topic_d lg ex lga sum Hsum V b (exact_share l i) (3 * U + INR (length D) * (4 * U)) (pow (-1040)) n0 HV) as (Z & S0 & Q1 & Q2 & Q3); try assumption.
      - lra.
      - pose proof (bpow_gt_0 radix2 (-1040)). lra.
      - intros n Hn. destruct (pile_at i n Hi Hn) as (F & B & E0 & E & _). split; [exact F|]. split; [exact B|]. split; [exact E0|exact E].
      - destruct (totals_shape K V assigned_tau l) as [S1 S2].
        assert (At : forall n, (n < V)%nat -> mget topics i n = div (b n) (redux (vtab V b))).
        { intros n Hn. unfold normalize_rows. rewrite S1, S2, mget_tab by assumption. cbv zeta.
          assert (Er : mrow (totals K V assigned_tau l) i = vtab V b) by (unfold mrow; now rewrite S2). rewrite Er, Z. reflexivity. }
        split; [exact S0|]. split; [|split].
        + intros n Hn. rewrite At by assumption. exact (Q1 n Hn).
        + rewrite (rsum_ext V _ (fun n => B2R (div (b n) (redux (vtab V b))))) by (intros n Hn; now rewrite At). exact Q2.
        + intros n Hn Ln. rewrite At by assumption. exact (Q3 n Hn Ln).
    Qed.
    Lemma topics_shape : mrows topics = K /\ ncols topics = V.
    Proof. destruct (totals_shape K V assigned_tau l) as [S1 S2]. unfold normalize_rows. rewrite S1, S2. split; [reflexivity|apply ncols_tab]. Qed.
    Lemma shared_topics : double_topics topics.
    Proof.
      destruct topics_shape as [S1 S2]. intros i Hi. rewrite S1 in Hi. rewrite S2. destruct (topics_at i Hi) as (_ & A & B & _). split; [|exact B]. intros n Hn. destruct (A n Hn) as (F & Bn & _). split; [exact F|exact Bn].
    Qed.
    Lemma shared_topics_error i n : (i < K)%nat -> (n < V)%nat ->
      let exact := exact_share l i n / rsum V (exact_share l i) in
      Rabs (B2R (mget topics i n) - exact) <= (INR (length D) + INR V + 1) / 2 ^ 49 * exact + / 2 ^ 220.
    Proof.
      intros Hi Hn exact. destruct (topics_at i Hi) as (S0 & A & _). destruct (A n Hn) as (_ & _ & E). fold exact in E. destruct unit_facts as (PU & SU & PT & ST & _ & E49 & _).
      eapply Rle_trans; [exact E|]. change (-220)%Z with (- Z.of_nat 220)%Z. rewrite pow_inv. apply Rplus_le_compat_r.
      assert (X0 : 0 <= exact) by (apply Rle_mult_inv_pos; [apply (pile_at i n Hi Hn)|exact S0]). apply Rmult_le_compat_r; [exact X0|]. unfold Rdiv. rewrite E49.
      pose proof (pos_INR V). pose proof (pos_INR (length D)). assert (0 <= INR V * U) by (apply Rmult_le_pos; lra). assert (0 <= INR (length D) * U) by (apply Rmult_le_pos; lra). lra.
    Qed.

    (** the classes *)
    Lemma item_class x : In x l -> exists y, class_of x = Z.of_nat y /\ (y < C)%nat /\ d_class (fst x) = Some (Z.of_nat y).
    Proof.
      intros Hx. destruct (dk_documents _ _ _ DK (fst x) (item_doc D l Pl x Hx)) as (y & Ey & DM & _). exists y. split; [unfold class_of; now rewrite Ey|].
      split; [exact (dc_class _ _ _ _ DM)|exact Ey].
    Qed.
    Lemma class_at i c : (i < K)%nat -> (c < C)%nat ->
      mget (class_totals K V C assigned_tau l) i c =
      fold_left (fun h x => if Z.eqb (class_of x) (Z.of_nat c) then add h (redux (vtab V (fun n => assigned_tau x i n))) else h) l zero.
    Proof.
      intros Hi Hc. assert (CL : forall x, In x l -> (0 <= class_of x)%Z) by (intros x Hx; destruct (item_class x Hx) as (y & -> & _); lia).
      clear Pl Gl. induction l as [|x t IH] using rev_ind; [unfold class_totals; cbn [fold_left]; now rewrite mget_tab|].
      rewrite class_totals_snoc, mget_tab, fold_left_app by assumption. cbn [fold_left]. rewrite IH by (intros z Hz; apply CL; apply in_or_app; now left).
      specialize (CL x ltac:(apply in_or_app; right; now left)).
      destruct (Nat.eqb_spec c (Z.to_nat (class_of x))) as [E|E]; destruct (Z.eqb_spec (class_of x) (Z.of_nat c)) as [E'|E']; try reflexivity; exfalso; lia.
    Qed.
    Definition offered (i : nat) (x : item double) : R := rsum V (fun n => part i n x).
    Lemma offered_d i x : (i < K)%nat -> In x l -> let t := redux (vtab V (fun n => assigned_tau x i n)) in
      is_finite t = true /\ 0 <= B2R t <= pow 32 /\ 0 <= offered i x <= IZR (Zsum (d_words (fst x))) /\ Rabs (B2R t - offered i x) <= (INR V + 1) * (4 * U) * offered i x + INR V * (2 * T0).
    Proof.
      intros Hi Hx. pose proof (DoubleTrainSpec.dc_input _ _ DC _ (item_doc D l Pl x Hx)) as DI. destruct (Gl x Hx) as [G1 (_ & G2 & _) _ _].
      apply (shares_d lg ex lga sum Hsum V (fun n => mget (v_phi (snd x)) i n) (fun n => vget (v_tau (snd x)) n) (fun n => cnt n x)).
      - apply (Ktopics lg ex lga sum D m DC).
      - intros n Hn. destruct (dp_phi_finite _ _ _ _ G1 i n Hi Hn) as [F B]. destruct (G2 n Hn) as [Ft Bt]. split; [exact F|]. split; [exact B|]. split; [exact Ft|]. split; [exact Bt|].
        exact (count_range lg ex lga sum D m DC l Pl x n Hx).
      - rewrite Zsum_rsum. rewrite (di_words _ _ _ DI). apply Rle_refl.
      - change (pow 31) with (IZR (2 ^ 31)). apply IZR_le. pose proof (di_length _ _ _ DI). unfold Zsum. lia.
    Qed.
    Let a : R := (INR V + 1) * (4 * U) + INR (length D) * (4 * U).
    Lemma heap_at i c : (i < K)%nat -> (c < C)%nat -> let h := mget (class_totals K V C assigned_tau l) i c in
      is_finite h = true /\ 0 <= B2R h <= pow 62 /\ 0 <= exact_class_share V l i c /\ Rabs (B2R h - exact_class_share V l i c) <= a * exact_class_share V l i c + pow (-1000).
    Proof.
      intros Hi Hc h. subst h. rewrite class_at by assumption. destruct short_l as [L1 L2]. destruct small_a as [A1 A2]. destruct unit_facts as (PU & SU & PT & ST & _ & _ & _).
      destruct (Ktopics lg ex lga sum D m DC) as [_ HV]. destruct (INR_small V HV) as [V0 V1].
      destruct (piled_d lg ex lga sum (fun x : item double => Z.eqb (class_of x) (Z.of_nat c)) (fun x => redux (vtab V (fun n => assigned_tau x i n))) (offered i) ((INR V + 1) * (4 * U)) (INR V * (2 * T0)) l L1) as (F & B & E0 & E & _).
      - lra.
      - apply Rmult_le_pos; lra.
      - intros x Hx. destruct (offered_d i x Hi Hx) as (G1 & G2 & G3 & G4). split; [exact G1|]. split; [exact G2|]. split; [apply G3|exact G4].
      - assert (LN : 0 <= INR (length l) <= pow 28). { split; [apply pos_INR|]. rewrite INR_IZR_INZ. change (pow 28) with (IZR (2 ^ 28)). apply IZR_le. exact L1. }
        split; [exact F|]. split.
        + split; [apply B|]. eapply Rle_trans; [apply B|]. apply Rle_trans with (pow 28 * pow 32); [apply Rmult_le_compat_r; [apply bpow_ge_0|apply LN]|]. rewrite <- bpow_plus. apply bpow_le. lia.
        + split; [exact E0|]. unfold a. rewrite <- L2. eapply Rle_trans; [exact E|]. apply Rplus_le_compat_l.
          apply Rle_trans with (pow 28 * (pow 1 * (pow 30 * (pow 1 * T0)))).
          * apply Rmult_le_compat; [lra|repeat apply Rmult_le_pos; lra|lra|]. change (pow 1) with 2. apply Rmult_le_compat_l; [lra|]. apply Rmult_le_compat_r; [lra|]. change (pow 30) with 1073741824. lra.
          * rewrite <- !bpow_plus. apply bpow_le. lia.
    Qed.
    Definition exact_smoothed (i c : nat) : R := exact_class_share V l i c + (B2R mu - 1).
    Lemma some_class : (0 < C)%nat.
    Proof.
      pose proof (dc_some _ _ DC) as N. destruct D as [|d D'] eqn:E; [congruence|]. destruct (dk_documents _ _ _ DK d (or_introl eq_refl)) as (y & _ & DM & _).
      pose proof (dc_class _ _ _ _ DM). lia.
    Qed.
    Lemma mu_facts : / 1073741824 <= B2R mu - 1 <= 1073741824 /\ 1 <= B2R mu / (B2R mu - 1) <= 1073741825.
    Proof.
      destruct (dk_mu _ _ _ DK) as [_ B]. assert (E : 2 ^ 30 = 1073741824) by lra. rewrite E in B. split; [lra|].
      split; [apply Rle_div_r; lra|apply Rle_div_l; lra].
    Qed.
    Lemma classes_total i : (i < K)%nat -> 0 < rsum C (exact_smoothed i) <= IZR (corpus_words D) + INR C * (B2R mu - 1).
    Proof.
      intros Hi. destruct mu_facts as [M1 M2]. split.
      - apply (rsum_pos C (exact_smoothed i) 0%nat); [| exact some_class|]; [intros c Hc|pose proof some_class as Hc]; unfold exact_smoothed; destruct (heap_at i _ Hi Hc) as (_ & _ & E & _); lra.
      - unfold exact_smoothed. rewrite rsum_plus, rsum_const. apply Rplus_le_compat_r. rewrite <- (words_total D l Pl).
        assert (G : forall x, In x l -> 0 <= offered i x <= IZR (Zsum (d_words (fst x))) /\ exists y, class_of x = Z.of_nat y) by (intros x Hx; split; [apply offered_d; assumption|destruct (item_class x Hx) as (y & E & _); eauto]).
        unfold exact_class_share. clear -G. induction l as [|x t IH].
        + cbn. rewrite rsum_zero by reflexivity. unfold lsum. cbn. lra.
        + cbn [map]. unfold lsum in *. cbn [fold_right]. rewrite rsum_plus. apply Rplus_le_compat; [|apply IH; intros z Hz; apply G; now right].
          destruct (G x (or_introl eq_refl)) as [B (y & ->)]. fold (offered i x).
          apply Rle_trans with (offered i x); [|apply B]. destruct (lt_dec y C) as [Hy|Hy].
          * rewrite (rsum_single C y _ Hy); [rewrite Z.eqb_refl; apply Rle_refl|]. intros c Hc N. destruct (Z.eqb_spec (Z.of_nat y) (Z.of_nat c)); [lia|reflexivity].
          * rewrite rsum_zero; [apply B|]. intros c Hc. destruct (Z.eqb_spec (Z.of_nat y) (Z.of_nat c)); [lia|reflexivity].
    Qed.
    Notation classes := (normalize_rows (smoothed K C mu (class_totals K V C assigned_tau l))).
    Let b : R := a + U + 5 * U * (B2R mu / (B2R mu - 1)).
    Lemma b_small : 0 <= b <= / 100000.
    Proof.
      destruct small_a as [A1 A2]. destruct mu_facts as [_ M]. destruct unit_facts as (PU & SU & _). unfold b, a. set (M0 := B2R mu / (B2R mu - 1)) in *.
      assert (0 <= 5 * U * M0 <= / 1000000). { split; [apply Rmult_le_pos; lra|]. apply Rle_trans with (5 * U * 1073741825); [apply Rmult_le_compat_l; lra|lra]. }
      lra.
    Qed.
    Lemma classes_at i : (i < K)%nat ->
      (forall c, (c < C)%nat -> is_finite (mget classes i c) = true /\ 0 <= B2R (mget classes i c) <= 1 /\
        Rabs (B2R (mget classes i c) - exact_smoothed i c / rsum C (exact_smoothed i)) <= (3 * b + 4 * INR C * U + 2 * U) * (exact_smoothed i c / rsum C (exact_smoothed i)) + T0) /\
      Rabs (rsum C (fun c => B2R (mget classes i c)) - 1) <= (INR C + 1) / 2 ^ 50.
    Proof.
      intros Hi. destruct mu_facts as [M1 M2]. destruct b_small as [b0 b1]. destruct small_a as [A1 A2].
      set (p := fun c => sub (add (mget (class_totals K V C assigned_tau l) i c) mu) one).
      destruct (classes_d lg ex lga sum Hsum C p (exact_smoothed i) b some_class (dk_classes _ _ _ DK) ltac:(lra)) as (Z & Q1 & Q2).
      { intros c Hc. destruct (heap_at i c Hi Hc) as (F & B & E0 & E). destruct (dk_mu _ _ _ DK) as [Fm Bm].
        destruct (smooth_under_d lg ex lga sum (mget (class_totals K V C assigned_tau l) i c) mu (exact_class_share V l i c) a (pow (-1000)) F B Fm Bm E0 ltac:(unfold a; lra)) as (Fp & Bp & Ep); [|exact E|].
        - pose proof (bpow_gt_0 radix2 (-1000)). lra.
        - split; [exact Fp|]. split; [exact Bp|]. split; [unfold exact_smoothed; lra|exact Ep]. }
      assert (At : forall c, (c < C)%nat -> mget classes i c = div (p c) (redux (vtab C p))).
      { intros c Hc. unfold normalize_rows. unfold smoothed at 1 2. rewrite mrows_tab, ncols_tab, mget_tab by assumption. cbv zeta.
        assert (Er : mrow (smoothed K C mu (class_totals K V C assigned_tau l)) i = vtab C p).
        { unfold smoothed. rewrite mrow_tab by assumption. reflexivity. }
        rewrite Er, Z. unfold smoothed. rewrite mget_tab by assumption. reflexivity. }
      split.
      - intros c Hc. rewrite At by assumption. exact (Q1 c Hc).
      - rewrite (rsum_ext C _ (fun c => B2R (div (p c) (redux (vtab C p))))) by (intros c Hc; now rewrite At). exact Q2.
    Qed.
    Lemma classes_shape : mrows classes = K /\ ncols classes = C.
    Proof. split; [reflexivity|]. unfold normalize_rows; rewrite ncols_tab; unfold smoothed; now rewrite ncols_tab. Qed.
    Lemma shared_classes : double_topics classes.
    Proof.
      destruct classes_shape as [R1 C1]. intros i Hi. rewrite R1 in Hi. rewrite C1. destruct (classes_at i Hi) as [A B]. split; [|exact B]. intros n Hn. destruct (A n Hn) as (F & Bn & _). split; [exact F|exact Bn].
    Qed.
    Lemma shared_classes_error i c : (i < K)%nat -> (c < C)%nat ->
      let exact := exact_smoothed i c / rsum C (exact_smoothed i) in
      Rabs (B2R (mget classes i c) - exact) <= (INR (length D) + INR V + INR C + B2R mu / (B2R mu - 1) + 1) / 2 ^ 49 * exact + / 2 ^ 1074.
    Proof.
      intros Hi Hc exact. destruct (classes_at i Hi) as [A _]. destruct (A c Hc) as (_ & _ & E). fold exact in E. destruct unit_facts as (PU & SU & PT & ST & _ & E49 & _).
      eapply Rle_trans; [exact E|]. destruct mu_facts as [M1 M2]. destruct (classes_total i Hi) as [S0 _].
      assert (X0 : 0 <= exact). { apply Rle_mult_inv_pos; [|exact S0]. unfold exact_smoothed. destruct (heap_at i c Hi Hc) as (_ & _ & E0 & _). lra. }
      assert (T1 : T0 <= / 2 ^ 1074) by (rewrite <- pow_inv; apply bpow_le; lia).
      apply Rplus_le_compat; [|exact T1]. apply Rmult_le_compat_r; [exact X0|]. unfold b, a. set (M0 := B2R mu / (B2R mu - 1)) in *. unfold Rdiv. rewrite E49.
      pose proof (pos_INR V). pose proof (pos_INR (length D)). pose proof (pos_INR C).
      assert (0 <= INR V * U) by (apply Rmult_le_pos; lra). assert (0 <= INR (length D) * U) by (apply Rmult_le_pos; lra). assert (0 <= INR C * U) by (apply Rmult_le_pos; lra). assert (U <= M0 * U) by (apply Rle_trans with (1 * U); [lra|apply Rmult_le_compat_r; lra]).
      lra.
    Qed.
    Lemma shared_classes_low i c : (i < K)%nat -> (c < C)%nat -> / 2 ^ 30 <= B2R (mget classes i c) <= 1.
    Proof.
      intros Hi Hc. destruct (classes_at i Hi) as [A _]. destruct (A c Hc) as (_ & B & E). split; [|apply B]. destruct mu_facts as [M1 M2]. destruct (classes_total i Hi) as [S0 S1].
      destruct (heap_at i c Hi Hc) as (_ & _ & E0 & _). destruct b_small as [b0 b1]. destruct unit_facts as (PU & SU & PT & ST & _ & _ & _). destruct (INR_small C (dk_classes _ _ _ DK)) as [C0 C1].
      set (S := rsum C (exact_smoothed i)) in *. pose proof (dk_words _ _ _ DK) as W. assert (E30 : 2 ^ 30 = 1073741824) by lra. rewrite E30 in *.
      set (T := IZR (corpus_words D) + INR C * (B2R mu - 1)) in *.
      set (X := exact_smoothed i c / S) in *. assert (X1 : / 536870912 <= X).
      { unfold X. apply Rle_div_r; [exact S0|]. apply Rle_trans with (B2R mu - 1); [|unfold exact_smoothed; lra]. apply Rle_trans with (/ 536870912 * T); [apply Rmult_le_compat_l; lra|lra]. }
      assert (X4 : (3 * b + 4 * INR C * U + 2 * U) * X <= / 4 * X).
      { apply Rmult_le_compat_r; [lra|]. assert (INR C * U <= 1073741824 * U) by (apply Rmult_le_compat_r; lra). lra. }
      assert (T0 <= / 4 * / 536870912). { apply Rle_trans with (pow (-31)); [apply bpow_le; lia|]. change (pow (-31)) with (/ 2147483648). lra. }
      apply Rabs_le_inv in E. lra.
    Qed.

    (** a word that no document has gets nothing *)
    Lemma no_part i n : (forall x, In x l -> cnt n x = 0%Z) -> exact_share l i n = 0.
    Proof.
      intros H. unfold exact_share. clear -H. induction l as [|x t IH]; [reflexivity|]. cbn [map]. unfold lsum in *. cbn [fold_right].
      rewrite IH by (intros y Hy; apply H; now right). pose proof (H x (or_introl eq_refl)) as E. unfold cnt in E. rewrite E. lra.
    Qed.
    Lemma corresponding_next : double_corresponding mu D (mk_params (p_alpha m) topics classes).
    Proof.
      destruct topics_shape as [T1 T2]. destruct classes_shape as [R1 C1]. destruct (Ktopics lg ex lga sum D m DC) as [HK HV].
      assert (AL : forall i, (i < K)%nat -> exists d n, In d D /\ (n < V)%nat /\ nth n (d_words d) 0%Z <> 0%Z /\ pow (-32) <= B2R (mget topics i n)).
      { intros i Hi. destruct (topics_at i Hi) as (_ & A & B & _). destruct (awake i Hi) as (n1 & H1 & _).
        destruct (big_share V (fun n => B2R (mget topics i n)) ltac:(lia) HV B) as (n & Hn & L).
        destruct (Forall_Exists_dec (fun x => cnt n x = 0%Z) (fun x => Z.eq_dec (cnt n x) 0) l) as [F|X].
        - exfalso. destruct (A n Hn) as (_ & _ & E). rewrite (no_part i n) in E by (now apply Forall_forall). unfold Rdiv in E. rewrite Rmult_0_l, Rmult_0_r, Rminus_0_r, Rplus_0_l in E. apply Rabs_le_inv in E.
          assert (pow (-220) < pow (-32)) by (apply bpow_lt; lia). lra.
        - apply Exists_exists in X. destruct X as (x & Hx & Nc). exists (fst x), n. split; [exact (item_doc D l Pl x Hx)|]. split; [exact Hn|]. split; [exact Nc|exact L]. }
      assert (IN : forall lowest d, In d D -> double_input lowest (d_words d) m -> double_input lowest (d_words d) (mk_params (p_alpha m) topics classes)).
      { intros lowest d Hd [A1 A2 A3 A4 A5 A6 A7 A8 A9]. split; cbn [p_beta p_alpha]; rewrite ?T1, ?T2; try assumption.
        + intros i n Hi Hn. destruct (topics_at i Hi) as (_ & A & _). destruct (A n Hn) as (F & B & _). split; [exact F|exact B].
        + intros n Hn N. destruct (doc_item D l Pl d Hd) as (x & Hx & <-).
          destruct (big_share K (fun i => B2R (mget (v_phi (snd x)) i n)) ltac:(lia) ltac:(lia) (dp_sum _ _ _ _ (fi_posterior _ _ (Gl x Hx)) n Hn N)) as (i & Hi & B).
          exists i. split; [exact Hi|]. destruct (topics_at i Hi) as (_ & _ & _ & T). destruct (pile_at i n Hi Hn) as (_ & _ & _ & _ & M).
          rewrite <- pow_inv. apply (T n Hn). exact (M x (-32)%Z Hx N ltac:(lia) B). }
      split; cbn [p_eta p_beta p_alpha]; rewrite ?T1, ?T2, ?R1, ?C1.
      - split; cbn [p_beta p_alpha]; rewrite ?T1, ?T2.
        + exact (dc_some _ _ DC).
        + exact (dc_size _ _ DC).
        + intros d Hd. apply IN; [exact Hd|]. exact (DoubleTrainSpec.dc_input _ _ DC d Hd).
        + intros i Hi. destruct (AL i Hi) as (d & n & Hd & Hn & Nc & L). exists d, n. split; [exact Hd|]. split; [exact Hn|]. split; [exact Nc|]. eapply Rle_trans; [|exact L]. rewrite <- pow_inv. apply bpow_le. lia.
      - exact (dk_size _ _ _ DK).
      - intros d Hd. destruct (dk_documents _ _ _ DK d Hd) as (y & Ey & [DI E1 E2 E3] & Ly). exists y. split; [exact Ey|]. split.
        + split; cbn [p_eta p_beta p_alpha]; rewrite ?T1, ?T2, ?R1, ?C1; [now apply IN|reflexivity|exact E2|].
          intros i Hi. destruct (classes_at i Hi) as [A _]. destruct (A y E2) as (F & B & _). split; [exact F|]. destruct (shared_classes_low i y Hi E2) as [L H]. split; [|exact H]. eapply Rle_trans; [|exact L].
          rewrite <- !pow_inv. apply bpow_le. lia.
        + intros i Hi. exact (proj1 (shared_classes_low i y Hi E2)).
      - intros i Hi. destruct (AL i Hi) as (d & n & Hd & Hn & Nc & L). exists d, n. split; [exact Hd|]. split; [exact Hn|]. split; [exact Nc|]. eapply Rle_trans; [|exact L]. rewrite <- pow_inv. apply bpow_le. lia.
      - exact (dk_classes _ _ _ DK).
      - exact (dk_mu _ _ _ DK).
      - exact (dk_words _ _ _ DK).
    Qed.
  End Epoch.

  (** *** Training *)
  Lemma corresponding_posterior cf mu' epochs (m : params double) d y : d_class d = Some (Z.of_nat y) -> double_classes (/ 140) (d_words d) y m ->
    (forall i, (i < mrows (p_eta m))%nat -> / 2 ^ 30 <= B2R (mget (p_eta m) i y)) ->
    exists v, posterior 7 (Correspondence cf mu') epochs d m = Ok v /\ fine m (d, v).
  Proof.
    intros Ey P L. unfold posterior. cbn [doc_e_step].
    assert (Lk : likely lg ex lga sum y m) by (intros i Hi; apply L; rewrite (dc_topics _ _ _ _ P); exact Hi).
    destruct (correspondence_strong lg ex lga sum Hlg Hlb Hex Hsum (d_words d) y m P cf mu' true d eq_refl Ey) as (g1 & p1 & t1 & e1 & E1 & _). rewrite E1. cbn [bind].
    destruct (correspondence_strong lg ex lga sum Hlg Hlb Hex Hsum (d_words d) y m P cf mu' false d eq_refl Ey) as (g & p & t & e & E & Vp & Vt & _ & Lo). rewrite E. cbn [bind].
    destruct (Lo Lk) as [L1 L2]. exists (mk_vparams g p t). split; [reflexivity|]. split; cbn [fst snd v_gamma v_phi v_tau]; assumption.
  Qed.
  Lemma corresponding_items cf mu' ep (m : params double) D :
    (forall d, In d D -> exists y, d_class d = Some (Z.of_nat y) /\ double_classes (/ 140) (d_words d) y m /\ forall i, (i < mrows (p_eta m))%nat -> / 2 ^ 30 <= B2R (mget (p_eta m) i y)) ->
    exists l, map fst l = D /\ Forall (found 7 (Correspondence cf mu') (m, ep)) l /\ Forall (sized (mrows (p_beta m)) (ncols (p_beta m))) l /\ (forall x, In x l -> fine m x).
  Proof.
    induction D as [|d D IH]; intros H; [exists []; repeat split; try constructor; contradiction|]. destruct IH as (l & L1 & L2 & L3 & L4); [intros e He; apply H; now right|].
    destruct (H d (or_introl eq_refl)) as (y & Ey & DM & Ly).
    destruct (corresponding_posterior cf mu' ep m d y Ey DM Ly) as (v & E & Vp). exists ((d, v) :: l). cbn [map fst]. rewrite L1.
    split; [reflexivity|]. split; [constructor; [exact E|assumption]|]. split; [constructor; [|assumption]|].
    - exact (posterior_sized 7 (Correspondence cf mu') ep d m _ E).
    - intros x [<-|Hx]; [exact Vp|now apply L4].
  Qed.
  Lemma correspondence_same mu : forall s m d v m' s' e, ms_doc (correspondence_maximizer (T := double) mu) s m d v = Ok (m', s', e) -> m' = m.
  Proof. intros s m d v m' s' e E. cbn [ms_doc correspondence_maximizer] in E. apply bind_ok' in E. destruct E as (b & _ & E). now injection E as <- <- <-. Qed.
  (** an epoch of the M step, with the state it leaves *)
  Lemma correspondence_run mu K V C s l (m : params double) : (0 < K)%nat -> stats_fresh K V C s -> mrows (p_eta m) = K -> ncols (p_eta m) = C ->
    Forall (sized K V) l -> Forall (with_tau V) l -> Forall (classified C) l -> l <> [] ->
    mrun (correspondence_maximizer mu) (epoch l) m s =
    Ok (mk_params (p_alpha m) (normalize_rows (totals K V assigned_tau l)) (normalize_rows (smoothed K C mu (class_totals K V C assigned_tau l))),
        mk_stats (MStepAny.zeros K V) (mtab K C (fun _ _ => zero)) (Some zero), [class_log K V assigned_tau (p_eta m) l]).
  Proof.
    intros HK F E1 E2 Hs Ht Hc Hl. unfold epoch. rewrite mrun_app, (mrun_docs (correspondence_maximizer mu) correspondence_doc) by reflexivity.
    destruct (stats_docs K V HK C scaled_c assigned_tau (scaled_c_eq K V) correspondence_doc (with_tau V) (correspondence_doc_eq K V) s m l s [] E1 E2 F) as (s' & E & At); try assumption; [now left|]. rewrite E. cbn [bind mrun ms_end correspondence_maximizer app] in *.
    destruct At as [[? _]|[_ (A1 & A2 & A3)]]; [congruence|]. unfold stats_m. rewrite A1, A2, A3. cbn [bind app].
    destruct (class_totals_shape K V C assigned_tau l) as [-> ->]. destruct (totals_shape K V assigned_tau l) as [-> ->]. reflexivity.
  Qed.

  Lemma epoch_correspondence cf mu mu' D W m ep s st p : double_corresponding mu D m -> stats_fresh (mrows (p_beta m)) (ncols (p_beta m)) (ncols (p_eta m)) s ->
    partial_fit_call 7 (correspondence_maximizer mu) (Correspondence cf mu') W D (Ok s) (m, ep) st p ->
    exists l, Permutation (map fst l) D /\ Forall (found 7 (Correspondence cf mu') (m, ep)) l /\
      (forall x, In x l -> fine m x) /\
      (exists s', st = Ok s' /\ stats_fresh (mrows (p_beta m)) (ncols (p_beta m)) (ncols (p_eta m)) s') /\
      p = (mk_params (p_alpha m) (normalize_rows (totals (mrows (p_beta m)) (ncols (p_beta m)) assigned_tau l))
             (normalize_rows (smoothed (mrows (p_beta m)) (ncols (p_eta m)) mu (class_totals (mrows (p_beta m)) (ncols (p_beta m)) (ncols (p_eta m)) assigned_tau l))), S ep).
  Proof.
    intros DK Hs E. pose proof (dk_corpus _ _ _ DK) as DC. set (K := mrows (p_beta m)) in *. set (V := ncols (p_beta m)) in *. set (C := ncols (p_eta m)) in *.
    assert (HK : (0 < K)%nat) by (destruct (Ktopics lg ex lga sum D m DC); unfold K; lia).
    destruct (corresponding_items cf mu' ep m D (dk_documents _ _ _ DK)) as (l & L1 & L2 & L3 & L4).
    destruct (partial_fit_run 7 (correspondence_maximizer mu) (Correspondence cf mu') (correspondence_same mu) W D s (m, ep) st p l E (Permutation_refl' L1) L2) as (l2 & P2 & Run). cbn [fst snd] in Run.
    assert (S2 : Forall (sized K V) l2). { apply Forall_forall. intros x Hx. rewrite Forall_forall in L3. apply L3. eapply Permutation_in; eassumption. }
    assert (Hl2 : l2 <> []). { intros ->. apply Permutation_nil in P2. subst l. cbn in L1. pose proof (dc_some _ _ DC). congruence. }
    assert (Pl2 : Permutation (map fst l2) D) by (rewrite P2, L1; reflexivity).
    assert (G2 : forall x, In x l2 -> fine m x) by (intros x Hx; apply L4; eapply Permutation_in; eassumption).
    assert (E1 : mrows (p_eta m) = K).
    { pose proof (dc_some _ _ DC) as N. destruct D as [|d D'] eqn:ED; [congruence|]. destruct (dk_documents _ _ _ DK d (or_introl eq_refl)) as (y & _ & DM & _). exact (dc_topics _ _ _ _ DM). }
    assert (C2 : Forall (classified C) l2).
    { apply Forall_forall. intros x Hx. destruct (item_class mu D m DK l2 Pl2 x Hx) as (y & _ & Hy & Ey). exists (Z.of_nat y). split; [exact Ey|]. fold C in Hy. lia. }
    assert (T2 : Forall (with_tau V) l2) by (apply Forall_forall; intros x Hx; apply (fi_shares _ _ (G2 x Hx))).
    destruct (Run _ _ _ (correspondence_run mu K V C s l2 m HK Hs E1 eq_refl S2 T2 C2 Hl2)) as [-> ->].
    exists l2. split; [exact Pl2|]. split; [|split; [exact G2|split]].
    - apply Forall_forall. intros x Hx. rewrite Forall_forall in L2. apply L2. eapply Permutation_in; eassumption.
    - eexists. split; [reflexivity|]. right. repeat split.
    - reflexivity.
  Qed.

  Lemma fit_correspondence cf mu mu' D W n : forall m ep s st p, double_corresponding mu D m -> stats_fresh (mrows (p_beta m)) (ncols (p_beta m)) (ncols (p_eta m)) s ->
    fit_call 7 (correspondence_maximizer mu) (Correspondence cf mu') W D n (Ok s) (m, ep) st p ->
    (exists s', st = Ok s' /\ stats_fresh (mrows (p_beta (fst p))) (ncols (p_beta (fst p))) (ncols (p_eta (fst p))) s') /\ snd p = (ep + n)%nat /\ p_alpha (fst p) = p_alpha m /\
    mrows (p_beta (fst p)) = mrows (p_beta m) /\ ncols (p_beta (fst p)) = ncols (p_beta m) /\ ncols (p_eta (fst p)) = ncols (p_eta m) /\
    double_corresponding mu D (fst p) /\ ((0 < n)%nat -> double_topics (p_beta (fst p)) /\ double_topics (p_eta (fst p))).
  Proof.
    induction n as [|n IH]; intros m ep s st p DK Hs F; inversion F; subst.
    - cbn [fst snd]. split; [exists s; split; [reflexivity|exact Hs]|]. split; [lia|]. do 4 (split; [reflexivity|]). split; [exact DK|]. intros X. exfalso. lia.
    - match goal with H : partial_fit_call _ _ _ _ _ _ _ _ _ |- _ => rename H into E end. match goal with H : fit_call _ _ _ _ _ _ _ _ _ _ |- _ => rename H into G end.
      destruct (epoch_correspondence cf mu mu' D W m ep s st1 p1 DK Hs E) as (l & P & _ & Gl & (s1 & -> & Hs1) & ->).
      destruct (topics_shape m l) as [B1 B2]. destruct (classes_shape mu m l) as [_ B3].
      pose proof (corresponding_next mu D m DK l P Gl) as DK1. pose proof (shared_topics mu D m DK l P Gl) as DT. pose proof (shared_classes mu D m DK l P Gl) as DS.
      set (beta := normalize_rows (totals (mrows (p_beta m)) (ncols (p_beta m)) assigned_tau l)) in *.
      set (eta := normalize_rows (smoothed (mrows (p_beta m)) (ncols (p_eta m)) mu (class_totals (mrows (p_beta m)) (ncols (p_beta m)) (ncols (p_eta m)) assigned_tau l))) in *.
      destruct (IH (mk_params (p_alpha m) beta eta) (S ep) s1 st p DK1) with (2 := G) as (I1 & I2 & I3 & I4 & I5 & I6 & I7 & I8).
      { cbn [p_beta p_eta]. rewrite B1, B2, B3. exact Hs1. }
      cbn [p_beta p_alpha p_eta] in *. split; [exact I1|]. split; [lia|]. split; [exact I3|]. split; [now rewrite I4|]. split; [now rewrite I5|]. split; [now rewrite I6|]. split; [exact I7|].
      intros _. destruct n as [|n]; [|apply I8; lia]. inversion G; subst. split; [exact DT|exact DS].
  Qed.
  (** from a new M step *)
  Lemma fit_correspondence_new cf mu mu' D W n m ep st p : double_corresponding mu D m -> fit_call 7 (correspondence_maximizer mu) (Correspondence cf mu') W D n (Ok new_stats) (m, ep) st p ->
    (exists s, st = Ok s) /\ snd p = (ep + n)%nat /\ p_alpha (fst p) = p_alpha m /\
    mrows (p_beta (fst p)) = mrows (p_beta m) /\ ncols (p_beta (fst p)) = ncols (p_beta m) /\ ncols (p_eta (fst p)) = ncols (p_eta m) /\
    double_corresponding mu D (fst p) /\ ((0 < n)%nat -> double_topics (p_beta (fst p)) /\ double_topics (p_eta (fst p))).
  Proof.
    intros DK F. destruct (fit_correspondence cf mu mu' D W n m ep new_stats st p DK (or_introl eq_refl) F) as ((s & -> & _) & R). split; [eexists; reflexivity|exact R].
  Qed.
  Lemma next_correspondence cf mu mu' D W n m ep st p st' p' : double_corresponding mu D m -> fit_call 7 (correspondence_maximizer mu) (Correspondence cf mu') W D n (Ok new_stats) (m, ep) st p ->
    partial_fit_call 7 (correspondence_maximizer mu) (Correspondence cf mu') W D st p st' p' ->
    let K := mrows (p_beta m) in let V := ncols (p_beta m) in let C := ncols (p_eta m) in
    exists l, Permutation (map fst l) D /\ (forall x, In x l -> posterior 7 (Correspondence cf mu') (snd p) (fst x) (fst p) = Ok (snd x)) /\
      (forall x, In x l -> double_posterior (d_words (fst x)) (fst p) (v_gamma (snd x)) (v_phi (snd x)) /\ double_shares V (v_tau (snd x))) /\
      (forall i n, (i < K)%nat -> (n < V)%nat ->
        let exact := exact_share l i n / rsum V (exact_share l i) in
        Rabs (B2R (mget (p_beta (fst p')) i n) - exact) <= (INR (length D) + INR V + 1) / 2 ^ 49 * exact + / 2 ^ 220) /\
      (forall i c, (i < K)%nat -> (c < C)%nat ->
        let exact := (exact_class_share V l i c + (B2R mu - 1)) / rsum C (fun c => exact_class_share V l i c + (B2R mu - 1)) in
        Rabs (B2R (mget (p_eta (fst p')) i c) - exact) <= (INR (length D) + INR V + INR C + B2R mu / (B2R mu - 1) + 1) / 2 ^ 49 * exact + / 2 ^ 1074).
  Proof.
    intros DK F E K V C. destruct (fit_correspondence cf mu mu' D W n m ep new_stats st p DK (or_introl eq_refl) F) as ((s & -> & Hs) & _ & _ & B1 & B2 & B3 & DK' & _). destruct p as [m' ep']. cbn [fst snd] in *.
    destruct (epoch_correspondence cf mu mu' D W m' ep' s st' p' DK' Hs E) as (l & P & Fl & Gl & _ & ->). exists l. split; [exact P|]. split; [apply Forall_forall; exact Fl|].
    unfold K, V, C. rewrite <- B1, <- B2, <- B3. split; [intros x Hx; split; [exact (fi_posterior _ _ (Gl x Hx))|exact (fi_shares _ _ (Gl x Hx))]|]. cbn [fst p_beta p_eta]. split.
    - intros i j Hi Hj. exact (shared_topics_error mu D m' DK' l P Gl i j Hi Hj).
    - intros i c Hi Hc. exact (shared_classes_error mu D m' DK' l P Gl i c Hi Hc).
  Qed.
End Train.
