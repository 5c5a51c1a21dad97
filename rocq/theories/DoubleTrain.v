(** Training with the unsupervised E and M steps in double precision. *)
Require Import Reals ZArith List Bool Arith Lia Lra Psatz Permutation.
From Flocq Require Import Core.Core IEEE754.BinarySingleNaN Relative.
Require Import Verif.Base Verif.Scalar Verif.Mat Verif.HostModel Verif.UtilsModel Verif.BuilderModel Verif.EStepModel Verif.EStepAny Verif.OptModel Verif.MStepModel Verif.MStepSpec Verif.MStepAny
  Verif.PoolModel Verif.LdaModel Verif.TrainSizes Verif.TrainPerm Verif.TrainProofs.
Require Import Verif.DoubleSpec Verif.DoubleTrainSpec Verif.DoubleArith Verif.DoubleUtils Verif.DoubleProofs.
Import ListNotations.
Open Scope R_scope.

(** The product of a number and an integer: no error by underflow *)
Lemma rnd_mul_int (w : double) z : Rabs (rnd (B2R w * IZR z) - B2R w * IZR z) <= U * Rabs (B2R w * IZR z).
Proof.
  destruct (Rle_lt_dec (pow (-1022)) (Rabs (B2R w * IZR z))) as [L|L].
  - pose proof (relative_error_N_FLT radix2 (-1074) 53 eq_refl (fun z => negb (Z.even z)) (B2R w * IZR z) L) as E.
    change (round radix2 (FLT_exp (-1074) 53) _ ?v) with (rnd v) in E. eapply Rle_trans; [exact E|]. right. f_equal. cbn. lra.
  - assert (G : generic_format radix2 fexp (B2R w * IZR z)).
    { pose proof (generic_format_B2R 53 1024 w) as G. apply (FLT_format_generic radix2 (-1074) 53) in G. destruct G as [[f e] G1 G2 G3]. cbn in G2, G3.
      assert (V : B2R w * IZR z = F2R (Float radix2 (f * z * 2 ^ (e + 1074)) (-1074))).
      { rewrite G1. unfold F2R. cbn [Fnum Fexp]. rewrite !mult_IZR. change 2%Z with (radix_val radix2). rewrite IZR_Zpower by lia.
        rewrite bpow_plus. replace (IZR f * IZR z * (pow e * pow 1074) * pow (-1074)) with (IZR f * pow e * IZR z * (pow 1074 * pow (-1074))) by ring.
        assert (P : pow 1074 * pow (-1074) = 1) by (rewrite <- bpow_plus; reflexivity). rewrite P. ring. }
      apply (generic_format_FLT radix2 (-1074) 53). exists (Float radix2 (f * z * 2 ^ (e + 1074)) (-1074)); [exact V| |cbn; lia].
      cbn [Fnum]. apply lt_IZR. rewrite abs_IZR. rewrite V in L. unfold F2R in L. cbn [Fnum Fexp] in L. rewrite Rabs_mult, (Rabs_pos_eq (pow (-1074))) in L by apply bpow_ge_0.
      apply Rmult_lt_reg_r with (pow (-1074)); [apply bpow_gt_0|]. eapply Rlt_trans; [exact L|]. change (IZR (radix2 ^ 53)) with (IZR (Zpower radix2 53)). rewrite IZR_Zpower by lia. rewrite <- bpow_plus. apply bpow_lt. lia. }
    rewrite (round_generic radix2 fexp _ _ G). unfold Rminus. rewrite Rplus_opp_r, Rabs_R0. apply Rmult_le_pos; [apply bpow_ge_0|apply Rabs_pos].
Qed.

Section Train.
  Variables (lg ex lga : double -> double) (sum : list double -> double).
  Local Hint Extern 0 (ops _) => exact (DO lg ex lga sum) : typeclass_instances.
  Hypothesis Hlg : rough_log lg.
  Hypothesis Hex : rough_exp ex.
  Hypothesis Hsum : forall l, summed l (sum l).

  (** One coefficient of b_ *)
  Definition gathered {A} (w : A -> double) (c : A -> Z) (l : list A) : double := fold_left (fun b x => add b (mul (w x) (ofZ (c x)))) l zero.
  Lemma gathered_d {A} (w : A -> double) (c : A -> Z) l : (Z.of_nat (length l) <= 2 ^ 30)%Z ->
    (forall x, In x l -> is_finite (w x) = true /\ 0 <= B2R (w x) <= 1 /\ (0 <= c x <= 2 ^ 31)%Z) ->
    let r := gathered w c l in let E := lsum (map (fun x => IZR (c x) * B2R (w x)) l) in
    is_finite r = true /\ 0 <= B2R r <= INR (length l) * pow 31 /\ 0 <= E /\ Rabs (B2R r - E) <= INR (length l) * (4 * U) * E /\
    (forall x, In x l -> c x <> 0%Z -> B2R (w x) <= B2R r).
  Proof.
    destruct unit_facts as (PU & SU & PT & ST & _ & _ & _). induction l as [|y l IH] using rev_ind; intros Hn Hw.
    - unfold gathered. cbn. unfold lsum. cbn. split; [reflexivity|]. split; [lra|]. split; [lra|]. split; [|contradiction]. rewrite Rminus_0_r, Rabs_R0. lra.
    - rewrite app_length in *. cbn [length] in *. destruct IH as (Fr & Br & E0 & Er & Mr); [lia|intros x Hx; apply Hw; apply in_or_app; now left|].
      cbv zeta. unfold gathered in *. rewrite fold_left_app, map_app, lsum_app. cbn [fold_left map]. set (r := fold_left _ l zero) in *. clearbody r.
      set (E := lsum (map (fun x => IZR (c x) * B2R (w x)) l)) in *. clearbody E. unfold lsum at 1 2 3. cbn [fold_right]. rewrite Rplus_0_r.
      destruct (Hw y) as (Fw & Bw & Cy); [apply in_or_app; right; now left|].
      assert (C1 : 0 <= IZR (c y) <= pow 31) by (split; [apply (IZR_le 0); lia|change (pow 31) with (IZR (2 ^ 31)); apply IZR_le; lia]).
      destruct (int_d lg ex lga sum (c y) ltac:(lia)) as [Fc Vc].
      assert (T1 : 0 <= B2R (w y) * IZR (c y) <= pow 31).
      { split; [apply Rmult_le_pos; lra|]. apply Rle_trans with (1 * pow 31); [apply Rmult_le_compat; lra|lra]. }
      destruct (mul_in (w y) (ofZ (c y)) Fw Fc 0 (pow 31) (rep_Z 0 ltac:(lia)) (rep_pow 31 ltac:(lia))) as (Fm & Vm & Bm).
      { rewrite Vc. exact T1. }
      rewrite Vc in Vm. pose proof (rnd_mul_int (w y) (c y)) as Em. rewrite <- Vm in Em. rewrite (Rabs_pos_eq (B2R (w y) * IZR (c y))) in Em by lra.
      rewrite (Rmult_comm (B2R (w y))) in *. set (t := IZR (c y) * B2R (w y)) in *.
      assert (Mw : c y <> 0%Z -> B2R (w y) <= B2R (dmul (w y) (ofZ (c y)))).
      { intros N. rewrite Vm. apply round_ge_generic; [apply fexp_valid|apply valid_rnd_N|apply generic_format_B2R|].
        assert (1 <= IZR (c y)) by (apply (IZR_le 1); lia). unfold t. apply Rle_trans with (1 * B2R (w y)); [lra|apply Rmult_le_compat_r; lra]. }
      change (mul (w y) (ofZ (c y))) with (dmul (w y) (ofZ (c y))). set (p := dmul (w y) (ofZ (c y))) in *. change (add r p) with (dadd r p).
      assert (NL : INR (length l + 1) = INR (length l) + 1) by (rewrite plus_INR; reflexivity).
      assert (Rhi : rep (INR (length l + 1) * pow 31)) by (rewrite INR_IZR_INZ; apply rep_scale; lia).
      destruct (add_in r p Fr Fm 0 (INR (length l + 1) * pow 31) (rep_Z 0 ltac:(lia)) Rhi) as (Fs & Vs & Bs); [rewrite NL; lra|].
      split; [exact Fs|]. split; [exact Bs|]. split; [lra|]. split.
      + pose proof (rnd_add_error r p) as Es. rewrite <- Vs in Es. rewrite (Rabs_pos_eq (B2R r + B2R p)) in Es by lra.
        set (v := B2R (dadd r p)) in *. rewrite NL. set (n := INR (length l)) in *. clearbody v.
        assert (N0 : 0 <= n <= 1073741824). { split; [apply pos_INR|]. apply (INR_small (length l)). lia. }
        assert (NU : n * (4 * U) <= 1) by (apply Rle_trans with (1073741824 * (4 * U)); [apply Rmult_le_compat_r; lra|lra]).
        assert (NE : n * (4 * U) * E <= 1 * E) by (apply Rmult_le_compat_r; lra).
        assert (Ut : U * t <= 1 * t) by (apply Rmult_le_compat_r; lra).
        assert (R2 : B2R r <= 2 * E) by (apply Rabs_le_inv in Er; lra).
        assert (P2 : B2R p <= 2 * t) by (apply Rabs_le_inv in Em; lra).
        assert (S2 : U * (B2R r + B2R p) <= U * (2 * E + 2 * t)) by (apply Rmult_le_compat_l; lra).
        assert (UE : 0 <= U * E) by (apply Rmult_le_pos; lra). assert (UT : 0 <= U * t) by (apply Rmult_le_pos; lra).
        assert (NT : 0 <= n * (U * t)) by (apply Rmult_le_pos; lra).
        replace ((n + 1) * (4 * U) * (E + t)) with (n * (4 * U) * E + 4 * (n * (U * t)) + 4 * (U * E) + 4 * (U * t)) by ring.
        replace (U * (2 * E + 2 * t)) with (2 * (U * E) + 2 * (U * t)) in S2 by ring.
        apply Rabs_le. apply Rabs_le_inv in Er, Em, Es. split; lra.
      + intros x Hx N. assert (Q : B2R (w x) <= B2R r + B2R p).
        { apply in_app_or in Hx. destruct Hx as [Hx|[<-|[]]]; [specialize (Mr x Hx N); lra|specialize (Mw N); lra]. }
        rewrite Vs. apply round_ge_generic; [apply fexp_valid|apply valid_rnd_N|apply generic_format_B2R|exact Q].
  Qed.

  (** A row divided by its sum *)
  Lemma row_d (V : nat) (p : nat -> double) k n0 : (Z.of_nat V <= 2 ^ 30)%Z -> (-1074 <= k <= 900)%Z ->
    (forall n, (n < V)%nat -> is_finite (p n) = true /\ 0 <= B2R (p n) <= pow k) -> (n0 < V)%nat -> 0 < B2R (p n0) ->
    let s := redux (vtab V p) in let q n := div (p n) s in
    (forall n, (n < V)%nat -> is_finite (q n) = true /\ 0 <= B2R (q n) <= 1 /\ B2R (q n) = rnd (B2R (p n) / B2R s)) /\
    Rabs (rsum V (fun n => B2R (q n)) - 1) <= (INR V + 1) / 2 ^ 50 /\
    (forall n j, (n < V)%nat -> pow j <= B2R (p n) -> (-1074 <= j - k - 30 <= 0)%Z -> pow (j - k - 30) <= B2R (q n)) /\
    0 < B2R s /\ Rabs (B2R s - rsum V (fun n => B2R (p n))) <= INR V * (2 * U) * rsum V (fun n => B2R (p n)).
  Proof.
    intros HV Hk Hp H0 P0 s q. destruct unit_facts as (_ & _ & _ & _ & _ & _ & E52).
    destruct (normal_d lg ex lga sum Hsum V p k HV Hk Hp) as (N1 & N2 & N3). fold s in N1, N2, N3.
    destruct (summed_in k (vtab V p) s (Hsum _) ltac:(lia)) as (Fs & Bs & Ms & Es).
    { rewrite vtab_length. lia. }
    { apply Forall_forall. intros x Hx. unfold vtab in Hx. apply in_map_iff in Hx. destruct Hx as (i & <- & Hi). apply in_seq in Hi. apply Hp. lia. }
    rewrite vtab_length in *. assert (Ep : lval (vtab V p) = rsum V (fun i => B2R (p i))) by (unfold lval, rsum; now rewrite vtab_map). rewrite Ep, E52 in Es.
    assert (Le : forall i, (i < V)%nat -> B2R (p i) <= B2R s).
    { intros i Hi. apply Ms. unfold vtab. apply in_map_iff. exists i. split; [reflexivity|]. apply in_seq. lia. }
    assert (Ps : 0 < B2R s) by (specialize (Le n0 H0); lra).
    destruct (eqb s zero) eqn:Z; [apply (is_zero lg ex lga sum s Fs) in Z; lra|].
    split; [|split; [apply N2; eauto|split; [exact N3|split; [exact Ps|exact Es]]]].
    intros n Hn. destruct (N1 n Hn) as [F B]. split; [exact F|]. split; [exact B|]. destruct (Hp n Hn) as [Fn Bn]. specialize (Le n Hn).
    apply (div_in (p n) s Fn 0 1 (rep_Z 0 ltac:(lia)) (rep_Z 1 ltac:(lia))); [lra|]. split; [apply Rle_mult_inv_pos; lra|apply Rle_div_l; lra].
  Qed.

  (** *** An epoch: the topics from the posteriors of the documents *)
  Section Epoch.
    Variables (D : list (doc double)) (m : params double).
    Hypothesis DC : double_corpus D m.
    Notation K := (mrows (p_beta m)).
    Notation V := (ncols (p_beta m)).
    Variable l : list (item double).
    Hypothesis Pl : Permutation (map fst l) D.
    Hypothesis Gl : forall x, In x l -> double_posterior (d_words (fst x)) m (v_gamma (snd x)) (v_phi (snd x)).
    Notation topics := (over_row_sums K V (word_counts K V l)).

    Lemma item_doc x : In x l -> In (fst x) D.
    Proof. intros H. eapply Permutation_in; [exact Pl|]. now apply in_map. Qed.
    Lemma doc_item d : In d D -> exists x, In x l /\ fst x = d.
    Proof. intros H. apply (Permutation_in _ (Permutation_sym Pl)) in H. apply in_map_iff in H. destruct H as (x & E & H). eauto. Qed.
    Lemma len_l : (Z.of_nat (length l) <= 2 ^ 30)%Z /\ length l = length D.
    Proof. pose proof (Permutation_length Pl) as E. rewrite map_length in E. pose proof (dc_size _ _ DC) as S. rewrite <- E in S. split; [exact S|exact E]. Qed.
    Lemma Ktopics : (0 < Z.of_nat K <= 2 ^ 30)%Z /\ (Z.of_nat V <= 2 ^ 30)%Z.
    Proof. clear Pl Gl l. pose proof (dc_some _ _ DC) as N. destruct D as [|d D'] eqn:E; [congruence|]. pose proof (dc_input _ _ DC d (or_introl eq_refl)) as DI. split; [apply (di_topics _ _ _ DI)|apply (di_vocabulary _ _ _ DI)]. Qed.

    Definition wgt (i n : nat) (x : item double) : double := mget (v_phi (snd x)) i n.
    Definition cnt (n : nat) (x : item double) : Z := nth n (d_words (fst x)) 0%Z.
    Lemma counts_at i n : (i < K)%nat -> (n < V)%nat -> mget (word_counts K V l) i n = gathered (wgt i n) (cnt n) l.
    Proof.
      intros Hi Hn. unfold word_counts, totals, gathered. clear Pl Gl. induction l as [|x t IH] using rev_ind; [cbn [fold_left]; now rewrite mget_tab|].
      rewrite !fold_left_app. cbn [fold_left]. rewrite mget_tab by assumption. now rewrite IH.
    Qed.
    Lemma count_range x n : In x l -> (0 <= cnt n x <= 2 ^ 31)%Z.
    Proof.
      intros Hx. pose proof (dc_input _ _ DC _ (item_doc x Hx)) as DI. unfold cnt. pose proof (di_counts _ _ _ DI) as C. pose proof (di_length _ _ _ DI) as L.
      assert (A : forall X, (forall z, In z X -> 0 <= z)%Z -> (0 <= fold_right Z.add 0 X)%Z /\ (0 <= nth n X 0 <= fold_right Z.add 0 X)%Z).
      { clear. revert n. intros n X. revert n. induction X as [|z X IH]; intros n H; [destruct n; cbn; lia|].
        assert (0 <= z)%Z by (apply H; now left). assert (H' : forall y, In y X -> (0 <= y)%Z) by (intros y Hy; apply H; now right).
        destruct n as [|n]; cbn [nth fold_right]; [destruct (IH 0%nat H'); lia|destruct (IH n H'); lia]. }
      destruct (A _ C). lia.
    Qed.
    Lemma gather_at i n : (i < K)%nat -> (n < V)%nat -> let r := mget (word_counts K V l) i n in
      is_finite r = true /\ 0 <= B2R r <= pow 61 /\ 0 <= exact_count l i n /\ Rabs (B2R r - exact_count l i n) <= INR (length D) * (4 * U) * exact_count l i n /\
      (forall x, In x l -> cnt n x <> 0%Z -> B2R (wgt i n x) <= B2R r).
    Proof.
      intros Hi Hn r. subst r. rewrite counts_at by assumption. destruct len_l as [L1 L2].
      destruct (gathered_d (wgt i n) (cnt n) l L1) as (A & B & C & E & M).
      { intros x Hx. destruct (dp_phi_finite _ _ _ _ (Gl x Hx) i n Hi Hn) as [F Bp]. split; [exact F|]. split; [exact Bp|]. now apply count_range. }
      split; [exact A|]. split.
      - split; [apply B|]. eapply Rle_trans; [apply B|]. change 61%Z with (30 + 31)%Z. rewrite bpow_plus. apply Rmult_le_compat_r; [apply bpow_ge_0|].
        change (pow 30) with 1073741824. apply INR_small. exact L1.
      - rewrite <- L2. split; [exact C|]. split; [exact E|exact M].
    Qed.

    Lemma alive i : (i < K)%nat -> exists n0, (n0 < V)%nat /\ 0 < B2R (mget (word_counts K V l) i n0).
    Proof.
      intros Hi. destruct (dc_alive _ _ DC i Hi) as (d & n & Hd & Hn & C & B). destruct (doc_item d Hd) as (x & Hx & <-). exists n. split; [exact Hn|].
      destruct (gather_at i n Hi Hn) as (_ & _ & _ & _ & M). eapply Rlt_le_trans; [|apply (M x Hx C)]. exact (dp_positive _ _ _ _ (Gl x Hx) i n Hi Hn B).
    Qed.
    Lemma topic_at i n : (i < K)%nat -> (n < V)%nat ->
      mget topics i n = div (mget (word_counts K V l) i n) (redux (vtab V (fun n => mget (word_counts K V l) i n))).
    Proof. intros Hi Hn. unfold over_row_sums. now rewrite mget_tab. Qed.
    Lemma topic_row i : (i < K)%nat ->
      (forall n, (n < V)%nat -> is_finite (mget topics i n) = true /\ 0 <= B2R (mget topics i n) <= 1) /\
      Rabs (rsum V (fun n => B2R (mget topics i n)) - 1) <= (INR V + 1) / 2 ^ 50 /\
      (forall n, (n < V)%nat -> pow (-32) <= B2R (mget (word_counts K V l) i n) -> pow (-123) <= B2R (mget topics i n)).
    Proof.
      intros Hi. destruct (alive i Hi) as (n0 & H0 & P0). destruct Ktopics as [_ HV].
      destruct (row_d V (fun n => mget (word_counts K V l) i n) 61 n0 HV ltac:(lia)) as (R1 & R2 & R3 & _); try assumption.
      { intros n Hn. destruct (gather_at i n Hi Hn) as (F & B & _). auto. }
      split; [|split].
      - intros n Hn. rewrite topic_at by assumption. destruct (R1 n Hn) as (F & B & _). auto.
      - rewrite (rsum_ext V _ (fun n => B2R (div (mget (word_counts K V l) i n) (redux (vtab V (fun n => mget (word_counts K V l) i n)))))) by (intros n Hn; now rewrite topic_at). exact R2.
      - intros n Hn B. rewrite topic_at by assumption. exact (R3 n (-32)%Z Hn B ltac:(lia)).
    Qed.
    Lemma topics_double : double_topics topics.
    Proof.
      intros i Hi. unfold over_row_sums in *. cbn [mrows mtab] in Hi. rewrite ncols_tab. destruct (topic_row i Hi) as (A & B & _). split; [exact A|exact B].
    Qed.

    (** a sum of n terms has a term of at least 1/n of it *)
    Lemma some_term n f c : (0 < n)%nat -> INR n * c <= rsum n f -> 0 < c -> exists i, (i < n)%nat /\ c / 2 <= f i.
    Proof.
      intros Hn H Hc. destruct (Forall_Exists_dec (fun i => ~ c / 2 <= f i) (fun i => match Rle_dec (c / 2) (f i) with left p => right (fun q => q p) | right q => left q end) (seq 0 n)) as [F|E].
      - exfalso. assert (rsum n f <= rsum n (fun _ => c / 2)).
        { apply rsum_le. intros i Hi. rewrite Forall_forall in F. specialize (F i ltac:(apply in_seq; lia)). lra. }
        rewrite rsum_const in H0. assert (0 < INR n) by (apply lt_0_INR; exact Hn). assert (0 < INR n * c) by (apply Rmult_lt_0_compat; assumption). lra.
      - apply Exists_exists in E. destruct E as (i & Hi & E). apply in_seq in Hi. exists i. split; [lia|]. destruct (Rle_dec (c / 2) (f i)); [assumption|contradiction].
    Qed.
    Lemma one_half n : (Z.of_nat n <= 2 ^ 30)%Z -> (INR n + 1) / 2 ^ 50 <= / 2.
    Proof.
      intros H. destruct (INR_small n H) as [A B]. destruct unit_facts as (PU & SU & _ & _ & E50 & _). unfold Rdiv. rewrite E50.
      apply Rle_trans with (1073741825 * (8 * U)); [apply Rmult_le_compat_r; lra|lra].
    Qed.
    Lemma big_share n f : (0 < n)%nat -> (Z.of_nat n <= 2 ^ 30)%Z -> Rabs (rsum n f - 1) <= (INR n + 1) / 2 ^ 50 -> exists i, (i < n)%nat /\ pow (-32) <= f i.
    Proof.
      intros Hn H E. destruct (INR_small n H) as [A B]. pose proof (one_half n H). apply Rabs_le_inv in E.
      destruct (some_term n f (/ 2147483648) Hn) as (i & Hi & F).
      - apply Rle_trans with (1073741824 * / 2147483648); [apply Rmult_le_compat_r; lra|lra].
      - lra.
      - exists i. split; [exact Hi|]. change (pow (-32)) with (/ 4294967296). lra.
    Qed.

    Lemma no_share n i : (forall x, In x l -> cnt n x = 0%Z \/ B2R (wgt i n x) = 0) -> exact_count l i n = 0.
    Proof.
      intros H. unfold exact_count. fold (cnt n). clear -H. induction l as [|x t IH]; [reflexivity|]. cbn [map]. unfold lsum in *. cbn [fold_right].
      rewrite IH by (intros y Hy; apply H; now right). destruct (H x (or_introl eq_refl)) as [E|E]; unfold cnt, wgt in E; rewrite E; lra.
    Qed.
    Lemma epoch_corpus : double_corpus D (set_beta m topics).
    Proof.
      destruct Ktopics as [HK HV]. assert (Cb : ncols topics = V) by apply ncols_tab. assert (Rb : mrows topics = K) by reflexivity.
      split; cbn [set_beta p_beta p_alpha]; rewrite ?Cb, ?Rb.
      - exact (dc_some _ _ DC).
      - exact (dc_size _ _ DC).
      - intros d Hd. destruct (dc_input _ _ DC d Hd) as [A1 A2 A3 A4 A5 A6 A7 A8 A9]. split; cbn [set_beta p_beta p_alpha]; rewrite ?Cb, ?Rb; try assumption.
        + intros i n Hi Hn. destruct (topic_row i Hi) as (T & _). exact (T n Hn).
        + intros n Hn N. destruct (doc_item d Hd) as (x & Hx & <-).
          destruct (big_share K (fun i => B2R (mget (v_phi (snd x)) i n)) ltac:(lia) ltac:(lia) (dp_sum _ _ _ _ (Gl x Hx) n Hn N)) as (i & Hi & B).
          exists i. split; [exact Hi|]. destruct (topic_row i Hi) as (_ & _ & T). destruct (gather_at i n Hi Hn) as (_ & _ & _ & _ & M).
          apply Rle_trans with (pow (-123)).
          * rewrite <- (Rinv_inv (pow (-123))). rewrite <- bpow_opp. apply Rinv_le_contravar; [apply bpow_gt_0|].
            replace (2 ^ 250) with (pow 250) by (now rewrite bpow_powerRZ). apply bpow_le. lia.
          * apply (T n Hn). eapply Rle_trans; [exact B|]. exact (M x Hx N).
      - intros i Hi. destruct (topic_row i Hi) as (T1 & T2 & _). destruct (alive i Hi) as (n1 & H1 & _).
        destruct (big_share V (fun n => B2R (mget topics i n)) ltac:(lia) HV T2) as (n & Hn & B).
        destruct (gather_at i n Hi Hn) as (_ & Bc & _ & Ec & _).
        assert (PC : exact_count l i n <> 0).
        { intros Z. rewrite Z, Rmult_0_r, Rminus_0_r in Ec. destruct (Rle_dec (B2R (mget topics i n)) 0) as [L|L].
          - pose proof (bpow_gt_0 radix2 (-32)). lra.
          - destruct (alive i Hi) as (n0 & H0 & P0).
            destruct (row_d V (fun n => mget (word_counts K V l) i n) 61 n0 HV ltac:(lia)) as (R1 & _); try assumption.
            { intros j Hj. destruct (gather_at i j Hi Hj) as (F & Bj & _). auto. }
            destruct (R1 n Hn) as (_ & _ & E). rewrite topic_at in L by assumption. rewrite E in L.
            assert (Z2 : B2R (mget (word_counts K V l) i n) = 0) by (apply Rabs_le_inv in Ec; lra). rewrite Z2 in L. unfold Rdiv in L. rewrite Rmult_0_l, round_0 in L by apply valid_rnd_N. lra. }
        assert (X : exists x, In x l /\ ~ (cnt n x = 0%Z \/ B2R (wgt i n x) = 0)).
        { destruct (Forall_Exists_dec (fun x => cnt n x = 0%Z \/ B2R (wgt i n x) = 0)
            (fun x => match Z.eq_dec (cnt n x) 0 with left p => left (or_introl p) | right p => match Req_EM_T (B2R (wgt i n x)) 0 with left q => left (or_intror q) | right q => right (fun h => match h with or_introl a => p a | or_intror b => q b end) end end) l) as [F|E].
          - exfalso. apply PC, no_share. now apply Forall_forall.
          - apply Exists_exists in E. exact E. }
        destruct X as (x & Hx & NX). exists (fst x), n. split; [apply item_doc; exact Hx|]. split; [exact Hn|]. split; [intros Z; apply NX; left; exact Z|].
        eapply Rle_trans; [|exact B]. rewrite <- (Rinv_inv (pow (-32))). rewrite <- bpow_opp. apply Rinv_le_contravar; [apply bpow_gt_0|].
        replace (2 ^ 250) with (pow 250) by (now rewrite bpow_powerRZ). apply bpow_le. lia.
    Qed.

    (** The error of the topics *)
    Lemma quotient_error (b s E S a c : R) : 0 <= E -> 0 < S -> 0 <= a <= / 1000 -> 0 <= c <= / 1000 -> 0 < s -> Rabs (b - E) <= a * E -> (1 - a) * (1 - c) * S <= s <= (1 + a) * (1 + c) * S ->
      Rabs (b / s - E / S) <= (3 * a + 2 * c) * (E / S).
    Proof.
      intros HE HS Ha Hc Hs B Bs. apply Rabs_le_inv in B.
      assert (Q : 0 <= E / S) by (apply Rle_mult_inv_pos; lra). set (q := E / S) in *. assert (EQ : E = q * S) by (unfold q; field; lra). clearbody q. subst E.
      assert (D1 : b / s <= (1 + 3 * a + 2 * c) * q).
      { apply Rle_div_l; [exact Hs|]. apply Rle_trans with ((1 + 3 * a + 2 * c) * q * ((1 - a) * (1 - c) * S)).
        - apply Rle_trans with ((1 + a) * (q * S)); [lra|]. replace ((1 + 3 * a + 2 * c) * q * ((1 - a) * (1 - c) * S)) with ((1 + 3 * a + 2 * c) * ((1 - a) * (1 - c)) * (q * S)) by ring.
          apply Rmult_le_compat_r; [apply Rmult_le_pos; lra|]. assert (0 <= a * c) by (apply Rmult_le_pos; lra). assert (a * a <= / 1000 * a) by (apply Rmult_le_compat_r; lra).
          assert (c * c <= / 1000 * c) by (apply Rmult_le_compat_r; lra). assert (a * c <= / 1000 * c) by (apply Rmult_le_compat_r; lra). assert (0 <= a * (a * c)) by (apply Rmult_le_pos; lra). assert (0 <= c * (a * c)) by (apply Rmult_le_pos; lra). nra.
        - apply Rmult_le_compat_l; [apply Rmult_le_pos; lra|apply Bs]. }
      assert (D2 : (1 - 3 * a - 2 * c) * q <= b / s).
      { apply Rle_div_r; [exact Hs|]. apply Rle_trans with ((1 - 3 * a - 2 * c) * q * ((1 + a) * (1 + c) * S)).
        - apply Rmult_le_compat_l; [apply Rmult_le_pos; lra|apply Bs].
        - apply Rle_trans with ((1 - a) * (q * S)); [|lra]. replace ((1 - 3 * a - 2 * c) * q * ((1 + a) * (1 + c) * S)) with ((1 - 3 * a - 2 * c) * ((1 + a) * (1 + c)) * (q * S)) by ring.
          apply Rmult_le_compat_r; [apply Rmult_le_pos; lra|]. assert (0 <= a * c) by (apply Rmult_le_pos; lra). assert (a * c <= / 1000 * c) by (apply Rmult_le_compat_r; lra). assert (0 <= a * (a * c)) by (apply Rmult_le_pos; lra). assert (0 <= c * (a * c)) by (apply Rmult_le_pos; lra). nra. }
      apply Rabs_le. split; lra.
    Qed.
    Lemma topics_error i n : (i < K)%nat -> (n < V)%nat ->
      let exact := exact_count l i n / rsum V (exact_count l i) in
      Rabs (B2R (mget topics i n) - exact) <= (INR (length D) + INR V + 1) / 2 ^ 49 * exact + / 2 ^ 1074.
    Proof.
      intros Hi Hn exact. destruct (alive i Hi) as (n0 & H0 & P0). destruct Ktopics as [_ HV]. destruct len_l as [L1 L2]. rewrite L2 in L1.
      destruct (row_d V (fun n => mget (word_counts K V l) i n) 61 n0 HV ltac:(lia)) as (R1 & _ & _ & Ps & Es); try assumption.
      { intros j Hj. destruct (gather_at i j Hi Hj) as (F & B & _). auto. }
      set (s := redux (vtab V (fun n => mget (word_counts K V l) i n))) in *. destruct (R1 n Hn) as (_ & _ & Eq). rewrite topic_at by assumption. fold s.
      set (q := div (mget (word_counts K V l) i n) s) in *.
      destruct (gather_at i n Hi Hn) as (_ & Bb & E0 & Eb & _). set (b := B2R (mget (word_counts K V l) i n)) in *. set (E := exact_count l i n) in *.
      assert (ES : Rabs (rsum V (fun n => B2R (mget (word_counts K V l) i n)) - rsum V (exact_count l i)) <= INR (length D) * (4 * U) * rsum V (exact_count l i)).
      { rewrite <- rsum_mult_l. apply rsum_dist. intros j Hj. apply gather_at; assumption. }
      set (B := rsum V (fun n => B2R (mget (word_counts K V l) i n))) in *. set (S := rsum V (exact_count l i)) in *.
      destruct unit_facts as (PU & SU & PT & ST & _ & E49 & _). destruct (INR_small V HV) as [V0 V1]. destruct (INR_small _ L1) as [N0 N1]. set (N := INR (length D)) in *. set (W := INR V) in *.
      assert (A1 : 0 <= N * (4 * U) <= / 1000) by (split; [apply Rmult_le_pos; lra|apply Rle_trans with (1073741824 * (4 * U)); [apply Rmult_le_compat_r; lra|lra]]).
      assert (A2 : 0 <= W * (2 * U) <= / 1000) by (split; [apply Rmult_le_pos; lra|apply Rle_trans with (1073741824 * (2 * U)); [apply Rmult_le_compat_r; lra|lra]]).
      assert (S0 : 0 <= S) by (apply rsum_nonneg; intros j Hj; apply gather_at; assumption).
      assert (B0 : 0 < B). { apply (rsum_pos V (fun n => B2R (mget (word_counts K V l) i n)) n0); try assumption. intros j Hj. apply (gather_at i j Hi Hj). }
      assert (S1 : 0 < S). { destruct S0 as [S0|S0]; [exact S0|]. rewrite <- S0, Rmult_0_r in ES. apply Rabs_le_inv in ES. lra. }
      set (a := N * (4 * U)) in *. set (c := W * (2 * U)) in *.
      assert (QE : Rabs (b / B2R s - E / S) <= (3 * a + 2 * c) * (E / S)).
      { apply quotient_error; try assumption; try lra. apply Rabs_le_inv in ES, Es. split.
        - apply Rle_trans with ((1 - c) * B); [|lra]. rewrite (Rmult_comm (1 - a)), Rmult_assoc. apply Rmult_le_compat_l; lra.
        - apply Rle_trans with ((1 + c) * B); [lra|]. rewrite (Rmult_comm (1 + a)), Rmult_assoc. apply Rmult_le_compat_l; lra. }
      fold exact in QE. assert (X0 : 0 <= exact) by (apply Rle_mult_inv_pos; lra). set (r := b / B2R s) in *.
      pose proof (rnd_error r) as Er. rewrite <- Eq in Er.
      assert (X3 : (3 * a + 2 * c) * exact <= 1 * exact) by (apply Rmult_le_compat_r; lra).
      assert (r0 : 0 <= r) by (apply Rle_mult_inv_pos; [apply Bb|exact Ps]). rewrite (Rabs_pos_eq r) in Er by exact r0.
      assert (UR : U * r <= U * (2 * exact)) by (apply Rmult_le_compat_l; [lra|]; apply Rabs_le_inv in QE; lra).
      assert (T1 : T0 <= / 2 ^ 1074).
      { replace (/ 2 ^ 1074) with (pow (-1074)); [apply bpow_le; lia|]. change (-1074)%Z with (- (1074))%Z. rewrite bpow_opp. f_equal. now rewrite bpow_powerRZ. }
      assert (X4 : 0 <= N * (U * exact)) by (apply Rmult_le_pos; [lra|apply Rmult_le_pos; lra]). assert (X5 : 0 <= W * (U * exact)) by (apply Rmult_le_pos; [lra|apply Rmult_le_pos; lra]).
      assert (X6 : 0 <= U * exact) by (apply Rmult_le_pos; lra).
      unfold Rdiv. rewrite E49. replace ((N + W + 1) * (16 * U) * exact) with (16 * (N * (U * exact)) + 16 * (W * (U * exact)) + 16 * (U * exact)) by ring.
      assert (X7 : (3 * a + 2 * c) * exact = 12 * (N * (U * exact)) + 4 * (W * (U * exact))) by (unfold a, c; ring). rewrite X7 in QE.
      replace (U * (2 * exact)) with (2 * (U * exact)) in UR by ring.
      set (z1 := N * (U * exact)) in *. set (z2 := W * (U * exact)) in *. set (z3 := U * exact) in *. set (z4 := U * r) in *. set (t := / 2 ^ 1074) in *. clearbody z1 z2 z3 z4 t r exact.
      apply Rabs_le. apply Rabs_le_inv in QE, Er. split; lra.
    Qed.
  End Epoch.

  (** *** Training *)
  Lemma posterior_double cf epochs (m : params double) d : double_input (/ 300) (d_words d) m ->
    exists gamma phi, posterior 7 (Classic cf) epochs d m = Ok (mk_vparams gamma phi []) /\ double_posterior (d_words d) m gamma phi.
  Proof.
    intros P. unfold posterior. cbn [doc_e_step].
    destruct (unsupervised_double lg ex lga sum Hlg Hex Hsum (d_words d) m P cf true d eq_refl) as (g1 & p1 & e1 & E1 & _). rewrite E1. cbn [bind].
    destruct (unsupervised_double lg ex lga sum Hlg Hex Hsum (d_words d) m P cf false d eq_refl) as (g & p & e & E & Vp & _). rewrite E. cbn [bind]. exists g, p. split; [reflexivity|exact Vp].
  Qed.
  Lemma double_items cf ep (m : params double) D : (forall d, In d D -> double_input (/ 300) (d_words d) m) ->
    exists l, map fst l = D /\ Forall (found 7 (Classic cf) (m, ep)) l /\ Forall (sized (mrows (p_beta m)) (ncols (p_beta m))) l /\
      (forall x, In x l -> double_posterior (d_words (fst x)) m (v_gamma (snd x)) (v_phi (snd x))).
  Proof.
    induction D as [|d D IH]; intros H; [exists []; repeat split; try constructor; contradiction|]. destruct IH as (l & L1 & L2 & L3 & L4); [intros e He; apply H; now right|].
    destruct (posterior_double cf ep m d (H d (or_introl eq_refl))) as (gamma & phi & E & Vp). exists ((d, mk_vparams gamma phi []) :: l). cbn [map fst]. rewrite L1.
    split; [reflexivity|]. split; [constructor; [exact E|assumption]|]. split; [constructor; [|assumption]|].
    - exact (posterior_sized 7 (Classic cf) ep d m _ E).
    - intros x [<-|Hx]; [exact Vp|now apply L4].
  Qed.
  Lemma unsupervised_same : forall s m d v m' s' e, ms_doc (unsupervised_maximizer (T := double)) s m d v = Ok (m', s', e) -> m' = m.
  Proof. intros s m d v m' s' e E. cbn [ms_doc unsupervised_maximizer] in E. apply bind_ok' in E. destruct E as (b & _ & E). now injection E as <- <- <-. Qed.

  Lemma epoch_double cf D W m ep s st p : double_corpus D m -> MStepAny.fresh (mrows (p_beta m)) (ncols (p_beta m)) s ->
    partial_fit_call 7 unsupervised_maximizer (Classic cf) W D (Ok s) (m, ep) st p ->
    exists l, Permutation (map fst l) D /\ Forall (found 7 (Classic cf) (m, ep)) l /\
      (forall x, In x l -> double_posterior (d_words (fst x)) m (v_gamma (snd x)) (v_phi (snd x))) /\
      st = Ok (MStepAny.zeros (mrows (p_beta m)) (ncols (p_beta m))) /\
      p = (set_beta m (over_row_sums (mrows (p_beta m)) (ncols (p_beta m)) (word_counts (mrows (p_beta m)) (ncols (p_beta m)) l)), S ep).
  Proof.
    intros DC Hs E. set (K := mrows (p_beta m)) in *. set (V := ncols (p_beta m)) in *.
    assert (HK : (0 < K)%nat) by (destruct (Ktopics D m DC); unfold K; lia).
    destruct (double_items cf ep m D (dc_input _ _ DC)) as (l & L1 & L2 & L3 & L4).
    destruct (partial_fit_run 7 unsupervised_maximizer (Classic cf) unsupervised_same W D s (m, ep) st p l E (Permutation_refl' L1) L2) as (l2 & P2 & Run). cbn [fst snd] in Run.
    assert (S2 : Forall (sized K V) l2). { apply Forall_forall. intros x Hx. rewrite Forall_forall in L3. apply L3. eapply Permutation_in; eassumption. }
    assert (Hl2 : l2 <> []). { intros ->. apply Permutation_nil in P2. subst l. cbn in L1. pose proof (dc_some _ _ DC). congruence. }
    destruct (Run _ _ _ (unsupervised_epoch K V HK s l2 m Hs S2 Hl2)) as [-> ->].
    exists l2. split; [rewrite P2, L1; reflexivity|]. split; [|split; [|split; reflexivity]].
    - apply Forall_forall. intros x Hx. rewrite Forall_forall in L2. apply L2. eapply Permutation_in; eassumption.
    - intros x Hx. apply L4. eapply Permutation_in; eassumption.
  Qed.

  Lemma fit_double cf D W n : forall m ep s st p, double_corpus D m -> MStepAny.fresh (mrows (p_beta m)) (ncols (p_beta m)) s ->
    fit_call 7 unsupervised_maximizer (Classic cf) W D n (Ok s) (m, ep) st p ->
    (exists s', st = Ok s' /\ MStepAny.fresh (mrows (p_beta (fst p))) (ncols (p_beta (fst p))) s') /\ snd p = (ep + n)%nat /\ p_alpha (fst p) = p_alpha m /\ p_eta (fst p) = p_eta m /\
    mrows (p_beta (fst p)) = mrows (p_beta m) /\ ncols (p_beta (fst p)) = ncols (p_beta m) /\ double_corpus D (fst p) /\ ((0 < n)%nat -> double_topics (p_beta (fst p))).
  Proof.
    induction n as [|n IH]; intros m ep s st p DC Hs F; inversion F; subst.
    - cbn [fst snd]. split; [exists s; split; [reflexivity|exact Hs]|]. split; [lia|]. do 4 (split; [reflexivity|]). split; [exact DC|]. intros X. exfalso. lia.
    - match goal with H : partial_fit_call _ _ _ _ _ _ _ _ _ |- _ => rename H into E end. match goal with H : fit_call _ _ _ _ _ _ _ _ _ _ |- _ => rename H into G end.
      destruct (epoch_double cf D W m ep s st1 p1 DC Hs E) as (l & P & _ & Gl & -> & ->).
      set (beta := over_row_sums (mrows (p_beta m)) (ncols (p_beta m)) (word_counts (mrows (p_beta m)) (ncols (p_beta m)) l)) in *.
      assert (B1 : mrows beta = mrows (p_beta m)) by reflexivity. assert (B2 : ncols beta = ncols (p_beta m)) by apply ncols_tab.
      pose proof (epoch_corpus D m DC l P Gl) as DC1. pose proof (topics_double D m DC l P Gl) as DT. fold beta in DC1, DT.
      destruct (IH (set_beta m beta) (S ep) (MStepAny.zeros (mrows (p_beta m)) (ncols (p_beta m))) st p DC1) with (2 := G) as (I1 & I2 & I3 & I4 & I5 & I6 & I7 & I8).
      { cbn [set_beta p_beta]. rewrite B1, B2. right. reflexivity. }
      cbn [set_beta p_beta p_alpha p_eta] in *. split; [exact I1|]. split; [lia|]. split; [exact I3|]. split; [exact I4|]. split; [exact I5|]. split; [now rewrite I6|]. split; [exact I7|].
      intros _. destruct n as [|n]; [|apply I8; lia]. inversion G; subst. exact DT.
  Qed.
  Lemma next_epoch_double cf D W n m s ep st p st' p' : double_corpus D m -> MStepAny.fresh (mrows (p_beta m)) (ncols (p_beta m)) s ->
    fit_call 7 unsupervised_maximizer (Classic cf) W D n (Ok s) (m, ep) st p -> partial_fit_call 7 unsupervised_maximizer (Classic cf) W D st p st' p' ->
    exists l, Permutation (map fst l) D /\ Forall (found 7 (Classic cf) p) l /\
      (forall x, In x l -> double_posterior (d_words (fst x)) (fst p) (v_gamma (snd x)) (v_phi (snd x))) /\
      forall i n, (i < mrows (p_beta m))%nat -> (n < ncols (p_beta m))%nat ->
        let exact := exact_count l i n / rsum (ncols (p_beta m)) (exact_count l i) in
        Rabs (B2R (mget (p_beta (fst p')) i n) - exact) <= (INR (length D) + INR (ncols (p_beta m)) + 1) / 2 ^ 49 * exact + / 2 ^ 1074.
  Proof.
    intros DC Hs F E. destruct (fit_double cf D W n m ep s st p DC Hs F) as ((s' & -> & Hs') & _ & _ & _ & B1 & B2 & DC' & _). destruct p as [m' ep']. cbn [fst] in *.
    destruct (epoch_double cf D W m' ep' s' st' p' DC' Hs' E) as (l & P & Fl & Gl & _ & ->). exists l. split; [exact P|]. split; [exact Fl|]. split; [exact Gl|].
    intros i j Hi Hj. rewrite <- B1 in Hi. rewrite <- B2 in Hj. rewrite <- B2. cbn [fst set_beta p_beta]. exact (topics_error D m' DC' l P Gl i j Hi Hj).
  Qed.
  (** from a new M step *)
  Lemma fit_double_empty cf D W n m ep st p : double_corpus D m -> fit_call 7 unsupervised_maximizer (Classic cf) W D n (Ok empty_mat) (m, ep) st p ->
    (exists s, st = Ok s) /\ snd p = (ep + n)%nat /\ p_alpha (fst p) = p_alpha m /\ p_eta (fst p) = p_eta m /\
    mrows (p_beta (fst p)) = mrows (p_beta m) /\ ncols (p_beta (fst p)) = ncols (p_beta m) /\ double_corpus D (fst p) /\ ((0 < n)%nat -> double_topics (p_beta (fst p))).
  Proof.
    intros DC F. destruct (fit_double cf D W n m ep empty_mat st p DC (or_introl eq_refl) F) as ((s & -> & _) & R). split; [eexists; reflexivity|exact R].
  Qed.
  Lemma next_epoch_empty cf D W n m ep st p st' p' : double_corpus D m -> fit_call 7 unsupervised_maximizer (Classic cf) W D n (Ok empty_mat) (m, ep) st p ->
    partial_fit_call 7 unsupervised_maximizer (Classic cf) W D st p st' p' ->
    exists l, Permutation (map fst l) D /\ (forall x, In x l -> posterior 7 (Classic cf) (snd p) (fst x) (fst p) = Ok (snd x)) /\
      (forall x, In x l -> double_posterior (d_words (fst x)) (fst p) (v_gamma (snd x)) (v_phi (snd x))) /\
      forall i n, (i < mrows (p_beta m))%nat -> (n < ncols (p_beta m))%nat ->
        let exact := exact_count l i n / rsum (ncols (p_beta m)) (exact_count l i) in
        Rabs (B2R (mget (p_beta (fst p')) i n) - exact) <= (INR (length D) + INR (ncols (p_beta m)) + 1) / 2 ^ 49 * exact + / 2 ^ 1074.
  Proof.
    intros DC F E. destruct (next_epoch_double cf D W n m empty_mat ep st p st' p' DC (or_introl eq_refl) F E) as (l & P & Fl & R). exists l. split; [exact P|]. split; [|exact R].
    apply Forall_forall. exact Fl.
  Qed.
End Train.
