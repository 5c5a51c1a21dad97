(** The correspondence E step in double precision. *)
Require Import Reals ZArith List Bool Arith Lia Lra Psatz Permutation.
From Flocq Require Import Core.Core IEEE754.BinarySingleNaN Relative.
Require Import Verif.Base Verif.Scalar Verif.Mat Verif.HostModel Verif.UtilsModel Verif.BuilderModel Verif.EStepModel Verif.EStepAny.
Require Import Verif.DoubleSpec Verif.DoubleClassSpec Verif.DoubleArith Verif.DoubleUtils Verif.DoubleProofs Verif.DoubleFast Verif.DoubleMultinomial.
Import ListNotations.
Open Scope R_scope.

Lemma dmul_comm x y : dmul x y = dmul y x.
Proof.
  destruct x as [s|s| |s m e H], y as [s'|s'| |s' m' e' H']; try reflexivity; try (cbn; now rewrite xorb_comm).
  apply B2SF_inj. unfold dmul. cbn [Bmult]. rewrite !B2SF_SF2B. now rewrite xorb_comm, Pos.mul_comm, Z.add_comm.
Qed.
Lemma mmapM_in {T} {O : ops T} (f : T -> outcome T) r c (p : nat -> nat -> T) (P : nat -> nat -> T -> Prop) :
  (forall i j, (i < r)%nat -> (j < c)%nat -> exists a, f (p i j) = Ok a /\ P i j a) ->
  exists m, mmapM f (mtab r c p) = Ok m /\ mrows m = r /\ ncols m = c /\ forall i j, (i < r)%nat -> (j < c)%nat -> P i j (mget m i j).
Proof.
  intros H. unfold mmapM. cbn [mcols mrows mtab]. rewrite vtab_map.
  destruct (InferProofs.seqM_tab c (fun j => vmapM f (vtab r (fun i => p i j))) (fun j l => length l = r /\ forall i, (i < r)%nat -> P i j (vget l i))) as (l & E & L & Q).
  - intros j Hj. destruct (vmapM_in f (vtab r (fun i => p i j)) (fun i a => P i j a)) as (v & Ev & Lv & Pv).
    + rewrite vtab_length. intros i Hi. rewrite vget_tab by exact Hi. now apply H.
    + rewrite vtab_length in Lv, Pv. exists v. split; [exact Ev|]. split; [exact Lv|exact Pv].
  - rewrite E. cbn [bind]. eexists. split; [reflexivity|]. split; [reflexivity|]. split; [exact L|]. intros i j Hi Hj. unfold mget. cbn [mcols]. apply (Q j [] Hj); exact Hi.
Qed.

Lemma summed_nonpos l s : summed l s -> Forall (fun x => B2R x <= 0) l -> B2R s <= 0.
Proof.
  intros S. induction S as [|x|l1 s1 l2 s2 l S1 IH1 S2 IH2 P]; intros F.
  - cbn. lra.
  - now inversion F.
  - assert (F' : Forall (fun x => B2R x <= 0) (l1 ++ l2)) by (rewrite <- P; exact F). apply Forall_app in F'. destruct F' as [F1 F2]. specialize (IH1 F1). specialize (IH2 F2).
    destruct (is_finite s1) eqn:N1; [destruct (is_finite s2) eqn:N2|].
    + pose proof (Bplus_correct 53 1024 eq_refl eq_refl mode_NE s1 s2 N1 N2) as C. destruct (Rlt_bool _ _).
      * destruct C as (-> & _). rewrite <- (round_0 radix2 (SpecFloat.fexp 53 1024) (round_mode mode_NE)). apply round_le; [apply fexp_correct; reflexivity|apply valid_rnd_N|lra].
      * destruct C as [C _]. destruct (Bplus mode_NE s1 s2); cbn in C |- *; try lra; discriminate C.
    + destruct s1 as [b|b| |b m e H], s2 as [b'|b'| |b' m' e' H']; try discriminate; cbn; lra.
    + destruct s1 as [b|b| |b m e H], s2 as [b'|b'| |b' m' e' H']; try discriminate; cbn; try lra. destruct (Bool.eqb b b'); cbn; lra.
Qed.

Section Double.
  Variables (lg ex lga : double -> double) (sum : list double -> double).
  Local Hint Extern 0 (ops _) => exact (DO lg ex lga sum) : typeclass_instances.
  Hypothesis Hlg : rough_log lg.
  Hypothesis Hlb : rough_log_below lg.
  Hypothesis Hex : rough_exp ex.
  Hypothesis Hsum : forall l, summed l (sum l).

  Lemma ln_two : ln 2 <= 3 / 4.
  Proof.
    rewrite <- (ln_exp (3 / 4)). apply ln_le; [lra|]. replace (3 / 4) with (/ 8 + / 8 + / 8 + / 8 + / 8 + / 8) by lra. rewrite !exp_plus.
    pose proof (exp_ineq1 (/ 8) ltac:(lra)) as E. set (e := exp (/ 8)) in *. assert (e * e >= 81 / 64) by nra. assert (e * e * e * e >= 6561 / 4096) by nra. nra.
  Qed.
  Lemma ln_small x : / 2 ^ 100 <= x <= 1 -> - 75 <= ln x <= 0.
  Proof.
    intros B. assert (P : 0 < / 2 ^ 100) by (apply Rinv_0_lt_compat, pow_lt; lra). split.
    - pose proof ln_two as L2. apply Rle_trans with (ln (/ 2 ^ 100)); [|apply ln_le; [exact P|apply B]]. rewrite ln_Rinv by (apply pow_lt; lra). rewrite ln_pow by lra. replace (INR 100) with 100 by (rewrite INR_IZR_INZ; reflexivity). lra.
    - rewrite <- ln_1. apply ln_le; lra.
  Qed.

  Section Step.
    Variables (X : list Z) (y : nat) (m : params double).
    Hypothesis DC : double_classes (/ 140) X y m.
    Notation K := (mrows (p_beta m)).
    Notation V := (ncols (p_beta m)).
    Notation alpha := (p_alpha m).
    Notation eta := (p_eta m).
    Lemma DI' : double_input (/ 300) X m.
    Proof. apply (input_weaken lg ex lga sum (/ 140)); [apply Rinv_le_contravar; lra|]. apply (dc_input _ _ _ _ DC). Qed.
    Notation DI := DI'.
    Notation sound := (sound lg ex lga sum X m).

    Lemma log_eta i : (i < K)%nat -> is_finite (slog (mget eta i y)) = true /\ - 150 <= B2R (slog (mget eta i y)) <= 0.
    Proof.
      intros Hi. rewrite <- (dc_topics _ _ _ _ DC) in Hi. destruct (dc_probability _ _ _ _ DC i Hi) as [F B]. pose proof (ln_small _ B) as L.
      assert (P : 0 < / 2 ^ 100) by (apply Rinv_0_lt_compat, pow_lt; lra). destruct (log_d lg ex lga sum Hlg Hlb (mget eta i y) F ltac:(lra)) as [Fl Bl]. split; [exact Fl|lra].
    Qed.

    (** the class is not very unlikely for any topic *)
    Definition likely : Prop := forall i, (i < K)%nat -> / 2 ^ 30 <= B2R (mget eta i y).
    Lemma log_likely : likely -> forall i, (i < K)%nat -> - 45 <= B2R (slog (mget eta i y)) <= 0.
    Proof.
      intros Lk i Hi. specialize (Lk i Hi). rewrite <- (dc_topics _ _ _ _ DC) in Hi. destruct (dc_probability _ _ _ _ DC i Hi) as [F B].
      assert (P : 0 < / 2 ^ 30) by (apply Rinv_0_lt_compat, pow_lt; lra). destruct (log_d lg ex lga sum Hlg Hlb (mget eta i y) F ltac:(lra)) as [Fl Bl].
      assert (ln (/ 2 ^ 30) <= ln (B2R (mget eta i y))) by (apply ln_le; lra). rewrite ln_Rinv, ln_pow in H by (try apply pow_lt; lra). replace (INR 30) with 30 in H by (rewrite INR_IZR_INZ; reflexivity). pose proof ln_two. lra.
    Qed.

    Lemma correspondence_phi s tau : sound s -> double_shares V tau -> exists phi,
      compute_supervised_correspondence_phi 7 y (p_beta m) eta (fst s) tau = Ok phi /\ sound (compute_gamma X alpha phi, phi) /\
      (forall n, (n < V)%nat -> rsum K (fun i => B2R (mget phi i n)) <= 1 + (INR K + 1) / 2 ^ 50) /\
      (likely -> forall i n, (i < K)%nat -> (n < V)%nat -> pow (-40) <= B2R (mget (p_beta m) i n) -> pow (-682) <= B2R (mget phi i n)).
    Proof.
      intros S (Lt & Bt & _). destruct (psi_d lg ex lga sum Hlg X m 140 s ltac:(lia)) as (psi & Ep & Lp & Bp); [|exact S|].
      { replace (INR 140) with 140 by (rewrite INR_IZR_INZ; reflexivity). intros i Hi. apply (di_alpha _ _ _ (dc_input _ _ _ _ DC) i Hi). }
      unfold compute_supervised_correspondence_phi. rewrite Ep. cbn [bind].
      destruct (vmapM_in fast_exp psi (fun _ e => is_finite e = true /\ pow (- 257) <= B2R e <= pow 257)) as (e & Ee & Le & Be).
      { intros i Hi. rewrite Lp in Hi. destruct (Bp i Hi) as [F B]. replace (INR (140 + 8)) with 148 in B by (rewrite INR_IZR_INZ; reflexivity).
        destruct (fast_exp_range lg ex lga sum Hex 32 (vget psi i) ltac:(lia) F) as (t & Et & Ft & Bt' & _). { replace (INR 32) with 32 by (rewrite INR_IZR_INZ; reflexivity). lra. }
        exists t. split; [exact Et|]. split; [exact Ft|exact Bt']. }
      rewrite Ee. cbn [bind]. rewrite Lp in Be.
      destruct (mmapM_in fast_exp K V (fun i j => slog (mget eta i y) * vget tau j)%S (fun _ _ t => is_finite t = true /\ pow (- 257) <= B2R t <= pow 2 /\ (likely -> pow (-96) <= B2R t))) as (f & Ef & Rf & Cf & Bf).
      { intros i j Hi Hj. destruct (log_eta i Hi) as [Fl Bl]. destruct (Bt j Hj) as [Ft Bj].
        destruct (mul_in (slog (mget eta i y)) (vget tau j) Fl Ft (-150) 0 (rep_Z (-150) ltac:(lia)) (rep_Z 0 ltac:(lia))) as (Fm & _ & Bm); [nra|].
        destruct (fast_exp_range lg ex lga sum Hex 32 (dmul (slog (mget eta i y)) (vget tau j)) ltac:(lia) Fm) as (t & Et & Ft' & Bt' & Bz). { replace (INR 32) with 32 by (rewrite INR_IZR_INZ; reflexivity). lra. }
        exists t. split; [exact Et|]. split; [exact Ft'|]. split; [split; [exact (proj1 Bt')|apply Bz, Bm]|]. intros Lk. apply (fast_exp_low lg ex lga sum _ t Fm); [|exact Et].
        pose proof (log_likely Lk i Hi) as Bl'. destruct (mul_in (slog (mget eta i y)) (vget tau j) Fl Ft (-45) 0 (rep_Z (-45) ltac:(lia)) (rep_Z 0 ltac:(lia))) as (_ & _ & Bm'); [nra|lra]. }
      rewrite Ef. cbn [bind]. eexists. split; [reflexivity|].
      set (p := fun i j => (mget (p_beta m) i j * vget e i * mget f i j)%S).
      assert (Hraw : forall i n, (i < K)%nat -> (n < V)%nat -> is_finite (mget (mtab K V p) i n) = true /\ 0 <= B2R (mget (mtab K V p) i n) <= pow 259 /\
        (/ 2 ^ 250 <= B2R (mget (p_beta m) i n) -> pow (- 764) <= B2R (mget (mtab K V p) i n)) /\
        (likely -> pow (-40) <= B2R (mget (p_beta m) i n) -> pow (-393) <= B2R (mget (mtab K V p) i n))).
      { intros i n Hi Hn. rewrite mget_tab by assumption. destruct (di_beta _ _ _ DI i n Hi Hn) as [Fb Bb]. destruct (Be i Hi) as [Fe Bi]. destruct (Bf i n Hi Hn) as (Ff & Bfi & Bfl).
        assert (PE : 0 < pow (- 257)) by apply bpow_gt_0.
        destruct (mul_in (mget (p_beta m) i n) (vget e i) Fb Fe 0 (pow 257) (rep_Z 0 ltac:(lia)) (rep_pow 257 ltac:(lia))) as (F & _ & B).
        { split; [apply Rmult_le_pos; lra|]. apply Rle_trans with (1 * pow 257); [|lra]. apply Rmult_le_compat; lra. }
        assert (E9 : pow 259 = pow 257 * pow 2) by (rewrite <- bpow_plus; reflexivity).
        destruct (mul_in (dmul (mget (p_beta m) i n) (vget e i)) (mget f i n) F Ff 0 (pow 259) (rep_Z 0 ltac:(lia)) (rep_pow 259 ltac:(lia))) as (F' & _ & B').
        { split; [apply Rmult_le_pos; lra|]. rewrite E9. apply Rmult_le_compat; lra. }
        split; [exact F'|]. split; [exact B'|]. split; [intros Sb|intros Lk Sb].
        2:{ destruct (mul_in (mget (p_beta m) i n) (vget e i) Fb Fe (pow (-297)) (pow 257) (rep_pow (-297) ltac:(lia)) (rep_pow 257 ltac:(lia))) as (_ & _ & B2).
          { split; [|apply Rle_trans with (1 * pow 257); [apply Rmult_le_compat; lra|lra]]. change (-297)%Z with (-40 + -257)%Z. rewrite bpow_plus. apply Rmult_le_compat; try apply bpow_ge_0; [exact Sb|apply Bi]. }
          destruct (mul_in (dmul (mget (p_beta m) i n) (vget e i)) (mget f i n) F Ff (pow (-393)) (pow 259) (rep_pow (-393) ltac:(lia)) (rep_pow 259 ltac:(lia))) as (_ & _ & B3).
          { split; [|rewrite E9; apply Rmult_le_compat; lra]. change (-393)%Z with (-297 + -96)%Z. rewrite bpow_plus. apply Rmult_le_compat; try apply bpow_ge_0; [apply B2|apply Bfl, Lk]. }
          exact (proj1 B3). }
        destruct (mul_in (mget (p_beta m) i n) (vget e i) Fb Fe (pow (-507)) (pow 257) (rep_pow (-507) ltac:(lia)) (rep_pow 257 ltac:(lia))) as (_ & _ & B2).
        { split; [|apply Rle_trans with (1 * pow 257); [apply Rmult_le_compat; lra|lra]].
          change (-507)%Z with (-250 + -257)%Z. rewrite bpow_plus. apply Rmult_le_compat; try apply bpow_ge_0; [|apply Bi].
          eapply Rle_trans; [|exact Sb]. right. change (-250)%Z with (- (250))%Z. rewrite bpow_opp. f_equal. now rewrite bpow_powerRZ. }
        destruct (mul_in (dmul (mget (p_beta m) i n) (vget e i)) (mget f i n) F Ff (pow (-764)) (pow 259) (rep_pow (-764) ltac:(lia)) (rep_pow 259 ltac:(lia))) as (_ & _ & B3).
        { split; [|rewrite E9; apply Rmult_le_compat; lra]. change (-764)%Z with (-507 + -257)%Z. rewrite bpow_plus. apply Rmult_le_compat; try apply bpow_ge_0; [apply B2|apply Bfi]. }
        exact (proj1 B3). }
      split; [|split].
      - apply (raw_sound lg ex lga sum Hsum X m DI p (-764) 259); [lia|lia|]. intros i n Hi Hn. destruct (Hraw i n Hi Hn) as (A & B & C & _). split; [exact A|]. split; [exact B|exact C].
      - intros n Hn. apply (normal_column lg ex lga sum Hsum X m DI p n 259 Hn ltac:(lia)). intros i Hi. destruct (Hraw i n Hi Hn) as (A & B & _). split; [exact A|exact B].
      - intros Lk i n Hi Hn Sb. destruct (normal_column lg ex lga sum Hsum X m DI p n 259 Hn ltac:(lia)) as (_ & _ & N & _).
        { intros j Hj. destruct (Hraw j n Hj Hn) as (A & B & _). split; [exact A|exact B]. }
        apply (N i (-393)%Z Hi); [|lia]. apply Hraw; assumption.
    Qed.

    Lemma correspondence_tau phi : mrows phi = K -> ncols phi = V ->
      (forall i n, (i < K)%nat -> (n < V)%nat -> is_finite (mget phi i n) = true /\ 0 <= B2R (mget phi i n) <= 1) ->
      (forall n, (n < V)%nat -> rsum K (fun i => B2R (mget phi i n)) <= 1 + (INR K + 1) / 2 ^ 50) ->
      exists tau, compute_supervised_correspondence_tau y eta phi = Ok tau /\ double_shares V tau /\ (likely -> forall n, (n < V)%nat -> pow (-128) <= B2R (vget tau n)).
    Proof.
      intros Rp Cp Bphi Sphi. unfold compute_supervised_correspondence_tau. destruct unit_facts as (PU & SU & PT & ST & E50 & _ & _).
      pose proof (di_topics _ _ _ DI) as HK. pose proof (di_vocabulary _ _ _ DI) as HV. destruct (INR_small K ltac:(lia)) as [K0 K1].
      set (le := vtab (mrows eta) (fun i => slog (mget eta i y))).
      destruct (vmapM_in fast_exp (matT_vec phi le) (fun _ e => is_finite e = true /\ pow (- 257) <= B2R e <= pow 257 /\ (likely -> pow (-96) <= B2R e <= pow 2))) as (e & Ee & Le & Be).
      { unfold matT_vec. rewrite vtab_length, Cp. intros n Hn. rewrite vget_tab by exact Hn. unfold dot. assert (Lc : length (mcol phi n) = K) by (unfold mcol; rewrite vtab_length; exact Rp). rewrite Lc.
        assert (E : vtab K (fun i => (vget (mcol phi n) i * vget le i)%S) = vtab K (fun i => mul (slog (mget eta i y)) (mget phi i n))).
        { apply vtab_ext. intros i Hi. unfold mcol. rewrite vget_tab by (rewrite Rp; exact Hi). unfold le. rewrite vget_tab by (rewrite (dc_topics _ _ _ _ DC); exact Hi). apply dmul_comm. }
        rewrite E. destruct (dot_d lg ex lga sum Hsum K (fun i => slog (mget eta i y)) (fun i => mget phi i n) 150 8 ltac:(lia) ltac:(lia)) as (Fs & Bs).
        { change (pow 8) with 256. lra. }
        { intros i Hi. destruct (log_eta i Hi) as [Fl Bl]. split; [exact Fl|]. apply Rabs_le. lra. }
        { intros i Hi. destruct (Bphi i n Hi Hn) as [F B]. split; [exact F|lra]. }
        specialize (Sphi n Hn). unfold Rdiv in Sphi. rewrite E50 in Sphi. set (G := rsum K (fun i => B2R (mget phi i n))) in *.
        assert (C1 : (INR K + 1) * (8 * U) <= / 1000) by (apply Rle_trans with (1073741825 * (8 * U)); [apply Rmult_le_compat_r; lra|lra]).
        assert (C2 : INR K * T0 <= / 1000) by (apply Rle_trans with (1073741824 * T0); [apply Rmult_le_compat_r; lra|lra]).
        assert (Nx : B2R (redux (vtab K (fun i => mul (slog (mget eta i y)) (mget phi i n)))) <= 0).
        { eapply summed_nonpos; [apply Hsum|]. apply Forall_forall. intros z Hz. unfold vtab in Hz. apply in_map_iff in Hz. destruct Hz as (i & <- & Hi). apply in_seq in Hi.
          destruct (log_eta i ltac:(lia)) as [Fl Bl]. destruct (Bphi i n ltac:(lia) Hn) as [F B].
          destruct (mul_in (slog (mget eta i y)) (mget phi i n) Fl F (-150) 0 (rep_Z (-150) ltac:(lia)) (rep_Z 0 ltac:(lia))) as (_ & _ & Bm); [nra|exact (proj2 Bm)]. }
        assert (Bl45 : likely -> - 50 <= B2R (redux (vtab K (fun i => mul (slog (mget eta i y)) (mget phi i n))))).
        { intros Lk. destruct (dot_d lg ex lga sum Hsum K (fun i => slog (mget eta i y)) (fun i => mget phi i n) 45 8 ltac:(lia) ltac:(lia)) as (_ & Bs').
          { change (pow 8) with 256. lra. }
          { intros i Hi. destruct (log_eta i Hi) as [Fl _]. pose proof (log_likely Lk i Hi). split; [exact Fl|]. apply Rabs_le. lra. }
          { intros i Hi. destruct (Bphi i n Hi Hn) as [F B]. split; [exact F|lra]. }
          fold G in Bs'. apply Rabs_le_inv in Bs'. lra. }
        set (x := redux _) in *. destruct (fast_exp_range lg ex lga sum Hex 32 x ltac:(lia) Fs) as (t & Et & Ft & Bt & Bz).
        { replace (INR 32) with 32 by (rewrite INR_IZR_INZ; reflexivity). apply Rabs_le_inv in Bs. lra. }
        exists t. split; [exact Et|]. split; [exact Ft|]. split; [exact Bt|]. intros Lk. split; [|exact (Bz Nx)]. apply (fast_exp_low lg ex lga sum x t Fs); [|exact Et]. split; [exact (Bl45 Lk)|exact Nx]. }
      rewrite Ee. cbn [bind]. eexists. split; [reflexivity|]. assert (Lm : length (matT_vec phi le) = V) by (unfold matT_vec; rewrite vtab_length; exact Cp). rewrite Lm in Le, Be.
      assert (Ev : e = vtab V (vget e)) by (rewrite <- Le; symmetry; apply vtab_eta).
      assert (Be' : forall n, (n < V)%nat -> is_finite (vget e n) = true /\ 0 <= B2R (vget e n) <= pow 257).
      { intros n Hn. destruct (Be n Hn) as (F & B & _). split; [exact F|]. pose proof (bpow_gt_0 radix2 (-257)). lra. }
      destruct (normal_d lg ex lga sum Hsum V (vget e) 257 HV ltac:(lia) Be') as (N1 & N2 & _). rewrite <- Ev in N1, N2. cbv zeta in N1, N2.
      assert (Nv : forall n, (n < V)%nat -> vget (normalize_vec e) n = if eqb (redux e) zero then vget e n else div (vget e n) (redux e)).
      { intros n Hn. unfold normalize_vec. destruct (eqb (redux e) zero); [reflexivity|]. rewrite Ev at 1. rewrite vtab_map. now rewrite vget_tab. }
      assert (Ln : length (normalize_vec e) = V) by (unfold normalize_vec; destruct (eqb _ _); [exact Le|rewrite map_length; exact Le]).
      split; [split; [exact Ln|]; split|].
      - intros n Hn. rewrite Nv by exact Hn. exact (N1 n Hn).
      - intros V0. rewrite (rsum_ext V _ (fun n => B2R (if eqb (redux e) zero then vget e n else div (vget e n) (redux e)))); [|intros n Hn; now rewrite Nv]. apply N2. exists 0%nat. split; [exact V0|].
        destruct (Be 0%nat V0) as (_ & B & _). pose proof (bpow_gt_0 radix2 (-257)). lra.
      - intros Lk n Hn. destruct (normal_d lg ex lga sum Hsum V (vget e) 2 HV ltac:(lia)) as (_ & _ & N3).
        { intros j Hj. destruct (Be j Hj) as (F & _ & B). specialize (B Lk). split; [exact F|]. pose proof (bpow_gt_0 radix2 (-96)). lra. }
        rewrite <- Ev in N3. cbv zeta in N3. rewrite Nv by exact Hn. apply (N3 n (-96)%Z Hn); [|lia]. apply (Be n Hn), Lk.
    Qed.

    Lemma initial_tau : double_shares V (vtab V (fun _ => one / ofZ (Z.of_nat V))%S) /\ (forall n, (n < V)%nat -> pow (-30) <= B2R (vget (vtab V (fun _ => one / ofZ (Z.of_nat V))%S) n)).
    Proof.
      pose proof (di_vocabulary _ _ _ DI) as HV. destruct (Nat.eq_dec V 0) as [Z|NZ]; [rewrite Z; split; [split; [apply vtab_length|split; intros; lia]|intros; lia]|].
      destruct unit_facts as (PU & SU & PT & ST & E50 & _ & _). destruct (INR_small V HV) as [V0 V1]. assert (V2 : 1 <= INR V) by (change 1 with (INR 1); apply le_INR; lia).
      destruct (int_d lg ex lga sum (Z.of_nat V) ltac:(lia)) as [FK VK]. rewrite <- INR_IZR_INZ in VK. destruct (one_d lg ex lga sum) as [F1 O1].
      assert (I0 : 0 < / INR V <= 1) by (split; [apply Rinv_0_lt_compat; lra|rewrite <- Rinv_1; apply Rinv_le_contravar; lra]).
      destruct (div_in one (ofZ (Z.of_nat V)) F1 0 1 (rep_Z 0 ltac:(lia)) (rep_Z 1 ltac:(lia))) as (F & E & B); [rewrite VK; lra|rewrite O1, VK; lra|].
      destruct (div_in one (ofZ (Z.of_nat V)) F1 (pow (-30)) 1 (rep_pow (-30) ltac:(lia)) (rep_Z 1 ltac:(lia))) as (_ & _ & B30); [rewrite VK; lra| |].
      { rewrite O1, VK. unfold Rdiv. rewrite Rmult_1_l. split; [|lra]. change (pow (-30)) with (/ 1073741824). apply Rinv_le_contravar; lra. }
      set (t := ddiv one (ofZ (Z.of_nat V))) in *. change (one / ofZ (Z.of_nat V))%S with t.
      split; [|intros n Hn; rewrite vget_tab by exact Hn; exact (proj1 B30)]. split; [apply vtab_length|]. split; [intros n Hn; rewrite vget_tab by exact Hn; split; [exact F|exact B]|]. intros _. rewrite (rsum_ext V _ (fun _ => B2R t)) by (intros n Hn; now rewrite vget_tab). rewrite rsum_const.
      rewrite O1, VK in E. pose proof (rnd_error (1 / INR V)) as Er. rewrite <- E in Er. replace (1 / INR V) with (/ INR V) in Er by lra. rewrite (Rabs_pos_eq (/ INR V)) in Er by lra.
      replace (INR V * B2R t - 1) with (INR V * (B2R t - / INR V)) by (field; lra). rewrite Rabs_mult, (Rabs_pos_eq (INR V)) by lra.
      unfold Rdiv. rewrite E50. apply Rle_trans with (INR V * (U * / INR V + T0)); [apply Rmult_le_compat_l; [lra|exact Er]|].
      replace (INR V * (U * / INR V + T0)) with (U + INR V * T0) by (field; lra). assert (INR V * T0 <= INR V * U) by (apply Rmult_le_compat_l; lra). nra.
    Qed.

    Lemma initial_phi i n : (i < K)%nat -> (n < V)%nat -> pow (-30) <= B2R (mget (init_phi K V) i n).
    Proof.
      intros Hi Hn. unfold init_phi. rewrite mget_tab by assumption. pose proof (di_topics _ _ _ DI) as HK. destruct (INR_small K ltac:(lia)) as [K0 K1]. assert (K2 : 1 <= INR K) by (change 1 with (INR 1); apply le_INR; lia).
      destruct (int_d lg ex lga sum (Z.of_nat K) ltac:(lia)) as [FK VK]. rewrite <- INR_IZR_INZ in VK. destruct (one_d lg ex lga sum) as [F1 O1].
      destruct (div_in one (ofZ (Z.of_nat K)) F1 (pow (-30)) 1 (rep_pow (-30) ltac:(lia)) (rep_Z 1 ltac:(lia))) as (_ & _ & B); [rewrite VK; lra| |exact (proj1 B)].
      rewrite O1, VK. unfold Rdiv. rewrite Rmult_1_l. split; [change (pow (-30)) with (/ 1073741824); apply Rinv_le_contravar; lra|rewrite <- Rinv_1; apply Rinv_le_contravar; lra].
    Qed.
    Theorem correspondence_strong cf mu emit (d : doc double) : d_words d = X -> d_class d = Some (Z.of_nat y) ->
      exists gamma phi tau ev, correspondence_doc_e_step 7 cf mu emit d m = Ok (mk_vparams gamma phi tau, ev) /\ double_posterior X m gamma phi /\ double_shares V tau /\
        (emit = true -> exists v, ev = Some v) /\ (likely -> (forall n, (n < V)%nat -> pow (-128) <= B2R (vget tau n)) /\
          (forall i n, (i < K)%nat -> (n < V)%nat -> pow (-40) <= B2R (mget (p_beta m) i n) -> pow (-682) <= B2R (mget phi i n))).
    Proof.
      intros EX Ey. unfold correspondence_doc_e_step. rewrite EX, Ey. destruct (count_total lg ex lga sum X m DI) as [N0 _]. assert (N1 : (Zsum X < 2 ^ 31)%Z) by apply (di_length _ _ _ DI). apply le_IZR in N0.
      assert (EN : int_sum X = Ok (Zsum X)).
      { unfold int_sum. cbv zeta. replace (_ && _)%bool with true; [reflexivity|]. symmetry. apply andb_true_iff. split; [apply Z.leb_le|apply Z.ltb_lt]; unfold Zsum in *; lia. }
      rewrite EN. cbn [bind]. replace (sizes_ok d m) with true.
      2:{ symmetry. unfold sizes_ok. rewrite EX, (di_alpha_length _ _ _ DI), (di_words _ _ _ DI), !Nat.eqb_refl. reflexivity. }
      replace (class_ok (Z.of_nat y) m) with true.
      2:{ symmetry. unfold class_ok. rewrite (dc_topics _ _ _ _ DC), Nat.eqb_refl. pose proof (dc_class _ _ _ _ DC). apply andb_true_iff. split; [apply andb_true_iff; split; [reflexivity|apply Z.leb_le; lia]|apply Z.ltb_lt; lia]. }
      cbn [negb andb]. cbv zeta. rewrite Nat2Z.id.
      set (low := fun s : list double * mat double * list double => likely -> (forall n, (n < V)%nat -> pow (-128) <= B2R (vget (snd s) n)) /\
        (forall i n, (i < K)%nat -> (n < V)%nat -> pow (-40) <= B2R (mget (p_beta m) i n) -> pow (-682) <= B2R (mget (snd (fst s)) i n))).
      destruct (em_loop_inv (fun s => sound (fst s) /\ double_shares V (snd s) /\ low s) (fun s => fst (fst s))
        (fun s => let* phi := compute_supervised_correspondence_phi 7 y (p_beta m) eta (fst (fst s)) (snd s) in
                  let* tau := compute_supervised_correspondence_tau y eta phi in Ok (compute_gamma X alpha phi, phi, tau)) (e_tolerance cf)) with
        (limit := e_iterations cf) (old := EStepModel.zeros K) (s := (init_gamma alpha (Zsum X) K, init_phi K (length X), vtab (length X) (fun _ => one / ofZ (Z.of_nat (length X)))%S)) as ([[g phi] tau] & E & S & T & Lw).
      { intros [s tau] (S & T & _). cbn [fst snd] in *. destruct (correspondence_phi s tau S T) as (phi & Ephi & S' & C' & Lp). rewrite Ephi. cbn [bind].
        destruct (correspondence_tau phi (so_rows _ _ _ _ _ _ _ S') (so_cols _ _ _ _ _ _ _ S') (so_phi _ _ _ _ _ _ _ S') C') as (tau' & Et & T' & Lt). rewrite Et. cbn [bind].
        eexists. split; [reflexivity|]. split; [exact S'|]. split; [exact T'|]. intros Lk. split; [exact (Lt Lk)|exact (Lp Lk)]. }
      { cbn [fst snd]. split; [exact (init_sound lg ex lga sum X m DI)|]. rewrite (di_words _ _ _ DI). destruct initial_tau as [T1 T2]. split; [exact T1|]. intros _. cbn [fst snd]. split.
        - intros n Hn. eapply Rle_trans; [|exact (T2 n Hn)]. apply bpow_le. lia.
        - intros i n Hi Hn _. eapply Rle_trans; [|exact (initial_phi i n Hi Hn)]. apply bpow_le. lia. }
      rewrite E. cbn [bind fst snd] in *. pose proof (result_double lg ex lga sum X m DI _ S) as R. cbn [fst snd] in R. unfold report. destruct emit.
      - unfold compute_supervised_correspondence_likelihood. destruct (likelihood_defined lg ex lga sum Hsum X m DI _ S) as (v & Ev). cbn [fst snd] in Ev. rewrite Ev. cbn [bind]. rewrite EN. cbn [bind].
        eexists g, phi, tau, (Some _). split; [reflexivity|]. split; [exact R|]. split; [exact T|]. split; [eauto|exact Lw].
      - cbn [bind]. exists g, phi, tau, None. split; [reflexivity|]. split; [exact R|]. split; [exact T|]. split; [discriminate|exact Lw].
    Qed.
    Theorem correspondence_double cf mu emit (d : doc double) : d_words d = X -> d_class d = Some (Z.of_nat y) ->
      exists gamma phi tau ev, correspondence_doc_e_step 7 cf mu emit d m = Ok (mk_vparams gamma phi tau, ev) /\ double_posterior X m gamma phi /\ double_shares V tau /\
        (emit = true -> exists v, ev = Some v).
    Proof. intros EX Ey. destruct (correspondence_strong cf mu emit d EX Ey) as (g & phi & tau & ev & A & B & C & E & _). exists g, phi, tau, ev. auto. Qed.
  End Step.
End Double.
