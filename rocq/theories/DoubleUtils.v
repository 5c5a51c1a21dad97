(** digamma and fast_exp in double precision: they are defined and lie between coarse bounds. *)
Require Import Reals ZArith List Bool Arith Lia Lra Psatz.
From Flocq Require Import Core.Core IEEE754.BinarySingleNaN.
Require Import Verif.Base Verif.Scalar Verif.Mat Verif.ExpTable Verif.HostModel Verif.UtilsModel Verif.UtilsFloat Verif.DoubleSpec Verif.DoubleArith.
Import ListNotations.
Open Scope R_scope.

Lemma ln_le x y : 0 < x -> x <= y -> ln x <= ln y.
Proof. intros Hx [L|E]; [left; now apply ln_increasing|right; now rewrite E]. Qed.
Lemma exp_le_mono x y : x <= y -> exp x <= exp y.
Proof. intros [L|E]; [left; now apply exp_increasing|right; now rewrite E]. Qed.
Lemma Rle_div_l a b c : 0 < c -> a <= b * c -> a / c <= b.
Proof. intros Hc H. apply Rmult_le_reg_r with c; [assumption|]. unfold Rdiv. rewrite Rmult_assoc, Rinv_l by lra. lra. Qed.
Lemma Rle_div_r a b c : 0 < c -> a * c <= b -> a <= b / c.
Proof. intros Hc H. apply Rmult_le_reg_r with c; [assumption|]. unfold Rdiv. rewrite Rmult_assoc, Rinv_l by lra. lra. Qed.
Lemma ln_pow2 (n : nat) : ln (pow (Z.of_nat n)) <= INR n.
Proof.
  induction n as [|n IH]; [cbn; rewrite ln_1; lra|]. rewrite Nat2Z.inj_succ, S_INR. unfold Z.succ. rewrite bpow_plus, ln_mult by apply bpow_gt_0.
  change (pow 1) with 2. assert (ln 2 <= 1). { rewrite <- (ln_exp 1). apply ln_le; [lra|]. pose proof (exp_ineq1 1 ltac:(lra)). lra. }
  lra.
Qed.

Section Double.
  Variables (lg ex lga : double -> double) (sum : list double -> double).
  Local Instance DO : ops double := double_ops lg ex lga sum.
  Ltac norm := change (@add double DO) with dadd in *; change (@sub double DO) with dsub in *; change (@mul double DO) with dmul in *;
    change (@div double DO) with ddiv in *.
  Hypothesis Hlg : rough_log lg.
  Hypothesis Hex : rough_exp ex.

  Lemma int_d z : (Z.abs z <= 2 ^ 53)%Z -> is_finite (ofZ z : double) = true /\ B2R (ofZ z : double) = IZR z.
  Proof. exact (ofZ_in z). Qed.
  Lemma one_d : is_finite (one : double) = true /\ B2R (one : double) = 1.
  Proof. exact (ofZ_in 1 ltac:(lia)). Qed.

  Lemma zero_d : is_finite (zero : double) = true.
  Proof. reflexivity. Qed.

  (** ** digamma *)
  Lemma inverse_d x : is_finite x = true -> 1 <= B2R x ->
    is_finite (one / x)%S = true /\ 0 <= B2R (one / x)%S <= 1.
  Proof.
    intros Fx Bx. destruct one_d as [F1 V1].
    destruct (div_in one x F1 0 1 (rep_Z 0 ltac:(lia)) (rep_Z 1 ltac:(lia))) as (F & _ & B).
    - lra.
    - rewrite V1. split; [apply Rle_mult_inv_pos; lra|]. apply Rle_div_l; lra.
    - split; assumption.
  Qed.
  Lemma ltb_d (x y : double) : is_finite x = true -> is_finite y = true -> ltb x y = true <-> B2R x < B2R y.
  Proof.
    intros Fx Fy. cbn [ltb DO double_ops Fops]. rewrite Bltb_correct by assumption.
    destruct (Rlt_bool_spec (B2R x) (B2R y)); split; intros; try lra; try reflexivity; discriminate.
  Qed.
  Lemma ltb_d_false (x y : double) : is_finite x = true -> is_finite y = true -> ltb x y = false -> B2R y <= B2R x.
  Proof.
    intros Fx Fy H. destruct (Rlt_dec (B2R x) (B2R y)) as [L|L]; [|lra]. apply ltb_d in L; [congruence|assumption..].
  Qed.

  Lemma shift_d fuel : forall (x r : double) (c : nat), is_finite x = true -> is_finite r = true ->
    7 - INR fuel <= B2R x -> 1 <= B2R x <= pow 40 -> (Z.of_nat (c + fuel) <= 1000000)%Z -> - INR c <= B2R r <= 0 ->
    exists y r', digamma_shift fuel x r = Ok (y, r') /\ is_finite y = true /\ 7 <= B2R y <= pow 40 /\
      is_finite r' = true /\ - INR (c + fuel) <= B2R r' <= B2R r.
  Proof.
    destruct (int_d 7 ltac:(lia)) as [F7 V7]. destruct one_d as [F1 V1].
    induction fuel as [|f IH]; intros x r c Fx Fr Bx Bx2 Hc Br; cbn [digamma_shift].
    - destruct (ltb x (ofZ 7)) eqn:L.
      + apply ltb_d in L; [|assumption..]. rewrite V7 in L. cbn in Bx. lra.
      + apply ltb_d_false in L; [|assumption..]. rewrite V7 in L. exists x, r. rewrite Nat.add_0_r. repeat split; try assumption; lra.
    - destruct (ltb x (ofZ 7)) eqn:L.
      + apply ltb_d in L; [|assumption..]. rewrite V7 in L. destruct (inverse_d x Fx ltac:(lra)) as [Fi Bi].
        assert (Rc : rep (- INR (S c))). { rewrite INR_IZR_INZ, <- opp_IZR. apply rep_Z. lia. }
        destruct (sub_in r (one / x)%S Fr Fi (- INR (S c)) (B2R r) Rc (rep_val r Fr)) as (Fr' & _ & Br').
        { rewrite S_INR. lra. }
        assert (Rx : rep (7 - INR f)). { rewrite INR_IZR_INZ, <- minus_IZR. apply rep_Z. lia. }
        destruct (add_in x one Fx F1 (7 - INR f) 8 Rx (rep_Z 8 ltac:(lia))) as (Fx' & _ & Bx').
        { rewrite V1. rewrite S_INR in Bx. lra. }
        destruct (add_in x one Fx F1 2 8 (rep_Z 2 ltac:(lia)) (rep_Z 8 ltac:(lia))) as (_ & _ & Bx3); [rewrite V1; lra|].
        pose proof (IH (x + one)%S (r - one / x)%S (S c)) as HH. specialize (HH Fx' Fr'). destruct HH as (y & r' & E & Fy & By & Fr2 & Br2).
        * exact (proj1 Bx').
        * split; [norm; lra|]. eapply Rle_trans; [apply Bx3|]. change 8 with (pow 3). apply bpow_le. lia.
        * lia.
        * norm. lra.
        * exists y, r'. rewrite E. replace (c + S f)%nat with (S c + f)%nat by lia. repeat split; try assumption; try apply By; try apply Br2.
          eapply Rle_trans; [apply Br2|]. norm. lra.
      + apply ltb_d_false in L; [|assumption..]. rewrite V7 in L. exists x, r. repeat split; try assumption; try lra.
        rewrite plus_INR. pose proof (pos_INR (S f)). lra.
  Qed.

  Lemma ratio_const a b k : (0 <= a)%Z -> (0 < b)%Z -> (a <= 2 ^ 53)%Z -> (b <= 2 ^ 53)%Z -> (-1000 <= k <= 0)%Z -> (IZR a <= IZR b * pow k) ->
    is_finite (ofZ a / ofZ b : double)%S = true /\ 0 <= B2R (ofZ a / ofZ b : double)%S <= pow k.
  Proof.
    intros Ha Hb Ha2 Hb2 Hk H. destruct (int_d a ltac:(lia)) as [Fa Va]. destruct (int_d b ltac:(lia)) as [Fb Vb].
    assert (0 < IZR b) by (apply IZR_lt; exact Hb). assert (0 <= IZR a) by (apply IZR_le; exact Ha).
    destruct (div_in (ofZ a) (ofZ b) Fa 0 (pow k) (rep_Z 0 ltac:(lia)) (rep_pow k ltac:(lia))) as (F & _ & B).
    - rewrite Vb. lra.
    - rewrite Va, Vb. split; [apply Rle_mult_inv_pos; lra|]. apply Rle_div_l; [lra|]. rewrite Rmult_comm. lra.
    - split; assumption.
  Qed.
  Lemma mul_d (x y : double) j k : is_finite x = true -> is_finite y = true -> (-1074 <= j + k <= 900)%Z ->
    0 <= B2R x <= pow j -> 0 <= B2R y <= pow k -> is_finite (x * y)%S = true /\ 0 <= B2R (x * y)%S <= pow (j + k).
  Proof.
    intros Fx Fy H Bx By.
    destruct (mul_in x y Fx Fy 0 (pow (j + k)) (rep_Z 0 ltac:(lia)) (rep_pow (j + k) ltac:(lia))) as (F & _ & B).
    - rewrite bpow_plus. split; [apply Rmult_le_pos; lra|]. apply Rmult_le_compat; lra.
    - split; assumption.
  Qed.

  Lemma half_d : is_finite (one / two : double)%S = true /\ B2R (one / two : double)%S = / 2.
  Proof.
    destruct one_d as [F1 V1]. destruct (int_d 2 ltac:(lia)) as [F2 V2].
    destruct (div_in one (ofZ 2 : double) F1 (pow (-1)) (pow (-1)) (rep_pow (-1) ltac:(lia)) (rep_pow (-1) ltac:(lia))) as (F & _ & B).
    - rewrite V2. lra.
    - rewrite V1, V2. cbn. lra.
    - split; [exact F|]. change (pow (-1)) with (/ 2) in B. change (B2R (ddiv one (ofZ 2 : double)) = / 2). lra.
  Qed.

  Lemma series_d (x0 : double) : is_finite x0 = true -> 7 <= B2R x0 <= pow 40 ->
    is_finite (digamma_series x0) = true /\ -2 <= B2R (digamma_series x0) <= 82.
  Proof.
    intros F0 B0. destruct half_d as [Fh Vh]. unfold digamma_series. cbv zeta.
    destruct (sub_in x0 (one / two)%S F0 Fh 6 (pow 40) (rep_Z 6 ltac:(lia)) (rep_pow 40 ltac:(lia))) as (Fx & _ & Bx); [rewrite Vh; lra|].
    set (x := (x0 - one / two)%S). change (dsub x0 (one / two)%S) with x in *. clearbody x.
    destruct (Hlg x Fx ltac:(lra)) as [Fl Bl].
    assert (Bl2 : 0 <= B2R (lg x) <= 80).
    { assert (0 <= ln (B2R x)) by (rewrite <- ln_1; apply ln_le; lra).
      assert (ln (B2R x) <= 40) by (eapply Rle_trans; [apply ln_le; [lra|apply Bx]|]; pose proof (ln_pow2 40) as Q; cbn [INR] in Q; change (Z.of_nat 40) with 40%Z in Q; lra). lra. }
    destruct one_d as [F1 V1].
    destruct (div_in one x F1 0 (pow (-2)) (rep_Z 0 ltac:(lia)) (rep_pow (-2) ltac:(lia))) as (Fxx & _ & Bxx); [lra| |].
    { rewrite V1. split; [apply Rle_mult_inv_pos; lra|]. apply Rle_div_l; [lra|]. change (pow (-2)) with (/ 4). lra. }
    set (xx := (one / x)%S). change (ddiv one x) with xx in *. clearbody xx.
    destruct (mul_d xx xx (-2) (-2) Fxx Fxx ltac:(lia) Bxx Bxx) as [F2 B2]. set (xx2 := (xx * xx)%S) in *. clearbody xx2.
    destruct (mul_d xx2 xx2 (-4) (-4) F2 F2 ltac:(lia) B2 B2) as [F4 B4]. set (xx4 := (xx2 * xx2)%S) in *. clearbody xx4.
    destruct (ratio_const 1 24 (-4) ltac:(lia) ltac:(lia) ltac:(lia) ltac:(lia) ltac:(lia)) as [Fc1 Bc1]; [change (pow (-4)) with (/ 16); lra|].
    destruct (ratio_const 7 960 (-7) ltac:(lia) ltac:(lia) ltac:(lia) ltac:(lia) ltac:(lia)) as [Fc2 Bc2]; [change (pow (-7)) with (/ 128); lra|].
    destruct (ratio_const 31 8064 (-8) ltac:(lia) ltac:(lia) ltac:(lia) ltac:(lia) ltac:(lia)) as [Fc3 Bc3]; [change (pow (-8)) with (/ 256); lra|].
    destruct (ratio_const 127 30720 (-7) ltac:(lia) ltac:(lia) ltac:(lia) ltac:(lia) ltac:(lia)) as [Fc4 Bc4]; [change (pow (-7)) with (/ 128); lra|].
    change (one / ofZ 24)%S with (ofZ 1 / ofZ 24 : double)%S.
    destruct (mul_d _ _ (-4) (-2 + -2) Fc1 F2 ltac:(lia) Bc1 B2) as [Ft1 Bt1].
    destruct (mul_d _ _ (-7) (-4 + -4) Fc2 F4 ltac:(lia) Bc2 B4) as [Ft2 Bt2].
    destruct (mul_d _ _ (-8) (-4 + -4) Fc3 F4 ltac:(lia) Bc3 B4) as [Ft3 Bt3]. destruct (mul_d _ _ (-8 + (-4 + -4)) (-2 + -2) Ft3 F2 ltac:(lia) Bt3 B2) as [Ft3' Bt3'].
    destruct (mul_d _ _ (-7) (-4 + -4) Fc4 F4 ltac:(lia) Bc4 B4) as [Ft4 Bt4]. destruct (mul_d _ _ (-7 + (-4 + -4)) (-4 + -4) Ft4 F4 ltac:(lia) Bt4 B4) as [Ft4' Bt4'].
    clear Ft3 Bt3 Ft4 Bt4 Fc1 Bc1 Fc2 Bc2 Fc3 Bc3 Fc4 Bc4.
    assert (P : forall k, (k <= 0)%Z -> pow k <= 1) by (intros k Hk; change 1 with (pow 0); apply bpow_le; exact Hk).
    destruct (add_in (lg x) _ Fl Ft1 0 81 (rep_Z 0 ltac:(lia)) (rep_Z 81 ltac:(lia))) as (Fs1 & _ & Bs1).
    { pose proof (P (-4 + (-2 + -2))%Z ltac:(lia)). lra. }
    destruct (sub_in _ _ Fs1 Ft2 (-1) 81 (rep_Z (-1) ltac:(lia)) (rep_Z 81 ltac:(lia))) as (Fs2 & _ & Bs2).
    { pose proof (P (-7 + (-4 + -4))%Z ltac:(lia)). lra. }
    destruct (add_in _ _ Fs2 Ft3' (-1) 82 (rep_Z (-1) ltac:(lia)) (rep_Z 82 ltac:(lia))) as (Fs3 & _ & Bs3).
    { pose proof (P (-8 + (-4 + -4) + (-2 + -2))%Z ltac:(lia)). lra. }
    destruct (sub_in _ _ Fs3 Ft4' (-2) 82 (rep_Z (-2) ltac:(lia)) (rep_Z 82 ltac:(lia))) as (Fs4 & _ & Bs4).
    { pose proof (P (-7 + (-4 + -4) + (-4 + -4))%Z ltac:(lia)). lra. }
    split; [exact Fs4|exact Bs4].
  Qed.

  (** The argument is at least 1/300 (or 1/c in general) *)
  Lemma digamma_d (x : double) (c : nat) : is_finite x = true -> / INR c <= B2R x <= pow 40 -> (1 <= Z.of_nat c <= 100000)%Z ->
    exists t, digamma 7 x = Ok t /\ is_finite t = true /\ - INR (c + 8) <= B2R t <= 82.
  Proof.
    intros Fx Bx Hc. assert (C1 : 1 <= INR c) by (change 1 with (INR 1); apply le_INR; lia).
    assert (Ic : 0 < / INR c) by (apply Rinv_0_lt_compat; lra).
    assert (H : exists y r, digamma_shift 7 x zero = Ok (y, r) /\ is_finite y = true /\ 7 <= B2R y <= pow 40 /\
      is_finite r = true /\ - INR (c + 6) <= B2R r <= 0).
    { destruct one_d as [F1 V1]. destruct (Rlt_dec (B2R x) 1) as [L|L].
      - cbn [digamma_shift]. destruct (int_d 7 ltac:(lia)) as [F7 V7].
        replace (ltb x (ofZ 7)) with true by (symmetry; apply ltb_d; [assumption..|rewrite V7; lra]).
        assert (Rc : rep (INR c)) by (rewrite INR_IZR_INZ; apply rep_Z; lia).
        assert (Rc' : rep (- INR c)) by (rewrite INR_IZR_INZ, <- opp_IZR; apply rep_Z; lia).
        destruct (div_in one x F1 0 (INR c) (rep_Z 0 ltac:(lia)) Rc) as (Fi & _ & Bi); [lra| |].
        { rewrite V1. split; [apply Rle_mult_inv_pos; lra|]. apply Rle_div_l; [lra|].
          apply Rmult_le_reg_l with (/ INR c); [assumption|]. rewrite <- Rmult_assoc, Rinv_l by lra. lra. }
        destruct (sub_in zero (ddiv one x) zero_d Fi (- INR c) 0 Rc' (rep_Z 0 ltac:(lia))) as (Fr & _ & Br).
        { change (B2R (zero : double)) with 0. lra. }
        destruct (add_in x one Fx F1 1 2 (rep_Z 1 ltac:(lia)) (rep_Z 2 ltac:(lia))) as (Fy & _ & By); [rewrite V1; lra|].
        pose proof (shift_d 6 (x + one)%S (zero - one / x)%S c) as HH. specialize (HH Fy Fr).
        destruct HH as (y & r & E & Gy & Hy & Gr & Hr).
        + norm. cbn [INR]. lra.
        + split; [apply By|]. eapply Rle_trans; [apply By|]. change 2 with (pow 1). apply bpow_le. lia.
        + lia.
        + exact Br.
        + exists y, r. split; [exact E|]. split; [exact Gy|]. split; [exact Hy|]. split; [exact Gr|]. split; [apply Hr|].
          eapply Rle_trans; [apply Hr|apply Br].
      - destruct (shift_d 7 x zero 0 Fx zero_d) as (y & r & E & Gy & Hy & Gr & Hr).
        + cbn [INR]. lra.
        + lra.
        + lia.
        + change (B2R (zero : double)) with 0. cbn [INR]. lra.
        + exists y, r. change (B2R (zero : double)) with 0 in Hr. repeat split; try assumption; try apply Hy; try apply Hr.
          eapply Rle_trans; [|apply Hr]. apply Ropp_le_contravar, le_INR. lia. }
    destruct H as (y & r & E & Fy & By & Fr & Br). unfold digamma. rewrite E. cbn [bind].
    destruct (series_d y Fy By) as [Fs Bs].
    assert (Rl : rep (- INR (c + 8))) by (rewrite INR_IZR_INZ, <- opp_IZR; apply rep_Z; lia).
    destruct (add_in r (digamma_series y) Fr Fs (- INR (c + 8)) 82 Rl (rep_Z 82 ltac:(lia))) as (Ft & _ & Bt).
    - replace (c + 8)%nat with (c + 6 + 2)%nat by lia. rewrite plus_INR. cbn [INR]. lra.
    - eexists. split; [reflexivity|]. split; [exact Ft|exact Bt].
  Qed.

  (** ** fast_exp *)
  Lemma lut_d i : (0 <= i < 1024)%Z -> exists e, lut i = Some e /\ is_finite (e : double) = true /\ 1 <= B2R e <= 45 / 16.
  Proof.
    intros Hi. unfold lut. replace ((0 <=? i)%Z && (i <? 1024)%Z)%bool with true by (symmetry; apply andb_true_iff; split; [apply Z.leb_le|apply Z.ltb_lt]; lia).
    eexists. split; [reflexivity|].
    assert (T : forallb (fun z => ((10 ^ 18 <=? z) && (z <=? 28 * 10 ^ 17))%Z) exp_lut = true) by (vm_compute; reflexivity).
    assert (L : length exp_lut = 1024%nat) by (vm_compute; reflexivity).
    rewrite forallb_forall in T. specialize (T (nth (Z.to_nat i) exp_lut 0%Z)).
    set (z := nth (Z.to_nat i) exp_lut 0%Z) in *.
    assert (Hz : (10 ^ 18 <= z <= 28 * 10 ^ 17)%Z).
    { specialize (T ltac:(apply nth_In; rewrite L; lia)). apply andb_true_iff in T. destruct T as [T1 T2].
      apply Z.leb_le in T1, T2. lia. }
    clearbody z. clear T L.
    assert (Hin : forall z, (10 ^ 18 <= z <= 3 * 10 ^ 18)%Z -> is_finite (ofZ z : double) = true /\ pow 59 <= B2R (ofZ z : double) <= pow 62 /\ B2R (ofZ z : double) = rnd (IZR z)).
    { intros w Hw. cbn [ofZ DO double_ops Fops].
      pose proof (binary_normalize_correct 53 1024 eq_refl eq_refl mode_NE w 0 false) as C. cbv zeta in C.
      assert (E : F2R (Float radix2 w 0) = IZR w) by (unfold F2R; cbn; ring). rewrite E in C.
      destruct (rnd_between (pow 59) (IZR w) (pow 62) (rep_pow 59 ltac:(lia)) (rep_pow 62 ltac:(lia))) as [B A].
      { change (pow 59) with (IZR (2 ^ 59)). change (pow 62) with (IZR (2 ^ 62)). split; apply IZR_le; lia. }
      rewrite Rlt_bool_true in C by exact A. destruct C as (C1 & C2 & _). rewrite C1. auto. }
    destruct (Hin z ltac:(lia)) as (Fz & Bz & Vz). destruct (Hin (10 ^ 18)%Z ltac:(lia)) as (Fd & Bd & Vd).
    assert (P59 : 0 < pow 59) by apply bpow_gt_0.
    assert (Dz : B2R (ofZ (10 ^ 18) : double) <= B2R (ofZ z : double)).
    { rewrite Vz, Vd. apply round_le; [apply fexp_valid|apply valid_rnd_N|apply IZR_le; lia]. }
    assert (Ez : B2R (ofZ z : double) <= 45 / 16 * B2R (ofZ (10 ^ 18) : double)).
    { assert (X : rnd (IZR (10 ^ 18)) = IZR (10 ^ 18)).
      { replace (IZR (10 ^ 18)) with (IZR (5 ^ 18) * pow 18); [apply rnd_exact, rep_scale; lia|].
        rewrite <- (IZR_Zpower radix2) by lia. rewrite <- mult_IZR. f_equal. }
      assert (Y : 45 / 16 * IZR (10 ^ 18) = IZR (45 * 5 ^ 18) * pow 14).
      { rewrite <- (IZR_Zpower radix2) by lia. rewrite <- mult_IZR. apply Rmult_eq_reg_l with 16; [|lra]. replace (16 * (45 / 16 * IZR (10 ^ 18))) with (45 * IZR (10 ^ 18)) by lra. rewrite <- !mult_IZR. f_equal. }
      rewrite Vz, Vd, X. replace (45 / 16 * IZR (10 ^ 18)) with (rnd (45 / 16 * IZR (10 ^ 18))).
      - apply round_le; [apply fexp_valid|apply valid_rnd_N|]. apply Rmult_le_reg_l with 16; [lra|]. replace (16 * (45 / 16 * IZR (10 ^ 18))) with (45 * IZR (10 ^ 18)) by lra. rewrite <- !mult_IZR. apply IZR_le. lia.
      - rewrite Y. apply rnd_exact, rep_scale; lia. }
    assert (R45 : rep (45 / 16)) by (replace (45 / 16) with (IZR 45 * pow (-4)) by (change (pow (-4)) with (/ 16); lra); apply rep_scale; lia).
    destruct (div_in (ofZ z) (ofZ (10 ^ 18)) Fz 1 (45 / 16) (rep_Z 1 ltac:(lia)) R45) as (F & _ & B).
    - lra.
    - split; [apply Rle_div_r; lra|apply Rle_div_l; lra].
    - split; [exact F|exact B].
  Qed.

  Lemma halve_cnt fuel : forall (x : double) cnt y c, halve fuel x cnt = Ok (y, c) -> (cnt <= c <= cnt + fuel)%nat.
  Proof.
    induction fuel as [|f IH]; intros x cnt y c; cbn [halve]; destruct (geb x one); intros H; try discriminate H.
    - injection H as <- <-. lia.
    - apply IH in H. lia.
    - injection H as <- <-. lia.
  Qed.

  Lemma square_times_d c : forall (e : double) k, is_finite e = true -> 1 <= B2R e <= pow k -> (0 <= k)%Z -> (k * 2 ^ Z.of_nat c <= 900)%Z ->
    is_finite (square_times c e) = true /\ 1 <= B2R (square_times c e) <= pow (k * 2 ^ Z.of_nat c).
  Proof.
    unfold square_times. induction c as [|c IH]; intros e k Fe Be Hk H; cbn [Nat.iter].
    - replace (k * 2 ^ Z.of_nat 0)%Z with k by (cbn; lia). split; assumption.
    - assert (P : (k * 2 ^ Z.of_nat (S c) = k * 2 ^ Z.of_nat c + k * 2 ^ Z.of_nat c)%Z) by (rewrite Nat2Z.inj_succ, Z.pow_succ_r by lia; lia).
      assert (Q : (0 <= k * 2 ^ Z.of_nat c)%Z) by (apply Z.mul_nonneg_nonneg; [assumption|apply Z.pow_nonneg; lia]).
      destruct (IH e k Fe Be Hk ltac:(lia)) as [F B].
      change (Nat.iter (S c) (fun y : double => (y * y)%S) e) with (dmul (Nat.iter c (fun y : double => (y * y)%S) e) (Nat.iter c (fun y : double => (y * y)%S) e)). set (y := Nat.iter c (fun y => (y * y)%S) e) in *. clearbody y.
      destruct (mul_in y y F F 1 (pow (k * 2 ^ Z.of_nat (S c))) (rep_Z 1 ltac:(lia)) (rep_pow (k * 2 ^ Z.of_nat (S c)) ltac:(lia))) as (Fy & _ & By).
      + rewrite P, bpow_plus. split; [nra|]. apply Rmult_le_compat; lra.
      + split; [exact Fy|exact By].
  Qed.

  Lemma exp_bound (n : nat) : exp (INR n * 5) <= pow (8 * Z.of_nat n).
  Proof.
    induction n as [|n IH].
    - cbn. rewrite Rmult_0_l, exp_0. lra.
    - rewrite S_INR, Nat2Z.inj_succ. replace ((INR n + 1) * 5) with (INR n * 5 + 5) by ring. rewrite exp_plus.
      replace (8 * Z.succ (Z.of_nat n))%Z with (8 * Z.of_nat n + 8)%Z by lia. rewrite bpow_plus.
      apply Rmult_le_compat; try (left; apply exp_pos); [exact IH|].
      replace 5 with (1 + 1 + 1 + 1 + 1) by ring. rewrite !exp_plus. change (pow 8) with 256.
      pose proof exp_le_3. pose proof (exp_pos 1). set (e := exp 1) in *. assert (e * e <= 9) by nra. assert (e * e * e <= 27) by nra.
      assert (e * e * e * e <= 81) by nra. nra.
  Qed.

  (** up to 100, at most 7 halvings *)
  Lemma halve_few fuel : forall j (x : double) cnt y c, (j <= 7)%nat -> is_finite x = true -> 0 <= B2R x <= 100 * pow (- Z.of_nat j) ->
    halve fuel x cnt = Ok (y, c) -> (c <= cnt + (7 - j))%nat.
  Proof.
    induction fuel as [|f IH]; intros j x cnt y c Hj Fx Bx; cbn [halve]; destruct (geb x one) eqn:G; intros H; try discriminate H.
    - injection H as <- <-. lia.
    - apply (@geb_F 53 1024 eq_refl eq_refl lg ex lga sum x one) in G; [|assumption|apply one_d]. destruct one_d as [F1 V1].
      change (@B2R 53 1024 (@one _ (FO 53 1024 lg ex lga sum)) <= B2R x) in G. change (B2R (one : double) <= B2R x) in G. rewrite V1 in G.
      assert (J : j <> 7%nat) by (intros ->; change (pow (- Z.of_nat 7)) with (/ 128) in Bx; lra).
      destruct (int_d 2 ltac:(lia)) as [F2 V2].
      assert (E : pow (- Z.of_nat (S j)) = pow (- Z.of_nat j) / 2).
      { replace (- Z.of_nat (S j))%Z with (- Z.of_nat j + -1)%Z by lia. rewrite bpow_plus. reflexivity. }
      destruct (div_in x (ofZ 2) Fx 0 (100 * pow (- Z.of_nat (S j))) (rep_Z 0 ltac:(lia)) (rep_scale 100 (- Z.of_nat (S j)) ltac:(lia) ltac:(lia))) as (F & _ & B).
      { rewrite V2. lra. }
      { rewrite V2, E. lra. }
      apply (IH (S j)) in H; [lia|lia|exact F|exact B].
    - injection H as <- <-. lia.
  Qed.

  Lemma fast_exp_pos_d (x : double) : is_finite x = true -> 0 <= B2R x <= 310 ->
    exists e, fast_exp_pos x = Ok e /\ is_finite e = true /\ / 2 <= B2R e <= pow 497 /\ (B2R x <= 100 -> B2R e <= pow 256).
  Proof.
    intros Fx Bx. unfold fast_exp_pos. destruct (int_d 100 ltac:(lia)) as [F1 V1].
    destruct (ltb (ofZ 100) x) eqn:L.
    - eexists. split; [reflexivity|]. change (sexp x) with (ex x). destruct (Hex x Fx ltac:(lra)) as [F B]. split; [exact F|]. apply ltb_d in L; [|assumption..]. rewrite V1 in L.
      split; [split|intros; lra].
      + assert (1 <= exp (B2R x)) by (rewrite <- exp_0; apply exp_le_mono; lra). lra.
      + assert (exp (B2R x) <= pow 496).
        { eapply Rle_trans; [|exact (exp_bound 62)]. apply exp_le_mono. cbn [INR]. lra. }
        change 497%Z with (1 + 496)%Z. rewrite bpow_plus. change (pow 1) with 2. lra.
    - apply ltb_d_false in L; [|assumption..]. rewrite V1 in L.
      destruct (@halve_F 53 1024 eq_refl eq_refl ltac:(lia) lg ex lga sum 8 x 0 Fx ltac:(lia)) as (y & c & Eh & Fy & By).
      { split; [lra|]. change (bpow radix2 (Z.of_nat 8 - 1)) with 128. lra. }
      change (halve 8 x 0 = Ok (y, c)) in Eh. rewrite Eh. cbn [bind].
      destruct (@scaled_index 53 1024 eq_refl eq_refl ltac:(lia) lg ex lga sum y Fy By) as (i & Ei & Bi).
      change (trunc (y * ofZ 1024)%S = Some i) in Ei. rewrite Ei.
      destruct (lut_d i Bi) as (e & El & Fe & Be). rewrite El.
      apply (halve_few 8 0) in Eh; [|lia|exact Fx|cbn; lra]. eexists. split; [reflexivity|].
      assert (C : (2 * 2 ^ Z.of_nat c <= 256)%Z).
      { change 256%Z with (2 * 2 ^ 7)%Z. apply Z.mul_le_mono_nonneg_l; [lia|]. apply Z.pow_le_mono_r; lia. }
      destruct (square_times_d c e 2 Fe ltac:(change (pow 2) with 4; lra) ltac:(lia) ltac:(lia)) as [Fs Bs]. split; [exact Fs|].
      assert (Bu : B2R (square_times c e) <= pow 256) by (eapply Rle_trans; [apply Bs|]; apply bpow_le; exact C).
      split; [|intros _; exact Bu]. split; [lra|]. eapply Rle_trans; [exact Bu|]. apply bpow_le. lia.
  Qed.

  Lemma fast_exp_d (x : double) : is_finite x = true -> -310 <= B2R x <= 100 ->
    exists e, fast_exp x = Ok e /\ is_finite e = true /\ pow (-497) <= B2R e <= pow 256.
  Proof.
    intros Fx Bx. unfold fast_exp. destruct (ltb x zero) eqn:L.
    - apply ltb_d in L; [|assumption|reflexivity]. change (B2R (zero : double)) with 0 in L.
      destruct (fast_exp_pos_d (- x)%S) as (e & E & Fe & Be & _).
      + cbn [opp DO double_ops Fops]. now rewrite is_finite_Bopp.
      + cbn [opp DO double_ops Fops]. rewrite B2R_Bopp. lra.
      + rewrite E. cbn [bind]. eexists. split; [reflexivity|]. destruct one_d as [F1 V1].
        assert (P : 0 < pow 497) by apply bpow_gt_0.
        destruct (div_in one e F1 (pow (-497)) 2 (rep_pow (-497) ltac:(lia)) (rep_Z 2 ltac:(lia))) as (F & _ & B).
        * lra.
        * rewrite V1. split.
          -- apply Rle_div_r; [lra|]. apply Rle_trans with (pow (-497) * pow 497).
             ++ apply Rmult_le_compat_l; [apply bpow_ge_0|apply Be].
             ++ rewrite <- bpow_plus. cbn. lra.
          -- apply Rle_div_l; lra.
        * split; [exact F|]. split; [apply B|]. eapply Rle_trans; [apply B|]. change 2 with (pow 1). apply bpow_le. lia.
    - apply ltb_d_false in L; [|assumption|reflexivity]. change (B2R (zero : double)) with 0 in L.
      destruct (fast_exp_pos_d x Fx ltac:(lra)) as (e & E & Fe & Be & Bu). exists e. split; [exact E|]. split; [exact Fe|].
      split; [|apply Bu; lra]. eapply Rle_trans; [|apply Be]. change (/ 2) with (pow (-1)). apply bpow_le. lia.
  Qed.
  (** over the whole range *)
  Lemma fast_exp_wide (x : double) : is_finite x = true -> -310 <= B2R x <= 310 ->
    exists e, fast_exp x = Ok e /\ is_finite e = true /\ pow (-497) <= B2R e <= pow 497.
  Proof.
    intros Fx Bx. destruct (Rle_lt_dec (B2R x) 100) as [L|L].
    - destruct (fast_exp_d x Fx ltac:(lra)) as (e & E & F & B). exists e. split; [exact E|]. split; [exact F|]. split; [apply B|]. eapply Rle_trans; [apply B|]. apply bpow_le. lia.
    - unfold fast_exp. destruct (ltb x zero) eqn:N.
      + apply ltb_d in N; [|assumption|reflexivity]. change (B2R (zero : double)) with 0 in N. lra.
      + destruct (fast_exp_pos_d x Fx ltac:(lra)) as (e & E & Fe & Be & _). exists e. split; [exact E|]. split; [exact Fe|]. split; [|apply Be].
        eapply Rle_trans; [|apply Be]. change (/ 2) with (pow (-1)). apply bpow_le. lia.
  Qed.
  (** in steps of five *)
  Lemma fast_exp_pos_range (n : nat) (x : double) : (32 <= n <= 62)%nat -> is_finite x = true -> 0 <= B2R x <= 5 * INR n ->
    exists e, fast_exp_pos x = Ok e /\ is_finite e = true /\ / 2 <= B2R e <= pow (8 * Z.of_nat n + 1) /\ (B2R x = 0 -> B2R e <= pow 2).
  Proof.
    intros Hn Fx Bx. assert (N1 : INR n <= 62) by (replace 62 with (INR 62) by (cbn; lra); apply le_INR; lia).
    destruct (fast_exp_pos_d x Fx ltac:(lra)) as (e & E & Fe & Be & Bu). exists e. split; [exact E|]. split; [exact Fe|]. split; [split; [apply Be|]|].
    - destruct (Rle_lt_dec (B2R x) 100) as [L|L]; [eapply Rle_trans; [apply Bu, L|]; apply bpow_le; lia|].
      destruct (int_d 100 ltac:(lia)) as [F1 V1]. unfold fast_exp_pos in E. replace (ltb (ofZ 100) x) with true in E by (symmetry; apply ltb_d; [assumption..|rewrite V1; exact L]).
      injection E as <-. change (sexp x) with (ex x). destruct (Hex x Fx ltac:(lra)) as [_ B].
      assert (exp (B2R x) <= pow (8 * Z.of_nat n)) by (eapply Rle_trans; [|exact (exp_bound n)]; apply exp_le_mono; lra).
      rewrite Z.add_comm, bpow_plus. change (pow 1) with 2. lra.
    - intros Z. unfold fast_exp_pos in E. destruct (int_d 100 ltac:(lia)) as [F1 V1]. destruct (ltb (ofZ 100) x) eqn:L; [apply ltb_d in L; [|assumption..]; rewrite V1 in L; lra|].
      destruct (@halve_F 53 1024 eq_refl eq_refl ltac:(lia) lg ex lga sum 8 x 0 Fx ltac:(lia)) as (y & c & Eh & Fy & By).
      { split; [lra|]. change (bpow radix2 (Z.of_nat 8 - 1)) with 128. lra. }
      change (halve 8 x 0 = Ok (y, c)) in Eh. rewrite Eh in E. cbn [bind] in E.
      destruct (@scaled_index 53 1024 eq_refl eq_refl ltac:(lia) lg ex lga sum y Fy By) as (i & Ei & Bi).
      change (trunc (y * ofZ 1024)%S = Some i) in Ei. rewrite Ei in E.
      destruct (lut_d i Bi) as (t & El & Ft & Bt). rewrite El in E. injection E as <-.
      apply (halve_few 8 7) in Eh; [|lia|exact Fx|change (pow (- Z.of_nat 7)) with (/ 128); lra]. assert (c = 0%nat) as -> by lia. cbn [square_times]. apply Rle_trans with (45 / 16); [apply Bt|change (pow 2) with 4; lra].
  Qed.
  (** between -50 and 0, by at most six halvings *)
  Lemma fast_exp_low (x e : double) : is_finite x = true -> - 50 <= B2R x <= 0 -> fast_exp x = Ok e -> pow (-96) <= B2R e.
  Proof.
    intros Fx Bx E. assert (Q : forall t : double, is_finite t = true -> 0 <= B2R t <= 50 -> forall r, fast_exp_pos t = Ok r -> 1 <= B2R r <= pow 96).
    { clear x e Fx Bx E. intros x Fx Bx r E. unfold fast_exp_pos in E. destruct (int_d 100 ltac:(lia)) as [F1 V1]. destruct (ltb (ofZ 100) x) eqn:L; [apply ltb_d in L; [|assumption..]; rewrite V1 in L; lra|].
      destruct (@halve_F 53 1024 eq_refl eq_refl ltac:(lia) lg ex lga sum 8 x 0 Fx ltac:(lia)) as (y & c & Eh & Fy & By).
      { split; [lra|]. change (bpow radix2 (Z.of_nat 8 - 1)) with 128. lra. }
      change (halve 8 x 0 = Ok (y, c)) in Eh. rewrite Eh in E. cbn [bind] in E.
      destruct (@scaled_index 53 1024 eq_refl eq_refl ltac:(lia) lg ex lga sum y Fy By) as (i & Ei & Bi).
      change (trunc (y * ofZ 1024)%S = Some i) in Ei. rewrite Ei in E.
      destruct (lut_d i Bi) as (t & El & Ft & Bt). rewrite El in E. assert (Er : r = square_times c t) by congruence. clear E El. subst r.
      apply (halve_few 8 1) in Eh; [|lia|exact Fx|change (pow (- Z.of_nat 1)) with (/ 2); lra]. destruct c as [|c].
      - cbn [square_times]. unfold square_times. cbn [Nat.iter]. split; [apply Bt|]. apply Rle_trans with (pow 2); [apply Rle_trans with (45 / 16); [apply Bt|change (pow 2) with 4; lra]|apply bpow_le; lia].
      - assert (S1 : square_times (S c) t = square_times c (dmul t t)) by (unfold square_times; clear; induction c as [|c IH]; [reflexivity|]; change (dmul (Nat.iter (S c) (fun y : double => dmul y y) t) (Nat.iter (S c) (fun y : double => dmul y y) t) = dmul (Nat.iter c (fun y : double => dmul y y) (dmul t t)) (Nat.iter c (fun y : double => dmul y y) (dmul t t))); f_equal; exact IH).
        rewrite S1. destruct (mul_in t t Ft Ft 1 (pow 3) (rep_Z 1 ltac:(lia)) (rep_pow 3 ltac:(lia))) as (Fm & _ & Bm); [change (pow 3) with 8; nra|].
        assert (C : (3 * 2 ^ Z.of_nat c <= 96)%Z) by (change 96%Z with (3 * 2 ^ 5)%Z; apply Z.mul_le_mono_nonneg_l; [lia|]; apply Z.pow_le_mono_r; lia).
        destruct (square_times_d c (dmul t t) 3 Fm Bm ltac:(lia) ltac:(lia)) as [_ Bs]. split; [apply Bs|]. eapply Rle_trans; [apply Bs|]. apply bpow_le. exact C. }
    unfold fast_exp in E. destruct (ltb x zero) eqn:L.
    - destruct (fast_exp_pos (- x)%S) as [r| |] eqn:Er; try discriminate E. cbn [bind] in E. injection E as Ee. change (ddiv one r = e) in Ee. subst e.
      apply Q in Er; [|cbn [opp DO double_ops Fops]; now rewrite is_finite_Bopp|cbn [opp DO double_ops Fops]; rewrite B2R_Bopp; lra].
      destruct one_d as [F1 V1]. pose proof (bpow_gt_0 radix2 96) as P.
      destruct (div_in one r F1 (pow (-96)) 2 (rep_pow (-96) ltac:(lia)) (rep_Z 2 ltac:(lia))) as (_ & _ & B); [lra| |exact (proj1 B)].
      rewrite V1. split; [apply Rle_div_r; [lra|]|apply Rle_div_l; lra]. apply Rle_trans with (pow (-96) * pow 96); [apply Rmult_le_compat_l; [apply bpow_ge_0|apply Er]|]. rewrite <- bpow_plus. cbn. lra.
    - apply ltb_d_false in L; [|assumption|reflexivity]. change (B2R (zero : double)) with 0 in L. apply Q in E; [|exact Fx|lra]. apply Rle_trans with 1; [change 1 with (pow 0); apply bpow_le; lia|apply E].
  Qed.
  Lemma fast_exp_range (n : nat) (x : double) : (32 <= n <= 62)%nat -> is_finite x = true -> - (5 * INR n) <= B2R x <= 5 * INR n ->
    exists e, fast_exp x = Ok e /\ is_finite e = true /\ pow (- (8 * Z.of_nat n + 1)) <= B2R e <= pow (8 * Z.of_nat n + 1) /\ (B2R x <= 0 -> B2R e <= pow 2).
  Proof.
    intros Hn Fx Bx. unfold fast_exp. destruct (ltb x zero) eqn:L.
    - apply ltb_d in L; [|assumption|reflexivity]. change (B2R (zero : double)) with 0 in L.
      destruct (fast_exp_pos_range n (- x)%S Hn) as (e & E & Fe & Be & _).
      + cbn [opp DO double_ops Fops]. now rewrite is_finite_Bopp.
      + cbn [opp DO double_ops Fops]. rewrite B2R_Bopp. lra.
      + rewrite E. cbn [bind]. eexists. split; [reflexivity|]. destruct one_d as [F1 V1]. set (k := (8 * Z.of_nat n + 1)%Z) in *.
        assert (P : 0 < pow k) by apply bpow_gt_0.
        destruct (div_in one e F1 (pow (- k)) 2 (rep_pow (- k) ltac:(lia)) (rep_Z 2 ltac:(lia))) as (F & _ & B).
        * lra.
        * rewrite V1. split.
          -- apply Rle_div_r; [lra|]. apply Rle_trans with (pow (- k) * pow k).
             ++ apply Rmult_le_compat_l; [apply bpow_ge_0|apply Be].
             ++ rewrite <- bpow_plus. replace (- k + k)%Z with 0%Z by lia. cbn. lra.
          -- apply Rle_div_l; lra.
        * split; [exact F|]. split; [split; [apply B|]|intros _; eapply Rle_trans; [apply B|]; change (pow 2) with 4; lra]. eapply Rle_trans; [apply B|]. change 2 with (pow 1). apply bpow_le. lia.
    - apply ltb_d_false in L; [|assumption|reflexivity]. change (B2R (zero : double)) with 0 in L.
      destruct (fast_exp_pos_range n x Hn Fx ltac:(lra)) as (e & E & Fe & Be & Bz). exists e. split; [exact E|]. split; [exact Fe|]. split.
      + split; [|apply Be]. eapply Rle_trans; [|apply Be]. change (/ 2) with (pow (-1)). apply bpow_le. lia.
      + intros X0. apply Bz. lra.
  Qed.
End Double.
