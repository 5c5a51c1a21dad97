(** Correspondence classes without smoothing: after one epoch a class is out of reach of a topic, and the next E step is undefined. *)
Require Import Reals ZArith List Bool Arith Lia Lra Psatz Permutation.
From Flocq Require Import Core.Core IEEE754.BinarySingleNaN.
Require Import Verif.Base Verif.Scalar Verif.Mat Verif.HostModel Verif.UtilsModel Verif.BuilderModel Verif.EStepModel Verif.EStepAny Verif.OptModel Verif.MStepModel Verif.MStepSpec Verif.MStepAny Verif.MStepBatch Verif.PoolModel Verif.LdaModel Verif.TrainProofs Verif.TrainFit.
Require Import Verif.DoubleSpec Verif.DoubleClassSpec Verif.DoubleTrainSpec Verif.DoubleMultiTrainSpec Verif.DoubleCorrTrainSpec Verif.DoubleArith Verif.DoubleUtils Verif.DoubleProofs Verif.DoubleTrain Verif.DoubleTrainRefute
  Verif.DoubleCorrespondence Verif.DoubleCorrespondenceRefute Verif.DoubleCorrTrain Verif.DoubleCorrEpoch.
Import ListNotations.
Open Scope R_scope.

Lemma same_double (x y : double) : is_finite x = true -> is_finite y = true -> B2R x = B2R y -> B2R y <> 0 -> x = y.
Proof.
  intros Fx Fy E N. apply B2R_inj; [| |exact E].
  - destruct x; try discriminate Fx; [cbn in E; congruence|reflexivity].
  - destruct y; try discriminate Fy; [cbn in N; congruence|reflexivity].
Qed.
Lemma zero_times (x : double) : is_finite x = true -> 0 < B2R x -> dmul (B754_zero false) x = B754_zero false.
Proof.
  intros F P. destruct x as [b|b| |b mm ee H]; try discriminate F; [cbn in P; lra|]. destruct b; [|reflexivity]. exfalso.
  assert (B2R (B754_finite true mm ee H : double) < 0) by (cbn; apply F2R_lt_0; reflexivity). lra.
Qed.
Lemma zero_over (x : double) : is_finite x = true -> 0 < B2R x -> ddiv (B754_zero false) x = B754_zero false.
Proof.
  intros F P. destruct x as [b|b| |b mm ee H]; try discriminate F; [cbn in P; lra|]. destruct b; [|reflexivity]. exfalso.
  assert (B2R (B754_finite true mm ee H : double) < 0) by (cbn; apply F2R_lt_0; reflexivity). lra.
Qed.
Lemma self_over (x : double) : is_finite x = true -> 0 < B2R x -> is_finite (ddiv x x) = true /\ B2R (ddiv x x) = 1.
Proof.
  intros F P. destruct (div_in x x F 1 1 (rep_Z 1 ltac:(lia)) (rep_Z 1 ltac:(lia))) as (Fd & _ & B); [lra| |split; [exact Fd|lra]]. replace (B2R x / B2R x) with 1 by (field; lra). lra.
Qed.
Lemma rep_twice (x : double) : Rabs (2 * B2R x) < pow 1024 -> rep (2 * B2R x).
Proof.
  intros B. split; [|exact B]. assert (G : generic_format radix2 (FLT_exp (-1074) 53) (B2R x)) by apply (generic_format_B2R 53 1024).
  apply FLT_format_generic in G; [|reflexivity]. destruct G as [[fm fe] E1 E2 E3]. cbn [Fnum Fexp] in *. apply generic_format_FLT. exists (Float radix2 fm (fe + 1)); cbn [Fnum Fexp]; [|exact E2|change (-1074 <= fe + 1)%Z; lia].
  rewrite E1. unfold F2R. cbn [Fnum Fexp]. rewrite bpow_plus. change (pow 1) with 2. ring.
Qed.
(** sums of at most two terms that are 0 or c are exact *)
Lemma exact_sum (c : R) l s : rep c -> rep (2 * c) -> summed l s -> (length l <= 2)%nat -> (forall x, In x l -> is_finite x = true /\ (B2R x = 0 \/ B2R x = c)) ->
  is_finite s = true /\ B2R s = lval l.
Proof.
  intros R1 R2 S. induction S as [|x|l1 s1 l2 s2 l S1 IH1 S2 IH2 P]; intros L H.
  - split; [reflexivity|]. reflexivity.
  - destruct (H x (or_introl eq_refl)) as [F _]. split; [exact F|]. unfold lval, lsum. cbn. lra.
  - pose proof (Permutation_length P) as PL. rewrite app_length in PL.
    assert (H' : forall x, In x (l1 ++ l2) -> is_finite x = true /\ (B2R x = 0 \/ B2R x = c)) by (intros x Hx; apply H; eapply Permutation_in; [apply Permutation_sym; exact P|exact Hx]).
    destruct IH1 as [F1 V1]; [lia|intros x Hx; apply H', in_or_app; now left|]. destruct IH2 as [F2 V2]; [lia|intros x Hx; apply H', in_or_app; now right|].
    assert (E : lval l = lval l1 + lval l2). { unfold lval. rewrite <- lsum_app, <- map_app. apply lsum_perm, Permutation_map, P. }
    assert (Rv : rep (lval l)).
    { assert (rep 0) by (apply (rep_Z 0); lia). unfold lval, lsum. destruct l as [|a [|b [|? ?]]]; cbn [map fold_right length] in *; [assumption| | |lia].
      - destruct (H a ltac:(now left)) as [_ [->| ->]]; rewrite Rplus_0_r; assumption.
      - destruct (H a ltac:(now left)) as [_ [->| ->]]; destruct (H b ltac:(right; now left)) as [_ [->| ->]]; rewrite ?Rplus_0_r, ?Rplus_0_l; try assumption. replace (c + c) with (2 * c) by ring. assumption. }
    destruct (add_in s1 s2 F1 F2 (lval l) (lval l) Rv Rv) as (F & _ & B); [lra|]. split; [exact F|]. lra.
Qed.

Section Refute.
  Variables (lg ex lga : double -> double) (sum : list double -> double).
  Local Hint Extern 0 (ops _) => exact (DO lg ex lga sum) : typeclass_instances.
  Hypothesis Hlg : rough_log lg.
  Hypothesis Hlb : rough_log_below lg.
  Hypothesis Hl0 : log_of_zero lg.
  Hypothesis Hex : rough_exp ex.
  Hypothesis Hei : exp_of_infinity ex.
  Hypothesis Hsum : forall l, summed l (sum l).
  Notation half := (div one (ofZ 2) : double).
  Notation ident := (mk_mat 2 [[one; zero]; [zero; one]] : mat double).
  Ltac norm := change (@add double (DO lg ex lga sum)) with dadd; change (@sub double (DO lg ex lga sum)) with dsub;
    change (@mul double (DO lg ex lga sum)) with dmul; change (@div double (DO lg ex lga sum)) with ddiv; change (@zero double (DO lg ex lga sum)) with (B754_zero false : double).

  (** two topics with a word each, two equally likely classes *)
  Definition open_classes : params double := mk_params [half; half] ident (mk_mat 2 [[half; half]; [half; half]]).
  Definition second_class : doc double := mk_doc [0; 1]%Z (Some 1%Z) 1 [].
  Notation first_class := (first_class : doc double).

  Lemma open_input (X : list Z) : X = [1; 0]%Z \/ X = [0; 1]%Z -> double_input (/ 140) X open_classes.
  Proof.
    intros HX. destruct (half_d' lg ex lga sum) as [Fh Vh]. destruct (one_d lg ex lga sum) as [F1 V1]. split.
    - cbn. lia.
    - cbn. lia.
    - reflexivity.
    - destruct HX; subst X; reflexivity.
    - cbn [open_classes p_beta mrows]. intros i Hi. assert (E : vget (p_alpha open_classes) i = half) by (destruct i as [|[|i]]; [reflexivity|reflexivity|lia]). rewrite E. split; [exact Fh|]. rewrite Vh. lra.
    - cbn [open_classes p_beta mrows ncols mcols length]. intros i n Hi Hn.
      destruct i as [|[|i]]; [| |lia]; (destruct n as [|[|n]]; [| |lia]); cbn [mget mcols nth]; rewrite ?V1; split; try assumption; try reflexivity; cbn; lra.
    - destruct HX; subst X; cbn; intros x [<-|[<-|[]]]; lia.
    - destruct HX; subst X; cbn; lia.
    - cbn [open_classes p_beta mrows ncols mcols length]. intros n Hn N. assert (/ 2 ^ 250 <= 1) by (rewrite <- Rinv_1; apply Rinv_le_contravar; [lra|]; apply pow_R1_Rle; lra).
      destruct n as [|[|n]]; [exists 0%nat|exists 1%nat|lia]; (split; [lia|]; cbn [mget mcols nth]; rewrite V1; assumption).
  Qed.
  Lemma open_double (X : list Z) (y : nat) : X = [1; 0]%Z \/ X = [0; 1]%Z -> (y < 2)%nat -> double_classes (/ 140) X y open_classes.
  Proof.
    intros HX Hy. destruct (half_d' lg ex lga sum) as [Fh Vh]. split; [now apply open_input|reflexivity|exact Hy|].
    cbn [open_classes p_eta mrows]. intros i Hi. assert (E : mget (mk_mat 2 [[half; half]; [half; half]]) i y = half) by (destruct i as [|[|i]]; [| |lia]; (destruct y as [|[|y]]; [reflexivity|reflexivity|lia])).
    rewrite E, Vh. split; [exact Fh|]. split; [|lra]. apply Rinv_le_contravar; [lra|]. pose proof (pow_R1_Rle 2 99 ltac:(lra)). change (2 ^ 100) with (2 * 2 ^ 99). lra.
  Qed.

  Lemma log_half : is_finite (slog half) = true /\ -2 <= B2R (slog half) < 0.
  Proof.
    destruct (half_d' lg ex lga sum) as [Fh Vh]. destruct (Hlb half Fh ltac:(rewrite Vh; lra)) as [F B]. rewrite Vh, ln_Rinv in B by lra. pose proof ln_two. pose proof ln_lt_2. split; [exact F|]. change (-2 <= B2R (lg half) < 0). lra.
  Qed.
  (** a column of the topics with one of them zero *)
  Lemma share_one (a : double) (first : bool) : is_finite a = true -> 0 < B2R a <= pow 600 ->
    let l := if first then [a; zero] else [zero; a] in
    eqb (redux l) zero = false /\ div a (redux l) = one /\ div zero (redux l) = zero.
  Proof.
    intros F B l. destruct (one_d lg ex lga sum) as [F1 V1].
    assert (S : summed l (redux l)) by exact (Hsum l).
    assert (R2 : rep (2 * B2R a)).
    { apply rep_twice. rewrite Rabs_pos_eq by lra. apply Rle_lt_trans with (pow 1 * pow 600); [change (pow 1) with 2; lra|rewrite <- bpow_plus; apply bpow_lt; lia]. }
    destruct (exact_sum (B2R a) l (redux l) (rep_val a F) R2 S) as [Fs Vs].
    { unfold l. destruct first; cbn [length]; lia. }
    { intros x Hx. assert (Hx' : x = a \/ x = zero) by (unfold l in Hx; destruct first; destruct Hx as [<-|[<-|[]]]; auto). destruct Hx' as [->| ->]; [split; [exact F|now right]|split; [reflexivity|now left]]. }
    assert (Es : redux l = a). { apply same_double; try assumption; [|lra]. rewrite Vs. unfold l. destruct first; unfold lval, lsum; cbn [map fold_right]; change (B2R (zero : double)) with 0; lra. }
    rewrite Es. split; [|split].
    - destruct (eqb a zero) eqn:Z; [|reflexivity]. apply (is_zero lg ex lga sum a F) in Z. lra.
    - destruct (self_over a F (proj1 B)) as [Fd Vd]. apply same_double; [exact Fd|exact F1|rewrite V1; exact Vd|rewrite V1; lra].
    - exact (zero_over a F (proj1 B)).
  Qed.
  Lemma halves (a : double) : is_finite a = true -> 0 < B2R a <= pow 600 -> pow (-1000) <= B2R a -> normalize_vec [a; a] = [half; half].
  Proof.
    intros F B Lo. destruct (half_d' lg ex lga sum) as [Fh Vh]. set (l := [a; a]). assert (S : summed l (redux l)) by exact (Hsum l).
    assert (R2 : rep (2 * B2R a)).
    { apply rep_twice. rewrite Rabs_pos_eq by lra. apply Rle_lt_trans with (pow 1 * pow 600); [change (pow 1) with 2; lra|rewrite <- bpow_plus; apply bpow_lt; lia]. }
    destruct (exact_sum (B2R a) l (redux l) (rep_val a F) R2 S) as [Fs Vs]; [cbn; lia|intros x [<-|[<-|[]]]; (split; [exact F|now right])|].
    assert (Lv : lval l = 2 * B2R a) by (unfold lval, lsum; cbn [l map fold_right]; lra). rewrite Lv in Vs.
    assert (Z : eqb (redux l) zero = false). { destruct (eqb (redux l) zero) eqn:Z; [|reflexivity]. apply (is_zero lg ex lga sum _ Fs) in Z. lra. }
    assert (Q : div a (redux l) = half).
    { assert (RH : rep (/ 2)) by (change (/ 2) with (pow (-1)); apply rep_pow; lia). destruct (div_in a (redux l) F (/ 2) (/ 2) RH RH) as (Fd & _ & Bd); [lra| |].
      - rewrite Vs. replace (B2R a / (2 * B2R a)) with (/ 2) by (field; lra). lra.
      - apply same_double; [exact Fd|exact Fh|rewrite Vh; change (B2R (ddiv a (redux l)) = / 2); lra|rewrite Vh; lra]. }
    unfold normalize_vec. cbv zeta. fold l. rewrite Z. unfold vtab, l. cbn [length seq map vget nth]. fold l. now rewrite Q.
  Qed.

  Lemma phi_exact X y s : double_classes (/ 140) X y open_classes -> sound lg ex lga sum X open_classes s -> (y < 2)%nat ->
    compute_supervised_correspondence_phi 7 y (p_beta open_classes) (p_eta open_classes) (fst s) [half; half] = Ok ident.
  Proof.
    intros DC S Hy. destruct (half_d' lg ex lga sum) as [Fh Vh]. destruct (one_d lg ex lga sum) as [F1 V1]. destruct log_half as [Fl Bl].
    destruct (psi_d lg ex lga sum Hlg X open_classes 140 s ltac:(lia)) as (psi & Ep & Lp & Bp); [|exact S|].
    { replace (INR 140) with 140 by (rewrite INR_IZR_INZ; reflexivity). intros i Hi. apply (di_alpha _ _ _ (DoubleClassSpec.dc_input _ _ _ _ DC) i Hi). }
    change (mrows (p_beta open_classes)) with 2%nat in Lp, Bp.
    unfold compute_supervised_correspondence_phi. rewrite Ep. cbn [bind].
    destruct (vmapM_in fast_exp psi (fun _ e => is_finite e = true /\ pow (- 257) <= B2R e <= pow 257)) as (e & Ee & Le & Be).
    { intros i Hi. rewrite Lp in Hi. destruct (Bp i Hi) as [F B]. replace (INR (140 + 8)) with 148 in B by (rewrite INR_IZR_INZ; reflexivity).
      destruct (fast_exp_range lg ex lga sum Hex 32 (vget psi i) ltac:(lia) F) as (t & Et & Ft & Bt' & _). { replace (INR 32) with 32 by (rewrite INR_IZR_INZ; reflexivity). lra. }
      exists t. split; [exact Et|]. split; [exact Ft|exact Bt']. }
    rewrite Ee. cbn [bind]. rewrite Lp in Be.
    set (q := dmul (slog half) half).
    assert (Hq : is_finite q = true /\ -2 <= B2R q <= 0). { destruct (mul_in (slog half) half Fl Fh (-2) 0 (rep_Z (-2) ltac:(lia)) (rep_Z 0 ltac:(lia))) as (F & _ & B); [rewrite Vh; lra|]. split; [exact F|exact B]. }
    destruct Hq as [Fq Bq]. destruct (fast_exp_range lg ex lga sum Hex 32 q ltac:(lia) Fq) as (f & Ef & Ff & Bf & _). { replace (INR 32) with 32 by (rewrite INR_IZR_INZ; reflexivity). lra. }
    change (8 * Z.of_nat 32 + 1)%Z with 257%Z in Bf. change (- (257))%Z with (-257)%Z in Bf.
    assert (Em : mtab (mrows (p_beta open_classes)) (ncols (p_beta open_classes)) (fun i j => slog (mget (p_eta open_classes) i y) * vget [half; half] j)%S = mk_mat 2 [[q; q]; [q; q]]).
    { destruct y as [|[|y]]; [reflexivity|reflexivity|lia]. }
    rewrite Em. unfold mmapM, vmapM. cbn [mcols mrows map seqM]. rewrite Ef. cbn [bind seqM]. f_equal.
    assert (Pf : 0 < pow (-257)) by apply bpow_gt_0.
    assert (Pos : forall i, (i < 2)%nat -> is_finite (dmul one (vget e i)) = true /\ pow (-257) <= B2R (dmul one (vget e i)) <= pow 257).
    { intros i Hi. destruct (Be i Hi) as [Fe Bi]. destruct (mul_in one (vget e i) F1 Fe (pow (-257)) (pow 257) (rep_pow (-257) ltac:(lia)) (rep_pow 257 ltac:(lia))) as (F & _ & B); [rewrite V1; lra|]. split; [exact F|exact B]. }
    assert (Raw : forall i, (i < 2)%nat -> is_finite (dmul (dmul one (vget e i)) f) = true /\ 0 < B2R (dmul (dmul one (vget e i)) f) <= pow 600).
    { intros i Hi. destruct (Pos i Hi) as [F B]. destruct (mul_in (dmul one (vget e i)) f F Ff (pow (-514)) (pow 514) (rep_pow (-514) ltac:(lia)) (rep_pow 514 ltac:(lia))) as (Fr & _ & Br).
      - change (-514)%Z with (-257 + -257)%Z. change 514%Z with (257 + 257)%Z. rewrite !bpow_plus. split; apply Rmult_le_compat; lra.
      - split; [exact Fr|]. pose proof (bpow_gt_0 radix2 (-514)). assert (pow 514 <= pow 600) by (apply bpow_le; lia). lra. }
    assert (Nul : forall i, (i < 2)%nat -> dmul (dmul zero (vget e i)) f = zero).
    { intros i Hi. destruct (Be i Hi) as [Fe Bi]. norm. rewrite (zero_times (vget e i) Fe) by lra. apply zero_times; [exact Ff|lra]. }
    destruct (Raw 0%nat ltac:(lia)) as [Fr0 Br0]. destruct (Raw 1%nat ltac:(lia)) as [Fr1 Br1].
    set (r0 := dmul (dmul one (vget e 0)) f) in *. set (r1 := dmul (dmul one (vget e 1)) f) in *.
    assert (Er : mtab (mrows (p_beta open_classes)) (ncols (p_beta open_classes)) (fun i j => mget (p_beta open_classes) i j * vget e i * mget (mk_mat 2 [[f; f]; [f; f]]) i j)%S = mk_mat 2 [[r0; zero]; [zero; r1]]).
    { rewrite <- (Nul 0%nat ltac:(lia)) at 2. rewrite <- (Nul 1%nat ltac:(lia)) at 1. reflexivity. }
    rewrite Er. destruct (share_one r0 true Fr0 Br0) as (Z0 & A0 & B0). destruct (share_one r1 false Fr1 Br1) as (Z1 & A1 & B1). cbn beta iota in *.
    unfold normalize_cols. cbn [mrows ncols mcols length]. unfold mtab, vtab. cbn [seq map]. cbv zeta.
    change (mcol (mk_mat 2 [[r0; zero]; [zero; r1]]) 0) with [r0; zero]. change (mcol (mk_mat 2 [[r0; zero]; [zero; r1]]) 1) with [zero; r1]. rewrite Z0, Z1.
    cbn [mget mcols nth]. now rewrite A0, B0, A1, B1.
  Qed.
  Lemma tau_exact y : (y < 2)%nat -> compute_supervised_correspondence_tau y (p_eta open_classes) ident = Ok [half; half].
  Proof.
    intros Hy. destruct log_half as [Fl Bl]. destruct (one_d lg ex lga sum) as [F1 V1]. set (L := slog half) in *.
    unfold compute_supervised_correspondence_tau. cbv zeta.
    assert (EL : vtab (mrows (p_eta open_classes)) (fun i => slog (mget (p_eta open_classes) i y)) = [L; L]) by (destruct y as [|[|y]]; [reflexivity|reflexivity|lia]). rewrite EL.
    assert (Eo : dmul one L = L).
    { destruct (mul_in one L F1 Fl (B2R L) (B2R L) (rep_val L Fl) (rep_val L Fl)) as (F & _ & B); [rewrite V1; lra|]. apply same_double; [exact F|exact Fl|lra|lra]. }
    assert (Ez : is_finite (dmul zero L) = true /\ B2R (dmul zero L) = 0).
    { destruct (mul_in zero L (zero_d lg ex lga sum) Fl 0 0 (rep_Z 0 ltac:(lia)) (rep_Z 0 ltac:(lia))) as (F & _ & B); [change (B2R (zero : double)) with 0; lra|]. split; [exact F|lra]. }
    destruct Ez as [Fz Vz].
    assert (R2 : rep (2 * B2R L)).
    { apply rep_twice. rewrite Rabs_left1 by lra. apply Rle_lt_trans with (pow 2); [change (pow 2) with 4; lra|apply bpow_lt; lia]. }
    assert (Sum : forall l, l = [dmul one L; dmul zero L] \/ l = [dmul zero L; dmul one L] -> redux l = L).
    { intros l Hl. assert (S : summed l (redux l)) by exact (Hsum l). destruct (exact_sum (B2R L) l (redux l) (rep_val L Fl) R2 S) as [Fs Vs].
      - destruct Hl; subst l; cbn; lia.
      - intros x Hx. assert (Hx' : x = dmul one L \/ x = dmul zero L) by (destruct Hl; subst l; destruct Hx as [<-|[<-|[]]]; auto). destruct Hx' as [->| ->]; [rewrite Eo; split; [exact Fl|now right]|split; [exact Fz|now left]].
      - apply same_double; try assumption; [|lra]. rewrite Vs. destruct Hl; subst l; unfold lval, lsum; cbn [map fold_right]; rewrite Eo, Vz; lra. }
    assert (Ev : matT_vec ident [L; L] = [L; L]).
    { unfold matT_vec. cbn [ncols mcols length]. unfold vtab. cbn [seq map].
      assert (D0 : dot (mcol ident 0) [L; L] = L) by (apply (Sum [dmul one L; dmul zero L]); now left). assert (D1 : dot (mcol ident 1) [L; L] = L) by (apply (Sum [dmul zero L; dmul one L]); now right).
      now rewrite D0, D1. }
    rewrite Ev. destruct (fast_exp_range lg ex lga sum Hex 32 L ltac:(lia) Fl) as (f & Ef & Ff & Bf & _). { replace (INR 32) with 32 by (rewrite INR_IZR_INZ; reflexivity). lra. }
    change (8 * Z.of_nat 32 + 1)%Z with 257%Z in Bf. change (- (257))%Z with (-257)%Z in Bf. unfold vmapM. cbn [map seqM]. rewrite Ef. cbn [bind seqM]. f_equal. pose proof (bpow_gt_0 radix2 (-257)). assert (pow 257 <= pow 600) by (apply bpow_le; lia). assert (pow (-1000) <= pow (-257)) by (apply bpow_le; lia).
    apply halves; [exact Ff|lra|lra].
  Qed.

  Variables (iterations : nat) (tol likelihood mu' : double).
  Hypothesis Hi : (1 <= iterations)%nat.
  Hypothesis Ft : is_finite tol = true.
  Hypothesis Bt : B2R tol <= / 2.
  Notation cf := (mk_econf iterations tol likelihood).
  Notation E_step := (Correspondence cf mu').

  Lemma open_step (d : doc double) (y : nat) emit : (y < 2)%nat -> d_words d = [1; 0]%Z \/ d_words d = [0; 1]%Z -> d_class d = Some (Z.of_nat y) ->
    exists g ev, correspondence_doc_e_step 7 cf mu' emit d open_classes = Ok (mk_vparams g ident [half; half], ev) /\ length g = 2%nat.
  Proof.
    intros Hy HX Ey. pose proof (open_double (d_words d) y HX Hy) as DC. pose proof (DI' lg ex lga sum (d_words d) y open_classes DC) as DI.
    destruct (correspondence_strong lg ex lga sum Hlg Hlb Hex Hsum (d_words d) y open_classes DC cf mu' emit d eq_refl Ey) as (g & phi & tau & ev & E & DP & _).
    exists g, ev. split; [|exact (dp_length _ _ _ _ DP)]. rewrite E. clear DP.
    assert (Q : phi = ident /\ tau = [half; half]); [|destruct Q as [-> ->]; reflexivity].
    unfold correspondence_doc_e_step in E. apply bind_ok' in E. destruct E as (N & EN & E). rewrite Ey in E.
    assert (N1 : N = 1%Z) by (destruct HX as [X|X]; rewrite X in EN; cbn in EN; congruence). subst N.
    match type of E with (if ?c then _ else _) = _ => destruct c; [discriminate E|] end. cbv zeta in E. rewrite Nat2Z.id in E.
    apply bind_ok' in E. destruct E as ([[g1 phi1] tau1] & E & R). apply bind_ok' in R. destruct R as (ev1 & _ & R). injection R as -> -> -> _.
    cbn [e_iterations e_tolerance] in E. destruct iterations as [|it]; [lia|]. cbn [em_loop fst snd] in E.
    change (init_gamma (p_alpha open_classes) 1 (mrows (p_beta open_classes))) with (g0 lg ex lga sum) in E. change (mrows (p_beta open_classes)) with 2%nat in E. rewrite (first_test lg ex lga sum Hsum) in E by assumption.
    assert (LX : length (d_words d) = 2%nat) by (destruct HX as [-> | ->]; reflexivity). rewrite LX in E.
    assert (SX : Zsum (d_words d) = 1%Z) by (destruct HX as [-> | ->]; reflexivity).
    change (vtab 2 (fun _ : nat => (one / ofZ (Z.of_nat 2))%S)) with [half; half] in E.
    set (upd := fun s : list double * mat double * list double => let* phi := compute_supervised_correspondence_phi 7 y (p_beta open_classes) (p_eta open_classes) (fst (fst s)) (snd s) in
                  let* tau := compute_supervised_correspondence_tau y (p_eta open_classes) phi in Ok (compute_gamma (d_words d) (p_alpha open_classes) phi, phi, tau)) in *.
    set (inv := fun s : list double * mat double * list double => sound lg ex lga sum (d_words d) open_classes (fst s) /\ snd s = [half; half]).
    assert (HS : double_shares 2 [half; half]).
    { destruct (half_d' lg ex lga sum) as [Fh Vh]. split; [reflexivity|]. split; [intros n Hn; assert (En : vget [half; half] n = half) by (destruct n as [|[|n]]; [reflexivity|reflexivity|lia]); rewrite En, Vh; split; [exact Fh|lra]|]. intros _.
      match goal with |- Rabs (?r - 1) <= _ => replace (r - 1) with 0 by (change r with (B2R half + (B2R half + 0)); rewrite Vh; lra) end. rewrite Rabs_R0. apply Rle_mult_inv_pos; [cbn; lra|]. apply pow_lt. lra. }
    assert (Step : forall s, inv s -> exists s', upd s = Ok s' /\ inv s' /\ snd (fst s') = ident).
    { intros [s t] [S T]. cbn [fst snd] in *. subst t. unfold upd. cbn [fst snd]. pose proof (phi_exact (d_words d) y s DC S Hy) as Ph. rewrite Ph. cbn [bind]. rewrite (tau_exact y Hy). cbn [bind].
      eexists. split; [reflexivity|]. split; [|reflexivity]. split; [|reflexivity]. cbn [fst].
      destruct (correspondence_phi lg ex lga sum Hlg Hlb Hex Hsum (d_words d) y open_classes DC s [half; half] S HS) as (phi' & E' & S' & _). rewrite Ph in E'. injection E' as <-. exact S'. }
    assert (I0 : inv (g0 lg ex lga sum, init_phi 2 2, [half; half])).
    { split; [|reflexivity]. cbn [fst]. pose proof (init_sound lg ex lga sum (d_words d) open_classes DI) as S. rewrite SX, LX in S. exact S. }
    destruct (Step _ I0) as (s1 & E1 & I1 & P1). unfold upd in E1 at 1. cbn [fst snd] in E1. rewrite E1 in E. cbn [bind] in E.
    destruct (em_loop_inv (fun s => inv s /\ snd (fst s) = ident) (fun s => fst (fst s)) upd tol) with (limit := it) (old := g0 lg ex lga sum) (s := s1) as (s & E2 & [S2 T2] & P2).
    { intros s [S _]. destruct (Step s S) as (s' & A & B & C). exists s'. auto. }
    { split; assumption. }
    rewrite E2 in E. injection E as ->. cbn [fst snd] in *. split; assumption.
  Qed.

  (** the M step: sums and quotients without rounding *)
  Lemma half_times : dmul (ofZ 1) half = half /\ dmul one half = half /\ dmul half one = half.
  Proof.
    destruct (half_d' lg ex lga sum) as [Fh Vh]. destruct (one_d lg ex lga sum) as [F1 V1]. destruct (int_d lg ex lga sum 1 ltac:(lia)) as [Fi Vi].
    assert (RH : rep (/ 2)) by (change (/ 2) with (pow (-1)); apply rep_pow; lia).
    assert (M : forall a b : double, is_finite a = true -> is_finite b = true -> B2R a * B2R b = / 2 -> dmul a b = half).
    { intros a b Fa Fb E. destruct (mul_in a b Fa Fb (/ 2) (/ 2) RH RH) as (F & _ & B); [lra|]. apply same_double; [exact F|exact Fh|lra|lra]. }
    split; [|split]; apply M; try assumption; rewrite ?Vi, ?V1, ?Vh; lra.
  Qed.
  Lemma half_plus_one : dsub (dadd half one) one = half.
  Proof.
    destruct (half_d' lg ex lga sum) as [Fh Vh]. destruct (one_d lg ex lga sum) as [F1 V1]. assert (RH : rep (/ 2)) by (change (/ 2) with (pow (-1)); apply rep_pow; lia).
    assert (R3 : rep (3 / 2)). { split; [|rewrite Rabs_pos_eq by lra; apply Rlt_trans with (pow 1); [change (pow 1) with 2; lra|apply bpow_lt; lia]].
      apply generic_format_FLT. exists (Float radix2 3 (-1)); [unfold F2R; cbn; lra|cbn; lia|change (-1074 <= -1)%Z; lia]. }
    destruct (add_in half one Fh F1 (3 / 2) (3 / 2) R3 R3) as (Fa & _ & Ba); [lra|].
    destruct (sub_in (dadd half one) one Fa F1 (/ 2) (/ 2) RH RH) as (Fs & _ & Bs); [lra|]. apply same_double; [exact Fs|exact Fh|lra|lra].
  Qed.
  Lemma half_zero : dadd zero half = half /\ dadd half zero = half /\ dmul half zero = zero /\ dmul zero half = zero /\ dmul one zero = zero.
  Proof.
    destruct (half_d' lg ex lga sum) as [Fh Vh]. destruct (one_d lg ex lga sum) as [F1 V1].
    assert (G : forall x : double, is_finite x = true -> 0 < B2R x -> dadd zero x = x /\ dadd x zero = x /\ dmul x zero = zero /\ dmul zero x = zero).
    { intros x F P. destruct x as [b|b| |b mm ee H]; try discriminate F; [cbn in P; lra|]. destruct b; [|repeat split; reflexivity]. exfalso. assert (B2R (B754_finite true mm ee H : double) < 0) by (cbn; apply F2R_lt_0; reflexivity). lra. }
    destruct (G half Fh ltac:(lra)) as (A & B & C & D). destruct (G one F1 ltac:(lra)) as (_ & _ & C' & _). auto.
  Qed.
  Lemma sum_zero (l : list double) s : summed l s -> (forall x, In x l -> x = zero) -> s = zero.
  Proof.
    intros S. induction S as [|x|l1 s1 l2 s2 l S1 IH1 S2 IH2 P]; intros H; [reflexivity|apply H; now left|].
    rewrite IH1, IH2; [reflexivity| |]; intros x Hx; apply H; (eapply Permutation_in; [apply Permutation_sym; exact P|]); apply in_or_app; auto.
  Qed.
  Lemma sum_row l : l = [half; zero] \/ l = [zero; half] -> redux l = half.
  Proof.
    intros Hl. destruct (half_d' lg ex lga sum) as [Fh Vh]. assert (S : summed l (redux l)) by exact (Hsum l).
    destruct (exact_sum (/ 2) l (redux l)) as [Fs Vs]; try assumption.
    - change (/ 2) with (pow (-1)). apply rep_pow. lia.
    - replace (2 * / 2) with 1 by lra. apply (rep_Z 1). lia.
    - destruct Hl; subst l; cbn [length]; lia.
    - intros x Hx. assert (Hx' : x = half \/ x = zero) by (destruct Hl; subst l; destruct Hx as [<-|[<-|[]]]; auto). destruct Hx' as [->| ->]; [split; [exact Fh|now right]|split; [reflexivity|now left]].
    - apply same_double; [exact Fs|exact Fh| |lra]. rewrite Vs, Vh. destruct Hl; subst l; unfold lval, lsum; cbn [map fold_right]; rewrite Vh; change (B2R (zero : double)) with 0; lra.
  Qed.
  Lemma rows_exact : normalize_rows (mk_mat 2 [[half; zero]; [zero; half]]) = ident.
  Proof.
    destruct (half_d' lg ex lga sum) as [Fh Vh]. assert (B : 0 < B2R half <= pow 600). { rewrite Vh. split; [lra|]. apply Rle_trans with (pow 0); [change (pow 0) with 1; lra|apply bpow_le; lia]. }
    destruct (share_one half true Fh B) as (Z0 & A0 & B0). destruct (share_one half false Fh B) as (Z1 & A1 & B1). cbn beta iota in *.
    unfold normalize_rows. cbn [mrows ncols mcols length]. unfold mtab, vtab. cbn [seq map]. cbv zeta.
    change (mrow (mk_mat 2 [[half; zero]; [zero; half]]) 0) with [half; zero]. change (mrow (mk_mat 2 [[half; zero]; [zero; half]]) 1) with [zero; half]. rewrite Z0, Z1.
    cbn [mget mcols nth]. now rewrite A0, B0, A1, B1.
  Qed.

  Definition settled_at (g : list double) (d : doc double) : item double := (d, mk_vparams g ident [half; half]).
  Lemma words_exact g1 g2 l : l = [settled_at g1 first_class; settled_at g2 second_class] \/ l = [settled_at g2 second_class; settled_at g1 first_class] ->
    totals 2 2 assigned_tau l = mk_mat 2 [[half; zero]; [zero; half]].
  Proof.
    destruct half_times as (T1 & T2 & T3). destruct half_zero as (Z1 & Z2 & Z3 & Z4 & Z5). intros [-> | ->].
    - transitivity (mk_mat 2 [[dadd (dadd zero (dmul one (dmul (ofZ 1) half))) (dmul one (dmul zero half)); dadd (dadd zero (dmul zero (dmul (ofZ 1) half))) (dmul zero (dmul zero half))];
        [dadd (dadd zero (dmul zero (dmul zero half))) (dmul zero (dmul (ofZ 1) half)); dadd (dadd zero (dmul one (dmul zero half))) (dmul one (dmul (ofZ 1) half))]]); [reflexivity|].
      rewrite T1, T2, !Z4, !Z5, ?Z1. change (dadd zero zero) with (zero : double). change (dmul zero zero) with (zero : double). change (dadd zero zero) with (zero : double). now rewrite ?Z1, ?Z2.
    - transitivity (mk_mat 2 [[dadd (dadd zero (dmul one (dmul zero half))) (dmul one (dmul (ofZ 1) half)); dadd (dadd zero (dmul zero (dmul zero half))) (dmul zero (dmul (ofZ 1) half))];
        [dadd (dadd zero (dmul zero (dmul (ofZ 1) half))) (dmul zero (dmul zero half)); dadd (dadd zero (dmul one (dmul (ofZ 1) half))) (dmul one (dmul zero half))]]); [reflexivity|].
      rewrite T1, T2, !Z4, !Z5, ?Z1. change (dadd zero zero) with (zero : double). change (dmul zero zero) with (zero : double). change (dadd zero zero) with (zero : double). now rewrite ?Z1, ?Z2.
  Qed.
  Lemma classes_exact g1 g2 l : l = [settled_at g1 first_class; settled_at g2 second_class] \/ l = [settled_at g2 second_class; settled_at g1 first_class] ->
    smoothed 2 2 one (class_totals 2 2 2 assigned_tau l) = mk_mat 2 [[half; zero]; [zero; half]].
  Proof.
    destruct half_times as (T1 & T2 & T3). destruct half_zero as (Z1 & Z2 & Z3 & Z4 & Z5).
    assert (Zz : redux [zero; zero] = zero) by (apply (sum_zero [zero; zero]); [exact (Hsum _)|intros x [<-|[<-|[]]]; reflexivity]).
    assert (R1 : redux [dmul one (dmul (ofZ 1) half); dmul one (dmul zero half)] = half) by (rewrite T1, T2, Z4, Z5; apply sum_row; now left).
    assert (R2 : redux [dmul one (dmul zero half); dmul one (dmul (ofZ 1) half)] = half) by (rewrite T1, T2, Z4, Z5; apply sum_row; now right).
    assert (N1 : redux [dmul zero (dmul (ofZ 1) half); dmul zero (dmul zero half)] = zero) by (rewrite T1, !Z4; change (dmul zero zero) with (zero : double); exact Zz).
    assert (N2 : redux [dmul zero (dmul zero half); dmul zero (dmul (ofZ 1) half)] = zero) by (rewrite T1, !Z4; change (dmul zero zero) with (zero : double); exact Zz).
    assert (One : dsub (dadd (dadd zero zero) one) one = zero) by reflexivity. pose proof half_plus_one as HP.
    intros Hl. transitivity (mk_mat 2 [[dsub (dadd (dadd zero (redux [dmul one (dmul (ofZ 1) half); dmul one (dmul zero half)])) one) one; dsub (dadd (dadd zero (redux [dmul zero (dmul (ofZ 1) half); dmul zero (dmul zero half)])) one) one];
      [dsub (dadd (dadd zero (redux [dmul zero (dmul zero half); dmul zero (dmul (ofZ 1) half)])) one) one; dsub (dadd (dadd zero (redux [dmul one (dmul zero half); dmul one (dmul (ofZ 1) half)])) one) one]]).
    - destruct Hl; subst l; reflexivity.
    - rewrite R1, R2, N1, N2, Z1, HP, One. reflexivity.
  Qed.

  Definition both : list (doc double) := [first_class; second_class].
  Lemma open_posterior ep (d : doc double) : In d both -> exists g, posterior 7 E_step ep d open_classes = Ok (mk_vparams g ident [half; half]) /\ length g = 2%nat.
  Proof.
    intros Hd. assert (Q : exists y, (y < 2)%nat /\ (d_words d = [1; 0]%Z \/ d_words d = [0; 1]%Z) /\ d_class d = Some (Z.of_nat y)).
    { destruct Hd as [<-|[<-|[]]]; [exists 0%nat|exists 1%nat]; (split; [lia|]; split; [auto|reflexivity]). }
    destruct Q as (y & Hy & HX & Ey). destruct (open_step d y true Hy HX Ey) as (g1 & ev1 & E1 & _). destruct (open_step d y false Hy HX Ey) as (g & ev & E & L).
    exists g. split; [|exact L]. unfold posterior. cbn [doc_e_step]. rewrite E1. cbn [bind]. rewrite E. reflexivity.
  Qed.
  Lemma open_epoch W ep s st p : stats_fresh 2 2 2 s -> partial_fit_call 7 (correspondence_maximizer one) E_step W both (Ok s) (open_classes, ep) st p ->
    p = (split_classes lg ex lga sum, S ep) /\ exists s', st = Ok s'.
  Proof.
    intros Fs E. destruct (open_posterior ep first_class ltac:(now left)) as (g1 & P1 & L1). destruct (open_posterior ep second_class ltac:(right; now left)) as (g2 & P2 & L2).
    destruct (partial_fit_run 7 (correspondence_maximizer one) E_step (correspondence_same lg ex lga sum one) W both s (open_classes, ep) st p [settled_at g1 first_class; settled_at g2 second_class] E (Permutation_refl _)) as (l & Pl & Run).
    { apply Forall_forall. intros x [<-|[<-|[]]]; assumption. }
    assert (Hl : l = [settled_at g1 first_class; settled_at g2 second_class] \/ l = [settled_at g2 second_class; settled_at g1 first_class]) by (apply Permutation_length_2_inv, Permutation_sym, Pl).
    assert (Hx : forall x, In x l -> x = settled_at g1 first_class \/ x = settled_at g2 second_class) by (intros x Hx; destruct Hl; subst l; destruct Hx as [<-|[<-|[]]]; auto).
    edestruct Run as [-> ->].
    { apply (correspondence_run lg ex lga sum one 2 2 2 s l open_classes ltac:(lia) Fs eq_refl eq_refl).
      - apply Forall_forall. intros x Hi'. destruct (Hx x Hi') as [-> | ->]; (split; [reflexivity|]; split; [reflexivity|]; split; [reflexivity|]; assumption).
      - apply Forall_forall. intros x Hi'. destruct (Hx x Hi') as [-> | ->]; reflexivity.
      - apply Forall_forall. intros x Hi'. destruct (Hx x Hi') as [-> | ->]; [exists 0%Z|exists 1%Z]; (split; [reflexivity|lia]).
      - destruct Hl; subst l; discriminate. }
    split; [|eauto]. rewrite (words_exact g1 g2 l Hl), (classes_exact g1 g2 l Hl), rows_exact. reflexivity.
  Qed.
  Lemma split_posterior ep : posterior 7 E_step ep first_class (split_classes lg ex lga sum) = UB.
  Proof. unfold posterior. cbn [doc_e_step]. now rewrite (split_undefined lg ex lga sum Hlg Hl0 Hex Hei Hsum iterations tol likelihood mu' true Hi Ft Bt). Qed.
  Lemma not_ok_stays W D n : forall st p st' p', fit_call 7 (correspondence_maximizer one) E_step W D n st p st' p' -> (forall s, st <> Ok s) -> forall s, st' <> Ok s.
  Proof.
    induction n as [|n IH]; intros st p st' p' F N; inversion F; subst; [exact N|]. eapply IH; [eassumption|]. intros s ->.
    match goal with H : partial_fit_call _ _ _ _ _ _ _ _ _ |- _ => destruct (partial_fit_ok 7 (correspondence_maximizer one) E_step (correspondence_same lg ex lga sum one) _ _ _ _ _ _ H) as (s0 & _ & _ & X & _) end. exact (N s0 X).
  Qed.
  Lemma split_epoch W ep s st p : partial_fit_call 7 (correspondence_maximizer one) E_step W both (Ok s) (split_classes lg ex lga sum, ep) st p -> forall s', st <> Ok s'.
  Proof.
    intros H s' ->. destruct (partial_fit_ok 7 (correspondence_maximizer one) E_step (correspondence_same lg ex lga sum one) _ _ _ _ _ _ H) as (s0 & l & _ & _ & Pl & Fl & _).
    assert (I : In first_class (map fst l)) by (eapply Permutation_in; [apply Permutation_sym; exact Pl|now left]). apply in_map_iff in I. destruct I as (x & Ex & Ix). rewrite Forall_forall in Fl. pose proof (Fl x Ix) as Fx. unfold found in Fx. rewrite Ex in Fx. cbn [fst snd] in Fx. rewrite split_posterior in Fx. discriminate Fx.
  Qed.

  Theorem class_lost W ep : (0 < W)%nat ->
    (exists st p, fit_call 7 (correspondence_maximizer one) E_step W both 1 (Ok new_stats) (open_classes, ep) st p) /\
    (forall st p, fit_call 7 (correspondence_maximizer one) E_step W both 1 (Ok new_stats) (open_classes, ep) st p -> (exists s, st = Ok s) /\ p = (split_classes lg ex lga sum, S ep)) /\
    (forall n st p, fit_call 7 (correspondence_maximizer one) E_step W both (2 + n) (Ok new_stats) (open_classes, ep) st p -> forall s, st <> Ok s).
  Proof.
    intros HW. assert (X0 : stats_fresh 2 2 2 (new_stats : stats double)) by (left; reflexivity). split; [|split].
    - exact (fit_returns 7 2 2 2 _ _ _ _ _ _ E_step W both 1 (step_correspondence 2 2 2 one) HW _ _).
    - intros st p F. inversion F; subst. match goal with H : fit_call _ _ _ _ _ 0 _ _ _ _ |- _ => inversion H; subst end.
      match goal with H : partial_fit_call _ _ _ _ _ _ _ _ _ |- _ => destruct (open_epoch _ _ _ _ _ X0 H) as [-> X] end. split; [exact X|reflexivity].
    - intros n st p F. change (2 + n)%nat with (S (S n)) in F. inversion F; subst. match goal with H : partial_fit_call _ _ _ _ _ _ _ _ _ |- _ => destruct (open_epoch _ _ _ _ _ X0 H) as [-> (s & ->)] end.
      match goal with H : fit_call _ _ _ _ _ (S n) _ _ _ _ |- _ => inversion H; subst end.
      match goal with H : partial_fit_call _ _ _ _ _ (Ok s) _ _ _ |- _ => pose proof (split_epoch _ _ _ _ _ H) as N end. eapply not_ok_stays; eassumption.
  Qed.
End Refute.
