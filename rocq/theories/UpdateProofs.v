(** The updates of the supervised E steps maximise their objectives up to the error of the exponential. *)
Require Import Reals ZArith List Arith Bool Lia Lra.
Require Import Verif.Base Verif.Scalar Verif.Mat Verif.UtilsModel Verif.UtilsSpec Verif.UtilsProofs Verif.DigammaProofs.
Require Import Verif.BuilderModel Verif.EStepModel Verif.EStepSpec Verif.EStepReal Verif.EStepOpt Verif.EStepZero Verif.EStepElbo Verif.EStepCorr Verif.EStepSlda Verif.RenameBase Verif.UpdateSpec.
Import ListNotations.
Open Scope R_scope.

Section Update.
  Variable lg : R -> R.
  Local Hint Extern 0 (ops _) => exact (Rops lg) : typeclass_instances.
  Variable dfuel : nat.
  Hypothesis Hfuel : (7 <= dfuel)%nat.
  Notation fexp := (fexp lg).
  Notation dig := (dig lg).

  (** Normalised columns of beta times positive weights: optimal for worths that are the logarithms of the weights up to a shift
      per column and eps. *)
  Lemma weights_optimal X beta (e t : nat -> nat -> R) (c : nat -> R) phi eps :
    (forall i n, (i < mrows beta)%nat -> (n < ncols beta)%nat -> 0 <= mget beta i n) ->
    (forall x, In x X -> (0 <= x)%Z) -> length X = ncols beta ->
    (forall i n, (i < mrows beta)%nat -> (n < ncols beta)%nat -> 0 < e i n) ->
    (forall i n, (i < mrows beta)%nat -> (n < ncols beta)%nat -> nth n X 0%Z <> 0%Z -> Rabs (ln (e i n) + c n - t i n) <= eps) ->
    (forall i n, (i < mrows beta)%nat -> (n < ncols beta)%nat ->
       rsum (mrows beta) (fun i => mget beta i n * e i n) <> 0 ->
       mget phi i n = mget beta i n * e i n / rsum (mrows beta) (fun i => mget beta i n * e i n)) ->
    forall q, competitor X beta q -> word_part X beta t q <= word_part X beta t phi + 2 * eps * IZR (fold_right Z.add 0%Z X).
  Proof.
    intros Hb HX HXl He Hc Hp q Hq. unfold word_part. change (fold_right Z.add 0%Z X) with (Zsum X). rewrite Zsum_rsum, HXl.
    rewrite <- rsum_mult_l, <- rsum_plus. apply rsum_le. intros n Hn.
    destruct (Z.eq_dec (nth n X 0%Z) 0) as [->|NX]; [lra|].
    assert (0 < IZR (nth n X 0%Z)) by (apply IZR_lt; pose proof (counts_nth X n HX); lia).
    set (K := mrows beta) in *.
    set (w := fun i => mget beta i n * exp (t i n)).
    set (v := fun i => mget beta i n * (exp (c n) * e i n)).
    destruct (Hq n Hn NX) as [Qs Qi]. fold K in Qs, Qi.
    assert (L : forall i, (i < K)%nat -> mget beta i n <> 0 -> ln (w i) = t i n + ln (mget beta i n)).
    { intros i Hi N. unfold w. rewrite ln_mult, ln_exp; [ring| |apply exp_pos]. pose proof (Hb i n Hi Hn). lra. }
    assert (EV : rsum K v = exp (c n) * rsum K (fun i => mget beta i n * e i n)).
    { rewrite <- rsum_mult_l. apply rsum_ext. intros j _. unfold v. ring. }
    assert (NZ : rsum K (fun i => mget beta i n * e i n) <> 0).
    { intros Z. assert (rsum K (fun i => mget q i n) = 0); [|lra]. apply rsum_zero. intros j Hj. apply Qi; [assumption|].
      pose proof (rsum_zero_inv K (fun i => mget beta i n * e i n)) as ZI.
      assert (Zj : mget beta j n * e j n = 0).
      { apply ZI; [|exact Z|exact Hj]. intros k Hk. apply Rmult_le_pos; [now apply Hb|]. left. now apply He. }
      apply Rmult_integral in Zj. pose proof (He j n Hj Hn). lra. }
    assert (P : forall i, (i < K)%nat -> mget phi i n = v i / rsum K v).
    { intros i Hi. rewrite Hp by assumption. rewrite EV. unfold v. pose proof (exp_pos (c n)). field. split; [exact NZ|lra]. }
    assert (G : rsum K (fun i => mget q i n * (ln (w i) - ln (mget q i n))) <=
                rsum K (fun i => v i / rsum K v * (ln (w i) - ln (v i / rsum K v))) + 2 * eps).
    { apply (gibbs_approx K w v eps (fun i => mget q i n)).
      - intros i Hi. pose proof (Hb i n Hi Hn) as B. pose proof (He i n Hi Hn) as F.
        pose proof (exp_pos (c n)) as F2. pose proof (exp_pos (t i n)) as F3.
        assert (F4 : 0 < exp (c n) * e i n) by now apply Rmult_lt_0_compat.
        split; [unfold v; apply Rmult_le_pos; lra|]. split.
        + unfold w, v. split; intros E; apply Rmult_integral in E as [E|E]; try lra; rewrite E; ring.
        + intros NV. assert (NB : mget beta i n <> 0) by (intros Z; apply NV; unfold v; rewrite Z; ring).
          rewrite L by assumption. unfold v. rewrite !ln_mult, ln_exp by (lra || assumption).
          replace (_ - _) with (ln (e i n) + c n - t i n) by ring. now apply Hc.
      - exact Qs.
      - intros i Hi. destruct (Qi i Hi) as [Q1 Q2]. split; [assumption|]. intros E. apply Q2.
        unfold w in E. apply Rmult_integral in E as [E|E]; [assumption|]. pose proof (exp_pos (t i n)). lra. }
    rewrite (rsum_ext K (fun i => mget q i n * (t i n + ln (mget beta i n) - ln (mget q i n)))
                        (fun i => mget q i n * (ln (w i) - ln (mget q i n)))).
    2:{ intros i Hi. destruct (Req_dec (mget beta i n) 0) as [Z|Z].
        - destruct (Qi i Hi) as [_ Q2]. rewrite (Q2 Z). ring.
        - now rewrite L. }
    rewrite (rsum_ext K (fun i => mget phi i n * (t i n + ln (mget beta i n) - ln (mget phi i n)))
                        (fun i => v i / rsum K v * (ln (w i) - ln (v i / rsum K v)))).
    2:{ intros i Hi. rewrite P by assumption. destruct (Req_dec (mget beta i n) 0) as [Z|Z].
        - replace (v i) with 0 by (unfold v; rewrite Z; ring). unfold Rdiv. ring.
        - now rewrite L. }
    apply Rmult_le_compat_l with (r := IZR (nth n X 0%Z)) in G; [|lra]. lra.
  Qed.

  Lemma scale_normalize_get beta (f : nat -> R) i n : (i < mrows beta)%nat -> (n < ncols beta)%nat ->
    rsum (mrows beta) (fun i => mget beta i n * f i) <> 0 ->
    mget (scale_normalize beta (vtab (mrows beta) f)) i n = mget beta i n * f i / rsum (mrows beta) (fun i => mget beta i n * f i).
  Proof.
    intros Hi Hn NZ. unfold scale_normalize. set (W := mtab _ _ _).
    assert (EW : forall i, (i < mrows beta)%nat -> mget W i n = mget beta i n * f i) by (intros j Hj; unfold W; rewrite mget_tab, vget_tab by assumption; reflexivity).
    rewrite (normalize_cols_R lg) by (try exact Hi; unfold W; now rewrite ncols_tab). change (mrows W) with (mrows beta).
    rewrite (rsum_ext _ _ _ EW), EW by assumption. destruct (Req_EM_T _ 0); [contradiction|reflexivity].
  Qed.

  (** the error of the exponential, for an argument known up to delta *)
  Lemma fexp_near a b delta : Rabs (a - b) <= delta -> Rabs (ln (fexp a) - b) <= Rmax 1 (Rabs b) / 1023 + 1 / 10 ^ 9 + 2 * delta.
  Proof.
    intros D. pose proof (fexp_accurate lg a) as A. unfold fexp_err in A.
    assert (0 <= delta) by (pose proof (Rabs_pos (a - b)); lra).
    assert (C : Rmax 1 (Rabs a) <= Rmax 1 (Rabs b) + delta).
    { apply Rmax_lub; [pose proof (Rmax_l 1 (Rabs b)); lra|]. pose proof (Rmax_r 1 (Rabs b)). pose proof (Rabs_triang_inv a b). lra. }
    apply Rabs_le_inv in A, D. apply Rabs_le. lra.
  Qed.

  Variables (psi : R -> R) (X : list Z) (m : params R).
  Hypothesis Hpsi : is_digamma psi.
  Hypothesis PI : proper_input X m.
  Notation K := (mrows (p_beta m)).
  Notation V := (ncols (p_beta m)).
  Variable gamma : list R.
  Hypothesis Hg : length gamma = K.
  Hypothesis Hpos : forall i, (i < K)%nat -> 0 < vget gamma i.
  Lemma gamma_in : forall x, In x gamma -> 0 < x.
  Proof. intros x Hx. destruct (in_vget lg gamma x Hx) as (i & Hi & ->). apply Hpos. now rewrite <- Hg. Qed.
  Lemma gamma_sum : 0 < rsum K (vget gamma).
  Proof. apply rsum_pos_all; [apply (pi_topics _ _ PI)|exact Hpos]. Qed.
  Lemma redux_gamma : redux gamma = rsum K (vget gamma).
  Proof. change (redux gamma) with (lsum gamma). now rewrite <- rsum_lsum, Hg. Qed.

  Lemma multinomial_optimal y w eps :
    (forall i, (i < K)%nat -> Rmax 1 (Rabs (multinomial_worth psi m gamma w y i 0 - 1)) / 1023 + 5 / 10 ^ 9 <= eps) ->
    exists phi, compute_supervised_multinomial_phi dfuel y (p_beta m) (p_eta m) gamma w = Ok phi /\
      forall q, competitor X (p_beta m) q ->
        word_part X (p_beta m) (multinomial_worth psi m gamma w y) q <=
        word_part X (p_beta m) (multinomial_worth psi m gamma w y) phi + 2 * eps * IZR (fold_right Z.add 0%Z X).
  Proof.
    intros He. unfold compute_supervised_multinomial_phi. rewrite (psi_of_R lg dfuel Hfuel) by exact gamma_in. cbn [bind].
    rewrite redux_gamma, (digamma_R lg dfuel Hfuel) by exact gamma_sum. cbn [bind]. cbv zeta. rewrite (vmapM_fexp lg). cbn [bind].
    eexists. split; [reflexivity|]. rewrite vtab_map. set (f := fun i => fexp _).
    apply (weights_optimal X (p_beta m) (fun i _ => f i) (multinomial_worth psi m gamma w y) (fun _ => 1)).
    - apply (pi_beta_nonneg _ _ PI).
    - apply (pi_counts _ _ PI).
    - apply (pi_words _ _ PI).
    - intros i n _ _. apply fexp_pos.
    - intros i n Hi Hn _. specialize (He i Hi). change (multinomial_worth psi m gamma w y i n) with (multinomial_worth psi m gamma w y i 0).
      set (b := multinomial_worth psi m gamma w y i 0) in *. replace (ln (f i) + 1 - b) with (ln (f i) - (b - 1)) by ring.
      eapply Rle_trans; [apply (fexp_near _ (b - 1) (2 / 10 ^ 9))|lra].
      rewrite (vget_map lg dig) by (now rewrite Hg). cbn [add sub mul one slog Rops]. unfold b, multinomial_worth, e_ln_theta.
      pose proof (dig_accurate lg psi _ Hpsi (Hpos i Hi)) as A. pose proof (dig_accurate lg psi _ Hpsi gamma_sum) as B.
      apply Rabs_le_inv in A, B. apply Rabs_le. lra.
    - intros i n Hi Hn. now apply scale_normalize_get.
  Qed.

  Lemma correspondence_optimal y tau eps :
    (forall i n, (i < K)%nat -> (n < V)%nat ->
       Rmax 1 (Rabs (psi (vget gamma i))) / 1023 + Rmax 1 (Rabs (vget tau n * ln (mget (p_eta m) i y))) / 1023 + 4 / 10 ^ 9 <= eps) ->
    exists phi, compute_supervised_correspondence_phi dfuel y (p_beta m) (p_eta m) gamma tau = Ok phi /\
      forall q, competitor X (p_beta m) q ->
        word_part X (p_beta m) (correspondence_worth psi m gamma tau y) q <=
        word_part X (p_beta m) (correspondence_worth psi m gamma tau y) phi + 2 * eps * IZR (fold_right Z.add 0%Z X).
  Proof.
    intros He. destruct (correspondence_phi_get lg dfuel Hfuel y (p_beta m) (p_eta m) gamma tau gamma_in Hg) as (phi & E & _ & _ & G).
    exists phi. split; [exact E|].
    set (f := fun i n => fexp (dig (vget gamma i)) * fexp (ln (mget (p_eta m) i y) * vget tau n)).
    assert (CW : forall i n, cweight lg y (p_beta m) (p_eta m) gamma tau i n = mget (p_beta m) i n * f i n) by (intros; unfold cweight, f; ring).
    apply (weights_optimal X (p_beta m) f (correspondence_worth psi m gamma tau y) (fun _ => - psi (rsum K (vget gamma)))).
    - apply (pi_beta_nonneg _ _ PI).
    - apply (pi_counts _ _ PI).
    - apply (pi_words _ _ PI).
    - intros i n _ _. apply Rmult_lt_0_compat; apply fexp_pos.
    - intros i n Hi Hn _. specialize (He i n Hi Hn). unfold f. rewrite ln_mult by apply fexp_pos. unfold correspondence_worth, e_ln_theta.
      pose proof (fexp_dig_accurate lg psi _ Hpsi (Hpos i Hi)) as A.
      pose proof (fexp_near (ln (mget (p_eta m) i y) * vget tau n) (vget tau n * ln (mget (p_eta m) i y)) 0) as B.
      rewrite Rmult_comm in B at 1. rewrite Rminus_eq_0, Rabs_R0 in B. specialize (B (Rle_refl 0)). rewrite (Rmult_comm (vget tau n)) in B at 1.
      apply Rabs_le_inv in A, B. apply Rabs_le. lra.
    - intros i n Hi Hn NZ. rewrite G by assumption. rewrite (rsum_ext K _ (fun i => mget (p_beta m) i n * f i n) (fun i _ => CW i n)), CW.
      destruct (Req_EM_T _ 0); [contradiction|reflexivity].
  Qed.

  Lemma tau_optimal y phi eps : mrows (p_eta m) = K -> mrows phi = K -> ncols phi = V -> (0 < V)%nat ->
    (forall n, (n < V)%nat -> Rmax 1 (Rabs (rsum K (fun i => mget phi i n * ln (mget (p_eta m) i y)))) / 1023 + 1 / 10 ^ 9 <= eps) ->
    exists tau, compute_supervised_correspondence_tau y (p_eta m) phi = Ok tau /\
      forall q, distribution V q -> tau_part m y phi q <= tau_part m y phi tau + 2 * eps.
  Proof.
    intros H1 H2 H3 HV He. destruct (correspondence_tau_get lg dfuel Hfuel y (p_eta m) phi) as (tau & E & T); [congruence|congruence|]. exists tau. split; [exact E|].
    intros q (Q1 & Q2 & Q3). unfold tau_part. rewrite H3, H2 in T.
    set (b := fun n => rsum K (fun i => mget phi i n * ln (mget (p_eta m) i y))) in *. set (v := fun n => fexp (b n)) in *.
    rewrite (rsum_ext V _ (fun n => vget q n * (ln (exp (b n)) - ln (vget q n)))) by (intros n Hn; now rewrite ln_exp).
    rewrite (rsum_ext V (fun n => vget tau n * _) (fun n => v n / rsum V v * (ln (exp (b n)) - ln (v n / rsum V v)))).
    2: { intros n Hn. rewrite (T n Hn), ln_exp. reflexivity. }
    apply (gibbs_approx V (fun n => exp (b n)) v eps (vget q)).
    - intros n Hn. pose proof (fexp_pos lg (b n)) as F. pose proof (exp_pos (b n)) as F2. unfold v. split; [lra|]. split; [lra|]. intros _. rewrite ln_exp.
      eapply Rle_trans; [apply fexp_accurate|]. unfold fexp_err. now apply He.
    - exact Q3.
    - intros n Hn. split; [now apply Q2|]. intros Z. pose proof (exp_pos (b n)). lra.
  Qed.

  Lemma scale_exists (eta : mat R) mx k : max_coeff (mall eta) = Some (mx, k) -> scale_of eta (if Rlt_dec 0 mx then mx else 1).
  Proof.
    intros E. apply max_coeff_spec in E as [A B]. apply (in_mall lg) in A as (i & c & Hi & Hc & A).
    assert (U : forall i c, (i < mrows eta)%nat -> (c < ncols eta)%nat -> mget eta i c <= mx).
    { intros i' c' Hi' Hc'. apply B. apply (in_mall lg). eauto. }
    destruct (Rlt_dec 0 mx) as [P|P].
    - left. split; [exact P|]. split; [|exact U]. now exists i, c.
    - right. split; [reflexivity|]. intros i' c' Hi' Hc'. pose proof (U i' c' Hi' Hc'). lra.
  Qed.
  Lemma scale_unique (eta : mat R) s s' : scale_of eta s -> scale_of eta s' -> s = s'.
  Proof.
    intros [(P & (i & c & Hi & Hc & E) & U)|(-> & U)] [(P' & (i' & c' & Hi' & Hc' & E') & U')|(-> & U')].
    - pose proof (U i' c' Hi' Hc'). pose proof (U' i c Hi Hc). lra.
    - pose proof (U' i c Hi Hc). lra.
    - pose proof (U i' c' Hi' Hc'). lra.
    - reflexivity.
  Qed.

  Lemma fast_optimal y w phi0 s eps : (0 < Zsum X)%Z -> class_in_range y m -> mrows phi0 = K -> ncols phi0 = V -> scale_of (p_eta m) s ->
    let z := shares X phi0 in
    (forall i, (i < K)%nat -> Rmax 1 (Rabs (psi (vget gamma i) + w * (class_pull fexp (p_eta m) z (Z.to_nat y) i / s))) / 1023 + 3 / 10 ^ 9 <= eps) ->
    exists phi, compute_supervised_approximate_phi dfuel (ratio X (Zsum X)) (Zsum X) (Z.to_nat y) (p_beta m) (p_eta m) gamma w phi0 = Ok phi /\
      forall q, competitor X (p_beta m) q ->
        word_part X (p_beta m) (fast_worth fexp psi m gamma w s z (Z.to_nat y)) q <=
        word_part X (p_beta m) (fast_worth fexp psi m gamma w s z (Z.to_nat y)) phi + 2 * eps * IZR (fold_right Z.add 0%Z X).
  Proof.
    intros HN [C1 C2] P1 P2 HS z He. unfold compute_supervised_approximate_phi. destruct (Z.eqb_spec (Zsum X) 0) as [Z0|_]; [lia|].
    rewrite (psi_of_R lg dfuel Hfuel) by exact gamma_in. cbn [bind]. rewrite (vmapM_fexp lg). cbn [bind]. cbv zeta.
    destruct (max_coeff_some lg (mall (p_eta m))) as (mx & k & Emx).
    { intros E. apply (f_equal (@length R)) in E. rewrite mall_length, C1 in E. cbn [length] in E.
      apply Nat.eq_mul_0 in E. pose proof (pi_topics _ _ PI). destruct E; lia. }
    rewrite Emx. cbv beta iota. rewrite (scale_unique _ _ _ HS (scale_exists _ _ _ Emx)) in *. clear s HS.
    rewrite (vmapM_fexp lg). cbn [bind]. eexists. split; [reflexivity|]. rewrite vtab_map.
    set (zb := sum_cols_scaled _ _ _). set (es := if ltb _ mx then _ else _).
    assert (Z : forall i, (i < K)%nat -> vget zb i = z i).
    { intros i Hi. unfold zb. rewrite (sum_cols_R lg), vtab_length, P1, vget_tab, vget_tab by (try rewrite P1; assumption). cbn [zero Rops].
      rewrite Rplus_0_l. unfold z, shares. apply rsum_ext. intros n Hn. rewrite P2 in Hn. now rewrite (ratio_R lg X m PI n Hn). }
    set (sc := if Rlt_dec 0 mx then mx else 1) in *.
    assert (S : forall i c, (i < K)%nat -> (c < ncols (p_eta m))%nat -> mget es i c = mget (p_eta m) i c / sc).
    { intros i c Hi Hc. unfold es, sc. cbn [ltb zero Rops]. destruct (Rlt_dec 0 mx); [|lra]. rewrite mget_tab by (rewrite ?C1; assumption). reflexivity. }
    assert (SN : ncols es = ncols (p_eta m)) by (unfold es; destruct (ltb _ mx); [apply ncols_tab|reflexivity]).
    assert (SR : mrows es = mrows (p_eta m)) by (unfold es; destruct (ltb _ mx); [apply mrows_tab|reflexivity]).
    set (ex := map fexp _). assert (LX : length ex = ncols (p_eta m)) by (unfold ex, matT_vec; now rewrite map_length, vtab_length).
    assert (EX : forall c, (c < ncols (p_eta m))%nat -> vget ex c = fexp (class_score (p_eta m) z c)).
    { intros c Hc. unfold ex. rewrite (vget_map lg fexp) by (unfold ex in LX; rewrite map_length in LX; lia). rewrite (matT_vec_get lg) by assumption. f_equal.
      unfold class_score. rewrite C1. apply rsum_ext. intros i Hi. now rewrite Z. }
    set (f := fun i => fexp _).
    apply (weights_optimal X (p_beta m) (fun i _ => f i) _ (fun _ => - psi (rsum K (vget gamma)))).
    - apply (pi_beta_nonneg _ _ PI).
    - apply (pi_counts _ _ PI).
    - apply (pi_words _ _ PI).
    - intros i n _ _. apply fexp_pos.
    - intros i n Hi Hn _. specialize (He i Hi). unfold fast_worth, e_ln_theta.
      set (pull := class_pull _ _ _ _ _ / sc) in *. replace (_ + _ - _) with (ln (f i) - (psi (vget gamma i) + w * pull)) by ring.
      eapply Rle_trans; [apply (fexp_near _ (psi (vget gamma i) + w * pull) (1 / 10 ^ 9))|lra].
      rewrite (vget_map lg dig) by (now rewrite Hg). rewrite (mat_vec_get lg) by (now rewrite SR, C1). rewrite SN. cbn [add sub mul Rops].
      rewrite S by lia. rewrite (rsum_ext _ _ (fun c => mget (p_eta m) i c * class_probability fexp (p_eta m) z c / sc)).
      2: { intros c Hc. rewrite S by assumption. rewrite (vget_map lg (fun x => div x (redux ex))) by (now rewrite LX). rewrite EX by assumption.
           unfold class_probability. cbn [div Rops]. rewrite (redux_R lg), LX. rewrite (rsum_ext _ (vget ex) _ EX). unfold Rdiv. ring. }
      rewrite rsum_div. pose proof (dig_accurate lg psi _ Hpsi (Hpos i Hi)) as A.
      replace (_ - _) with (dig (vget gamma i) - psi (vget gamma i)); [exact A|]. unfold pull, class_pull. unfold Rdiv. ring.
    - intros i n Hi Hn. now apply scale_normalize_get.
  Qed.
End Update.

(** ** The direction is the gradient of the log probability. *)
Require Import Verif.OptReal.
From Coquelicot Require Import Coquelicot.
Lemma class_pull_gradient {O : ops R} (eta : mat R) (z : nat -> R) y i : (i < mrows eta)%nat -> (y < ncols eta)%nat ->
  is_derive (fun t => ln (class_probability exp eta (fun k => if Nat.eqb k i then t else z k) y)) (z i) (class_pull exp eta z y i).
Proof.
  intros Hi Hy. set (zt := fun t k => if Nat.eqb k i then t else z k).
  assert (Z : forall k, zt (z i) k = z k) by (intros k; unfold zt; destruct (Nat.eqb_spec k i); congruence).
  assert (S : forall c, class_score eta (zt (z i)) c = class_score eta z c) by (intros c; unfold class_score; apply rsum_ext; intros k _; now rewrite Z).
  assert (D : forall c, is_derive (fun t => class_score eta (zt t) c) (z i) (mget eta i c)).
  { intros c. unfold class_score.
    replace (mget eta i c) with (rsum (mrows eta) (fun k => if Nat.eqb k i then mget eta i c else 0)).
    2: { rewrite (rsum_single _ i) by (try exact Hi; intros j Hj N; now apply Nat.eqb_neq in N as ->). now rewrite Nat.eqb_refl. }
    apply (is_derive_rsum (mrows eta) (fun k t => mget eta k c * zt t k)). intros k Hk. unfold zt. destruct (Nat.eqb_spec k i) as [->|N].
    - auto_derive; [exact I|ring].
    - apply d_const. }
  assert (E : forall c, is_derive (fun t => exp (class_score eta (zt t) c)) (z i) (mget eta i c * exp (class_score eta z c))).
  { intros c. pose proof (is_derive_comp exp (fun t => class_score eta (zt t) c) (z i) (exp (class_score eta (zt (z i)) c)) (mget eta i c)) as Cm.
    rewrite S in Cm. apply Cm; [|apply D]. rewrite <- S. apply is_derive_exp. }
  set (G := fun t => rsum (ncols eta) (fun c => exp (class_score eta (zt t) c))).
  assert (GP : forall t, 0 < G t) by (intros t; apply rsum_pos_all; [lia|intros; apply exp_pos]).
  apply (is_derive_ext (fun t => class_score eta (zt t) y - ln (G t))).
  { intros t. unfold class_probability. fold (zt t). change (rsum _ _) with (G t). rewrite ln_div by (apply exp_pos || apply GP). now rewrite ln_exp. }
  unfold class_pull. apply d_minus; [apply D|].
  replace (rsum (ncols eta) (fun c => mget eta i c * class_probability exp eta z c))
    with (rsum (ncols eta) (fun c => mget eta i c * exp (class_score eta z c)) / G (z i)).
  2: { rewrite <- rsum_div. apply rsum_ext. intros c Hc. unfold class_probability, G. rewrite (rsum_ext (ncols eta) (fun c => exp (class_score eta (zt (z i)) c)) (fun c => exp (class_score eta z c))) by (intros; now rewrite S).
       unfold Rdiv. ring. }
  apply ln_derive; [|apply GP]. apply (is_derive_rsum (ncols eta) (fun c t => exp (class_score eta (zt t) c))). intros c Hc. apply E.
Qed.
