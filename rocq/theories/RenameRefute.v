(** A training set on which the numbers of the classes matter. *)
Require Import Reals ZArith List Arith Bool Lia Lra Permutation.
Require Import Verif.Base Verif.Scalar Verif.Mat Verif.UtilsModel Verif.UtilsProofs
  Verif.BuilderModel Verif.EStepModel Verif.OptModel Verif.OptSpec Verif.OptReal Verif.OptProofs Verif.MStepModel Verif.MStepSpec Verif.MStepAny
  Verif.LdaModel Verif.TrainPerm Verif.RenameSpec.
Import ListNotations.
Local Open Scope nat_scope.

Section Real.
  Variable lg : R -> R.
  Local Hint Extern 0 (ops _) => exact (Rops lg) : typeclass_instances.
  (** A document of one word, of class y, with one topic. *)
  Definition one_item (y : Z) : item R := (mk_doc [1%Z] (Some y) 1 [1%R; 1%R], mk_vparams [2%R] (mk_mat 1 [[1%R]]) []).
  Definition one_model : params R := mk_params [1%R] (mk_mat 1 [[1%R]]) (mtab 1 2 (fun _ _ => 0%R)).
  Local Open Scope R_scope.

  Lemma rsum_1 f : rsum 1 f = f 0%nat.
  Proof. unfold rsum, vtab. cbn. lra. Qed.
  Lemma rsum_2 f : rsum 2 f = f 0%nat + f 1%nat.
  Proof. unfold rsum, vtab. cbn. lra. Qed.

  Section One.
    Variables (y : nat) (w : R) (Cy : list R).
    Hypothesis Hy : (y < 2)%nat.
    Hypothesis Hw : w = 1 \/ w = / 2.
    Hypothesis Hl : (y < length Cy)%nat.
    Hypothesis Hc : vget Cy y = w.
    Let X : mat R := mk_mat 1 [[1]].
    Let p := mk_problem (mlr_value X [Z.of_nat y] Cy 0) (mlr_gradient X [Z.of_nat y] Cy 0).
    Definition margin (t : R) : entries := fun _ c => if Nat.eqb c y then t else - t.
    Lemma value_one t : value p (mtab 1 2 (margin t)) = Ok (w * ln (1 + exp (- (2 * t)))).
    Proof.
      unfold p. cbn [value]. rewrite (mlr_value_R lg 1 2 X [Z.of_nat y] Cy 0 eq_refl (le_n 1)).
      2: { intros l [<-|[]]. lia. }
      f_equal. unfold mlr_raw. cbn [length]. rewrite rsum_1. cbn [nth]. rewrite Nat2Z.id, Hc, rsum_2. unfold score. rewrite !rsum_1. unfold X, mget, margin. cbn [mcols nth].
      assert (E : ln (exp t + exp (- t)) = t + ln (1 + exp (- (2 * t)))).
      { replace (exp t + exp (- t)) with (exp t * (1 + exp (- (2 * t)))). 2: { rewrite Rmult_plus_distr_l, <- exp_plus. replace (t + - (2 * t)) with (- t) by lra. lra. }
        rewrite ln_mult, ln_exp; [reflexivity|apply exp_pos|]. pose proof (exp_pos (- (2 * t))). lra. }
      destruct y as [|[|]]; [| |lia]; cbn [Nat.eqb]; rewrite !Rmult_1_r; [rewrite E|rewrite (Rplus_comm (exp (- t))), E]; lra.
    Qed.
    Lemma gradient_zero : gradient p (mtab 1 2 (margin 0)) = Ok (mtab 1 2 (margin (- (w / 2)))).
    Proof.
      unfold p. cbn [gradient]. rewrite (mlr_gradient_R lg 1 2 X [Z.of_nat y] Cy 0 eq_refl (le_n 1)).
      2: { intros l [<-|[]]. lia. }
      f_equal. apply mtab_ext. intros i c Hi Hc2. assert (i = 0%nat) by lia. subst i. unfold mlr_grad. cbn [length]. rewrite rsum_1. cbn [nth]. rewrite Nat2Z.id, Hc, rsum_2. unfold score. rewrite !rsum_1.
      assert (Z : forall c, margin 0 0%nat c = 0) by (intros c0; unfold margin; destruct (Nat.eqb c0 y); lra). rewrite !Z, Rmult_0_l, exp_0. unfold X, mget, margin. cbn [mcols nth].
      destruct (Nat.eqb c y); lra.
    Qed.
    Lemma step_margin s al t : step (mtab 1 2 (margin s)) al (mtab 1 2 (margin t)) = mtab 1 2 (margin (s - al * t)).
    Proof.
      unfold step. rewrite mrows_tab, ncols_tab. apply mtab_ext. intros i c Hi Hc2. rewrite !mget_tab by assumption. unfold margin. cbn. destruct (Nat.eqb c y); lra.
    Qed.
    Lemma enough : w * ln (1 + exp (- (2 * (w / 2)))) <= w * ln 2 - / 1000 * (w * w / 2).
    Proof.
      assert (E : 1 + exp (- w) <= 5 / 3).
      { rewrite exp_Ropp. assert (3 / 2 <= exp w). { pose proof (exp_ineq1_le w). destruct Hw as [->| ->]; lra. }
        assert (/ exp w <= / (3 / 2)) by (apply Rinv_le_contravar; lra). lra. }
      replace (- (2 * (w / 2))) with (- w) by lra. pose proof (exp_pos (- w)) as Pw. assert (L : ln (1 + exp (- w)) <= ln 2 - / 6).
      { assert (ln (1 + exp (- w)) <= ln (5 / 3)). { destruct E as [E| ->]; [left; apply ln_increasing; lra|lra]. }
        assert (ln 2 = ln (5 / 3) + ln (6 / 5)) by (rewrite <- ln_mult by lra; f_equal; lra).
        assert (/ 6 <= ln (6 / 5)). { pose proof (exp_ineq1_le (- ln (6 / 5))) as Q. rewrite exp_Ropp, exp_ln in Q by lra. lra. }
        lra. }
      destruct Hw as [->| ->]; lra.
    Qed.
    Lemma fit_one t : exists e, fit_eta 1 1 t p (mtab 1 2 (margin 0)) = Ok (mtab 1 2 (margin (w / 2)), e).
    Proof.
      assert (W : 0 < w) by (destruct Hw as [->| ->]; lra).
      assert (Ln : 0 <= ln 2) by (rewrite <- ln_1; left; apply ln_increasing; lra).
      unfold fit_eta. rewrite value_one. cbn [bind minimize]. unfold m_progress at 1. cbn [fst snd].
      replace (1 + exp (- (2 * 0))) with 2 by (rewrite Rmult_0_r, Ropp_0, exp_0; lra).
      replace (ltb (w * ln 2) zero) with false. 2: { cbn. destruct (Rlt_dec (w * ln 2) 0); [|reflexivity]. exfalso. assert (0 <= w * ln 2) by (apply Rmult_le_pos; lra). lra. }
      replace (eqb (sub (w * ln 2) (w * ln 2)) zero) with true. 2: { cbn. destruct (Req_EM_T (w * ln 2 - w * ln 2) 0); [reflexivity|lra]. }
      cbn [negb andb Nat.ltb Nat.leb]. rewrite gradient_zero. cbn [bind]. unfold armijo_search at 1. rewrite value_one. cbn [bind].
      replace (1 + exp (- (2 * 0))) with 2 by (rewrite Rmult_0_r, Ropp_0, exp_0; lra).
      match goal with |- context [mul ?b (redux (mall ?m))] => replace (mul b (redux (mall m))) with (/ 1000 * (w * w / 2)) end.
      2: { rewrite mrows_tab, ncols_tab. unfold mall. rewrite ncols_tab. unfold vtab. cbn [seq map concat app]. rewrite !mcol_tab by lia. unfold vtab. cbn [seq map app].
           rewrite !mget_tab by lia. unfold margin. destruct y as [|[|]]; [| |lia]; cbn; lra. }
      cbn [armijo_loop].
      replace (ltb (sub (w * ln 2) (mul (div one half) (/ 1000 * (w * w / 2)))) (w * ln 2)) with true.
      2: { unfold half. cbn. destruct (Rlt_dec (w * ln 2 - 1 / (1 / 2) * (/ 1000 * (w * w / 2))) (w * ln 2)) as [|N]; [reflexivity|]. exfalso. apply N. assert (0 < w * w) by now apply Rmult_lt_0_compat. lra. }
      replace (mul (div one half) half) with 1 by (unfold half; cbn; lra). rewrite step_margin. replace (0 - 1 * - (w / 2)) with (w / 2) by lra. rewrite value_one. cbn [bind armijo_loop].
      match goal with |- context [ltb ?u ?v] => replace (ltb u v) with false end.
      2: { cbn. pose proof enough as Q. match goal with |- context [Rlt_dec ?u ?v] => destruct (Rlt_dec u v); [exfalso; lra|reflexivity] end. }
      cbn [bind]. rewrite step_margin. replace (0 - 1 * - (w / 2)) with (w / 2) by lra. cbn [minimize]. unfold m_progress at 1. cbn [Nat.ltb Nat.leb andb bind]. eauto.
    Qed.
  End One.
  Lemma trained_one y t : (y < 2)%nat -> exists e, trained 1 1 t 0 1 [one_item (Z.of_nat y)] one_model = Ok (mtab 1 2 (margin y (/ (INR y + 1) / 2)), e).
  Proof.
    intros Hy. unfold trained, mlr. assert (E : class_weights (map class_of [one_item (Z.of_nat y)]) = Ok (vtab (y + 1) (fun c => if Nat.eqb c y then / (INR y + 1) else 1 / (0 * IZR (Z.of_nat y + 1))))).
    { unfold class_weights. cbn [map max_label fold_left bind class_of fst one_item d_class forallb andb length].
      replace (0 <=? Z.of_nat y)%Z with true by (symmetry; apply Z.leb_le; lia). replace (Z.of_nat y <? 2 ^ 31 - 1)%Z with true by (symmetry; apply Z.ltb_lt; lia). cbn [andb].
      f_equal. replace (Z.to_nat (Z.of_nat y + 1)) with (y + 1)%nat by lia. apply vtab_ext. intros c Hc. unfold count_label. cbn [fold_left].
      destruct (Nat.eqb_spec c y) as [->|N].
      - rewrite Z.eqb_refl. cbn. rewrite plus_IZR, <- INR_IZR_INZ. unfold Rdiv. rewrite Rplus_0_l, !Rmult_1_l. reflexivity.
      - replace (Z.of_nat y =? Z.of_nat c)%Z with false by (symmetry; apply Z.eqb_neq; lia). reflexivity. }
    rewrite E. cbn [bind]. set (Cy := vtab _ _). assert (L : length Cy = (y + 1)%nat) by apply vtab_length.
    assert (V : vget Cy y = / (INR y + 1)) by (unfold Cy; rewrite vget_tab by lia; now rewrite Nat.eqb_refl).
    assert (M : mk_mat 1 (map (mixture 1 (p_alpha one_model)) [one_item (Z.of_nat y)]) = mk_mat 1 [[1]]).
    { f_equal. cbn [map]. f_equal. unfold mixture, excess, vtab. cbn. destruct (Req_EM_T (2 - 1 + 0) 0); [lra|]. f_equal. lra. }
    rewrite M. cbn [map class_of fst one_item d_class].
    replace (p_eta one_model) with (mtab 1 2 (margin y 0)).
    2: { cbn. apply mtab_ext. intros i c _ _. unfold margin. destruct (Nat.eqb c y); lra. }
    apply (fit_one y (/ (INR y + 1)) Cy Hy); [|lia|exact V]. destruct y as [|[|]]; [left|right|lia]; cbn; lra.
  Qed.
End Real.
