(** What the model's objectives, gradients, line search and gradient descent do over the reals. *)
Require Import Reals ZArith List Arith Bool Lia Lra Psatz.
From Coquelicot Require Import Coquelicot.
Require Import Verif.Base Verif.Scalar Verif.Mat Verif.UtilsModel Verif.EStepReal Verif.EStepElbo Verif.OptModel Verif.OptSpec Verif.OptReal.
Import ListNotations.
Open Scope R_scope.

Section Opt.
  Variable lg : R -> R.
  Local Hint Extern 0 (ops _) => exact (Rops lg) : typeclass_instances.

  (** ** Class weights *)
  Lemma count_label_R y c : count_label y c = INR (occurrences y (Z.of_nat c)).
  Proof.
    unfold count_label, occurrences.
    assert (A : forall y a, fold_left (fun n l => if (l =? Z.of_nat c)%Z then add n one else n) y a =
                            a + INR (count_occ Z.eq_dec y (Z.of_nat c))).
    { clear y. induction y as [|l y IH]; intros a; cbn [fold_left count_occ]; [cbn; ring|].
      rewrite IH. destruct (Z.eq_dec l (Z.of_nat c)) as [E|E].
      - apply Z.eqb_eq in E. rewrite E, S_INR. cbn. ring.
      - apply Z.eqb_neq in E. rewrite E. reflexivity. }
    rewrite A. cbn. ring.
  Qed.
  Lemma max_label_R y : y <> [] -> (forall l, In l y -> (0 <= l)%Z) -> max_label y = Ok (largest y).
  Proof.
    intros Hn Hp. destruct y as [|l y]; [congruence|]. unfold max_label, largest. f_equal. cbn [fold_right].
    assert (Hl : (0 <= l)%Z) by (apply Hp; now left).
    assert (Hy : forall l, In l y -> (0 <= l)%Z) by (intros; apply Hp; now right). clear Hp Hn.
    revert l Hl. induction y as [|x y IH]; intros l Hl; cbn [fold_left fold_right]; [lia|].
    assert (0 <= x)%Z by (apply Hy; now left). rewrite IH by (try lia; intros; apply Hy; now right). lia.
  Qed.
  Lemma largest_ge y l : In l y -> (l <= largest y)%Z.
  Proof. unfold largest. induction y as [|x y IH]; intros H; [easy|]. cbn. destruct H as [->|H]; [lia|]. specialize (IH H). lia. Qed.
  Lemma largest_nonneg y : (0 <= largest y)%Z.
  Proof. unfold largest. induction y; cbn; lia. Qed.
  Lemma largest_in y : y <> [] -> (forall l, In l y -> (0 <= l)%Z) -> In (largest y) y.
  Proof.
    intros Hn Hp. induction y as [|x y IH]; [congruence|]. cbn [largest fold_right]. fold (largest y).
    destruct y as [|x' y']; [left; cbn; specialize (Hp x (or_introl eq_refl)); lia|].
    assert (A : In (largest (x' :: y')) (x' :: y')) by (apply IH; [congruence|]; intros; apply Hp; now right).
    destruct (Z.max_spec x (largest (x' :: y'))) as [[_ E]|[_ E]]; rewrite E; [now right|now left].
  Qed.
  Lemma class_weights_R y : y <> [] -> (forall l, In l y -> (0 <= l < 2 ^ 31 - 1)%Z) ->
    exists Cy, class_weights y = Ok Cy /\ length Cy = Z.to_nat (largest y + 1) /\
      forall l, In l y -> vget Cy (Z.to_nat l) = balanced y l.
  Proof.
    intros Hn Hl. unfold class_weights. rewrite max_label_R; [|assumption|intros; now apply Hl]. cbn [bind].
    assert (A : forallb (fun l => 0 <=? l)%Z y = true) by (apply forallb_forall; intros l H; apply Z.leb_le; now apply Hl).
    assert (B : (largest y <? 2 ^ 31 - 1)%Z = true).
    { apply Z.ltb_lt. apply Hl. apply largest_in; [assumption|]. intros; now apply Hl. }
    rewrite A, B. cbn [andb].
    eexists. split; [reflexivity|]. split; [apply vtab_length|].
    intros l H. pose proof (Hl l H). pose proof (largest_ge y l H).
    rewrite vget_tab by lia. rewrite count_label_R, Z2Nat.id by lia. unfold balanced. cbn [div mul ofZ Rops].
    now rewrite <- INR_IZR_INZ.
  Qed.
  (** every class present has total weight D / C *)
  Lemma balanced_total y l : In l y -> INR (occurrences y l) * balanced y l = INR (length y) / IZR (largest y + 1).
  Proof.
    intros H. assert (0 < INR (occurrences y l)) by (apply lt_0_INR; now apply count_occ_In).
    assert (0 < IZR (largest y + 1)) by (apply IZR_lt; pose proof (largest_nonneg y); lia).
    unfold balanced. field. lra.
  Qed.
  Lemma balanced_pos y l : In l y -> 0 < balanced y l.
  Proof.
    intros H. assert (0 < INR (occurrences y l)) by (apply lt_0_INR; now apply count_occ_In).
    assert (0 < IZR (largest y + 1)) by (apply IZR_lt; pose proof (largest_nonneg y); lia).
    assert (0 < INR (length y)) by (apply lt_0_INR; destruct y; [easy|cbn; lia]).
    unfold balanced. apply Rdiv_lt_0_compat; [assumption|]. now apply Rmult_lt_0_compat.
  Qed.

  (** ** Values and gradients *)
  Section Objective.
    Variables (K C : nat) (X : mat R) (y : list Z) (Cy : list R) (L : R).
    Hypothesis HX : mrows X = K.
    Hypothesis HD : (length y <= ncols X)%nat.
    Hypothesis Hy : forall l, In l y -> (0 <= l < Z.of_nat C)%Z /\ (l < Z.of_nat (length Cy))%Z.
    Let x : nat -> nat -> R := fun d i => mget X i d.
    Let w : Z -> R := fun l => vget Cy (Z.to_nat l).

    Lemma fits_R e : fits X y Cy (mtab K C e) = true.
    Proof.
      unfold fits. rewrite mrows_tab, HX, Nat.eqb_refl, ncols_tab. apply Nat.leb_le in HD. rewrite HD. cbn [andb].
      apply forallb_forall. intros l Hl. destruct (Hy l Hl) as [[A B] D].
      apply Z.leb_le in A. apply Z.ltb_lt in B, D. now rewrite A, B, D.
    Qed.
    Lemma label_lt d : (d < length y)%nat -> (label y d < C)%nat.
    Proof. intros H. unfold label. destruct (Hy (nth d y 0%Z)) as [[A B] _]; [now apply nth_In|]. lia. Qed.
    Lemma score_R e d c : (c < C)%nat -> vget (matT_vec (mtab K C e) (mcol X d)) c = score K e (x d) c.
    Proof.
      intros Hc. rewrite (matT_vec_get lg) by (now rewrite ncols_tab). rewrite mrows_tab. apply rsum_ext. intros i Hi.
      rewrite mget_tab by assumption. unfold mcol. rewrite HX. now rewrite vget_tab.
    Qed.
    Lemma matT_length (a : mat R) v : length (matT_vec a v) = ncols a.
    Proof. apply vtab_length. Qed.
    Lemma sumexp_R e d : redux (map sexp (matT_vec (mtab K C e) (mcol X d))) = rsum C (fun c => exp (score K e (x d) c)).
    Proof.
      rewrite (redux_R lg), map_length, matT_length, ncols_tab. apply rsum_ext. intros c Hc.
      rewrite (vget_map lg sexp) by (now rewrite matT_length, ncols_tab). now rewrite score_R.
    Qed.
    Lemma squared_norm_R e : squared_norm (mtab K C e) = inner K C e e.
    Proof.
      unfold squared_norm. change (redux ?l) with (lsum l). unfold mall. rewrite ncols_tab.
      rewrite concat_map, vtab_map, lsum_concat, vtab_map, inner_swap. unfold rsum at 1. f_equal. apply vtab_ext. intros c Hc.
      rewrite mcol_tab by assumption. rewrite vtab_map. reflexivity.
    Qed.
    Lemma mlr_value_R e : mlr_value X y Cy L (mtab K C e) = Ok (mlr_raw K C x y w L e).
    Proof.
      unfold mlr_value. rewrite fits_R. cbn [negb]. f_equal. cbn [add opp mul div ofZ Rops].
      rewrite squared_norm_R. unfold mlr_raw. f_equal; [|unfold Rdiv; ring]. f_equal.
      assert (A : forall n, (n <= length y)%nat -> fold_left (fun (l : R) (d : nat) =>
          sub (l + vget Cy (label y d) * vget (matT_vec (mtab K C e) (mcol X d)) (label y d))
            (vget Cy (label y d) * slog (redux (map sexp (matT_vec (mtab K C e) (mcol X d)))))) (seq 0 n) zero
          = rsum n (fun d => w (nth d y 0%Z) *
              (score K e (x d) (Z.to_nat (nth d y 0%Z)) - ln (rsum C (fun c => exp (score K e (x d) c)))))).
      { induction n as [|n IH]; intros Hn; [reflexivity|].
        rewrite seq_S, fold_left_app, IH by lia. rewrite rsum_S. cbn [fold_left Nat.add]. rewrite score_R by (apply label_lt; lia).
        rewrite sumexp_R. unfold w, label. cbn [sub slog Rops]. ring. }
      apply A. lia.
    Qed.
    Lemma mlr_gradient_R e : mlr_gradient X y Cy L (mtab K C e) = Ok (mtab K C (mlr_grad K C x y w L e)).
    Proof.
      unfold mlr_gradient. rewrite fits_R. cbn [negb]. rewrite mrows_tab, ncols_tab. f_equal.
      match goal with |- mtab _ _ (fun i c => add (mget (fold_left ?F _ _) i c) _) = _ => set (step := F) end.
      assert (A : forall n, (n <= length y)%nat -> fold_left step (seq 0 n) (mtab K C (fun _ _ => zero)) =
          mtab K C (fun i c => rsum n (fun d => w (nth d y 0%Z) * x d i *
            (exp (score K e (x d) c) / rsum C (fun c => exp (score K e (x d) c))
             - (if Nat.eqb c (Z.to_nat (nth d y 0%Z)) then 1 else 0))))).
      { induction n as [|n IH]; intros Hn; [reflexivity|].
        rewrite seq_S, fold_left_app, IH by lia. cbn [fold_left Nat.add]. unfold step. apply mtab_ext. intros i c Hi Hc.
        rewrite !mget_tab by assumption. rewrite rsum_S, sumexp_R.
        rewrite (vget_map lg sexp) by (now rewrite matT_length, ncols_tab). rewrite score_R by assumption.
        unfold w, label, x. cbn [add sub mul div sexp Rops]. destruct (Nat.eqb c (Z.to_nat (nth n y 0%Z))); unfold Rdiv; ring. }
      apply mtab_ext. intros i c Hi Hc. rewrite A by lia. rewrite !mget_tab by assumption. reflexivity.
    Qed.

    Variable V : list (mat R).
    Hypothesis HVn : (length y <= length V)%nat.
    Hypothesis HV : forall v, In v V -> mrows v = K /\ ncols v = K.
    Let v : nat -> nat -> nat -> R := fun d i j => mget (vnth V d) i j.
    Lemma fits_var_R e : fits_var V y (mtab K C e) = true.
    Proof.
      unfold fits_var. rewrite mrows_tab. apply Nat.leb_le in HVn. rewrite HVn. cbn [andb].
      apply forallb_forall. intros a Ha. destruct (HV a Ha) as [-> ->]. now rewrite Nat.eqb_refl.
    Qed.
    Lemma vnth_size d : (d < length y)%nat -> mrows (vnth V d) = K /\ ncols (vnth V d) = K.
    Proof. intros H. apply HV. apply nth_In. lia. Qed.
    Lemma tr_mul_R e d c i : (d < length y)%nat -> (c < C)%nat -> (i < K)%nat ->
      mget (tr_mul (mtab K C e) (vnth V d)) c i = rsum K (fun j => e j c * v d j i).
    Proof.
      intros Hd Hc Hi. destruct (vnth_size d Hd) as [R1 R2]. unfold tr_mul. rewrite ncols_tab, R2, mget_tab by assumption.
      rewrite (dot_R lg), mcol_tab, vtab_length by assumption. apply rsum_ext. intros j Hj.
      rewrite vget_tab by assumption. unfold mcol. rewrite R1, vget_tab by assumption. reflexivity.
    Qed.
    Lemma tr_mul_t_R e d c i : (d < length y)%nat -> (c < C)%nat -> (i < K)%nat ->
      mget (tr_mul (mtab K C e) (transpose (vnth V d))) c i = rsum K (fun j => e j c * v d i j).
    Proof.
      intros Hd Hc Hi. destruct (vnth_size d Hd) as [R1 R2]. unfold tr_mul, transpose.
      rewrite R1, R2, !ncols_tab, mget_tab by assumption.
      rewrite (dot_R lg), !mcol_tab, vtab_length by assumption. apply rsum_ext. intros j Hj.
      now rewrite !vget_tab by assumption.
    Qed.
    Lemma quadratic_R e d c : (d < length y)%nat -> (c < C)%nat ->
      vget (diagonal_mul (tr_mul (mtab K C e) (vnth V d)) (mtab K C e)) c = quadratic K e (v d) c.
    Proof.
      intros Hd Hc. destruct (vnth_size d Hd) as [R1 R2]. unfold diagonal_mul.
      assert (RR : mrows (tr_mul (mtab K C e) (vnth V d)) = C) by (unfold tr_mul; now rewrite mrows_tab, ncols_tab).
      assert (CC : ncols (tr_mul (mtab K C e) (vnth V d)) = K) by (unfold tr_mul; now rewrite ncols_tab).
      rewrite RR, vget_tab by assumption. rewrite (dot_R lg). unfold mrow. rewrite CC, vtab_length, mcol_tab by assumption.
      unfold quadratic. rewrite (rsum_swap K K (fun i j => e i c * v d i j * e j c)). apply rsum_ext. intros i Hi.
      rewrite !vget_tab by assumption. rewrite tr_mul_R by assumption. now rewrite <- rsum_mult_r.
    Qed.
    Lemma half_R : @half R (Rops lg) = / 2.
    Proof. unfold half. cbn. lra. Qed.
    Lemma diagonal_length e d : length (diagonal_mul (tr_mul (mtab K C e) (vnth V d)) (mtab K C e)) = C.
    Proof. unfold diagonal_mul. rewrite vtab_length. unfold tr_mul. now rewrite mrows_tab, ncols_tab. Qed.

    Lemma so_value_R e : so_value X V y Cy L (mtab K C e) = Ok (so_raw K C x v y w L e).
    Proof.
      unfold so_value. rewrite fits_R, fits_var_R. cbn [negb andb]. f_equal. cbn [add opp mul div ofZ Rops].
      rewrite squared_norm_R. unfold so_raw. f_equal; [|unfold Rdiv; ring]. f_equal.
      match goal with |- fold_left ?F _ _ = _ => set (step := F) end.
      assert (A : forall n, (n <= length y)%nat -> fold_left step (seq 0 n) zero
          = rsum n (fun d => w (nth d y 0%Z) *
              (score K e (x d) (Z.to_nat (nth d y 0%Z)) - ln (rsum C (fun c => approx_exp K e (x d) (v d) c))))).
      { induction n as [|n IH]; intros Hn; [reflexivity|].
        rewrite seq_S, fold_left_app, IH by lia. rewrite rsum_S. cbn [fold_left Nat.add]. unfold step. cbv zeta.
        rewrite score_R by (apply label_lt; lia). rewrite matT_length, ncols_tab, (redux_tab lg).
        assert (S : rsum C (fun c => mul (sexp (vget (matT_vec (mtab K C e) (mcol X n)) c))
                      (add one (mul half (vget (diagonal_mul (tr_mul (mtab K C e) (vnth V n)) (mtab K C e)) c)))) =
                    rsum C (fun c => approx_exp K e (x n) (v n) c)).
        { apply rsum_ext. intros c Hc. rewrite score_R by assumption. rewrite quadratic_R by (try assumption; lia).
          rewrite half_R. unfold approx_exp. cbn. unfold Rdiv. ring. }
        cbn [add sub mul Rops one sexp slog zero] in *. rewrite S.
        unfold w, label. ring. }
      apply A. lia.
    Qed.
    Lemma so_gradient_R e : so_gradient X V y Cy L (mtab K C e) = Ok (mtab K C (so_grad K C x v y w L e)).
    Proof.
      unfold so_gradient. rewrite fits_R, fits_var_R. cbn [negb andb]. rewrite mrows_tab, ncols_tab. f_equal.
      match goal with |- mtab _ _ (fun i c => add (mget (fold_left ?F _ _) i c) _) = _ => set (step := F) end.
      assert (A : forall n, (n <= length y)%nat -> fold_left step (seq 0 n) (mtab K C (fun _ _ => zero)) =
          mtab K C (fun i c => rsum n (fun d => w (nth d y 0%Z) *
            (so_grad_doc K e (x d) (v d) i c / rsum C (fun c => approx_exp K e (x d) (v d) c)
             - (if Nat.eqb c (Z.to_nat (nth d y 0%Z)) then 1 else 0) * x d i)))).
      { induction n as [|n IH]; intros Hn; [reflexivity|].
        rewrite seq_S, fold_left_app, IH by lia. cbn [fold_left Nat.add]. unfold step. cbv zeta. apply mtab_ext. intros i c Hi Hc.
        rewrite !mget_tab by assumption. rewrite rsum_S.
        assert (SX : forall c, (c < C)%nat -> vget (map sexp (matT_vec (mtab K C e) (mcol X n))) c = exp (score K e (x n) c)).
        { intros c' Hc'. rewrite (vget_map lg sexp) by (now rewrite matT_length, ncols_tab). now rewrite score_R. }
        rewrite SX by assumption. rewrite quadratic_R by (try assumption; lia).
        rewrite tr_mul_R, tr_mul_t_R by (try assumption; lia).
        assert (NZ : redux (map sexp (matT_vec (mtab K C e) (mcol X n))) + half * dot (map sexp (matT_vec (mtab K C e) (mcol X n)))
                       (diagonal_mul (tr_mul (mtab K C e) (vnth V n)) (mtab K C e)) = rsum C (fun c => approx_exp K e (x n) (v n) c)).
        { rewrite sumexp_R, half_R, (dot_R lg), map_length, matT_length, ncols_tab, <- rsum_mult_l, <- rsum_plus.
          apply rsum_ext. intros c' Hc'. rewrite SX, quadratic_R by (try assumption; lia). unfold approx_exp, Rdiv. ring. }
        cbn [add sub mul div one ofZ Rops] in *. rewrite NZ, half_R.
        assert (SY : (rsum K (fun j => e j c * v n j i) + rsum K (fun j => e j c * v n i j)) / 2 = rsum K (fun j => sym (v n) i j * e j c)).
        { rewrite <- rsum_plus. unfold Rdiv. rewrite <- rsum_mult_r. apply rsum_ext. intros j Hj. unfold sym, Rdiv. ring. }
        rewrite SY. unfold so_grad_doc, w, label, x. destruct (Nat.eqb c (Z.to_nat (nth n y 0%Z))); unfold Rdiv; ring. }
      apply mtab_ext. intros i c Hi Hc. rewrite A by lia. rewrite !mget_tab by assumption. reflexivity.
    Qed.
  End Objective.

  (** the objectives of the three-argument constructors *)
  Lemma raw_objective K C x y w L e : (forall d, (d < length y)%nat -> (Z.to_nat (nth d y 0%Z) < C)%nat) ->
    (forall l, In l y -> w l = balanced y l) -> mlr_raw K C x y w L e = mlr_objective K C x y L e.
  Proof.
    intros Hl Hw. unfold mlr_raw, mlr_objective. do 2 f_equal. apply rsum_ext. intros d Hd.
    rewrite Hw by (now apply nth_In). f_equal. unfold softmax. rewrite ln_quot; [now rewrite ln_exp|apply exp_pos|].
    apply rsum_pos_all; [specialize (Hl d Hd); lia|]. intros. apply exp_pos.
  Qed.
  Lemma gradient_at_ext K C f f' e g : (forall e, f e = f' e) -> gradient_at K C f e g -> gradient_at K C f' e g.
  Proof. intros H G d. apply is_derive_ext with (fun t => f (along e t d)); [intros; apply H|apply G]. Qed.

  Lemma mlr_computes K C X y L : mrows X = K -> (length y <= ncols X)%nat -> y <> [] ->
    (forall l, In l y -> (0 <= l < Z.of_nat C)%Z /\ (l < 2 ^ 31 - 1)%Z) ->
    exists p, mlr X y L = Ok p /\ computes K C p (mlr_objective K C (fun d i => mget X i d) y L).
  Proof.
    intros HX HD Hn Hy. destruct (class_weights_R y Hn) as (Cy & E & HL & HW); [intros l H; specialize (Hy l H); lia|].
    unfold mlr. rewrite E. cbn [bind]. eexists. split; [reflexivity|].
    assert (Hy' : forall l, In l y -> (0 <= l < Z.of_nat C)%Z /\ (l < Z.of_nat (length Cy))%Z).
    { intros l H. specialize (Hy l H). split; [apply Hy|]. rewrite HL. pose proof (largest_ge y l H). lia. }
    assert (Hlab : forall d, (d < length y)%nat -> (Z.to_nat (nth d y 0%Z) < C)%nat).
    { intros d Hd. specialize (Hy (nth d y 0%Z) (nth_In y 0%Z Hd)). lia. }
    assert (EQ : forall e, mlr_raw K C (fun d i => mget X i d) y (fun l => vget Cy (Z.to_nat l)) L e =
                           mlr_objective K C (fun d i => mget X i d) y L e).
    { intros e. now apply raw_objective. }
    split; cbn [value gradient]; intros e.
    - rewrite (mlr_value_R K C X y Cy L HX HD Hy'). now rewrite EQ.
    - eexists. split; [apply (mlr_gradient_R K C X y Cy L HX HD Hy')|].
      eapply gradient_at_ext; [apply EQ|]. now apply mlr_raw_gradient.
  Qed.
  Lemma so_objective_raw K C x v y w L e : (forall l, In l y -> w l = balanced y l) ->
    so_raw K C x v y w L e = so_objective K C x v y L e.
  Proof.
    intros Hw. unfold so_raw, so_objective. do 2 f_equal. apply rsum_ext. intros d Hd.
    rewrite Hw by (now apply nth_In). reflexivity.
  Qed.
  Lemma approx_pos K C e x v : (0 < C)%nat -> psd K v -> 0 < rsum C (fun c => approx_exp K e x v c).
  Proof.
    intros HC Hv. apply rsum_pos_all; [assumption|]. intros c Hc. unfold approx_exp.
    apply Rmult_lt_0_compat; [apply exp_pos|]. specialize (Hv (fun i => e i c)). unfold quadratic. cbn in Hv. lra.
  Qed.
  (** the second-order problem is its objective; the gradient is right wherever the approximation of the normaliser is positive *)
  Lemma so_problem K C X V y L : mrows X = K -> (length y <= ncols X)%nat -> y <> [] ->
    (forall l, In l y -> (0 <= l < Z.of_nat C)%Z /\ (l < 2 ^ 31 - 1)%Z) ->
    (length y <= length V)%nat -> (forall v, In v V -> mrows v = K /\ ncols v = K) ->
    let x := fun d i => mget X i d in let v := fun d i j => mget (vnth V d) i j in
    exists p, so X V y L = Ok p /\
      (forall e, value p (mtab K C e) = Ok (so_objective K C x v y L e)) /\
      forall e, exists g, gradient p (mtab K C e) = Ok (mtab K C g) /\
        ((forall d, (d < length y)%nat -> 0 < rsum C (fun c => approx_exp K e (x d) (v d) c)) ->
         gradient_at K C (so_objective K C x v y L) e g).
  Proof.
    intros HX HD Hn Hy HVn HV x v. destruct (class_weights_R y Hn) as (Cy & E & HL & HW); [intros l H; specialize (Hy l H); lia|].
    unfold so. rewrite E. cbn [bind]. eexists. split; [reflexivity|].
    assert (Hy' : forall l, In l y -> (0 <= l < Z.of_nat C)%Z /\ (l < Z.of_nat (length Cy))%Z).
    { intros l H. specialize (Hy l H). split; [apply Hy|]. rewrite HL. pose proof (largest_ge y l H). lia. }
    assert (Hlab : forall d, (d < length y)%nat -> (Z.to_nat (nth d y 0%Z) < C)%nat).
    { intros d Hd. specialize (Hy (nth d y 0%Z) (nth_In y 0%Z Hd)). lia. }
    split; cbn [value gradient]; intros e.
    - rewrite (so_value_R K C X y Cy L HX HD Hy' V HVn HV). now rewrite so_objective_raw.
    - eexists. split; [apply (so_gradient_R K C X y Cy L HX HD Hy' V HVn HV)|]. intros Hpos.
      apply (gradient_at_ext K C (so_raw K C x v y (fun l => vget Cy (Z.to_nat l)) L)); [intros e'; now apply so_objective_raw|]. now apply so_raw_gradient.
  Qed.
  Lemma so_computes K C X V y L : mrows X = K -> (length y <= ncols X)%nat -> y <> [] ->
    (forall l, In l y -> (0 <= l < Z.of_nat C)%Z /\ (l < 2 ^ 31 - 1)%Z) ->
    (length y <= length V)%nat -> (forall v, In v V -> mrows v = K /\ ncols v = K /\ psd K (mget v)) ->
    exists p, so X V y L = Ok p /\ computes K C p (so_objective K C (fun d i => mget X i d) (fun d => mget (vnth V d)) y L).
  Proof.
    intros HX HD Hn Hy HVn HV.
    destruct (so_problem K C X V y L HX HD Hn Hy HVn) as (p & E & A & B); [intros v Hv; split; now apply HV|].
    exists p. split; [assumption|]. split; [exact A|]. intros e. destruct (B e) as (g & G & H). exists g. split; [assumption|].
    apply H. intros d Hd. apply approx_pos.
    - specialize (Hy (nth d y 0%Z) (nth_In y 0%Z Hd)). lia.
    - apply HV. apply nth_In. lia.
  Qed.

  (** ** Line search *)
  Lemma least (P : nat -> Prop) : (forall n, {P n} + {~ P n}) -> forall n, P n -> exists k, (k <= n)%nat /\ P k /\ forall j, (j < k)%nat -> ~ P j.
  Proof.
    intros D n. induction n as [n IH] using lt_wf_ind. intros H.
    destruct (Forall_dec (fun j => ~ P j) (fun j => match D j with left p => right (fun q => q p) | right q => left q end) (seq 0 n)) as [F|F].
    - exists n. repeat split; [lia|assumption|]. intros j Hj. rewrite Forall_forall in F. apply F. apply in_seq. lia.
    - apply neg_Forall_Exists_neg in F; [|intros j; destruct (D j); [right; tauto|now left]].
      apply Exists_exists in F. destruct F as (j & Hj & F). apply in_seq in Hj. destruct (D j) as [Pj|]; [|tauto].
      destruct (IH j ltac:(lia) Pj) as (k & A & B). exists k. split; [lia|exact B].
  Qed.
  Lemma step_R K C e a d : step (mtab K C e) a (mtab K C d) = mtab K C (along e (- a) d).
  Proof.
    unfold step. rewrite mrows_tab, ncols_tab. apply mtab_ext. intros i c Hi Hc. rewrite !mget_tab by assumption.
    unfold along. cbn. ring.
  Qed.
  (** near the start the decrease is sufficient *)
  Lemma sufficient_near (f : entries -> R) e d s beta : is_derive (fun t => f (along e t d)) 0 s -> 0 < s -> beta < 1 ->
    f (along e 0 d) = f e ->
    exists delta, 0 < delta /\ forall a, 0 < a < delta -> f (along e (- a) d) <= f e - a * (beta * s).
  Proof.
    intros H Hs Hb H0. apply is_derive_Reals in H. 
    destruct (H ((1 - beta) * s)) as (delta & Hd); [apply Rmult_lt_0_compat; lra|].
    exists delta. split; [apply cond_pos|]. intros a Ha.
    assert (N : - a <> 0) by lra. specialize (Hd (- a) N). rewrite Rabs_Ropp, Rabs_pos_eq in Hd by lra. specialize (Hd (proj2 Ha)).
    rewrite Rplus_0_l, H0 in Hd. apply Rabs_def2 in Hd. destruct Hd as [H1 H2].
    assert (E : f (along e (- a) d) - f e = ((f (along e (- a) d) - f e) / (- a)) * (- a)) by (field; lra).
    set (q := (f (along e (- a) d) - f e) / (- a)) in *.
    assert (q * (- a) <= beta * s * (- a)) by nra.
    nra.
  Qed.
  Lemma pow_small tau delta : 0 < tau < 1 -> 0 < delta -> exists n, 0 < tau ^ n < delta.
  Proof.
    intros Ht Hd. destruct (pow_lt_1_zero tau ltac:(rewrite Rabs_pos_eq; lra) delta Hd) as (N & H). exists N.
    specialize (H N (le_n N)). assert (0 < tau ^ N) by (apply pow_lt; lra). rewrite Rabs_pos_eq in H by lra. lra.
  Qed.

  Section Search.
    Variables (K C : nat) (p : problem R) (f : entries -> R).
    Hypothesis Hv : forall e, value p (mtab K C e) = Ok (f e).
    Variables (beta tau : R) (e g d : entries).
    Hypothesis Hb : 0 < beta < 1.
    Hypothesis Ht : 0 < tau < 1.
    Let s := inner K C g d.
    Let violated a := f e - a * (beta * s) < f (along e (- a) d).

    Lemma f_ext a b : (forall i c, (i < K)%nat -> (c < C)%nat -> a i c = b i c) -> f a = f b.
    Proof.
      intros H. assert (E : Ok (f a) = Ok (f b)) by (rewrite <- !Hv; f_equal; now apply mtab_ext). now injection E.
    Qed.
    Lemma loop_R n k fuel : (n <= fuel)%nat -> (forall j, (k <= j < k + n)%nat -> violated (tau ^ j)) -> ~ violated (tau ^ (k + n)) ->
      armijo_loop fuel tau p (mtab K C e) (mtab K C d) (f e) (beta * s) (f (along e (- tau ^ k) d)) (tau ^ k) =
      Ok (f (along e (- tau ^ (k + n)) d), tau ^ (k + n)).
    Proof.
      revert k fuel. induction n as [|n IH]; intros k fuel Hf Hviol Hok.
      - rewrite Nat.add_0_r in *. destruct fuel; cbn [armijo_loop]; cbn [ltb sub mul Rops]; (destruct (Rlt_dec _ _) as [A|A]; [exfalso; apply Hok; exact A|reflexivity]).
      - destruct fuel as [|fuel]; [lia|]. cbn [armijo_loop]. cbn [ltb sub mul Rops].
        destruct (Rlt_dec _ _) as [A|A]; [|exfalso; apply A; apply Hviol; lia].
        rewrite step_R, Hv. cbn [bind].
        replace (tau ^ k * tau) with (tau ^ S k) by (cbn; ring). rewrite IH.
        + replace (S k + n)%nat with (k + S n)%nat by lia. reflexivity.
        + lia.
        + intros j Hj. apply Hviol. lia.
        + replace (S k + n)%nat with (k + S n)%nat by lia. assumption.
    Qed.
    Lemma decrease_R : mul beta (redux (mall (mtab (mrows (mtab K C g)) (ncols (mtab K C g)) (fun i j => mul (mget (mtab K C g) i j) (mget (mtab K C d) i j)))))
      = beta * s.
    Proof.
      rewrite mrows_tab, ncols_tab, (redux_mtab lg). cbn [mul Rops]. f_equal. unfold s. rewrite inner_swap.
      apply rsum_ext. intros c Hc. apply rsum_ext. intros i Hi. now rewrite !mget_tab.
    Qed.

    Lemma armijo_descent : 0 < s -> is_derive (fun t => f (along e t d)) 0 s ->
      exists k, (forall fuel, (k < fuel)%nat ->
          armijo_search fuel beta tau p (mtab K C e) (mtab K C g) (mtab K C d) =
          Ok (mtab K C (along e (- tau ^ k) d), f (along e (- tau ^ k) d))) /\
        f (along e (- tau ^ k) d) <= f e - tau ^ k * (beta * s) /\
        forall j, (j < k)%nat -> violated (tau ^ j).
    Proof.
      intros Hs Hd.
      assert (E0 : f (along e 0 d) = f e) by (apply f_ext; intros; unfold along; ring).
      destruct (sufficient_near f e d s beta Hd Hs) as (delta & Dp & Hn); [lra|assumption|].
      destruct (pow_small tau delta Ht Dp) as (n & Pn).
      assert (Dec : forall k, {~ violated (tau ^ k)} + {~ ~ violated (tau ^ k)}).
      { intros k. unfold violated. destruct (Rlt_dec (f e - tau ^ k * (beta * s)) (f (along e (- tau ^ k) d))); [right; tauto|now left]. }
      destruct (least _ Dec n) as (k & _ & Pk & Lk).
      { intros A. specialize (Hn _ Pn). unfold violated in A. lra. }
      assert (Lk' : forall j, (j < k)%nat -> violated (tau ^ j)).
      { intros j Hj. specialize (Lk j Hj). unfold violated in *. destruct (Rlt_dec (f e - tau ^ j * (beta * s)) (f (along e (- tau ^ j) d))); [assumption|tauto]. }
      exists k. repeat split; [|unfold violated in Pk; lra|assumption].
      intros fuel Hf. unfold armijo_search. rewrite Hv. cbn [bind]. cbv zeta. rewrite decrease_R.
      destruct fuel as [|fuel]; [lia|]. cbn [armijo_loop]. cbn [ltb sub mul div one Rops].
      destruct (Rlt_dec _ _) as [A|A].
      2:{ exfalso. apply A. assert (0 < 1 / tau * (beta * s)); [|lra]. apply Rmult_lt_0_compat; [apply Rdiv_lt_0_compat; lra|]. apply Rmult_lt_0_compat; lra. }
      rewrite step_R, Hv. cbn [bind]. replace (1 / tau * tau) with (tau ^ 0) by (cbn; field; lra).
      rewrite (loop_R k 0 fuel) by (try lia; try assumption; intros; apply Lk'; lia). cbn [bind Nat.add]. now rewrite step_R.
    Qed.
    Lemma armijo_flat fuel : (forall i c, (i < K)%nat -> (c < C)%nat -> d i c = 0) ->
      armijo_search fuel beta tau p (mtab K C e) (mtab K C g) (mtab K C d) = Ok (mtab K C (along e (- (1 / tau)) d), f (along e (- (1 / tau)) d)).
    Proof.
      intros Hz. unfold armijo_search. rewrite Hv. cbn [bind]. cbv zeta. rewrite decrease_R.
      assert (Z : s = 0). { apply rsum_zero. intros i Hi. apply rsum_zero. intros c Hc. rewrite Hz by assumption. ring. }
      assert (E0 : f (along e (- (1 / tau)) d) = f e).
      { apply f_ext. intros i c Hi Hc. unfold along. rewrite Hz by assumption. ring. }
      rewrite Z. destruct fuel; cbn [armijo_loop]; cbn [ltb sub mul div one Rops];
        (destruct (Rlt_dec _ _) as [A|A]; [exfalso; lra|]); cbn [bind]; rewrite step_R, E0; reflexivity.
    Qed.
  End Search.

  Lemma armijo_gradient K C p f beta tau e g : (forall e, value p (mtab K C e) = Ok (f e)) ->
    0 < beta < 1 -> 0 < tau < 1 -> gradient_at K C f e g ->
    exists n a, 0 < a /\ (forall fuel, (n <= fuel)%nat ->
        armijo_search fuel beta tau p (mtab K C e) (mtab K C g) (mtab K C g) =
        Ok (mtab K C (along e (- a) g), f (along e (- a) g))) /\
      f (along e (- a) g) <= f e - a * beta * inner K C g g /\
      ((forall i c, (i < K)%nat -> (c < C)%nat -> g i c = 0) \/
       exists k, a = tau ^ k /\ forall j, (j < k)%nat -> f e - tau ^ j * beta * inner K C g g < f (along e (- tau ^ j) g)).
  Proof.
    intros Hv Hb Ht Hg. destruct (Req_EM_T (inner K C g g) 0) as [Z|Z].
    - pose proof (inner_zero K C g Z) as Hz. exists O, (1 / tau). repeat split.
      + apply Rdiv_lt_0_compat; lra.
      + intros fuel _. now apply armijo_flat.
      + rewrite Z. apply Req_le. rewrite Rmult_0_r, Rminus_0_r. apply (f_ext K C p f Hv). intros i c Hi Hc. unfold along. rewrite Hz by assumption. ring.
      + now left.
    - assert (P : 0 < inner K C g g) by (pose proof (inner_nonneg K C g); lra).
      destruct (armijo_descent K C p f Hv beta tau e g g Hb Ht P (Hg g)) as (k & A & B & D).
      exists (S k), (tau ^ k). repeat split.
      + apply pow_lt. lra.
      + intros fuel Hf. apply A. lia.
      + rewrite Rmult_assoc. exact B.
      + right. exists k. split; [reflexivity|]. intros j Hj. rewrite Rmult_assoc. now apply D.
  Qed.

  (** ** Gradient descent with the callback of the M steps *)
  (** the part of the callback that looks at the values *)
  Definition improved (tolerance : R) (prev : option R) (v : R) : bool :=
    match prev with
    | None => negb (ltb v zero) && eqb (sub v v) zero
    | Some initial => ltb tolerance (div (sub initial v) v)
    end.
  Lemma m_progress_eq limit tolerance s v it :
    m_progress limit tolerance s v it = (Nat.ltb it limit && improved tolerance (fst s) v, (Some v, - v :: snd s))%bool.
  Proof. reflexivity. Qed.

  Lemma minimize_R K C p f limit tolerance : computes K C p f ->
    forall n it e s, (limit <= it + n)%nat -> exists fuel0, forall fuel afuel, (fuel0 <= fuel)%nat -> (fuel0 <= afuel)%nat ->
      exists e' evs, minimize fuel (armijo_search afuel (div one (ofZ 1000)) half) (m_progress limit tolerance) p (mtab K C e) (f e) it s =
        Ok (mtab K C e', (Some (f e'), rev evs ++ - f e :: snd s)) /\
        (length evs <= n)%nat /\ f e' <= f e /\ non_decreasing (- f e :: evs) /\ last (- f e :: evs) 0 = - f e' /\
        ((limit <= it + length evs)%nat \/ (evs = [] /\ improved tolerance (fst s) (f e) = false) \/ small_step tolerance (- f e :: evs)).
  Proof.
    intros [Hv Hg]. induction n as [|n IH]; intros it e s Hlim.
    - exists O. intros fuel afuel _ _. exists e, [].
      assert (A : Nat.ltb it limit = false) by (apply Nat.ltb_ge; lia).
      destruct fuel; cbn [minimize]; rewrite m_progress_eq, A; cbn [andb rev app];
        (split; [reflexivity|]; split; [cbn; lia|]; split; [lra|]; split; [intros i Hi; cbn in Hi; lia|]; split; [reflexivity|left; lia]).
    - destruct (Nat.ltb it limit && improved tolerance (fst s) (f e))%bool eqn:G.
      2:{ exists O. intros fuel afuel _ _. exists e, []. destruct fuel; cbn [minimize]; rewrite m_progress_eq, G; cbn [andb rev app];
          (split; [reflexivity|]; split; [cbn; lia|]; split; [lra|]; split; [intros i Hi; cbn in Hi; lia|]; split; [reflexivity|];
           apply andb_false_iff in G; destruct G as [G|G]; [left; apply Nat.ltb_ge in G; lia|right; left; auto]). }
      destruct (Hg e) as (g & Eg & Dg).
      assert (B1 : 0 < 1 / 1000 < 1) by lra. assert (B2 : 0 < / 2 < 1) by lra.
      destruct (armijo_gradient K C p f (1 / 1000) (/ 2) e g Hv B1 B2 Dg) as (m & a & Pa & SE & SD & _).
      set (e1 := along e (- a) g) in *.
      destruct (IH (S it) e1 (Some (f e), opp (f e) :: snd s)) as (fu & HI); [lia|].
      exists (S (Nat.max m fu)). intros fuel afuel Hf Haf. destruct fuel as [|fuel]; [lia|].
      destruct (HI fuel afuel ltac:(lia) ltac:(lia)) as (e' & evs & RR & RL & RD & RN & RE & RS).
      assert (LE : f e1 <= f e).
      { assert (0 <= a * (1 / 1000) * inner K C g g); [|lra]. apply Rmult_le_pos; [lra|apply inner_nonneg]. }
      exists e', (- f e1 :: evs). cbn [minimize].
      rewrite m_progress_eq, G. rewrite Eg. cbn [bind]. rewrite half_R. cbn [div one ofZ Rops].
      rewrite (SE afuel) by lia. cbn [bind]. rewrite half_R in RR. cbn [div one ofZ opp Rops] in RR. cbn [opp Rops]. rewrite RR. cbn [snd opp Rops].
      split; [|split; [|split; [|split; [|split]]]].
      + do 3 f_equal. cbn [rev]. rewrite <- app_assoc. reflexivity.
      + cbn [length]. lia.
      + lra.
      + intros [|i] Hi; cbn [nth]; [lra|]. apply (RN i). cbn [length] in *. lia.
      + exact RE.
      + destruct RS as [A|[[-> A]|(l & u & v & A & B)]].
        * left. cbn [length]. lia.
        * right. right. exists [], (- f e), (- f e1). split; [reflexivity|]. cbn [improved fst ltb sub div Rops] in A.
          destruct (Rlt_dec _ _) as [|N]; [discriminate|]. replace ((- f e1 - - f e) / - - f e1) with ((f e - f e1) / f e1); [assumption|].
          rewrite Ropp_involutive. f_equal. ring.
        * right. right. exists (- f e :: l), u, v. rewrite A. split; [reflexivity|assumption].
  Qed.
  Lemma fit_eta_R K C p f limit tolerance e : computes K C p f ->
    exists fuel0, forall fuel, (fuel0 <= fuel)%nat ->
      exists e' evs, fit_eta fuel limit tolerance p (mtab K C e) = Ok (mtab K C e', - f e :: evs) /\
        (length evs <= limit)%nat /\ f e' <= f e /\ non_decreasing (- f e :: evs) /\ last (- f e :: evs) 0 = - f e' /\
        (length evs = limit \/ (evs = [] /\ f e < 0) \/ small_step tolerance (- f e :: evs)).
  Proof.
    intros Hc. destruct (minimize_R K C p f limit tolerance Hc limit 0 e (None, [])) as (fu & H); [lia|].
    exists fu. intros fuel Hf. destruct (H fuel fuel Hf Hf) as (e' & evs & RR & A & B & D & E & F). exists e', evs.
    unfold fit_eta. rewrite (proj1 Hc e). cbn [bind]. rewrite RR. cbn [bind snd]. rewrite rev_app_distr, rev_involutive.
    cbn [rev app]. repeat (split; [assumption || reflexivity|]).
    destruct F as [F|[[F G]|F]]; [left; lia| |auto]. right. left. split; [assumption|].
    cbn [improved fst ltb eqb sub zero Rops] in G. destruct (Rlt_dec (f e) 0); [assumption|].
    destruct (Req_EM_T (f e - f e) 0); [discriminate|]. exfalso. lra.
  Qed.

  (** ** The objectives are not negative *)
  Lemma mlr_objective_nonneg K C x y L e : 0 <= L -> (forall l, In l y -> (0 <= l < Z.of_nat C)%Z) ->
    0 <= mlr_objective K C x y L e.
  Proof.
    intros HL Hy. unfold mlr_objective.
    assert (0 <= L / 2 * inner K C e e) by (apply Rmult_le_pos; [lra|apply inner_nonneg]).
    assert (0 <= - rsum (length y) (fun d => balanced y (nth d y 0%Z) * ln (softmax K C e (x d) (Z.to_nat (nth d y 0%Z))))); [|lra].
    rewrite <- rsum_opp. apply rsum_nonneg. intros d Hd.
    assert (In (nth d y 0%Z) y) by now apply nth_In. specialize (Hy _ H0). pose proof (balanced_pos y _ H0).
    assert (ln (softmax K C e (x d) (Z.to_nat (nth d y 0%Z))) <= 0); [|nra].
    assert (P : 0 < rsum C (fun c => exp (score K e (x d) c))) by (apply rsum_pos_all; [lia|intros; apply exp_pos]).
    unfold softmax. rewrite ln_quot, ln_exp by (try apply exp_pos; assumption).
    assert (score K e (x d) (Z.to_nat (nth d y 0%Z)) <= ln (rsum C (fun c => exp (score K e (x d) c)))); [|lra].
    rewrite <- (ln_exp (score K e (x d) (Z.to_nat (nth d y 0%Z)))) at 1. apply ln_le; [apply exp_pos|].
    apply (rsum_le_term C (fun c => exp (score K e (x d) c))); [intros; apply Rlt_le, exp_pos|lia].
  Qed.
  Lemma so_objective_nonneg K C x v y L e : 0 <= L -> (forall l, In l y -> (0 <= l < Z.of_nat C)%Z) ->
    (forall d, (d < length y)%nat -> psd K (v d)) -> 0 <= so_objective K C x v y L e.
  Proof.
    intros HL Hy Hv. unfold so_objective.
    assert (0 <= L / 2 * inner K C e e) by (apply Rmult_le_pos; [lra|apply inner_nonneg]).
    match goal with |- 0 <= - ?a + _ => assert (0 <= - a); [|lra] end.
    rewrite <- rsum_opp. apply rsum_nonneg. intros d Hd.
    assert (I : In (nth d y 0%Z) y) by now apply nth_In. specialize (Hy _ I). pose proof (balanced_pos y _ I).
    match goal with |- 0 <= - (_ * (?a - ?b)) => assert (a <= b); [|nra] end.
    assert (Q : forall c, exp (score K e (x d) c) <= approx_exp K e (x d) (v d) c).
    { intros c. unfold approx_exp. pose proof (exp_pos (score K e (x d) c)). specialize (Hv d Hd (fun i => e i c)). unfold quadratic. cbn in Hv. nra. }
    rewrite <- (ln_exp (score K e (x d) (Z.to_nat (nth d y 0%Z)))) at 1. apply ln_le; [apply exp_pos|].
    apply Rle_trans with (approx_exp K e (x d) (v d) (Z.to_nat (nth d y 0%Z))); [apply Q|].
    apply (rsum_le_term C (fun c => approx_exp K e (x d) (v d) c)); [|lia].
    intros c Hc. apply Rle_trans with (exp (score K e (x d) c)); [apply Rlt_le, exp_pos|apply Q].
  Qed.
End Opt.
