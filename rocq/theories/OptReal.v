(** The objectives of OptModel.v over the reals, their values and gradients. *)
Require Import Reals ZArith List Arith Bool Lia Lra Psatz.
From Coquelicot Require Import Coquelicot.
Require Import Verif.Base Verif.Scalar Verif.Mat Verif.UtilsModel Verif.EStepReal Verif.EStepElbo Verif.OptModel Verif.OptSpec.
Import ListNotations.
Open Scope R_scope.

Lemma d_const (c x : R) : is_derive (fun _ : R => c) x 0.
Proof. exact (is_derive_const (V := R_NormedModule) c x). Qed.
Lemma d_plus (f g : R -> R) (x a b : R) : is_derive f x a -> is_derive g x b -> is_derive (fun t => f t + g t) x (a + b).
Proof. exact (is_derive_plus (V := R_NormedModule) f g x a b). Qed.
Lemma d_minus (f g : R -> R) (x a b : R) : is_derive f x a -> is_derive g x b -> is_derive (fun t => f t - g t) x (a - b).
Proof. exact (is_derive_minus (V := R_NormedModule) f g x a b). Qed.
Lemma d_opp (f : R -> R) (x a : R) : is_derive f x a -> is_derive (fun t => - f t) x (- a).
Proof. exact (is_derive_opp (V := R_NormedModule) f x a). Qed.
Lemma d_scal (f : R -> R) (k x a : R) : is_derive f x a -> is_derive (fun t => k * f t) x (k * a).
Proof. intros H. apply is_derive_scal. exact H. Qed.
Lemma d_mult (f g : R -> R) (x a b : R) : is_derive f x a -> is_derive g x b -> is_derive (fun t => f t * g t) x (a * g x + f x * b).
Proof. intros H G. apply (is_derive_mult f g x a b H G). intros. apply Rmult_comm. Qed.

Lemma is_derive_rsum n (f : nat -> R -> R) (df : nat -> R) (x : R) :
  (forall i, (i < n)%nat -> is_derive (f i) x (df i)) ->
  is_derive (fun t => rsum n (fun i => f i t)) x (rsum n df).
Proof.
  induction n as [|n IH]; intros H.
  - rewrite rsum_0. apply is_derive_ext with (fun _ => 0); [intros t; now rewrite rsum_0|apply d_const].
  - rewrite rsum_S. apply is_derive_ext with (fun t => rsum n (fun i => f i t) + f n t).
    { intros t. now rewrite rsum_S. }
    apply d_plus; [apply IH; intros i Hi; apply H; lia|apply H; lia].
Qed.
Lemma fold_left_rsum n (g : nat -> R) a :
  fold_left (fun s d => s + g d) (seq 0 n) a = a + rsum n g.
Proof.
  induction n as [|n IH]; [rewrite rsum_0; cbn; ring|].
  rewrite seq_S, fold_left_app, IH, rsum_S. cbn. ring.
Qed.
Lemma inner_swap K C a b : inner K C a b = rsum C (fun c => rsum K (fun i => a i c * b i c)).
Proof. apply rsum_swap. Qed.
Lemma inner_ext K C a a' b b' : (forall i c, (i < K)%nat -> (c < C)%nat -> a i c * b i c = a' i c * b' i c) ->
  inner K C a b = inner K C a' b'.
Proof. intros H. apply rsum_ext. intros i Hi. apply rsum_ext. intros c Hc. auto. Qed.
Lemma inner_plus_l K C a a' b : inner K C (fun i c => a i c + a' i c) b = inner K C a b + inner K C a' b.
Proof.
  unfold inner. rewrite <- rsum_plus. apply rsum_ext. intros i Hi. rewrite <- rsum_plus. apply rsum_ext. intros c Hc. ring.
Qed.
Lemma inner_scal_l K C k a b : inner K C (fun i c => k * a i c) b = k * inner K C a b.
Proof.
  unfold inner. rewrite <- rsum_mult_l. apply rsum_ext. intros i Hi. rewrite <- rsum_mult_l. apply rsum_ext. intros c Hc. ring.
Qed.
Lemma inner_rsum_l K C n (a : nat -> entries) b :
  inner K C (fun i c => rsum n (fun d => a d i c)) b = rsum n (fun d => inner K C (a d) b).
Proof.
  induction n as [|n IH].
  - unfold inner. rewrite rsum_0. apply rsum_zero. intros i Hi. apply rsum_zero. intros c Hc. rewrite rsum_0. ring.
  - rewrite rsum_S, <- IH, <- inner_plus_l. apply inner_ext. intros i c _ _. now rewrite rsum_S.
Qed.
Lemma inner_nonneg K C a : 0 <= inner K C a a.
Proof. apply rsum_nonneg. intros i _. apply rsum_nonneg. intros c _. nra. Qed.
Lemma inner_zero K C a : inner K C a a = 0 -> forall i c, (i < K)%nat -> (c < C)%nat -> a i c = 0.
Proof.
  intros H i c Hi Hc.
  assert (A : rsum C (fun c => a i c * a i c) = 0).
  { refine (rsum_zero_inv K (fun i => rsum C (fun c => a i c * a i c)) _ H i Hi). intros j _. apply rsum_nonneg. intros; nra. }
  assert (B : a i c * a i c = 0).
  { refine (rsum_zero_inv C (fun c => a i c * a i c) _ A c Hc). intros; nra. }
  nra.
Qed.

(** the derivative in coordinate directions *)
Lemma gradient_partials K C f e g : (forall a b, (forall i c, (i < K)%nat -> (c < C)%nat -> a i c = b i c) -> f a = f b) ->
  gradient_at K C f e g -> partials_at K C f e g.
Proof.
  intros Hf H i c Hi Hc.
  pose (d := fun i' c' => if (Nat.eqb i' i && Nat.eqb c' c)%bool then 1 else 0).
  assert (E : inner K C g d = g i c).
  { unfold inner. rewrite (rsum_single K i) by
      (try assumption; intros j Hj Hn; apply rsum_zero; intros k Hk; unfold d; apply Nat.eqb_neq in Hn; rewrite Hn; cbn; ring).
    rewrite (rsum_single C c); [unfold d; rewrite !Nat.eqb_refl; cbn; ring|assumption|].
    intros k Hk Hn. unfold d. apply Nat.eqb_neq in Hn. rewrite Hn, andb_false_r. ring. }
  specialize (H d). rewrite E in H.
  apply is_derive_ext with (fun t => f (along e (t - e i c) d)).
  { intros t. apply Hf. intros i' c' _ _. unfold along, with_entry, d.
    destruct (Nat.eqb i' i) eqn:E1, (Nat.eqb c' c) eqn:E2; cbn; try ring.
    apply Nat.eqb_eq in E1, E2. subst. ring. }
  replace (g i c) with (scal 1 (g i c)) by (cbn; unfold mult; cbn; ring).
  apply (is_derive_comp (fun s => f (along e s d)) (fun t => t - e i c)).
  - replace (e i c - e i c) with 0 by ring. assumption.
  - replace 1 with (1 - 0) by ring. apply d_minus; [exact (is_derive_id (K := R_AbsRing) (e i c))|apply d_const].
Qed.

Lemma score_along K e d x c t : score K (along e t d) x c = score K e x c + t * score K d x c.
Proof.
  unfold score. rewrite <- rsum_mult_l, <- rsum_plus. apply rsum_ext. intros i Hi. unfold along. ring.
Qed.
Lemma score_derive K e d x c : is_derive (fun t => score K (along e t d) x c) 0 (score K d x c).
Proof.
  apply is_derive_ext with (fun t => score K e x c + t * score K d x c); [intros t; now rewrite score_along|].
  auto_derive; [trivial|ring].
Qed.
Lemma exp_score_derive K e d x c :
  is_derive (fun t => exp (score K (along e t d) x c)) 0 (exp (score K e x c) * score K d x c).
Proof.
  apply is_derive_ext with (fun t => exp (score K e x c + t * score K d x c)); [intros t; now rewrite score_along|].
  auto_derive; [trivial|]. rewrite Rmult_0_l, Rplus_0_r. ring.
Qed.
Lemma along_0 K C (f : entries -> R) e d : (forall a b, (forall i c, (i < K)%nat -> (c < C)%nat -> a i c = b i c) -> f a = f b) ->
  f (along e 0 d) = f e.
Proof. intros H. apply H. intros. unfold along. ring. Qed.

(** penalty *)
Lemma inner_along_derive K C e d : is_derive (fun t => inner K C (along e t d) (along e t d)) 0 (2 * inner K C e d).
Proof.
  assert (E : 2 * inner K C e d = rsum K (fun i => rsum C (fun c => 2 * (e i c * d i c)))).
  { unfold inner. rewrite <- rsum_mult_l. apply rsum_ext. intros i _. now rewrite <- rsum_mult_l. }
  rewrite E. unfold inner. apply is_derive_rsum. intros i Hi. apply is_derive_rsum. intros c Hc.
  unfold along. auto_derive; [trivial|ring].
Qed.
Lemma ln_derive (f : R -> R) x df : is_derive f x df -> 0 < f x -> is_derive (fun t => ln (f t)) x (df / f x).
Proof.
  intros H P. unfold Rdiv. replace (df * / f x) with (scal df (/ f x)) by reflexivity.
  apply (is_derive_comp ln f); [|assumption]. now apply is_derive_ln.
Qed.

(** log likelihood of one document *)
Lemma lse_derive K C e d x : (0 < C)%nat ->
  is_derive (fun t => ln (rsum C (fun c => exp (score K (along e t d) x c)))) 0
    (rsum C (fun c => exp (score K e x c) * score K d x c) / rsum C (fun c => exp (score K e x c))).
Proof.
  intros HC.
  assert (E : rsum C (fun c => exp (score K e x c)) = rsum C (fun c => exp (score K (along e 0 d) x c))).
  { apply rsum_ext. intros c _. f_equal. rewrite score_along. ring. }
  rewrite E. apply (ln_derive (fun t => rsum C (fun c => exp (score K (along e t d) x c)))).
  - apply is_derive_rsum. intros c Hc. apply exp_score_derive.
  - apply rsum_pos_all; [assumption|]. intros. apply exp_pos.
Qed.

Definition mlr_grad (K C : nat) (x : nat -> nat -> R) (y : list Z) (w : Z -> R) (L : R) (e : entries) : entries :=
  fun i c => rsum (length y) (fun d => w (nth d y 0%Z) * x d i *
      (exp (score K e (x d) c) / rsum C (fun c => exp (score K e (x d) c))
       - (if Nat.eqb c (Z.to_nat (nth d y 0%Z)) then 1 else 0))) + e i c * L.
Definition mlr_raw (K C : nat) (x : nat -> nat -> R) (y : list Z) (w : Z -> R) (L : R) (e : entries) : R :=
  - rsum (length y) (fun d => w (nth d y 0%Z) *
      (score K e (x d) (Z.to_nat (nth d y 0%Z)) - ln (rsum C (fun c => exp (score K e (x d) c)))))
  + L / 2 * inner K C e e.

Lemma inner_outer K C (x : nat -> R) (v : nat -> R) d :
  inner K C (fun i c => x i * v c) d = rsum C (fun c => v c * score K d x c).
Proof.
  rewrite inner_swap. apply rsum_ext. intros c Hc. unfold score. rewrite <- rsum_mult_l. apply rsum_ext. intros i Hi. ring.
Qed.
Lemma rsum_indicator n k (f : nat -> R) : (k < n)%nat -> rsum n (fun i => (if Nat.eqb i k then 1 else 0) * f i) = f k.
Proof.
  intros H. rewrite (rsum_single n k); [rewrite Nat.eqb_refl; ring|assumption|].
  intros i Hi Hn. apply Nat.eqb_neq in Hn. rewrite Hn. ring.
Qed.

Lemma mlr_raw_gradient K C x y w L e :
  (forall d, (d < length y)%nat -> (Z.to_nat (nth d y 0%Z) < C)%nat) ->
  gradient_at K C (mlr_raw K C x y w L) e (mlr_grad K C x y w L e).
Proof.
  intros Hy dir.
  assert (E : inner K C (mlr_grad K C x y w L e) dir =
     - rsum (length y) (fun d => w (nth d y 0%Z) * (score K dir (x d) (Z.to_nat (nth d y 0%Z)) -
           rsum C (fun c => exp (score K e (x d) c) * score K dir (x d) c) / rsum C (fun c => exp (score K e (x d) c))))
     + L / 2 * (2 * inner K C e dir)).
  { unfold mlr_grad. rewrite inner_plus_l, inner_rsum_l. f_equal.
    - rewrite <- rsum_opp. apply rsum_ext. intros d Hd.
      set (w0 := w _). set (l := Z.to_nat _). set (Z0 := rsum C (fun c => exp _)).
      transitivity (inner K C (fun i c => w0 * (x d i * (exp (score K e (x d) c) / Z0 - (if Nat.eqb c l then 1 else 0)))) dir).
      { apply inner_ext. intros. ring. }
      rewrite inner_scal_l, (inner_outer K C (x d) (fun c => exp (score K e (x d) c) / Z0 - (if Nat.eqb c l then 1 else 0))).
      transitivity (w0 * (rsum C (fun c => exp (score K e (x d) c) * score K dir (x d) c) / Z0
                          - rsum C (fun c => (if Nat.eqb c l then 1 else 0) * score K dir (x d) c))).
      { rewrite <- rsum_div, <- rsum_minus. f_equal. apply rsum_ext. intros c Hc. unfold Rdiv. ring. }
      rewrite (rsum_indicator C l (score K dir (x d))) by (apply Hy; assumption). ring.
    - transitivity (inner K C (fun i c => L * e i c) dir); [apply inner_ext; intros; ring|]. rewrite inner_scal_l. field. }
  rewrite E. unfold mlr_raw. apply d_plus.
  - apply d_opp. apply is_derive_rsum. intros d Hd.
    apply (d_scal (fun t => score K (along e t dir) (x d) _ - ln (rsum C (fun c => exp (score K (along e t dir) (x d) c))))).
    apply d_minus; [apply score_derive|]. apply lse_derive. specialize (Hy d Hd). lia.
  - apply d_scal. apply inner_along_derive.
Qed.

(** ** Second order *)
Definition sym (v : nat -> nat -> R) : nat -> nat -> R := fun i j => (v i j + v j i) / 2.
(** the derivative of the quadratic form *)
Lemma quadratic_derive K e d v c :
  is_derive (fun t => quadratic K (along e t d) v c) 0 (2 * rsum K (fun i => rsum K (fun j => sym v i j * e j c) * d i c)).
Proof.
  assert (E : 2 * rsum K (fun i => rsum K (fun j => sym v i j * e j c) * d i c) =
              rsum K (fun i => rsum K (fun j => d i c * v i j * e j c + e i c * v i j * d j c))).
  { transitivity (rsum K (fun i => rsum K (fun j => d i c * v i j * e j c)) + rsum K (fun i => rsum K (fun j => e i c * v i j * d j c))).
    - rewrite (rsum_swap K K (fun i j => e i c * v i j * d j c)), <- rsum_plus, <- rsum_mult_l.
      apply rsum_ext. intros i Hi. rewrite <- rsum_plus, <- rsum_mult_r, <- rsum_mult_l. apply rsum_ext. intros j Hj. unfold sym. field.
    - rewrite <- rsum_plus. apply rsum_ext. intros i Hi. now rewrite <- rsum_plus. }
  rewrite E. unfold quadratic. apply is_derive_rsum. intros i Hi. apply is_derive_rsum. intros j Hj.
  unfold along. auto_derive; [trivial|ring].
Qed.
Definition so_grad_doc (K : nat) (e : entries) (x : nat -> R) (v : nat -> nat -> R) : entries := fun i c =>
  x i * (exp (score K e x c) * (1 + quadratic K e v c / 2)) + rsum K (fun j => sym v i j * e j c) * exp (score K e x c).
Lemma approx_derive K e d x v c :
  is_derive (fun t => approx_exp K (along e t d) x v c) 0 (rsum K (fun i => so_grad_doc K e x v i c * d i c)).
Proof.
  set (q := rsum K (fun i => rsum K (fun j => sym v i j * e j c) * d i c)).
  assert (E : rsum K (fun i => so_grad_doc K e x v i c * d i c) =
              exp (score K e x c) * score K d x c * (1 + quadratic K e v c / 2) + exp (score K e x c) * (2 * q / 2)).
  { unfold so_grad_doc.
    transitivity (rsum K (fun i => exp (score K e x c) * (1 + quadratic K e v c / 2) * (d i c * x i) +
                                   exp (score K e x c) * (rsum K (fun j => sym v i j * e j c) * d i c))).
    { apply rsum_ext. intros i Hi. ring. }
    rewrite rsum_plus, !rsum_mult_l. fold q. unfold score at 4. field. }
  rewrite E. unfold approx_exp.
  assert (A0 : exp (score K e x c) = exp (score K (along e 0 d) x c)) by (f_equal; rewrite score_along; ring).
  assert (Q0 : quadratic K e v c = quadratic K (along e 0 d) v c).
  { apply rsum_ext. intros i Hi. apply rsum_ext. intros j Hj. unfold along. ring. }
  rewrite Q0. rewrite A0 at 2.
  apply (d_mult (fun t => exp (score K (along e t d) x c)) (fun t => 1 + quadratic K (along e t d) v c / 2) 0
           (exp (score K e x c) * score K d x c) (2 * q / 2)); [apply exp_score_derive|].
  replace (2 * q / 2) with (0 + 2 * q / 2) by ring. apply d_plus; [apply d_const|].
  apply is_derive_ext with (fun t => / 2 * quadratic K (along e t d) v c); [intros t; apply Rmult_comm|].
  unfold Rdiv. rewrite (Rmult_comm (2 * q)). apply d_scal. apply quadratic_derive.
Qed.

Definition so_raw (K C : nat) x (v : nat -> nat -> nat -> R) (y : list Z) (w : Z -> R) (L : R) (e : entries) : R :=
  - rsum (length y) (fun d => w (nth d y 0%Z) *
      (score K e (x d) (Z.to_nat (nth d y 0%Z)) - ln (rsum C (fun c => approx_exp K e (x d) (v d) c))))
  + L / 2 * inner K C e e.
Definition so_grad (K C : nat) x (v : nat -> nat -> nat -> R) (y : list Z) (w : Z -> R) (L : R) (e : entries) : entries :=
  fun i c => rsum (length y) (fun d => w (nth d y 0%Z) *
      (so_grad_doc K e (x d) (v d) i c / rsum C (fun c => approx_exp K e (x d) (v d) c)
       - (if Nat.eqb c (Z.to_nat (nth d y 0%Z)) then 1 else 0) * x d i)) + e i c * L.
Lemma so_raw_gradient K C x v y w L e :
  (forall d, (d < length y)%nat -> (Z.to_nat (nth d y 0%Z) < C)%nat) ->
  (forall d, (d < length y)%nat -> 0 < rsum C (fun c => approx_exp K e (x d) (v d) c)) ->
  gradient_at K C (so_raw K C x v y w L) e (so_grad K C x v y w L e).
Proof.
  intros Hy Hpos dir.
  assert (E : inner K C (so_grad K C x v y w L e) dir =
     - rsum (length y) (fun d => w (nth d y 0%Z) * (score K dir (x d) (Z.to_nat (nth d y 0%Z)) -
           rsum C (fun c => rsum K (fun i => so_grad_doc K e (x d) (v d) i c * dir i c)) / rsum C (fun c => approx_exp K e (x d) (v d) c)))
     + L / 2 * (2 * inner K C e dir)).
  { unfold so_grad. rewrite inner_plus_l, inner_rsum_l. f_equal.
    - rewrite <- rsum_opp. apply rsum_ext. intros d Hd.
      set (w0 := w _). set (l := Z.to_nat _). set (Z0 := rsum C (fun c => approx_exp _ _ _ _ _)).
      transitivity (w0 * (/ Z0 * inner K C (so_grad_doc K e (x d) (v d)) dir +
                    inner K C (fun i c => - ((if Nat.eqb c l then 1 else 0) * x d i)) dir)).
      { rewrite <- (inner_scal_l K C (/ Z0)), <- inner_plus_l, <- inner_scal_l. apply inner_ext. intros. unfold Rdiv. ring. }
      rewrite inner_swap.
      assert (B : inner K C (fun i c => - ((if Nat.eqb c l then 1 else 0) * x d i)) dir = - score K dir (x d) l).
      { transitivity (- inner K C (fun i c => x d i * (if Nat.eqb c l then 1 else 0)) dir).
        - replace (- inner K C (fun i c => x d i * (if Nat.eqb c l then 1 else 0)) dir)
            with ((-1) * inner K C (fun i c => x d i * (if Nat.eqb c l then 1 else 0)) dir) by ring.
          rewrite <- inner_scal_l. apply inner_ext. intros. ring.
        - rewrite (inner_outer K C (x d) (fun c => if Nat.eqb c l then 1 else 0)), rsum_indicator by (apply Hy; assumption). reflexivity. }
      rewrite B. unfold Rdiv. ring.
    - transitivity (inner K C (fun i c => L * e i c) dir); [apply inner_ext; intros; ring|]. rewrite inner_scal_l. field. }
  rewrite E. unfold so_raw. apply d_plus.
  - apply d_opp. apply is_derive_rsum. intros d Hd.
    apply (d_scal (fun t => score K (along e t dir) (x d) _ - ln (rsum C (fun c => approx_exp K (along e t dir) (x d) (v d) c)))).
    apply d_minus; [apply score_derive|].
    assert (A0 : rsum C (fun c => approx_exp K e (x d) (v d) c) = rsum C (fun c => approx_exp K (along e 0 dir) (x d) (v d) c)).
    { apply rsum_ext. intros c Hc. unfold approx_exp. f_equal; [f_equal; rewrite score_along; ring|]. f_equal. f_equal.
      apply rsum_ext. intros i Hi. apply rsum_ext. intros j Hj. unfold along. ring. }
    specialize (Hpos d Hd). rewrite A0 in *.
    apply (ln_derive (fun t => rsum C (fun c => approx_exp K (along e t dir) (x d) (v d) c))); [|assumption].
    apply is_derive_rsum. intros c Hc. apply approx_derive.
  - apply d_scal. apply inner_along_derive.
Qed.
