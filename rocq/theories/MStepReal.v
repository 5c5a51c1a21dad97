(** The M steps over the reals. *)
Require Import Reals ZArith List Bool Arith Lia Lra.
Require Import Verif.Base Verif.Scalar Verif.Mat Verif.UtilsModel Verif.UtilsProofs Verif.BuilderModel Verif.EStepModel Verif.EStepOpt Verif.OptModel Verif.OptSpec Verif.OptProofs
  Verif.MStepModel Verif.MStepSpec Verif.MStepAny Verif.MStepBatch Verif.MStepOnline.
Import ListNotations.
Open Scope R_scope.

Section Reals.
  Variable lg : R -> R.
  Local Hint Extern 0 (ops _) => exact (Rops lg) : typeclass_instances.
  Variables K V : nat.

  (** ** Totals *)
  Lemma totals_R a l i n : (i < K)%nat -> (n < V)%nat -> mget (totals K V a l) i n = expected a l i n.
  Proof.
    intros Hi Hn. unfold totals, expected.
    assert (A : forall l b, mget (fold_left (fun b x => mtab K V (fun i n => add (mget b i n) (a x i n))) l b) i n =
                            mget b i n + lsum (map (fun x => a x i n) l)).
    { clear l. induction l as [|x l IH]; intros b; cbn [fold_left map lsum fold_right]; [lra|].
      rewrite IH, mget_tab by assumption. cbn [add Rops]. unfold lsum. cbn [fold_right]. lra. }
    rewrite A, mget_tab by assumption. cbn [zero Rops]. lra.
  Qed.
  Definition in_class (x : item R) (c : nat) : bool := Nat.eqb c (Z.to_nat (class_of x)).
  Lemma class_totals_R C a l i c : (i < K)%nat -> (c < C)%nat ->
    mget (class_totals K V C a l) i c = lsum (map (fun x => if in_class x c then rsum V (fun n => a x i n) else 0) l).
  Proof.
    intros Hi Hc. unfold class_totals.
    assert (A : forall l h, mget (fold_left (fun h x => mtab K C (fun i c =>
                  if Nat.eqb c (Z.to_nat (class_of x)) then add (mget h i c) (redux (vtab V (fun n => a x i n))) else mget h i c)) l h) i c =
                mget h i c + lsum (map (fun x => if in_class x c then rsum V (fun n => a x i n) else 0) l)).
    { clear l. induction l as [|x l IH]; intros h; cbn [fold_left map]; [unfold lsum; cbn; lra|].
      rewrite IH, mget_tab by assumption. unfold lsum. cbn [fold_right]. unfold in_class at 2. cbn [add Rops].
      destruct (Nat.eqb c _); [|lra]. change (redux (vtab V (fun n => a x i n))) with (rsum V (fun n => a x i n)). lra. }
    rewrite A, mget_tab by assumption. cbn [zero Rops]. lra.
  Qed.
  Lemma lsum_nonneg l : Forall (fun x => 0 <= x) l -> 0 <= lsum l.
  Proof. unfold lsum. induction 1; cbn; lra. Qed.
  Lemma expected_app a l l' i n : expected a (l ++ l') i n = expected a l i n + expected a l' i n.
  Proof. unfold expected. now rewrite map_app, lsum_app. Qed.
  Definition nonneg_counts (a : item R -> nat -> nat -> R) : Prop :=
    forall x, nonneg_item K V x -> forall i n, (i < K)%nat -> (n < V)%nat -> 0 <= a x i n.
  Lemma assigned_nonneg : nonneg_counts assigned.
  Proof.
    intros x [H1 H2] i n Hi Hn. unfold assigned. cbn [mul ofZ Rops]. apply Rmult_le_pos; [now apply H2|]. apply IZR_le. now apply H1.
  Qed.
  Lemma assigned_tau_nonneg : nonneg_counts assigned_tau.
  Proof.
    intros x [H1 H2] i n Hi Hn. unfold assigned_tau. cbn [mul ofZ Rops]. destruct (H1 n Hn) as [P Q]. apply Rmult_le_pos; [now apply H2|].
    apply Rmult_le_pos; [|exact Q]. now apply IZR_le.
  Qed.
  Lemma expected_nonneg a l i n : nonneg_counts a -> Forall (nonneg_item K V) l -> (i < K)%nat -> (n < V)%nat -> 0 <= expected a l i n.
  Proof.
    intros Ha Hl Hi Hn. apply lsum_nonneg. apply Forall_map. revert Hl. apply Forall_impl. intros x Hx. now apply Ha.
  Qed.

  (** ** Maximum likelihood *)
  Lemma over_row_sums_R a l i n : (i < K)%nat -> (n < V)%nat ->
    mget (over_row_sums K V (totals K V a l)) i n = expected a l i n / rsum V (expected a l i).
  Proof.
    intros Hi Hn. unfold over_row_sums. rewrite mget_tab by assumption. cbn [div Rops]. rewrite totals_R by assumption. f_equal.
    change (redux (vtab V (fun n => mget (totals K V a l) i n))) with (rsum V (fun n => mget (totals K V a l) i n)).
    apply rsum_ext. intros j Hj. now apply totals_R.
  Qed.
  Lemma totals_shape_R a l : mrows (totals K V a l) = K /\ ncols (totals K V a l) = V.
  Proof. exact (totals_shape K V a l). Qed.
  Lemma normalize_totals_R a l i n : (i < K)%nat -> (n < V)%nat -> rsum V (expected a l i) <> 0 ->
    mget (normalize_rows (totals K V a l)) i n = expected a l i n / rsum V (expected a l i).
  Proof.
    intros Hi Hn N. destruct (totals_shape_R a l) as [S1 S2]. rewrite (normalize_rows_get lg) by (rewrite ?S1, ?S2; assumption).
    rewrite S2. rewrite (rsum_ext V (fun j => mget (totals K V a l) i j) (expected a l i)) by (intros j Hj; now apply totals_R).
    destruct (Req_EM_T _ 0); [contradiction|]. unfold RO2. now rewrite totals_R.
  Qed.
  Lemma topics_R a l (b : mat R) : b = over_row_sums K V (totals K V a l) \/ b = normalize_rows (totals K V a l) ->
    mass K V (expected a l) ->
    mrows b = K /\ ncols b = V /\ forall i n, (i < K)%nat -> (n < V)%nat -> mget b i n = expected a l i n / rsum V (expected a l i).
  Proof.
    intros [-> | ->] Hm.
    - split; [reflexivity|]. split; [apply ncols_tab|]. intros i n Hi Hn. now apply over_row_sums_R.
    - destruct (totals_shape_R a l) as [S1 S2]. unfold normalize_rows at 1 2. rewrite ncols_tab, S2. split; [exact S1|]. split; [reflexivity|].
      intros i n Hi Hn. apply normalize_totals_R; try assumption. specialize (Hm i Hi). lra.
  Qed.
  Lemma ratio_distribution (c : nat -> nat -> R) i : (forall n, (n < V)%nat -> 0 <= c i n) -> 0 < rsum V (c i) ->
    distribution V (fun n => c i n / rsum V (c i)).
  Proof.
    intros Hc Hm. split.
    - intros n Hn. apply Rmult_le_pos; [now apply Hc|]. left. now apply Rinv_0_lt_compat.
    - rewrite rsum_div. unfold Rdiv. apply Rinv_r. lra.
  Qed.
  Lemma distribution_ext p q : (forall n, (n < V)%nat -> p n = q n) -> distribution V p -> distribution V q.
  Proof.
    intros E [D1 D2]. split; [intros n Hn; rewrite <- E by assumption; now apply D1|]. rewrite <- D2. symmetry. now apply rsum_ext.
  Qed.
  Lemma distribution_ext_n n p q : (forall j, (j < n)%nat -> p j = q j) -> distribution n p -> distribution n q.
  Proof.
    intros E [D1 D2]. split; [intros j Hn; rewrite <- E by assumption; now apply D1|]. rewrite <- D2. symmetry. now apply rsum_ext.
  Qed.
  (** one row *)
  Lemma row_optimal (c q : nat -> R) : (forall n, (n < V)%nat -> 0 <= c n) -> 0 < rsum V c -> distribution V q ->
    (forall n, (n < V)%nat -> 0 < c n -> 0 < q n) ->
    rsum V (fun n => c n * ln (q n)) <= rsum V (fun n => c n * ln (c n / rsum V c)).
  Proof.
    intros Hc Hm [Q1 Q2] Hq. set (S := rsum V c) in *.
    (* gibbs with weights q, on the words with positive counts *)
    set (w := fun n => if Rlt_dec 0 (c n) then q n else 0).
    assert (W1 : forall n, (n < V)%nat -> 0 <= w n) by (intros n Hn; unfold w; destruct (Rlt_dec 0 (c n)); [now apply Q1|lra]).
    assert (W2 : 0 < rsum V w).
    { destruct (Rle_lt_or_eq_dec 0 (rsum V w)) as [L|E]; [now apply rsum_nonneg|assumption|]. exfalso.
      assert (Z : forall n, (n < V)%nat -> c n = 0).
      { intros n Hn. pose proof (rsum_zero_inv V w W1 (eq_sym E) n Hn) as Wn. unfold w in Wn. destruct (Rlt_dec 0 (c n)) as [P|P].
        - specialize (Hq n Hn P). lra.
        - specialize (Hc n Hn). lra. }
      unfold S in Hm. rewrite (rsum_zero V c) in Hm by exact Z. lra. }
    assert (W3 : rsum V w <= 1).
    { rewrite <- Q2. apply rsum_le. intros n Hn. unfold w. destruct (Rlt_dec 0 (c n)); [lra|now apply Q1]. }
    pose proof (gibbs V w W1 W2 (fun n => c n / S)) as G.
    assert (G' : rsum V (fun n => c n / S * (ln (w n) - ln (c n / S))) <= ln (rsum V w)).
    { apply G.
      - rewrite rsum_div. unfold Rdiv. apply Rinv_r. lra.
      - intros n Hn. split; [apply Rmult_le_pos; [now apply Hc|left; now apply Rinv_0_lt_compat]|].
        unfold w. destruct (Rlt_dec 0 (c n)) as [P|P]; intros Z.
        + specialize (Hq n Hn P). lra.
        + specialize (Hc n Hn). replace (c n) with 0 by lra. unfold Rdiv. ring. }
    assert (L0 : ln (rsum V w) <= 0).
    { rewrite <- ln_1. destruct W3 as [W3| ->]; [left; now apply ln_increasing|lra]. }
    assert (E : rsum V (fun n => c n / S * (ln (w n) - ln (c n / S))) =
                (rsum V (fun n => c n * ln (q n)) - rsum V (fun n => c n * ln (c n / S))) / S).
    { rewrite <- rsum_minus, <- rsum_div. apply rsum_ext. intros n Hn. unfold w. destruct (Rlt_dec 0 (c n)) as [P|P].
      - field. lra.
      - specialize (Hc n Hn). replace (c n) with 0 by lra. unfold Rdiv. ring. }
    rewrite E in G'. assert (H0 : (rsum V (fun n => c n * ln (q n)) - rsum V (fun n => c n * ln (c n / S))) / S <= 0) by lra.
    apply (Rmult_le_compat_r S) in H0; [|lra]. unfold Rdiv in H0. rewrite Rmult_assoc, Rinv_l, Rmult_1_r, Rmult_0_l in H0 by lra. lra.
  Qed.
  Lemma likelihood_optimal c (b b' : mat R) : (forall i n, (i < K)%nat -> (n < V)%nat -> 0 <= c i n) -> mass K V c ->
    (forall i n, (i < K)%nat -> (n < V)%nat -> mget b i n = c i n / rsum V (c i)) ->
    stochastic K V b' -> explains K V c b' -> log_likelihood K V c b' <= log_likelihood K V c b.
  Proof.
    intros Hc Hm Hb (_ & _ & Hs) He. unfold log_likelihood. apply rsum_le. intros i Hi.
    rewrite (rsum_ext V (fun n => c i n * ln (mget b i n)) (fun n => c i n * ln (c i n / rsum V (c i)))).
    - apply row_optimal.
      + intros n Hn. now apply Hc.
      + now apply Hm.
      + now apply Hs.
      + intros n Hn P. now apply He.
    - intros n Hn. now rewrite Hb.
  Qed.

  (** ** Multinomial and correspondence eta *)
  Lemma smoothed_R C a l mu i c : (i < K)%nat -> (c < C)%nat ->
    mget (smoothed K C mu (class_totals K V C a l)) i c =
    lsum (map (fun x => if in_class x c then rsum V (fun n => a x i n) else 0) l) + mu - 1.
  Proof. intros Hi Hc. unfold smoothed. rewrite mget_tab by assumption. cbn [add sub one Rops]. now rewrite class_totals_R. Qed.
  Lemma eta_R C a l mu i : (i < K)%nat -> 
    let h c := lsum (map (fun x => if in_class x c then rsum V (fun n => a x i n) else 0) l) + mu - 1 in
    rsum C h <> 0 -> forall c, (c < C)%nat ->
    mget (normalize_rows (smoothed K C mu (class_totals K V C a l))) i c = h c / rsum C h.
  Proof.
    intros Hi h N c Hc. unfold smoothed at 1. rewrite (normalize_rows_get lg) by (rewrite ?mrows_tab, ?ncols_tab; assumption).
    rewrite ncols_tab. fold (smoothed K C mu (class_totals K V C a l)).
    rewrite (rsum_ext C (fun j => mget (smoothed K C mu (class_totals K V C a l)) i j) h).
    - destruct (Req_EM_T _ 0); [contradiction|]. unfold RO2. rewrite smoothed_R by assumption. reflexivity.
    - intros j Hj. unfold RO2. now rewrite smoothed_R.
  Qed.
  Lemma class_total_nonneg a l i c : nonneg_counts a -> Forall (nonneg_item K V) l -> (i < K)%nat ->
    0 <= lsum (map (fun x => if in_class x c then rsum V (fun n => a x i n) else 0) l).
  Proof.
    intros Ha Hl Hi. apply lsum_nonneg. apply Forall_map. revert Hl. apply Forall_impl. intros x Hx. destruct (in_class x c); [|lra].
    apply rsum_nonneg. intros n Hn. now apply Ha.
  Qed.
  Lemma rsum_lsum_swap {A} C (f : A -> nat -> R) l : rsum C (fun c => lsum (map (fun x => f x c) l)) = lsum (map (fun x => rsum C (f x)) l).
  Proof.
    induction l as [|x l IH]; cbn [map]; [unfold lsum; cbn [fold_right]; now apply rsum_zero|].
    unfold lsum at 2. cbn [fold_right]. fold (lsum (map (fun x => rsum C (f x)) l)). rewrite <- IH, <- rsum_plus. reflexivity.
  Qed.
  (** the classes' totals add up to the topic's *)
  Lemma class_totals_sum C a l i : Forall (classified C) l ->
    rsum C (fun c => lsum (map (fun x => if in_class x c then rsum V (fun n => a x i n) else 0) l)) = rsum V (expected a l i).
  Proof.
    intros Hl. rewrite rsum_lsum_swap. transitivity (lsum (map (fun x => rsum V (fun n => a x i n)) l)).
    - f_equal. apply map_ext_in. intros x Hx. rewrite Forall_forall in Hl. destruct (Hl x Hx) as (k & E & B).
      rewrite (rsum_single C (Z.to_nat k)).
      + unfold in_class, class_of. now rewrite E, Nat.eqb_refl.
      + lia.
      + intros c Hc Ne. unfold in_class, class_of. rewrite E. now destruct (Nat.eqb_spec c (Z.to_nat k)).
    - symmetry. unfold expected. rewrite (rsum_lsum_swap V (fun x n => a x i n) l). reflexivity.
  Qed.

  Lemma smoothed_classes_R C a l mu (eta : mat R) : nonneg_counts a -> Forall (nonneg_item K V) l -> Forall (classified C) l -> (0 < C)%nat ->
    eta = normalize_rows (smoothed K C mu (class_totals K V C a l)) -> smoothed_classes K V C mu a l eta.
  Proof.
    intros Ha Hn Hl HC ->. split; [reflexivity|]. split; [unfold normalize_rows, smoothed; rewrite !ncols_tab; reflexivity|]. intros i Hi Hmu.
    set (h := fun c => class_expected V a l i c + mu - 1).
    assert (HS : rsum C h = rsum V (expected a l i) + INR C * (mu - 1)).
    { rewrite <- (class_totals_sum C a l i Hl), <- rsum_const, <- rsum_plus. apply rsum_ext. intros c Hc. unfold h, class_expected, in_class. ring. }
    assert (Hh : forall c, (c < C)%nat -> 0 <= class_expected V a l i c).
    { intros c Hc. exact (class_total_nonneg a l i c Ha Hn Hi). }
    assert (HT : 0 <= rsum V (expected a l i)) by (apply rsum_nonneg; intros n Hn'; now apply expected_nonneg).
    assert (CP : 0 < INR C) by now apply lt_0_INR.
    assert (HP : 0 < rsum C h).
    { rewrite HS. destruct Hmu as [Hmu|[Hmu1 Hmu2]].
      - apply Rplus_le_lt_0_compat; [assumption|]. apply Rmult_lt_0_compat; lra.
      - apply Rplus_lt_le_0_compat; [assumption|]. apply Rmult_le_pos; lra. }
    assert (G : forall c, (c < C)%nat -> mget (normalize_rows (smoothed K C mu (class_totals K V C a l))) i c = h c / rsum C h).
    { intros c Hc. apply (eta_R C a l mu i Hi); [|assumption]. change (rsum C h <> 0). lra. }
    assert (MU : 0 <= mu - 1) by lra.
    split; [|split].
    - apply (distribution_ext_n C (fun c => h c / rsum C h)); [intros c Hc; now rewrite G|]. split.
      + intros c Hc. apply Rmult_le_pos; [|left; now apply Rinv_0_lt_compat]. specialize (Hh c Hc). unfold h. lra.
      + rewrite rsum_div. unfold Rdiv. apply Rinv_r. lra.
    - intros c Hc. rewrite G by assumption. rewrite HS. unfold h. f_equal. ring.
    - intros Hm c Hc. rewrite G by assumption. apply Rmult_lt_0_compat; [|now apply Rinv_0_lt_compat]. specialize (Hh c Hc). unfold h. lra.
  Qed.

  (** second moments are positive semi-definite *)
  Lemma second_moment_psd x : psd K (mget (second_moment K V x)).
  Proof.
    intros u. set (k := 1 / IZR (words_in x * words_in x)).
    assert (Hk : 0 <= k).
    { unfold k. destruct (Z.eq_dec (words_in x) 0) as [->|N]; [cbn; unfold Rdiv; rewrite Rinv_0; lra|].
      apply Rmult_le_pos; [lra|]. left. apply Rinv_0_lt_compat. apply (IZR_lt 0). nia. }
    rewrite (rsum_ext K _ (fun i => rsum K (fun j => rsum V (fun n => k * ((u i * assigned x i n) * (u j * assigned x j n)))))).
    - rewrite (rsum_ext K _ (fun i => rsum V (fun n => rsum K (fun j => k * ((u i * assigned x i n) * (u j * assigned x j n)))))) by (intros; apply rsum_swap).
      rewrite rsum_swap. apply rsum_nonneg. intros n Hn.
      rewrite (rsum_ext K _ (fun i => (u i * assigned x i n) * (k * rsum K (fun j => u j * assigned x j n)))).
      + rewrite rsum_mult_r. set (s := rsum K (fun j => u j * assigned x j n)). replace (s * (k * s)) with (k * (s * s)) by ring.
        apply Rmult_le_pos; [assumption|]. apply Rle_0_sqr.
      + intros i Hi. rewrite <- (rsum_mult_l K k), <- rsum_mult_l. apply rsum_ext. intros j Hj. ring.
    - intros i Hi. apply rsum_ext. intros j Hj. unfold second_moment. rewrite mget_tab by assumption. cbn [mul div one ofZ Rops]. fold k.
      change (redux (vtab V (fun n => assigned x i n * assigned x j n))) with (rsum V (fun n => assigned x i n * assigned x j n)).
      transitivity (rsum V (fun n => assigned x i n * assigned x j n) * (u i * k * u j)); [ring|].
      rewrite <- rsum_mult_r. apply rsum_ext. intros n Hn. ring.
  Qed.

  (** ** The online M step keeps the topics' rows distributions *)
  Lemma mass_app a l l' : nonneg_counts a -> Forall (nonneg_item K V) l' -> mass K V (expected a l) -> mass K V (expected a (l ++ l')).
  Proof.
    intros Ha Hl Hm i Hi. apply Rlt_le_trans with (rsum V (expected a l i)); [now apply Hm|]. apply rsum_le. intros n Hn.
    rewrite expected_app. pose proof (expected_nonneg a l' i n Ha Hl Hi Hn). lra.
  Qed.
  Lemma online_stochastic cf bs : forall seen m vel m' e, 0 <= o_beta_weight cf <= 1 ->
    Forall (Forall (nonneg_item K V)) bs -> Forall (nonneg_item K V) seen ->
    (forall b, hd_error bs = Some b -> mass K V (expected assigned (seen ++ b))) ->
    stochastic K V (p_beta m) -> online_updates cf K V bs seen m vel = Ok (m', e) -> stochastic K V (p_beta m').
  Proof.
    induction bs as [|b bs IH]; intros seen m vel m' e Hw Hn Hseen Hm (S1 & S2 & S3) E; cbn [online_updates] in E.
    - injection E as <- <-. repeat split; try assumption; now apply S3.
    - apply bind_ok' in E. destruct E as (p & _ & E). apply bind_ok' in E. destruct E as (g & _ & E).
      apply bind_ok' in E. destruct E as (v & _ & E). apply bind_ok' in E. destruct E as ([m2 e2] & E2 & E). injection E as <- <-.
      pose proof (Forall_inv Hn) as N1. pose proof (Forall_inv_tail Hn) as N2. specialize (Hm b eq_refl).
      assert (Hs : Forall (nonneg_item K V) (seen ++ b)) by (apply Forall_app; now split).
      refine (IH _ _ _ m2 e2 Hw N2 Hs _ _ E2).
      + intros b' Hb'. apply mass_app; [exact assigned_nonneg| |assumption]. destruct bs as [|b2 bs]; [discriminate|]. cbn in Hb'. injection Hb' as ->.
        now inversion N2.
      + cbn [p_beta]. split; [reflexivity|]. split; [apply ncols_tab|]. intros i Hi.
        set (w := o_beta_weight cf) in *. set (l := seen ++ b) in *.
        apply (distribution_ext (fun n => w * mget (p_beta m) i n + (1 - w) * (expected assigned l i n / rsum V (expected assigned l i)))).
        * intros n Hn'. rewrite mget_tab by assumption. cbn [add mul sub one Rops]. unfold word_counts. now rewrite over_row_sums_R.
        * destruct (S3 i Hi) as [D1 D2].
          destruct (ratio_distribution (expected assigned l) i) as [R1 R2]; [intros n Hn'; now apply (expected_nonneg assigned l i n assigned_nonneg)|now apply Hm|].
          split.
          -- intros n Hn'. apply Rplus_le_le_0_compat; apply Rmult_le_pos; try lra; [now apply D1|now apply R1].
          -- rewrite rsum_plus, !rsum_mult_l, D2, R2. ring.
  Qed.
End Reals.

Section RealRuns.
  Variable lg : R -> R.
  Local Hint Extern 0 (ops _) => exact (Rops lg) : typeclass_instances.
  Lemma batches_spec {A} B (l : list A) (P : A -> Prop) : Forall P l -> Forall (Forall P) (batches B l).
  Proof.
    intros H. unfold batches. apply Forall_map. apply Forall_forall. intros k _. apply Forall_firstn'.
    apply Forall_forall. intros x Hx. rewrite Forall_forall in H. apply H. revert Hx. clear.
    revert l. induction (k * B)%nat as [|n IH]; intros l Hx; [assumption|]. destruct l; [assumption|]. right. now apply IH.
  Qed.
  Lemma online_stochastic_run (K V : nat) (cf : oconf R) : (0 < K)%nat -> (0 < o_minibatch cf)%nat -> 0 <= o_beta_weight cf <= 1 ->
    forall h m m' s e, model_sized K V cf m -> Forall (sized K V) (items h) -> Forall has_class (items h) -> Forall (nonneg_item K V) (items h) ->
      mass K V (expected assigned (firstn (o_minibatch cf) (items h))) -> stochastic K V (p_beta m) ->
      mrun (online_maximizer cf) h m new_online = Ok (m', s, e) -> stochastic K V (p_beta m').
  Proof.
    intros HK HB Hw h m m' s e Hm Hs Hc Hn Hmass Hb E.
    pose proof (online_explicit K V HK cf HB h m Hm Hs Hc) as X. rewrite E in X. cbn [visible] in X. symmetry in X.
    refine (online_stochastic lg K V cf _ [] m _ m' e Hw (batches_spec _ _ _ Hn) (Forall_nil _) _ Hb X).
    intros b Eb. cbn [app]. unfold batches in Eb. destruct (length (items h) / o_minibatch cf)%nat; [discriminate|]. cbn in Eb. injection Eb as <-. exact Hmass.
  Qed.
  Lemma stats_common (K V C : nat) mu (a : item R -> nat -> nat -> R) (r : outcome (params R * stats R * list R)) alpha (l : list (item R)) ev :
    visible r = Ok (mk_params alpha (normalize_rows (totals K V a l)) (normalize_rows (smoothed K C mu (class_totals K V C a l))), ev) ->
    nonneg_counts lg K V a -> Forall (nonneg_item K V) l -> Forall (classified C) l -> l <> [] ->
    exists m' s' e', r = Ok (m', s', e') /\ smoothed_classes K V C mu a l (p_eta m') /\
      forall i, (i < K)%nat -> 0 < rsum V (expected a l i) -> distribution V (mget (p_beta m') i).
  Proof.
    intros E Ha Hn Hc Hl. destruct r as [[[m' s'] e']| |]; cbn [visible] in E; try discriminate. injection E as -> ->.
    exists (mk_params alpha (normalize_rows (totals K V a l)) (normalize_rows (smoothed K C mu (class_totals K V C a l)))), s', ev.
    split; [reflexivity|]. cbn [p_eta p_beta]. split.
    - apply (smoothed_classes_R lg); try assumption; [|reflexivity]. destruct l as [|x l]; [congruence|]. destruct (Forall_inv Hc) as (c & _ & B). lia.
    - intros i Hi Hm. apply (distribution_ext_n V (fun n => expected a l i n / rsum V (expected a l i))).
      + intros n Hn'. symmetry. apply (normalize_totals_R lg); try assumption. lra.
      + apply ratio_distribution; [|assumption]. intros n Hn'. now apply (expected_nonneg lg K V a l i n Ha Hn).
  Qed.
  Lemma multinomial_R (K V C : nat) mu : (0 < K)%nat ->
    forall h m0 m s e, mrows (p_eta m0) = K -> ncols (p_eta m0) = C -> between_epochs h ->
      Forall (fun x => sized K V x /\ classified C x) (items h) -> mrun (multinomial_maximizer mu) h m0 new_stats = Ok (m, s, e) ->
    forall l, Forall (fun x => sized K V x /\ classified C x /\ nonneg_item K V x) l -> l <> [] ->
    exists m' s' e', mrun (multinomial_maximizer mu) (epoch l) m s = Ok (m', s', e') /\
      smoothed_classes K V C mu assigned l (p_eta m') /\
      forall i, (i < K)%nat -> 0 < rsum V (expected assigned l i) -> distribution V (mget (p_beta m') i).
  Proof.
    intros HK h m0 m s e E1 E2 Hh Hi E l Hl Hn.
    destruct (batch_between K V C HK _ _ _ _ _ _ (step_multinomial K V C mu) h m0 m s e (conj E1 E2) Hh Hi E) as [[A1 A2] X].
    assert (L1 : Forall (sized K V) l) by (revert Hl; apply Forall_impl; tauto).
    assert (L2 : Forall (classified C) l) by (revert Hl; apply Forall_impl; tauto).
    assert (L3 : Forall (nonneg_item K V) l) by (revert Hl; apply Forall_impl; tauto).
    assert (L4 : Forall (fun x => sized K V x /\ classified C x) l) by (revert Hl; apply Forall_impl; tauto).
    destruct (X l L4 Hn) as [Y _].
    change (multinomial_maximizer mu) with (mk_maximizer (fun s m d v => let* s := multinomial_doc s m d v in Ok (m, s, [])) (stats_m mu)) in Y at 2.
    rewrite (multinomial_epoch K V C HK mu new_stats l m (or_introl eq_refl) A1 A2 L1 ltac:(apply Forall_forall; intros; exact I) L2 Hn) in Y.
    exact (stats_common K V C mu assigned _ _ l _ Y (assigned_nonneg lg K V) L3 L2 Hn).
  Qed.
  Lemma correspondence_R (K V C : nat) mu : (0 < K)%nat ->
    forall h m0 m s e, mrows (p_eta m0) = K -> ncols (p_eta m0) = C -> between_epochs h ->
      Forall (fun x => sized K V x /\ classified C x /\ with_tau V x) (items h) ->
      mrun (correspondence_maximizer mu) h m0 new_stats = Ok (m, s, e) ->
    forall l, Forall (fun x => sized K V x /\ classified C x /\ with_tau V x /\ nonneg_item K V x) l -> l <> [] ->
    exists m' s' e', mrun (correspondence_maximizer mu) (epoch l) m s = Ok (m', s', e') /\
      smoothed_classes K V C mu assigned_tau l (p_eta m') /\
      forall i, (i < K)%nat -> 0 < rsum V (expected assigned_tau l i) -> distribution V (mget (p_beta m') i).
  Proof.
    intros HK h m0 m s e E1 E2 Hh Hi E l Hl Hn.
    destruct (batch_between K V C HK _ _ _ _ _ _ (step_correspondence K V C mu) h m0 m s e (conj E1 E2) Hh Hi E) as [[A1 A2] X].
    assert (L1 : Forall (sized K V) l) by (revert Hl; apply Forall_impl; tauto).
    assert (L2 : Forall (classified C) l) by (revert Hl; apply Forall_impl; tauto).
    assert (L3 : Forall (nonneg_item K V) l) by (revert Hl; apply Forall_impl; tauto).
    assert (L5 : Forall (with_tau V) l) by (revert Hl; apply Forall_impl; tauto).
    assert (L4 : Forall (fun x => sized K V x /\ classified C x /\ with_tau V x) l) by (revert Hl; apply Forall_impl; tauto).
    destruct (X l L4 Hn) as [Y _].
    change (correspondence_maximizer mu) with (mk_maximizer (fun s m d v => let* s := correspondence_doc s m d v in Ok (m, s, [])) (stats_m mu)) in Y at 2.
    rewrite (correspondence_epoch K V C HK mu new_stats l m (or_introl eq_refl) A1 A2 L1 L5 L2 Hn) in Y.
    exact (stats_common K V C mu assigned_tau _ _ l _ Y (assigned_tau_nonneg lg K V) L3 L2 Hn).
  Qed.
  (** fitting eta *)
  Lemma labels_in C (l : list (item R)) : Forall (classified C) l -> (Z.of_nat C < 2 ^ 31)%Z ->
    forall c, In c (map class_of l) -> (0 <= c < Z.of_nat C)%Z /\ (c < 2 ^ 31 - 1)%Z.
  Proof.
    intros Hl HC c Hc. apply in_map_iff in Hc. destruct Hc as (x & <- & Hx). rewrite Forall_forall in Hl. destruct (Hl x Hx) as (k & E & B).
    unfold class_of. rewrite E. lia.
  Qed.
  Lemma trained_R (K C : nat) limit tolerance L (m : params R) eta (l : list (item R)) :
    p_eta m = mtab K C eta -> l <> [] -> Forall (classified C) l -> (Z.of_nat C < 2 ^ 31)%Z ->
    let objective := mlr_objective K C (fun d i => vget (nth d (map (mixture K (p_alpha m)) l) []) i) (map class_of l) L in
    exists fuel0, forall fuel, (fuel0 <= fuel)%nat ->
      exists eta' reported, trained fuel limit tolerance L K l m = Ok (mtab K C eta', reported) /\ objective eta' <= objective eta.
  Proof.
    intros He Hn Hl HC objective.
    destruct (mlr_computes lg K C (mk_mat K (map (mixture K (p_alpha m)) l)) (map class_of l) L) as (p & E & P).
    - reflexivity.
    - unfold ncols. cbn [mcols]. now rewrite !map_length.
    - now destruct l.
    - now apply labels_in.
    - destruct (fit_eta_R lg K C p _ limit tolerance eta P) as (fuel0 & F). exists fuel0. intros fuel Hf.
      destruct (F fuel Hf) as (e' & rep & R1 & _ & R2 & _). exists e', (- objective eta :: rep). split; [|exact R2].
      unfold trained. rewrite E. cbn [bind]. rewrite He. exact R1.
  Qed.
  Lemma trained_slda_R (K V C : nat) limit tolerance L (m : params R) eta (l : list (item R)) :
    p_eta m = mtab K C eta -> l <> [] -> Forall (classified C) l -> (Z.of_nat C < 2 ^ 31)%Z ->
    let objective := so_objective K C (fun d i => vget (nth d (map (mean_topics K (p_alpha m)) l) []) i)
                       (fun d => mget (nth d (map (second_moment K V) l) (mk_mat 0 []))) (map class_of l) L in
    exists fuel0, forall fuel, (fuel0 <= fuel)%nat ->
      exists eta' reported, trained_slda fuel limit tolerance L K V l m = Ok (mtab K C eta', reported) /\ objective eta' <= objective eta.
  Proof.
    intros He Hn Hl HC objective.
    destruct (so_computes lg K C (mk_mat K (map (mean_topics K (p_alpha m)) l)) (map (second_moment K V) l) (map class_of l) L) as (p & E & P).
    - reflexivity.
    - unfold ncols. cbn [mcols]. now rewrite !map_length.
    - now destruct l.
    - now apply labels_in.
    - now rewrite !map_length.
    - intros v Hv. apply in_map_iff in Hv. destruct Hv as (x & <- & _). split; [reflexivity|]. split; [apply ncols_tab|]. exact (second_moment_psd lg K V x).
    - destruct (fit_eta_R lg K C p _ limit tolerance eta P) as (fuel0 & F). exists fuel0. intros fuel Hf.
      destruct (F fuel Hf) as (e' & rep & R1 & _ & R2 & _). exists e', (- objective eta :: rep). split; [|exact R2].
      unfold trained_slda. rewrite E. cbn [bind]. rewrite He. exact R1.
  Qed.
End RealRuns.
