(** Lemmas about utils.hpp in exact arithmetic: the table-based exponential and the
    normalisation helpers. *)
Require Import Reals ZArith List Bool Lia Lra Psatz.
Require Import Verif.Base Verif.Scalar Verif.Mat Verif.RealLemmas Verif.ExpTable Verif.UtilsModel.
Import ListNotations.
Open Scope R_scope.

(** ** The table *)
Definition lutR (i : nat) : R := IZR (nth i exp_lut 0%Z) / IZR (10 ^ 18)%Z.

Lemma tab_0 : nth 0 exp_lut 0%Z = 1000000000000000000%Z. Proof. vm_compute. reflexivity. Qed.
Lemma tab_1 : nth 1 exp_lut 0%Z = 1000977995032110268%Z. Proof. vm_compute. reflexivity. Qed.
Lemma tab_512 : nth 512 exp_lut 0%Z = 1649527294282563172%Z. Proof. vm_compute. reflexivity. Qed.
Lemma tab_800 : nth 800 exp_lut 0%Z = 2185869489826588907%Z. Proof. vm_compute. reflexivity. Qed.
Lemma tab_1023 : nth 1023 exp_lut 0%Z = 2718281828459045091%Z. Proof. vm_compute. reflexivity. Qed.
Opaque exp_lut.

Definition table_check : bool :=
  let u := nth 1 exp_lut 0%Z in
  forallb (fun i =>
    let a := nth i exp_lut 0%Z in let b := nth (S i) exp_lut 0%Z in
    ((0 <? a) && (a <? b) && (2 * Z.abs (b * 10 ^ 18 - a * u) * 10 ^ 15 <=? 4 * (a * u)))%Z) (seq 0 1023).
Lemma table_checked : table_check = true.
Proof. vm_compute. reflexivity. Qed.
Lemma table_step i : (i < 1023)%nat ->
  let a := nth i exp_lut 0%Z in let b := nth (S i) exp_lut 0%Z in let u := nth 1 exp_lut 0%Z in
  (0 < a < b /\ 2 * Z.abs (b * 10 ^ 18 - a * u) * 10 ^ 15 <= 4 * (a * u))%Z.
Proof.
  intros Hi. pose proof table_checked as H. unfold table_check in H. rewrite forallb_forall in H.
  specialize (H i). assert (Hs : In i (seq 0 1023)) by (apply in_seq; split; [apply Nat.le_0_l|exact Hi]).
  specialize (H Hs). cbv zeta in *. apply andb_true_iff in H. destruct H as [H H3].
  apply andb_true_iff in H. destruct H as [H1 H2].
  apply Z.ltb_lt in H1. apply Z.ltb_lt in H2. apply Z.leb_le in H3. auto.
Qed.

Lemma pow18 : 0 < IZR (10 ^ 18)%Z.
Proof. apply IZR_lt. reflexivity. Qed.
Lemma lutR_0 : lutR 0 = 1.
Proof. unfold lutR. rewrite tab_0. change (10 ^ 18)%Z with 1000000000000000000%Z. lra. Qed.
Lemma lutR_lt_S i : (i < 1023)%nat -> 0 < lutR i < lutR (S i).
Proof.
  intros Hi. destruct (table_step i Hi) as [[H1 H2] _]. unfold lutR. assert (H := pow18). split.
  - apply Rdiv_lt_0_compat; [now apply (IZR_lt 0)|exact H].
  - apply Rmult_lt_compat_r; [now apply Rinv_0_lt_compat|now apply IZR_lt].
Qed.
Lemma lutR_pos i : (i < 1024)%nat -> 0 < lutR i.
Proof.
  intros Hi. destruct i as [|i]; [rewrite lutR_0; lra|]. assert (Hi' : (i < 1023)%nat) by lia.
  pose proof (lutR_lt_S i Hi'). lra.
Qed.
Lemma lutR_mono i j : (i <= j < 1024)%nat -> lutR i <= lutR j.
Proof.
  intros [Hij Hj]. induction Hij as [|j Hij IH]; [lra|].
  assert (Hj' : (j < 1023)%nat) by lia. pose proof (lutR_lt_S j Hj').
  assert (lutR i <= lutR j) by (apply IH; lia). lra.
Qed.
Lemma lutR_ge_1 i : (i < 1024)%nat -> 1 <= lutR i.
Proof. intros H. rewrite <- lutR_0. apply lutR_mono. lia. Qed.

Lemma ln_one_plus e : Rabs e <= 2 / 10 ^ 15 -> Rabs (ln (1 + e)) <= 3 / 10 ^ 15.
Proof.
  intros H. assert (He : -2/10^15 <= e <= 2/10^15) by (apply Rabs_le_inv in H; lra).
  apply Rabs_le. split.
  - assert (- ln (1 + e) <= 3 / 10 ^ 15); [|lra]. rewrite <- ln_Rinv by lra.
    apply Rle_trans with (/ (1 + e) - 1).
    + assert (Hx : ln (/ (1 + e)) <= / (1 + e) - 1).
      { assert (0 < / (1 + e)) by (apply Rinv_0_lt_compat; lra).
        pose proof (exp_ineq1_le (ln (/ (1 + e)))) as Q. rewrite exp_ln in Q by assumption. lra. }
      exact Hx.
    + assert (0 < 1 + e) by lra. apply Rmult_le_reg_r with (1 + e); [assumption|].
      rewrite Rmult_minus_distr_r, Rinv_l by lra. nra.
  - pose proof (exp_ineq1_le (ln (1 + e))) as Q. rewrite exp_ln in Q by lra. lra.
Qed.

Lemma ln_lut_1 : Rabs (ln (lutR 1) - 1 / 1023) <= 1 / 10 ^ 15.
Proof.
  set (v := 977995032110268 / 2000977995032110268).
  assert (E : ln (lutR 1) = ln (1 + v) - ln (1 - v)).
  { assert (V : 0 < 1 - v) by (unfold v; lra).
    assert (I : 0 < / (1 - v)) by now apply Rinv_0_lt_compat.
    rewrite <- (Ropp_involutive (ln (1 - v))), <- ln_Rinv by assumption.
    replace (ln (1 + v) - - ln (/ (1 - v))) with (ln (1 + v) + ln (/ (1 - v))) by ring.
    rewrite <- ln_mult by (try assumption; unfold v; lra). f_equal. unfold lutR. rewrite tab_1.
    change (10 ^ 18)%Z with 1000000000000000000%Z. unfold v. field. }
  assert (V : 0 <= v <= 1 / 2) by (unfold v; lra).
  pose proof (ln_lower v V). pose proof (ln_upper v V). rewrite E. unfold lpoly in *. unfold v in *.
  apply Rabs_le. lra.
Qed.

Lemma ln_lut_S i : (i < 1023)%nat -> Rabs (ln (lutR (S i)) - ln (lutR i) - ln (lutR 1)) <= 3 / 10 ^ 15.
Proof.
  intros Hi. destruct (table_step i Hi) as [[Ha Hb] Hc]. cbv zeta in Hc.
  assert (P := pow18). pose proof (lutR_pos 1 ltac:(lia)) as P1.
  pose proof (lutR_lt_S i Hi) as [Pi Pl].
  replace (ln (lutR (S i)) - ln (lutR i) - ln (lutR 1)) with (ln (1 + (lutR (S i) / (lutR i * lutR 1) - 1))).
  2:{ replace (1 + (lutR (S i) / (lutR i * lutR 1) - 1)) with (lutR (S i) / (lutR i * lutR 1)) by ring.
      unfold Rdiv. rewrite ln_mult, ln_Rinv, ln_mult; try lra; [nra|]. apply Rinv_0_lt_compat. nra. }
  apply ln_one_plus.
  replace (lutR (S i) / (lutR i * lutR 1) - 1)
    with ((lutR (S i) - lutR i * lutR 1) / (lutR i * lutR 1)) by (field; lra).
  unfold Rdiv at 1. rewrite Rabs_mult, (Rabs_pos_eq (/ _)) by (left; apply Rinv_0_lt_compat; nra).
  assert (Q : 0 < lutR i * lutR 1) by nra.
  apply Rmult_le_reg_r with (lutR i * lutR 1); [exact Q|]. rewrite Rmult_assoc, Rinv_l, Rmult_1_r by lra.
  unfold lutR in *. set (a := nth i exp_lut 0%Z) in *. set (b := nth (S i) exp_lut 0%Z) in *.
  set (u := nth 1 exp_lut 0%Z) in *. set (D := IZR (10 ^ 18)%Z) in *.
  replace (IZR b / D - IZR a / D * (IZR u / D)) with ((IZR b * D - IZR a * IZR u) * / (D * D)) by (field; lra).
  replace (2 / 10 ^ 15 * (IZR a / D * (IZR u / D))) with (2 / 10 ^ 15 * (IZR a * IZR u) * / (D * D)) by (field; lra).
  rewrite Rabs_mult, (Rabs_pos_eq (/ (D * D))) by (left; apply Rinv_0_lt_compat; nra).
  apply Rmult_le_compat_r; [left; apply Rinv_0_lt_compat; nra|].
  apply IZR_le in Hc. rewrite !mult_IZR, abs_IZR, minus_IZR, !mult_IZR in Hc. fold D in Hc.
  change (IZR (10 ^ 15)) with (IZR 1000000000000000) in Hc. lra.
Qed.

Lemma ln_lut i : (i < 1024)%nat -> Rabs (ln (lutR i) - INR i / 1023) <= INR i * (4 / 10 ^ 15).
Proof.
  induction i as [|i IH]; intros Hi.
  - rewrite lutR_0, ln_1. cbn. rewrite Rabs_pos_eq; lra.
  - assert (Hi' : (i < 1023)%nat) by lia. assert (Hi'' : (i < 1024)%nat) by lia.
    specialize (IH Hi''). pose proof (ln_lut_S i Hi') as H1. pose proof ln_lut_1 as H2.
    rewrite S_INR. apply Rabs_le_inv in IH, H1, H2. apply Rabs_le. lra.
Qed.
Lemma ln_lut' i : (i < 1024)%nat -> Rabs (ln (lutR i) - INR i / 1023) <= 41 / 10 ^ 13.
Proof.
  intros Hi. eapply Rle_trans; [now apply ln_lut|].
  assert (INR i <= 1023). { replace 1023 with (INR 1023) by (rewrite INR_IZR_INZ; reflexivity). apply le_INR. lia. }
  lra.
Qed.
Lemma lut_512 : lutR 1023 <= lutR 512 * lutR 512.
Proof. unfold lutR. rewrite tab_512, tab_1023. change (10 ^ 18)%Z with 1000000000000000000%Z. lra. Qed.

(** ** fast_exp in exact arithmetic *)
Section Exact.
  Variable lg : R -> R.
  Local Instance RO : ops R := Rops lg.

  Lemma geb_R x y : geb x y = true <-> y <= x.
  Proof.
    unfold geb. cbn. destruct (Rlt_dec y x), (Req_EM_T x y); cbn; split; intros; try lra; try reflexivity; discriminate.
  Qed.
  Lemma geb_R_false x y : geb x y = false <-> x < y.
  Proof.
    split; intros H.
    - destruct (Rlt_dec x y) as [L|L]; [assumption|]. assert (geb x y = true) by (apply geb_R; lra). congruence.
    - destruct (geb x y) eqn:E; [|reflexivity]. apply geb_R in E. lra.
  Qed.
  Lemma ltb_R (x y : R) : ltb x y = true <-> x < y.
  Proof. cbn. destruct (Rlt_dec x y); split; intros; try lra; try reflexivity; discriminate. Qed.
  Lemma ltb_R_false (x y : R) : ltb x y = false <-> y <= x.
  Proof. cbn. destruct (Rlt_dec x y); split; intros; try lra; try reflexivity; discriminate. Qed.
  Lemma eqb_R (x y : R) : eqb x y = true <-> x = y.
  Proof. cbn. destruct (Req_EM_T x y); split; intros; try assumption; try reflexivity; try discriminate; contradiction. Qed.
  Lemma eqb_R_false (x y : R) : eqb x y = false <-> x <> y.
  Proof. cbn. destruct (Req_EM_T x y); split; intros; try assumption; try reflexivity; try discriminate; contradiction. Qed.

  Lemma halve_ok fuel : forall x cnt, 0 <= x < 2 ^ fuel ->
    exists y c, halve fuel x cnt = Ok (y, (cnt + c)%nat) /\ x = y * 2 ^ c /\ 0 <= y < 1 /\ (c <> O -> 1 / 2 <= y).
  Proof.
    induction fuel as [|f IH]; intros x cnt H; cbn [halve].
    - destruct (geb x one) eqn:E.
      + apply geb_R in E. cbn in *. lra.
      + exists x, 0%nat. rewrite Nat.add_0_r. split; [reflexivity|]. cbn in *. split; [lra|]. split; [lra|tauto].
    - destruct (geb x one) eqn:E.
      + apply geb_R in E. change (one : R) with 1 in E. change (x / two)%S with (x / 2).
        destruct (IH (x / 2) (S cnt)) as (y & c & E1 & E2 & E3 & E4).
        { cbn [pow] in H. lra. }
        exists y, (S c). rewrite E1. split; [f_equal; f_equal; lia|]. split; [cbn [pow]; lra|].
        split; [exact E3|]. intros _. destruct c as [|c]; [cbn in E2; lra|apply E4; discriminate].
      + apply geb_R_false in E. exists x, 0%nat. rewrite Nat.add_0_r. cbn in *.
        split; [reflexivity|]. split; [lra|]. split; [lra|tauto].
  Qed.

  Lemma trunc_index y : 0 <= y < 1 ->
    exists i, (i < 1024)%nat /\ trunc (y * ofZ 1024)%S = Some (Z.of_nat i) /\ INR i <= y * 1024 < INR i + 1.
  Proof.
    intros H. cbn. unfold Rint, Rtrunc. destruct (Rle_dec 0 (y * 1024)) as [L|L]; [|lra].
    destruct (archimed (y * 1024)) as [A1 A2]. set (u := up (y * 1024)) in *.
    assert (U1 : (0 < u)%Z) by (apply lt_IZR; lra).
    assert (U2 : (u - 1 < 1024)%Z) by (apply lt_IZR; rewrite minus_IZR; lra).
    exists (Z.to_nat (u - 1)). split; [lia|].
    rewrite INR_IZR_INZ, Z2Nat.id by lia. rewrite minus_IZR. split; [|lra].
    destruct ((- 2 ^ 31 <=? u - 1)%Z && (u - 1 <? 2 ^ 31)%Z)%bool eqn:E; [reflexivity|].
    apply andb_false_iff in E. destruct E as [E|E]; [apply Z.leb_gt in E|apply Z.ltb_ge in E]; lia.
  Qed.

  Lemma lut_ok i : (i < 1024)%nat -> lut (Z.of_nat i) = Some (lutR i).
  Proof.
    intros H. unfold lut.
    replace ((0 <=? Z.of_nat i)%Z && (Z.of_nat i <? 1024)%Z)%bool with true.
    - rewrite Nat2Z.id. reflexivity.
    - symmetry. apply andb_true_iff. split; [apply Z.leb_le|apply Z.ltb_lt]; lia.
  Qed.

  Lemma square_times_pow c (x : R) : square_times c x = x ^ (2 ^ c).
  Proof.
    induction c as [|c IH]; [cbn; ring|].
    change (square_times (S c) x) with (square_times c x * square_times c x). rewrite IH, <- pow_add.
    f_equal. cbn. lia.
  Qed.

  (** The shape of the result for arguments that use the table. *)
  Definition looked_up (x v : R) : Prop :=
    exists y c i, x = y * 2 ^ c /\ 0 <= y < 1 /\ (c <> O -> 1 / 2 <= y) /\
      (i < 1024)%nat /\ INR i <= y * 1024 < INR i + 1 /\ v = lutR i ^ (2 ^ c).

  Lemma fast_exp_pos_table x : 0 <= x <= 100 -> exists v, fast_exp_pos x = Ok v /\ looked_up x v.
  Proof.
    intros H. unfold fast_exp_pos.
    assert (E : ltb (ofZ 100) x = false) by (apply ltb_R_false; cbn; lra). rewrite E.
    destruct (halve_ok 8 x 0) as (y & c & E1 & E2 & E3 & E4); [lra|].
    rewrite E1. cbn [bind]. destruct (trunc_index y E3) as (i & Hi & Ei & Bi). rewrite Ei, (lut_ok i Hi).
    eexists. split; [reflexivity|]. exists y, c, i. rewrite Nat.add_0_l, square_times_pow. repeat split; try assumption; apply Bi || apply E3.
  Qed.
  Lemma fast_exp_pos_large x : 100 < x -> fast_exp_pos x = Ok (exp x).
  Proof.
    intros H. unfold fast_exp_pos. assert (E : ltb (ofZ 100) x = true) by (apply ltb_R; cbn; lra). rewrite E. reflexivity.
  Qed.
  Lemma fast_exp_neg x : x < 0 -> fast_exp x = (let* e := fast_exp_pos (- x) in Ok (1 / e)).
  Proof. intros H. unfold fast_exp. assert (E : ltb x zero = true) by (apply ltb_R; exact H). rewrite E. reflexivity. Qed.
  Lemma fast_exp_nonneg x : 0 <= x -> fast_exp x = fast_exp_pos x.
  Proof. intros H. unfold fast_exp. assert (E : ltb x zero = false) by (apply ltb_R_false; exact H). rewrite E. reflexivity. Qed.

  (** The value computed by fast_exp, which is always defined (fast_exp_value). *)
  Definition fexp (x : R) : R := match fast_exp x with Ok v => v | _ => 0 end.

  Lemma looked_up_ge_1 x v : looked_up x v -> 1 <= v.
  Proof. intros (y & c & i & _ & _ & _ & Hi & _ & ->). apply pow_R1_Rle, lutR_ge_1, Hi. Qed.

  Lemma fast_exp_cases x :
    (0 <= x <= 100 /\ fast_exp x = Ok (fexp x) /\ looked_up x (fexp x)) \/
    (-100 <= x < 0 /\ fast_exp x = Ok (fexp x) /\ exists v, looked_up (- x) v /\ fexp x = 1 / v) \/
    (100 < Rabs x /\ fast_exp x = Ok (fexp x) /\ fexp x = exp x).
  Proof.
    unfold fexp. destruct (Rle_dec 0 x) as [P|P].
    - rewrite fast_exp_nonneg by assumption. destruct (Rle_dec x 100) as [Q|Q].
      + left. destruct (fast_exp_pos_table x) as (v & E & L); [lra|]. rewrite E. split; [lra|]. auto.
      + right. right. rewrite fast_exp_pos_large by lra. rewrite Rabs_pos_eq by lra. split; [lra|]. auto.
    - right. rewrite fast_exp_neg by lra. destruct (Rle_dec (-100) x) as [Q|Q].
      + left. destruct (fast_exp_pos_table (- x)) as (v & E & L); [lra|]. rewrite E. cbn [bind].
        split; [lra|]. split; [reflexivity|]. exists v. auto.
      + right. rewrite fast_exp_pos_large by lra. cbn [bind]. rewrite Rabs_left by lra. split; [lra|].
        split; [reflexivity|]. rewrite exp_Ropp. field. apply Rgt_not_eq, exp_pos.
  Qed.

  Lemma fast_exp_value x : fast_exp x = Ok (fexp x).
  Proof. destruct (fast_exp_cases x) as [H|[H|H]]; apply H. Qed.
  Lemma fexp_pos x : 0 < fexp x.
  Proof.
    destruct (fast_exp_cases x) as [(_ & _ & H)|[(_ & _ & v & H & E)|(_ & _ & E)]].
    - apply looked_up_ge_1 in H. lra.
    - apply looked_up_ge_1 in H. rewrite E. apply Rdiv_lt_0_compat; lra.
    - rewrite E. apply exp_pos.
  Qed.

  (** ** Accuracy *)
  Lemma ln_pow_nat x n : 0 < x -> ln (x ^ n) = INR n * ln x.
  Proof.
    intros H. induction n as [|n IH]; [cbn; rewrite ln_1; lra|].
    cbn [pow]. rewrite ln_mult, IH, S_INR; [lra|assumption|now apply pow_lt].
  Qed.
  Lemma pow2_INR c : INR (2 ^ c) = 2 ^ c.
  Proof. rewrite pow_INR. reflexivity. Qed.

  Lemma looked_up_accurate x v : x <= 100 -> looked_up x v -> Rabs (ln v - x) <= Rmax 1 x / 1023 + 1 / 10 ^ 9.
  Proof.
    intros Hx (y & c & i & Ex & Hy & Hc & Hi & Bi & ->).
    rewrite ln_pow_nat by now apply lutR_pos. rewrite pow2_INR.
    pose proof (ln_lut' i Hi) as L. apply Rabs_le_inv in L. set (l := ln (lutR i)) in *.
    assert (P2 : 1 <= 2 ^ c) by (apply pow_R1_Rle; lra).
    destruct c as [|c].
    - cbn [pow] in *. pose proof (Rmax_l 1 x). set (M := Rmax 1 x) in *.
      assert (INR i / 1023 <= y * 1024 / 1023) by (apply Rmult_le_compat_r; lra).
      assert ((y * 1024 - 1) / 1023 <= INR i / 1023) by (apply Rmult_le_compat_r; lra).
      apply Rabs_le. lra.
    - assert (H2 : 1 / 2 <= y) by (apply Hc; discriminate).
      assert (P3 : 2 ^ S c <= 200). { nra. }
      pose proof (Rmax_r 1 x). set (M := Rmax 1 x) in *. set (w := 2 ^ S c) in *.
      assert (A1 : INR i / 1023 <= y * 1024 / 1023) by (apply Rmult_le_compat_r; lra).
      assert (A2 : (y * 1024 - 1) / 1023 <= INR i / 1023) by (apply Rmult_le_compat_r; lra).
      assert (B1 : l - y <= y / 1023 + 41 / 10 ^ 13) by lra.
      assert (B2 : y - l <= y / 1023 + 41 / 10 ^ 13) by lra.
      replace (w * l - x) with (w * (l - y)) by (rewrite Ex; ring).
      assert (C1 : w * (l - y) <= w * (y / 1023 + 41 / 10 ^ 13)) by (apply Rmult_le_compat_l; lra).
      assert (C2 : w * (y - l) <= w * (y / 1023 + 41 / 10 ^ 13)) by (apply Rmult_le_compat_l; lra).
      assert (E1 : w * (y / 1023 + 41 / 10 ^ 13) = x / 1023 + w * (41 / 10 ^ 13)) by (rewrite Ex; field).
      assert (w * (41 / 10 ^ 13) <= 1 / 10 ^ 9) by lra.
      apply Rabs_le. lra.
  Qed.

  Definition fexp_err (x : R) : R := Rmax 1 (Rabs x) / 1023 + 1 / 10 ^ 9.
  Lemma fexp_err_pos x : 0 < fexp_err x.
  Proof. unfold fexp_err. pose proof (Rmax_l 1 (Rabs x)). lra. Qed.
  Lemma fexp_accurate x : Rabs (ln (fexp x) - x) <= fexp_err x.
  Proof.
    destruct (fast_exp_cases x) as [(Hx & _ & H)|[(Hx & _ & v & H & E)|(Hx & _ & E)]].
    - unfold fexp_err. rewrite (Rabs_pos_eq x) by lra. apply looked_up_accurate; [lra|assumption].
    - unfold fexp_err. rewrite (Rabs_left x) by lra. pose proof (looked_up_ge_1 _ _ H).
      rewrite E. unfold Rdiv at 1. rewrite Rmult_1_l, ln_Rinv by lra.
      replace (- ln v - x) with (- (ln v - (- x))) by ring. rewrite Rabs_Ropp.
      apply looked_up_accurate; [lra|assumption].
    - rewrite E, ln_exp. unfold Rminus. rewrite Rplus_opp_r, Rabs_R0. left. apply fexp_err_pos.
  Qed.
  Lemma fexp_exact x : 100 < Rabs x -> fexp x = exp x.
  Proof.
    intros H. destruct (fast_exp_cases x) as [(Hx & _)|[(Hx & _)|(_ & _ & E)]]; [..|exact E];
      unfold Rabs in H; destruct (Rcase_abs x) in H; lra.
  Qed.

  (** ** Monotonicity *)
  Lemma looked_up_mono x x' v v' : x <= x' -> looked_up x v -> looked_up x' v' -> v <= v'.
  Proof.
    intros Hx (y & c & i & Ex & Hy & Hc & Hi & Bi & ->) (y' & c' & i' & Ex' & Hy' & Hc' & Hi' & Bi' & ->).
    destruct (lt_eq_lt_dec c c') as [[L|L]|L].
    - (* the larger argument was halved more often: compare both with lut[1023]^(2^c) and lut[512]^2 *)
      assert (C' : c' <> O) by lia. specialize (Hc' C').
      assert (I' : (512 <= i')%nat).
      { apply Nat.lt_succ_r. apply INR_lt. rewrite (S_INR i'). replace (INR 512) with 512 by (rewrite INR_IZR_INZ; reflexivity). lra. }
      apply Rle_trans with (lutR 1023 ^ (2 ^ c)).
      { apply pow_incr. split; [left; now apply lutR_pos|]. apply lutR_mono. lia. }
      apply Rle_trans with ((lutR 512 * lutR 512) ^ (2 ^ c)).
      { apply pow_incr. split; [left; apply lutR_pos; lia|apply lut_512]. }
      rewrite Rpow_mult_distr, <- pow_add.
      apply Rle_trans with (lutR 512 ^ (2 ^ c')).
      { apply Rle_pow; [apply lutR_ge_1; lia|]. replace (2 ^ c + 2 ^ c)%nat with (2 ^ S c)%nat by (cbn; lia).
        apply Nat.pow_le_mono_r; lia. }
      apply pow_incr. split; [left; apply lutR_pos; lia|]. apply lutR_mono. lia.
    - subst c'. assert (P : 0 < 2 ^ c) by (apply pow_lt; lra).
      assert (Hyy : y <= y') by (apply Rmult_le_reg_r with (2 ^ c); lra).
      assert (Hii : (i <= i')%nat). { apply Nat.lt_succ_r. apply INR_lt. rewrite S_INR. lra. }
      apply pow_incr. split; [left; now apply lutR_pos|]. apply lutR_mono. lia.
    - exfalso. assert (C : c <> O) by lia. specialize (Hc C).
      assert (P : 0 < 2 ^ c') by (apply pow_lt; lra).
      assert (Q : 2 * 2 ^ c' <= 2 ^ c).
      { replace (2 * 2 ^ c') with (2 ^ S c') by reflexivity. apply Rle_pow; [lra|lia]. }
      nra.
  Qed.
  Lemma fexp_mono x x' : x <= x' -> -100 <= x -> x' <= 100 -> fexp x <= fexp x'.
  Proof.
    intros H H1 H2.
    destruct (fast_exp_cases x) as [(Hx & _ & Lx)|[(Hx & _ & v & Lx & E)|(Hx & _)]];
    destruct (fast_exp_cases x') as [(Hx' & _ & Lx')|[(Hx' & _ & v' & Lx' & E')|(Hx' & _)]];
      try (exfalso; lra); try (exfalso; unfold Rabs in *; destruct (Rcase_abs x); destruct (Rcase_abs x'); lra);
      try (exfalso; unfold Rabs in Hx; destruct (Rcase_abs x); lra); try (exfalso; unfold Rabs in Hx'; destruct (Rcase_abs x'); lra).
    - exact (looked_up_mono x x' _ _ H Lx Lx').
    - apply looked_up_ge_1 in Lx, Lx'. rewrite E. apply Rle_trans with 1; [|assumption].
      apply Rmult_le_reg_r with v; [lra|]. unfold Rdiv. rewrite Rmult_assoc, Rinv_l; lra.
    - pose proof (looked_up_ge_1 _ _ Lx) as G. pose proof (looked_up_ge_1 _ _ Lx') as G'.
      assert (v' <= v) by (eapply looked_up_mono; [|exact Lx'|exact Lx]; lra).
      rewrite E, E'. unfold Rdiv. rewrite !Rmult_1_l. apply Rinv_le_contravar; lra.
  Qed.
  Lemma fexp_0 : fexp 0 = 1.
  Proof.
    destruct (fast_exp_cases 0) as [(_ & _ & y & c & i & Ex & Hy & Hc & Hi & Bi & E)|[(Hx & _)|(Hx & _)]];
      [|lra|rewrite Rabs_R0 in Hx; lra].
    assert (P : 0 < 2 ^ c) by (apply pow_lt; lra). assert (Y : y = 0) by nra. subst y.
    assert (i = O). { destruct i as [|i]; [reflexivity|]. exfalso. rewrite S_INR in Bi. pose proof (pos_INR i). lra. }
    subst i. rewrite E, lutR_0. apply pow1.
  Qed.
  (** fast_exp 100 reads entry 800: exp(128 * 800 / 1023), about exp(100.098) *)
  Lemma fexp_100 : exp (100 + 1 / 20) < fexp 100.
  Proof.
    destruct (fast_exp_cases 100) as [(_ & _ & y & c & i & Ex & Hy & Hc & Hi & Bi & E)|[(Hx & _)|(Hx & _)]];
      [|lra|rewrite Rabs_pos_eq in Hx; lra].
    assert (C : c = 7%nat).
    { destruct (lt_eq_lt_dec c 7) as [[L|L]|L]; [exfalso|assumption|exfalso].
      - assert (2 ^ c <= 2 ^ 6) by (apply Rle_pow; [lra|lia]). nra.
      - assert (2 ^ 8 <= 2 ^ c) by (apply Rle_pow; [lra|lia]). assert (1 / 2 <= y) by (apply Hc; lia). nra. }
    subst c. assert (Y : y * 1024 = 800) by lra. rewrite Y in Bi.
    assert (I : i = 800%nat).
    { apply INR_eq. replace (INR 800) with 800 by (rewrite INR_IZR_INZ; reflexivity).
      rewrite INR_IZR_INZ in *. destruct Bi as [B1 B2]. apply le_IZR in B1. rewrite <- plus_IZR in B2. apply lt_IZR in B2.
      f_equal. lia. }
    subst i. rewrite E. apply ln_lt_inv; [apply exp_pos|apply pow_lt; apply lutR_pos; lia|].
    rewrite ln_exp, ln_pow_nat by (apply lutR_pos; lia). rewrite pow2_INR.
    pose proof (ln_lut' 800 ltac:(lia)) as L. apply Rabs_le_inv in L.
    replace (INR 800) with 800 in L by (rewrite INR_IZR_INZ; reflexivity). lra.
  Qed.
  Lemma fexp_not_mono : exists x y, x < y /\ fexp y < fexp x.
  Proof.
    exists 100, (100 + 1 / 20). split; [lra|]. rewrite (fexp_exact (100 + 1 / 20)) by (rewrite Rabs_pos_eq; lra).
    apply fexp_100.
  Qed.
  Lemma fast_exp_mono_ok x y a b : x <= y -> -100 <= x -> y <= 100 ->
    fast_exp x = Ok a -> fast_exp y = Ok b -> a <= b.
  Proof.
    intros H H1 H2 Ha Hb. rewrite fast_exp_value in Ha, Hb. injection Ha as <-. injection Hb as <-. now apply fexp_mono.
  Qed.
  Lemma fast_exp_not_mono_ok : exists x y a b, x < y /\ fast_exp x = Ok a /\ fast_exp y = Ok b /\ b < a.
  Proof.
    destruct fexp_not_mono as (x & y & H & G). exists x, y, (fexp x), (fexp y). rewrite !fast_exp_value. auto.
  Qed.
End Exact.

(** ** Normalisation and scaled sums in exact arithmetic *)
Section Lines.
  Variable lg : R -> R.
  Local Instance RO2 : ops R := Rops lg.

  Lemma redux_mrow m i : redux (mrow m i) = rsum (ncols m) (fun j => mget m i j).
  Proof. reflexivity. Qed.
  Lemma redux_mcol m j : redux (mcol m j) = rsum (mrows m) (fun i => mget m i j).
  Proof. reflexivity. Qed.

  Lemma normalize_rows_dims (m : mat R) : mrows (normalize_rows m) = mrows m /\ ncols (normalize_rows m) = ncols m.
  Proof. unfold normalize_rows. split; [reflexivity|apply ncols_tab]. Qed.
  Lemma normalize_cols_dims (m : mat R) : mrows (normalize_cols m) = mrows m /\ ncols (normalize_cols m) = ncols m.
  Proof. unfold normalize_cols. split; [reflexivity|apply ncols_tab]. Qed.

  Lemma normalize_rows_get m i j : (i < mrows m)%nat -> (j < ncols m)%nat ->
    mget (normalize_rows m) i j =
      if Req_EM_T (rsum (ncols m) (fun j => mget m i j)) 0 then mget m i j
      else mget m i j / rsum (ncols m) (fun j => mget m i j).
  Proof.
    intros Hi Hj. unfold normalize_rows. rewrite mget_tab by assumption. cbv zeta. rewrite redux_mrow. cbn.
    destruct (Req_EM_T _ 0); reflexivity.
  Qed.
  Lemma normalize_cols_get m i j : (i < mrows m)%nat -> (j < ncols m)%nat ->
    mget (normalize_cols m) i j =
      if Req_EM_T (rsum (mrows m) (fun i => mget m i j)) 0 then mget m i j
      else mget m i j / rsum (mrows m) (fun i => mget m i j).
  Proof.
    intros Hi Hj. unfold normalize_cols. rewrite mget_tab by assumption. cbv zeta. rewrite redux_mcol. cbn.
    destruct (Req_EM_T _ 0); reflexivity.
  Qed.

  Lemma normalize_rows_zero m i : (i < mrows m)%nat -> rsum (ncols m) (fun j => mget m i j) = 0 ->
    forall j, (j < ncols m)%nat -> mget (normalize_rows m) i j = mget m i j.
  Proof. intros Hi Z j Hj. rewrite normalize_rows_get by assumption. destruct (Req_EM_T _ 0); [reflexivity|contradiction]. Qed.
  Lemma normalize_rows_sum m i : (i < mrows m)%nat -> rsum (ncols m) (fun j => mget m i j) <> 0 ->
    rsum (ncols m) (fun j => mget (normalize_rows m) i j) = 1.
  Proof.
    intros Hi N.
    rewrite (rsum_ext _ _ (fun j => mget m i j / rsum (ncols m) (fun j => mget m i j))).
    - rewrite rsum_div. unfold Rdiv. apply Rinv_r. exact N.
    - intros j Hj. rewrite normalize_rows_get by assumption. destruct (Req_EM_T _ 0); [contradiction|reflexivity].
  Qed.
  Lemma normalize_rows_ratio m i j k : (i < mrows m)%nat -> (j < ncols m)%nat -> (k < ncols m)%nat ->
    mget (normalize_rows m) i j * mget m i k = mget (normalize_rows m) i k * mget m i j.
  Proof.
    intros Hi Hj Hk. rewrite !normalize_rows_get by assumption. destruct (Req_EM_T _ 0); [ring|field; assumption].
  Qed.
  Lemma normalize_cols_zero m j : (j < ncols m)%nat -> rsum (mrows m) (fun i => mget m i j) = 0 ->
    forall i, (i < mrows m)%nat -> mget (normalize_cols m) i j = mget m i j.
  Proof. intros Hi Z i Hj. rewrite normalize_cols_get by assumption. destruct (Req_EM_T _ 0); [reflexivity|contradiction]. Qed.
  Lemma normalize_cols_sum m j : (j < ncols m)%nat -> rsum (mrows m) (fun i => mget m i j) <> 0 ->
    rsum (mrows m) (fun i => mget (normalize_cols m) i j) = 1.
  Proof.
    intros Hi N.
    rewrite (rsum_ext _ _ (fun i => mget m i j / rsum (mrows m) (fun i => mget m i j))).
    - rewrite rsum_div. unfold Rdiv. apply Rinv_r. exact N.
    - intros i Hj. rewrite normalize_cols_get by assumption. destruct (Req_EM_T _ 0); [contradiction|reflexivity].
  Qed.
  Lemma normalize_cols_ratio m j i k : (j < ncols m)%nat -> (i < mrows m)%nat -> (k < mrows m)%nat ->
    mget (normalize_cols m) i j * mget m k j = mget (normalize_cols m) k j * mget m i j.
  Proof.
    intros Hi Hj Hk. rewrite !normalize_cols_get by assumption. destruct (Req_EM_T _ 0); [ring|field; assumption].
  Qed.

  Lemma fold_scaled (m : mat R) (c : nat -> R) (z : nat -> bool) js : forall r,
    (forall j, In j js -> z j = true -> c j = 0) ->
    fold_left (fun r j => if z j then r else vtab (length r) (fun i => vget r i + c j * mget m i j)) js r
    = vtab (length r) (fun i => vget r i + lsum (map (fun j => c j * mget m i j) js)).
  Proof.
    unfold lsum. induction js as [|j js IH]; intros r H; cbn [fold_left map fold_right].
    - rewrite <- (vtab_eta r 0) at 1. apply vtab_ext. intros i Hi. unfold vget. cbn. ring.
    - rewrite IH by (intros; apply H; [now right|assumption]). destruct (z j) eqn:Ez.
      + apply vtab_ext. intros i Hi. rewrite (H j) by (assumption || now left). cbn. ring.
      + rewrite vtab_length. apply vtab_ext. intros i Hi. rewrite vget_tab by assumption. ring.
  Qed.
  Lemma sum_cols_scaled_R m y r :
    sum_cols_scaled m y r = vtab (length r) (fun i => vget r i + rsum (ncols m) (fun j => vget y j * mget m i j)).
  Proof.
    unfold sum_cols_scaled.
    etransitivity; [apply (fold_scaled m (vget y) (fun j => eqb (vget y j) zero))|reflexivity].
    intros j _ H. cbn in H. destruct (Req_EM_T (vget y j) 0); [assumption|discriminate].
  Qed.
  Lemma sum_cols_scaled_int_R m y r :
    sum_cols_scaled_int m y r = vtab (length r) (fun i => vget r i + rsum (ncols m) (fun j => IZR (nth j y 0%Z) * mget m i j)).
  Proof.
    unfold sum_cols_scaled_int.
    etransitivity; [apply (fold_scaled m (fun j => IZR (nth j y 0%Z)) (fun j => (nth j y 0 =? 0)%Z))|reflexivity].
    intros j _ H. apply Z.eqb_eq in H. rewrite H. reflexivity.
  Qed.
End Lines.
