(** Lemmas about the likelihood printed by EpochProgress. *)
Require Import ZArith List Bool Arith Lia Reals Lra.
From Flocq Require Import Core.Core IEEE754.BinarySingleNaN.
Require Import Verif.Base Verif.Scalar Verif.BuilderModel Verif.AppsModel Verif.AppsSpec Verif.AppsProofs.
Import ListNotations.
Local Open Scope nat_scope.
Local Open Scope list_scope.

(** Truncation of a negative number. *)
Lemma trunc_negative x : (- IZR (2 ^ 31) <= x < 0)%R ->
  exists z, Rint x = Some z /\ (x <= IZR z < x + 1)%R /\ (z <= 0)%Z.
Proof.
  intros (H1 & H2). unfold Rint, Rtrunc. destruct (Rle_dec 0 x) as [L|L]; [lra|].
  destruct (archimed (- x)) as (A & B). remember (up (- x)) as u eqn:Eu. clear Eu.
  assert (U : (0 < u)%Z) by (apply lt_IZR; lra).
  exists (- (u - 1))%Z.
  assert (E : IZR (- (u - 1)) = (1 - IZR u)%R) by (rewrite opp_IZR, minus_IZR; ring).
  assert (G : (- 2 ^ 31 <= - (u - 1))%Z).
  { apply Z.lt_pred_le. apply lt_IZR. rewrite E. unfold Z.pred. rewrite plus_IZR, opp_IZR. lra. }
  rewrite (proj2 (Z.leb_le _ _) G). rewrite (proj2 (Z.ltb_lt _ _)) by lia.
  split; [reflexivity|]. rewrite E. split; [lra|lia].
Qed.
(** Truncation of an integer changes nothing. *)
Lemma trunc_integer z : (- 2 ^ 31 <= z < 0)%Z -> Rint (IZR z) = Some z.
Proof.
  intros H. destruct (trunc_negative (IZR z)) as (t & E & B & _).
  - rewrite <- opp_IZR. split; [apply IZR_le|apply IZR_lt]; lia.
  - rewrite E. f_equal. destruct B as (B1 & B2). apply le_IZR in B1. rewrite <- plus_IZR in B2. apply lt_IZR in B2. lia.
Qed.

Definition total (l : list R) : R := fold_right Rplus 0%R l.
Lemma total_nonpos l : Forall (fun x => x < 0)%R l -> (total l <= 0)%R.
Proof. induction 1; cbn [total fold_right]; [lra|]. fold (total l). lra. Qed.
Lemma reported_negative es : Forall (fun x => x < 0)%R (reported es).
Proof.
  induction es as [|e es IH]; [constructor|]. destruct e as [[x|]| |]; cbn [reported]; auto. destruct (Rlt_dec x 0); auto.
Qed.

Section Print.
  Variable lg : R -> R.
  Local Hint Extern 0 (ops _) => exact (Rops lg) : typeclass_instances.
  Notation event := (eprogress_event (O := Rops lg) (fun _ => true)).

  Lemma sum_events es : Forall not_end es -> forall n acc c first,
    (acc <= 0)%Z -> (0 <= c)%Z -> (0 <= n)%Z -> (n + 1 < 2 ^ 31)%Z -> (c + Z.of_nat (length (reported es)) < 2 ^ 31)%Z ->
    (- IZR (2 ^ 31) <= IZR acc + total (reported es))%R ->
    exists acc' first' out,
      hear event (mk_eprogress n acc c first) es
      = Ok (mk_eprogress n acc' (c + Z.of_nat (length (reported es))) first', out)
      /\ printed out = []
      /\ (acc' <= 0)%Z
      /\ (IZR acc + total (reported es) <= IZR acc' <= IZR acc + total (reported es) + INR (length (reported es)))%R
      /\ (reported es <> [] -> IZR acc' < IZR acc + total (reported es) + INR (length (reported es)))%R
      /\ (Forall (fun x => exists z, x = IZR z) (reported es) -> IZR acc' = IZR acc + total (reported es))%R.
  Proof.
    induction 1 as [|e es He _ IH]; intros n acc c first Ha Hc Hn Hn' Hl Hs.
    - exists acc, first, []. cbn in *. rewrite Z.add_0_r. repeat split; try lra; auto. congruence.
    - destruct e as [r|x|m]; cbn in He; try contradiction; cbn [hear].
      + set (out0 := if first then [LIteration (n + 1)] else []).
        assert (P0 : printed out0 = []) by (unfold out0; destruct first; reflexivity).
        assert (PA : forall o, printed (out0 ++ o) = printed o) by (intros o; unfold out0; destruct first; reflexivity).
        assert (E0 : (if first then let* k := incr n in Ok [LIteration k] else Ok []) = Ok out0).
        { unfold out0. destruct first; [|reflexivity]. rewrite incr_ok by lia. reflexivity. }
        cbn [eprogress_event ep_first ep_epochs ep_likelihood ep_count]. rewrite E0. cbn [bind].
        assert (Q : forall rest, reported (Expectation r :: es) = rest -> rest = reported es ->
          exists acc' first' out,
            (let* (l, a) := Ok (mk_eprogress n acc c false, out0) in let* (l0, b) := hear event l es in Ok (l0, a ++ b))
            = Ok (mk_eprogress n acc' (c + Z.of_nat (length rest)) first', out)
            /\ printed out = [] /\ (acc' <= 0)%Z
            /\ (IZR acc + total rest <= IZR acc' <= IZR acc + total rest + INR (length rest))%R
            /\ (rest <> [] -> IZR acc' < IZR acc + total rest + INR (length rest))%R
            /\ (Forall (fun x => exists z, x = IZR z) rest -> IZR acc' = IZR acc + total rest)%R).
        { intros rest Er ->. rewrite Er in Hl, Hs.
          destruct (IH n acc c false Ha Hc Hn Hn' Hl Hs) as (acc' & f' & out & E1 & E2 & E3).
          exists acc', f', (out0 ++ out). cbn [bind]. rewrite E1. cbn [bind]. rewrite PA. auto. }
        destruct r as [x|]; [|exact (Q (reported es) eq_refl eq_refl)].
        cbn [andb ltb zero Rops]. cbn [reported] in *. destruct (Rlt_dec x 0) as [Hx|Hx]; [|exact (Q (reported es) eq_refl eq_refl)].
        clear Q. cbn [add ofZ trunc Rops]. cbn [length total fold_right] in *. fold (total (reported es)) in *.
        pose proof (total_nonpos _ (reported_negative es)) as Ht. pose proof (IZR_le _ _ Ha) as Ha'.
        destruct (trunc_negative (IZR acc + x)) as (z & E & B & Bz); [lra|].
        rewrite E. rewrite incr_ok by lia. cbn [bind].
        destruct (IH n z (c + 1)%Z false Bz ltac:(lia) Hn Hn' ltac:(lia) ltac:(lra)) as (acc' & f' & out & E1 & E2 & E3 & E4 & E5 & E6).
        exists acc', f', (out0 ++ out). rewrite E1. cbn [bind]. rewrite PA, S_INR.
        replace (c + 1 + Z.of_nat (length (reported es)))%Z with (c + Z.of_nat (S (length (reported es))))%Z by lia.
        repeat split; auto; try lra.
        intros Hi. pose proof (Forall_inv Hi) as (zx & ->). pose proof (Forall_inv_tail Hi) as Hi'.
        rewrite (E6 Hi'). rewrite <- plus_IZR in E. rewrite trunc_integer in E.
        * injection E as <-. rewrite plus_IZR. ring.
        * split; [apply le_IZR; rewrite opp_IZR, plus_IZR; lra|apply lt_IZR; rewrite plus_IZR; lra].
      + cbn [eprogress_event bind]. cbn [reported] in *.
        destruct (IH n acc c first Ha Hc Hn Hn' Hl Hs) as (acc' & f' & out & E1 & E2). rewrite E1. cbn [bind app].
        exists acc', f', out. auto.
  Qed.

  (** What is printed for one epoch. *)
  Definition printed_for (es : list (notice R)) (out : list line) : Prop :=
    match printed out with
    | [] => reported es = [] \/ (- 1 < mean (reported es))%R
    | [z] => (mean (reported es) <= IZR z < mean (reported es) + 2)%R /\ (z <= 0)%Z
             /\ (Forall (fun x => exists z, x = IZR z) (reported es) -> (IZR z < mean (reported es) + 1)%R)
    | _ => False
    end.

  Lemma quot_bounds a c : (a < 0)%Z -> (0 < c)%Z ->
    (IZR a / IZR c <= IZR (Z.quot a c) < IZR a / IZR c + 1)%R /\ (Z.quot a c <= 0)%Z.
  Proof.
    intros Ha Hc. pose proof (IZR_lt _ _ Hc) as Hc'. simpl in Hc'.
    pose proof (Z.quot_rem a c ltac:(lia)) as Q. pose proof (Z.rem_nonpos a c ltac:(lia) ltac:(lia)) as R1.
    pose proof (Z.rem_bound_abs a c ltac:(lia)) as R2.
    assert (E : IZR a = (IZR c * IZR (Z.quot a c) + IZR (Z.rem a c))%R) by (rewrite <- mult_IZR, <- plus_IZR; f_equal; exact Q).
    assert (B1 : (IZR (Z.rem a c) <= 0)%R) by (apply IZR_le; exact R1).
    assert (B2 : (- IZR c < IZR (Z.rem a c))%R) by (rewrite <- opp_IZR; apply IZR_lt; lia).
    assert (D : (IZR a / IZR c = IZR (Z.quot a c) + IZR (Z.rem a c) / IZR c)%R) by (rewrite E; field; lra).
    split.
    - rewrite D. split.
      + assert (IZR (Z.rem a c) / IZR c <= 0)%R; [|lra]. apply Rmult_le_reg_r with (IZR c); [lra|]. unfold Rdiv. rewrite Rmult_assoc, Rinv_l by lra. lra.
      + assert (-1 < IZR (Z.rem a c) / IZR c)%R; [|lra]. apply Rmult_lt_reg_r with (IZR c); [lra|]. unfold Rdiv. rewrite Rmult_assoc, Rinv_l by lra. lra.
    - nia.
  Qed.

  Lemma epoch_prints es m n : Forall not_end es -> (0 <= n)%Z -> (n + 1 < 2 ^ 31)%Z ->
    (Z.of_nat (length (reported es)) < 2 ^ 31)%Z -> (- IZR (2 ^ 31) <= total (reported es))%R ->
    exists out, hear event (mk_eprogress n 0 0 true) (es ++ [EpochEnd m]) = Ok (mk_eprogress (n + 1) 0 0 true, out)
      /\ printed_for es out.
  Proof.
    intros He Hn Hn' Hl Hs.
    destruct (sum_events es He n 0%Z 0%Z true) as (acc & f & out & E1 & E2 & E3 & E4 & E5 & E6); try lia; try lra.
    rewrite Rplus_0_l in *. rewrite Z.add_0_l in E1.
    rewrite hear_app, E1. cbn [bind hear eprogress_event ep_likelihood ep_count ep_epochs].
    assert (PA : forall o, printed (out ++ o) = printed o).
    { intros o. clear -E2. induction out as [|[] out IH]; cbn in *; auto; discriminate. }
    assert (Empty : reported es = [] -> acc = 0%Z).
    { intros E. rewrite E in E4. cbn in E4. apply eq_IZR. lra. }
    destruct (Z.ltb_spec acc 0) as [L|L].
    - destruct (Z.eqb_spec (Z.of_nat (length (reported es))) 0) as [Z0|Z0].
      { destruct (reported es); [|discriminate]. rewrite Empty in L by reflexivity. lia. }
      cbn [bind]. rewrite incr_ok by lia. cbn [bind]. eexists. split; [reflexivity|].
      unfold printed_for. rewrite app_nil_r, PA. cbn [printed].
      destruct (quot_bounds acc (Z.of_nat (length (reported es))) L ltac:(lia)) as (Q1 & Q2).
      rewrite <- INR_IZR_INZ in Q1. assert (HI : (0 < INR (length (reported es)))%R) by (apply lt_0_INR; lia).
      unfold mean. fold (total (reported es)).
      assert (D1 : (total (reported es) / INR (length (reported es)) <= IZR acc / INR (length (reported es)))%R).
      { apply Rmult_le_compat_r; [left; apply Rinv_0_lt_compat; exact HI|lra]. }
      assert (D2 : (IZR acc / INR (length (reported es)) < total (reported es) / INR (length (reported es)) + 1)%R).
      { apply Rmult_lt_reg_r with (INR (length (reported es))); [exact HI|].
        rewrite Rmult_plus_distr_r. unfold Rdiv. rewrite !Rmult_assoc, Rinv_l by lra.
        assert (reported es <> []) by (intros E; rewrite E in Z0; cbn in Z0; lia).
        specialize (E5 H). lra. }
      split; [lra|]. split; [exact Q2|]. intros Hi. rewrite (E6 Hi) in Q1. lra.
    - cbn [bind]. rewrite incr_ok by lia. cbn [bind]. eexists. split; [reflexivity|].
      unfold printed_for. rewrite !app_nil_r, E2.
      destruct (reported es) as [|x r] eqn:Er; [left; reflexivity|]. right. unfold mean. fold (total (x :: r)).
      assert (HI : (0 < INR (length (x :: r)))%R) by (apply lt_0_INR; cbn; lia).
      apply Rmult_lt_reg_r with (INR (length (x :: r))); [exact HI|]. unfold Rdiv. rewrite Rmult_assoc, Rinv_l by lra.
      assert (acc = 0%Z) by lia. subst acc. specialize (E5 ltac:(discriminate)). lra.
  Qed.

  (** All epochs of a training run. *)
  Definition trace (eps : list (list (notice R) * params R)) : list (notice R) :=
    concat (map (fun e => fst e ++ [EpochEnd (snd e)]) eps).
  Definition in_range (es : list (notice R)) : Prop :=
    (Z.of_nat (length (reported es)) < 2 ^ 31)%Z /\ (- IZR (2 ^ 31) <= total (reported es))%R.

  Lemma epochs_print eps : Forall (fun e => Forall not_end (fst e)) eps -> Forall (fun e => in_range (fst e)) eps ->
    forall n, (0 <= n)%Z -> (n + Z.of_nat (length eps) < 2 ^ 31)%Z ->
    exists l outs, hear event (mk_eprogress n 0 0 true) (trace eps) = Ok (l, concat outs)
      /\ Forall2 (fun e out => printed_for (fst e) out) eps outs.
  Proof.
    induction eps as [|(es, m) eps IH]; intros HE HR n Hn Hl.
    - exists (mk_eprogress n 0 0 true), []. split; [reflexivity|constructor].
    - pose proof (Forall_inv HE) as He. pose proof (Forall_inv HR) as (R1 & R2). cbn [fst] in *.
      cbn [length] in Hl.
      destruct (epoch_prints es m n He Hn ltac:(lia) R1 R2) as (out & E1 & P1).
      destruct (IH (Forall_inv_tail HE) (Forall_inv_tail HR) (n + 1)%Z ltac:(lia) ltac:(lia)) as (l & outs & E2 & P2).
      exists l, (out :: outs). split; [|constructor; assumption].
      unfold trace in *. cbn [map concat fst snd]. rewrite hear_app, E1. cbn [bind]. rewrite E2. reflexivity.
  Qed.
End Print.

(** ** binary64 *)
Section Double.
  Notation F := (binary_float 53 1024).
  Definition minus_three_halves : F := B754_finite (prec := 53) (emax := 1024) true 6755399441055744 (-52) eq_refl.
  Definition minus_half : F := B754_finite (prec := 53) (emax := 1024) true 4503599627370496 (-53) eq_refl.
  Definition minus_3e9 : F := B754_finite (prec := 53) (emax := 1024) true 6291456000000000 (-21) eq_refl.
  Lemma minus_three_halves_value : B2R minus_three_halves = (- (3 / 2))%R.
  Proof. unfold minus_three_halves, B2R, F2R. cbn. lra. Qed.
  Lemma minus_half_value : B2R minus_half = (- (1 / 2))%R.
  Proof. unfold minus_half, B2R, F2R. cbn. lra. Qed.
  Lemma minus_3e9_value : B2R minus_3e9 = (- 3000000000)%R.
  Proof. unfold minus_3e9, B2R, F2R. cbn. lra. Qed.
End Double.
