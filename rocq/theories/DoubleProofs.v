(** The unsupervised E step in double precision. *)
Require Import Reals ZArith List Bool Arith Lia Lra Psatz.
From Flocq Require Import Core.Core IEEE754.BinarySingleNaN.
Require Import Verif.Base Verif.Scalar Verif.Mat Verif.HostModel Verif.UtilsModel Verif.BuilderModel Verif.EStepModel Verif.EStepAny.
Require Import Verif.DoubleSpec Verif.DoubleArith Verif.DoubleUtils Verif.InferProofs.
Import ListNotations.
Open Scope R_scope.

Lemma rsum_dist n f g e : (forall i, (i < n)%nat -> Rabs (f i - g i) <= e i) -> Rabs (rsum n f - rsum n g) <= rsum n e.
Proof. intros H. rewrite <- rsum_minus. eapply Rle_trans; [apply rsum_abs|]. now apply rsum_le. Qed.
Lemma INR_small n : (Z.of_nat n <= 2 ^ 30)%Z -> 0 <= INR n <= 1073741824.
Proof. intros H. split; [apply pos_INR|]. rewrite INR_IZR_INZ. apply (IZR_le _ (2 ^ 30)). exact H. Qed.

(** The unit roundoff and half the smallest number *)
Notation U := (pow (-53)).
Notation T0 := (pow (-1075)).
Lemma unit_facts : 0 < U /\ U <= / 9007199254740992 /\ 0 < T0 /\ T0 * 1000000000000000000 <= U /\ / 2 ^ 50 = 8 * U /\ / 2 ^ 49 = 16 * U /\ pow (-52) = 2 * U.
Proof.
  assert (0 < U) by apply bpow_gt_0. split; [assumption|]. split; [right; reflexivity|]. split; [apply bpow_gt_0|]. split.
  - apply Rle_trans with (T0 * pow 60).
    + apply Rmult_le_compat_l; [apply bpow_ge_0|]. change (pow 60) with (IZR (2 ^ 60)). apply IZR_le. lia.
    + rewrite <- bpow_plus. apply bpow_le. lia.
  - cbn. lra.
Qed.

Section Any.
  Context {T : Type} {O : ops T}.
  (** One coefficient of sum_cols_scaled *)
  Definition acc_step (X : list Z) (w : nat -> T) (r : T) (j : nat) : T := if (nth j X 0 =? 0)%Z then r else add r (mul (ofZ (nth j X 0%Z)) (w j)).
  Lemma scaled_coefficient (m : mat T) (X : list Z) l : forall r, length (fold_left (fun r j => if (nth j X 0 =? 0)%Z then r
                          else vtab (length r) (fun i => (vget r i + ofZ (nth j X 0%Z) * mget m i j)%S)) l r) = length r /\
    forall i, (i < length r)%nat -> vget (fold_left (fun r j => if (nth j X 0 =? 0)%Z then r
                          else vtab (length r) (fun i => (vget r i + ofZ (nth j X 0%Z) * mget m i j)%S)) l r) i =
      fold_left (acc_step X (mget m i)) l (vget r i).
  Proof.
    induction l as [|j l IH]; intros r; [split; reflexivity|]. cbn [fold_left]. destruct (IH (if (nth j X 0 =? 0)%Z then r
      else vtab (length r) (fun i => (vget r i + ofZ (nth j X 0%Z) * mget m i j)%S))) as [L C].
    assert (E : length (if (nth j X 0 =? 0)%Z then r else vtab (length r) (fun i => (vget r i + ofZ (nth j X 0%Z) * mget m i j)%S)) = length r)
      by (destruct (_ =? _)%Z; [reflexivity|apply vtab_length]).
    split; [rewrite L; exact E|]. intros i Hi. rewrite C by (rewrite E; exact Hi). f_equal. unfold acc_step.
    destruct (_ =? _)%Z; [reflexivity|]. now rewrite vget_tab.
  Qed.
  Lemma gamma_coefficient X alpha (phi : mat T) : length (compute_gamma X alpha phi) = length alpha /\
    forall i, (i < length alpha)%nat -> vget (compute_gamma X alpha phi) i = fold_left (acc_step X (mget phi i)) (seq 0 (ncols phi)) (vget alpha i).
  Proof. apply scaled_coefficient. Qed.

  Lemma em_loop_inv {A} (P : A -> Prop) (g : A -> list T) up tol :
    (forall s, P s -> exists s', up s = Ok s' /\ P s') ->
    forall limit old s, P s -> exists t, em_loop limit tol g up old s = Ok t /\ P t.
  Proof.
    intros H. induction limit as [|l IH]; intros old s Hs; [exists s; auto|]. cbn [em_loop].
    destruct (converged old (g s) tol); [exists s; auto|].
    destruct (H s Hs) as (s' & E & Hs'). rewrite E. cbn [bind]. now apply IH.
  Qed.
  Lemma vmapM_in (f : T -> outcome T) (v : list T) (P : nat -> T -> Prop) : (forall i, (i < length v)%nat -> exists a, f (vget v i) = Ok a /\ P i a) ->
    exists l, vmapM f v = Ok l /\ length l = length v /\ forall i, (i < length v)%nat -> P i (vget l i).
  Proof.
    intros H. unfold vmapM. rewrite <- (vtab_eta v zero), vtab_map. destruct (seqM_tab (length v) (fun i => f (vget v i)) P H) as (l & E & L & Q).
    exists l. rewrite vtab_eta. split; [exact E|]. split; [exact L|]. intros i Hi. now apply Q.
  Qed.
End Any.

Section Double.
  Variables (lg ex lga : double -> double) (sum : list double -> double).
  Local Hint Extern 0 (ops _) => exact (DO lg ex lga sum) : typeclass_instances.
  Hypothesis Hlg : rough_log lg.
  Hypothesis Hex : rough_exp ex.
  Hypothesis Hsum : forall l, summed l (sum l).

  Lemma is_zero (s : double) : is_finite s = true -> eqb s zero = true <-> B2R s = 0.
  Proof.
    intros F. cbn [eqb zero DO double_ops Fops]. rewrite Beqb_correct by (assumption || reflexivity). cbn [B2R].
    destruct (Req_bool_spec (B2R s) 0); split; intros; try reflexivity; try assumption; try discriminate; contradiction.
  Qed.

  (** A normalised column *)
  Lemma normal_d (K : nat) (p : nat -> double) k : (Z.of_nat K <= 2 ^ 30)%Z -> (-1074 <= k <= 900)%Z ->
    (forall i, (i < K)%nat -> is_finite (p i) = true /\ 0 <= B2R (p i) <= pow k) ->
    let s := redux (vtab K p) in let q i := if eqb s zero then p i else div (p i) s in
    (forall i, (i < K)%nat -> is_finite (q i) = true /\ 0 <= B2R (q i) <= 1) /\
    ((exists i, (i < K)%nat /\ 0 < B2R (p i)) -> Rabs (rsum K (fun i => B2R (q i)) - 1) <= (INR K + 1) / 2 ^ 50) /\
    (forall i j, (i < K)%nat -> pow j <= B2R (p i) -> (-1074 <= j - k - 30 <= 0)%Z -> pow (j - k - 30) <= B2R (q i)).
  Proof.
    intros HK Hk Hp s q. destruct unit_facts as (PU & SU & PT & ST & E50 & _ & E52). destruct (INR_small K HK) as [K0 K1].
    destruct (summed_in k (vtab K p) s (Hsum _) ltac:(lia)) as (Fs & Bs & Ms & Es).
    { rewrite vtab_length. lia. }
    { apply Forall_forall. intros x Hx. unfold vtab in Hx. apply in_map_iff in Hx. destruct Hx as (i & <- & Hi). apply in_seq in Hi. apply Hp. lia. }
    rewrite vtab_length in *.
    assert (Ep : lval (vtab K p) = rsum K (fun i => B2R (p i))) by (unfold lval, rsum; now rewrite vtab_map).
    rewrite Ep in Es. assert (Le : forall i, (i < K)%nat -> B2R (p i) <= B2R s).
    { intros i Hi. apply Ms. unfold vtab. apply in_map_iff. exists i. split; [reflexivity|]. apply in_seq. lia. }
    destruct (eqb s zero) eqn:Z.
    - apply (is_zero s Fs) in Z. split; [|split].
      + intros i Hi. subst q. cbn beta. destruct (Hp i Hi) as [F B]. specialize (Le i Hi). split; [exact F|lra].
      + intros (i & Hi & P). specialize (Le i Hi). lra.
      + intros i j Hi P _. specialize (Le i Hi). pose proof (bpow_gt_0 radix2 j). lra.
    - assert (Ps : 0 < B2R s). { destruct (Req_dec (B2R s) 0) as [E|N]; [|lra]. apply (is_zero s Fs) in E. congruence. }
      assert (D : forall i, (i < K)%nat -> is_finite (q i) = true /\ B2R (q i) = rnd (B2R (p i) / B2R s) /\ 0 <= B2R (q i) <= 1).
      { intros i Hi. destruct (Hp i Hi) as [F B]. specialize (Le i Hi).
        apply (div_in (p i) s F 0 1 (rep_Z 0 ltac:(lia)) (rep_Z 1 ltac:(lia))); [lra|].
        split; [apply Rle_mult_inv_pos; lra|apply Rle_div_l; lra]. }
      split; [intros i Hi; split; apply (D i Hi)|]. split.
      2:{ intros i j Hi Pj Hj. destruct (Hp i Hi) as [F B]. specialize (Le i Hi).
        assert (Sb : B2R s <= pow (30 + k)).
        { eapply Rle_trans; [apply Bs|]. rewrite bpow_plus. apply Rmult_le_compat_r; [apply bpow_ge_0|]. change (pow 30) with 1073741824. exact K1. }
        destruct (div_in (p i) s F (pow (j - k - 30)) 1 (rep_pow (j - k - 30) ltac:(lia)) (rep_Z 1 ltac:(lia))) as (_ & _ & B'); [lra| |exact (proj1 B')].
        split; [|apply Rle_div_l; lra]. apply Rle_div_r; [lra|]. eapply Rle_trans; [|exact Pj]. apply Rle_trans with (pow (j - k - 30) * pow (30 + k)).
        - apply Rmult_le_compat_l; [apply bpow_ge_0|exact Sb].
        - rewrite <- bpow_plus. right. f_equal. lia. }
      intros _.
      set (P := rsum K (fun i => B2R (p i))) in *. rewrite E52 in Es.
      assert (KU : INR K * (2 * U) <= / 2) by (apply Rle_trans with (1073741824 * (2 * U)); [apply Rmult_le_compat_r; lra|lra]).
      assert (P0 : 0 <= P) by (apply rsum_nonneg; intros i Hi; apply Hp; exact Hi).
      assert (PS : P <= 2 * B2R s).
      { apply Rabs_le_inv in Es. assert (INR K * (2 * U) * P <= / 2 * P) by (apply Rmult_le_compat_r; lra). lra. }
      assert (I0 : 0 < / B2R s) by (apply Rinv_0_lt_compat; lra).
      assert (PI : 0 <= P / B2R s <= 2) by (split; [apply Rle_mult_inv_pos; lra|apply Rle_div_l; lra]).
      assert (A : Rabs (rsum K (fun i => B2R (q i)) - P / B2R s) <= U * (P / B2R s) + INR K * T0).
      { unfold P. rewrite <- rsum_div, <- rsum_mult_l, <- rsum_const, <- rsum_plus. apply rsum_dist. intros i Hi.
        destruct (D i Hi) as (_ & -> & _). eapply Rle_trans; [apply rnd_error|]. rewrite (Rabs_pos_eq (B2R (p i) / B2R s)); [lra|].
        apply Rle_mult_inv_pos; [apply Hp; exact Hi|lra]. }
      assert (B : Rabs (P / B2R s - 1) <= INR K * (2 * U) * (P / B2R s)).
      { replace (P / B2R s - 1) with (- ((B2R s - P) * / B2R s)) by (field; lra). rewrite Rabs_Ropp, Rabs_mult, (Rabs_pos_eq (/ B2R s)) by lra.
        unfold Rdiv. rewrite <- Rmult_assoc. apply Rmult_le_compat_r; [lra|exact Es]. }
      assert (C : INR K * (2 * U) * (P / B2R s) <= INR K * (2 * U) * 2) by (apply Rmult_le_compat_l; [apply Rmult_le_pos; lra|lra]).
      assert (C2 : U * (P / B2R s) <= U * 2) by (apply Rmult_le_compat_l; lra).
      assert (C3 : INR K * T0 <= INR K * U) by (apply Rmult_le_compat_l; lra).
      unfold Rdiv. rewrite E50. apply Rabs_le. apply Rabs_le_inv in A, B. assert (0 <= INR K * U) by (apply Rmult_le_pos; lra). lra.
  Qed.

  (** alpha + the expected counts *)
  Lemma accumulate_d (X : list Z) (w : nat -> double) (a : double) n : (Z.of_nat n <= 2 ^ 30)%Z ->
    is_finite a = true -> / 300 <= B2R a <= 2 ^ 30 -> (forall j, (j < n)%nat -> (0 <= nth j X 0)%Z) ->
    (forall j, (j < n)%nat -> is_finite (w j) = true /\ 0 <= B2R (w j) <= 1) -> rsum n (fun j => IZR (nth j X 0%Z)) <= 2 ^ 31 ->
    let r := fold_left (acc_step X w) (seq 0 n) a in let E := B2R a + rsum n (fun j => IZR (nth j X 0%Z) * B2R (w j)) in
    is_finite r = true /\ B2R a <= B2R r /\ Rabs (B2R r - E) <= INR n * (4 * U) * E /\ B2R r <= pow 33.
  Proof.
    destruct unit_facts as (PU & SU & PT & ST & _ & _ & _). induction n as [|n IH]; intros Hn Fa Ba HX Hw HS r E.
    - subst r E. cbn [seq fold_left INR]. rewrite rsum_0. split; [exact Fa|]. split; [lra|]. split.
      + rewrite Rplus_0_r. unfold Rminus. rewrite Rplus_opp_r, Rabs_R0. lra.
      + change (pow 33) with 8589934592. lra.
    - rewrite rsum_S in HS. assert (Xn : 0 <= IZR (nth n X 0%Z)) by (apply (IZR_le 0); apply HX; lia).
      destruct IH as (Fr & Ar & Er & Br); try assumption; try lia; try (intros; apply HX || apply Hw; lia); try lra.
      subst r E. rewrite seq_S, fold_left_app, rsum_S. cbn [fold_left plus]. set (r := fold_left (acc_step X w) (seq 0 n) a) in *.
      set (E := rsum n (fun j => IZR (nth j X 0%Z) * B2R (w j))) in *. clearbody r. destruct (Hw n ltac:(lia)) as [Fw Bw].
      assert (E0 : 0 <= E). { apply rsum_nonneg. intros j Hj. apply Rmult_le_pos; [apply (IZR_le 0), HX; lia|apply Hw; lia]. }
      assert (E1 : E <= rsum n (fun j => IZR (nth j X 0%Z))).
      { apply rsum_le. intros j Hj. assert (0 <= IZR (nth j X 0%Z)) by (apply (IZR_le 0), HX; lia). destruct (Hw j ltac:(lia)) as [_ Bj]. nra. }
      set (x := IZR (nth n X 0%Z)) in *. set (t := x * B2R (w n)). assert (T1 : 0 <= t <= x) by (subst t; nra).
      assert (N0 : 0 <= INR n * (4 * U)) by (apply Rmult_le_pos; [apply pos_INR|lra]).
      assert (N1 : INR n * (4 * U) <= / 4) by (destruct (INR_small n ltac:(lia)) as [_ Q]; apply Rle_trans with (1073741824 * (4 * U)); [apply Rmult_le_compat_r; lra|lra]).
      rewrite S_INR. unfold acc_step. destruct (nth n X 0 =? 0)%Z eqn:Z.
      + apply Z.eqb_eq in Z. assert (t = 0) by (subst t x; rewrite Z; lra). split; [exact Fr|]. split; [exact Ar|]. rewrite H, Rplus_0_r. split; [|exact Br].
        eapply Rle_trans; [exact Er|]. apply Rmult_le_compat_r; lra.
      + assert (x <= 2 ^ 31). { assert (0 <= rsum n (fun j => IZR (nth j X 0%Z))) by lra. lra. }
        destruct (int_d lg ex lga sum (nth n X 0%Z)) as [Fx Vx].
        { assert (0 <= nth n X 0)%Z by (apply HX; lia). assert (nth n X 0 <= 2 ^ 31)%Z by (apply le_IZR; fold x; change (IZR (2 ^ 31)) with 2147483648; lra). lia. }
        destruct (mul_in (ofZ (nth n X 0%Z)) (w n) Fx Fw 0 (pow 31) (rep_Z 0 ltac:(lia)) (rep_pow 31 ltac:(lia))) as (Ft & Vt & Bt).
        { rewrite Vx. fold x. fold t. change (pow 31) with 2147483648. lra. }
        set (y := dmul (ofZ (nth n X 0%Z)) (w n)) in *.
        rewrite Vx in Vt. fold x in Vt. fold t in Vt.
        pose proof (rnd_error t) as Et. rewrite <- Vt in Et. rewrite (Rabs_pos_eq t) in Et by lra.
        pose proof (rnd_add_error r y) as Es.
        assert (Rr : rep (B2R a)) by (apply rep_val; exact Fa).
        assert (Hi : B2R r + B2R y <= pow 33).
        { apply Rabs_le_inv in Er. apply Rabs_le_inv in Et. change (pow 33) with 8589934592.
          assert (INR n * (4 * U) * (B2R a + E) <= / 4 * (B2R a + E)) by (apply Rmult_le_compat_r; lra).
          assert (U * t <= / 2 * t) by (apply Rmult_le_compat_r; lra). lra. }
        destruct (add_in r y Fr Ft (B2R a) (pow 33) Rr (rep_pow 33 ltac:(lia))) as (Fr' & Vr' & Br'); [lra|].
        rewrite <- Vr' in Es. rewrite (Rabs_pos_eq (B2R r + B2R y)) in Es by lra.
        change (is_finite (dadd r y) = true /\ B2R a <= B2R (dadd r y) /\ Rabs (B2R (dadd r y) - (B2R a + (E + t))) <= (INR n + 1) * (4 * U) * (B2R a + (E + t)) /\ B2R (dadd r y) <= pow 33).
        split; [exact Fr'|]. split; [apply Br'|]. split; [|apply Br'].
        set (G := B2R a + E) in *. assert (G0 : / 300 <= G) by (subst G; lra).
        assert (Q1 : INR n * (4 * U) * G <= / 4 * G) by (apply Rmult_le_compat_r; lra).
        assert (Q2 : 0 <= INR n * (4 * U) * t) by (apply Rmult_le_pos; lra).
        assert (Q3 : U * (B2R r + B2R y) <= U * (2 * G + 2 * t)).
        { apply Rmult_le_compat_l; [lra|]. apply Rabs_le_inv in Er, Et. assert (U * t <= / 2 * t) by (apply Rmult_le_compat_r; lra). assert (T0 <= / 300 / 10) by lra. lra. }
        assert (Q4 : U * (/ 300) <= U * G) by (apply Rmult_le_compat_l; lra).
        replace (B2R a + (E + t)) with (G + t) by (subst G; ring).
        replace ((INR n + 1) * (4 * U) * (G + t)) with (INR n * (4 * U) * G + INR n * (4 * U) * t + (4 * (U * G) + 4 * (U * t))) by ring.
        set (c1 := INR n * (4 * U) * G) in *. set (c2 := INR n * (4 * U) * t) in *. rewrite Rmult_plus_distr_l in Q3.
        assert (0 <= U * t) by (apply Rmult_le_pos; lra).
        apply Rabs_le. apply Rabs_le_inv in Er, Et, Es. clearbody c1 c2 G. split; lra.
  Qed.

  Lemma digamma_defined (x : double) : is_finite x = true -> 0 <= B2R x -> exists t, digamma 7 x = Ok t.
  Proof.
    intros Fx Bx. unfold digamma.
    assert (H : forall f (x r : double), is_finite x = true -> 7 - INR f <= B2R x -> 0 <= B2R x -> exists y r', digamma_shift f x r = Ok (y, r')).
    { destruct (int_d lg ex lga sum 7 ltac:(lia)) as [F7 V7]. destruct (one_d lg ex lga sum) as [F1 V1].
      clear x Fx Bx. induction f as [|f IH]; intros x r Fx Bx Px; cbn [digamma_shift]; destruct (ltb x (ofZ 7)) eqn:L; try (eexists; eexists; reflexivity).
      - apply (ltb_d lg ex lga sum) in L; [|assumption..].  rewrite V7 in L. cbn [INR] in Bx. lra.
      - apply (ltb_d lg ex lga sum) in L; [|assumption..].  rewrite V7 in L.
        rewrite S_INR in Bx. destruct (Rle_dec 0 (7 - INR f)) as [N|N].
        + assert (Rx : rep (7 - INR f)).
          { rewrite INR_IZR_INZ, <- minus_IZR. apply rep_Z. rewrite INR_IZR_INZ, <- minus_IZR in N. apply le_IZR in N. lia. }
          destruct (add_in x one Fx F1 (7 - INR f) 8 Rx (rep_Z 8 ltac:(lia))) as (Fy & _ & By); [rewrite V1; lra|].
          apply IH; [exact Fy|exact (proj1 By)|eapply Rle_trans; [exact N|exact (proj1 By)]].
        + destruct (add_in x one Fx F1 0 8 (rep_Z 0 ltac:(lia)) (rep_Z 8 ltac:(lia))) as (Fy & _ & By); [rewrite V1; lra|].
          apply IH; [exact Fy|eapply Rle_trans; [|exact (proj1 By)]; lra|exact (proj1 By)]. }
    destruct (H 7%nat x zero Fx ltac:(cbn [INR]; lra) Bx) as (y & r & E). rewrite E. cbn [bind]. eauto.
  Qed.

  Section Step.
    Variables (X : list Z) (m : params double).
    Hypothesis DI : double_input (/ 300) X m.
    Notation K := (mrows (p_beta m)).
    Notation V := (ncols (p_beta m)).
    Notation alpha := (p_alpha m).
    Notation count n := (IZR (nth n X 0%Z)).

    Lemma count_pos n : 0 <= count n.
    Proof.
      apply (IZR_le 0). destruct (Nat.lt_ge_cases n (length X)) as [H|H]; [apply (di_counts _ _ _ DI), nth_In, H|]. rewrite nth_overflow by exact H. lia.
    Qed.
    Lemma count_sum : rsum V (fun n => count n) = IZR (Zsum X).
    Proof.
      rewrite <- (di_words _ _ _ DI). clear. induction X as [|x l IH]; [reflexivity|]. cbn [length]. rewrite rsum_S_l. cbn [nth Zsum fold_right].
      rewrite plus_IZR, IH. reflexivity.
    Qed.
    Lemma count_total : 0 <= IZR (Zsum X) <= 2 ^ 31.
    Proof.
      split; [rewrite <- count_sum; apply rsum_nonneg; intros; apply count_pos|].
      pose proof (di_length _ _ _ DI) as H. apply Rle_trans with (IZR (2 ^ 31)); [apply IZR_le; unfold Zsum; lia|]. change (IZR (2 ^ 31)) with 2147483648. lra.
    Qed.

    (** What every iteration keeps *)
    Definition expected (phi : mat double) (i : nat) : R := B2R (vget alpha i) + rsum V (fun n => count n * B2R (mget phi i n)).
    Record sound (s : list double * mat double) : Prop := {
      so_rows : mrows (snd s) = K;
      so_cols : ncols (snd s) = V;
      so_length : length (fst s) = K;
      so_gamma : forall i, (i < K)%nat -> is_finite (vget (fst s) i) = true /\ B2R (vget alpha i) <= B2R (vget (fst s) i) <= pow 33;
      so_phi : forall i n, (i < K)%nat -> (n < V)%nat -> is_finite (mget (snd s) i n) = true /\ 0 <= B2R (mget (snd s) i n) <= 1;
      so_sum : forall n, (n < V)%nat -> nth n X 0%Z <> 0%Z -> Rabs (rsum K (fun i => B2R (mget (snd s) i n)) - 1) <= (INR K + 1) / 2 ^ 50;
      so_alive : forall i n, (i < K)%nat -> (n < V)%nat -> / 2 ^ 250 <= B2R (mget (p_beta m) i n) -> 0 < B2R (mget (snd s) i n);
      so_error : forall i, (i < K)%nat -> Rabs (B2R (vget (fst s) i) - expected (snd s) i) <= (INR V + 1) / 2 ^ 50 * expected (snd s) i
    }.
    Lemma expected_pos phi : (forall i n, (i < K)%nat -> (n < V)%nat -> 0 <= B2R (mget phi i n)) -> forall i, (i < K)%nat -> / 300 <= expected phi i.
    Proof.
      intros H i Hi. unfold expected. pose proof (di_alpha _ _ _ DI i Hi) as [_ A].
      assert (0 <= rsum V (fun n => count n * B2R (mget phi i n))). { apply rsum_nonneg. intros n Hn. apply Rmult_le_pos; [apply count_pos|auto]. }
      lra.
    Qed.

    (** gamma's mass *)
    Lemma mass s : sound s -> let M := rsum K (fun i => B2R (vget alpha i)) + IZR (Zsum X) in
      Rabs (rsum K (fun i => B2R (vget (fst s) i)) - M) <= (INR K + INR V + 2) / 2 ^ 49 * M.
    Proof.
      intros S M. destruct S as [_ _ _ _ Hphi Hs _ He]. destruct s as [g phi]. cbn [fst snd] in *.
      destruct unit_facts as (PU & SU & _ & _ & E50 & E49 & _). destruct (INR_small K ltac:(apply (di_topics _ _ _ DI))) as [K0 K1].
      destruct (INR_small V (di_vocabulary _ _ _ DI)) as [V0 V1]. unfold Rdiv in *. rewrite E50 in *. rewrite E49.
      assert (A : Rabs (rsum K (fun i => B2R (vget g i)) - rsum K (expected phi)) <= (INR V + 1) * (8 * U) * rsum K (expected phi)).
      { rewrite <- rsum_mult_l. apply rsum_dist. exact He. }
      assert (E : rsum K (expected phi) = rsum K (fun i => B2R (vget alpha i)) + rsum V (fun n => count n * rsum K (fun i => B2R (mget phi i n)))).
      { unfold expected. rewrite rsum_plus, rsum_swap. f_equal. apply rsum_ext. intros n _. now rewrite rsum_mult_l. }
      assert (B : Rabs (rsum K (expected phi) - M) <= (INR K + 1) * (8 * U) * IZR (Zsum X)).
      { rewrite E. unfold M. rewrite <- count_sum.
        replace (_ + _ - _) with (rsum V (fun n => count n * rsum K (fun i => B2R (mget phi i n))) - rsum V (fun n => count n)) by ring.
        rewrite <- rsum_mult_l. apply rsum_dist. intros n Hn. destruct (Z.eq_dec (nth n X 0%Z) 0) as [Z|N].
        - rewrite Z, !Rmult_0_l, Rmult_0_r, Rminus_0_r, Rabs_R0. lra.
        - replace (_ - _) with (count n * (rsum K (fun i => B2R (mget phi i n)) - 1)) by ring.
          rewrite Rabs_mult, Rabs_pos_eq by apply count_pos. rewrite Rmult_comm. apply Rmult_le_compat_r; [apply count_pos|]. apply Hs; assumption. }
      assert (A0 : 0 <= rsum K (fun i => B2R (vget alpha i))). { apply rsum_nonneg. intros i Hi. pose proof (di_alpha _ _ _ DI i Hi). lra. }
      pose proof count_total as [N0 _]. assert (M0 : IZR (Zsum X) <= M) by (unfold M; lra).
      assert (C : (INR K + 1) * (8 * U) * IZR (Zsum X) <= (INR K + 1) * (8 * U) * M) by (apply Rmult_le_compat_l; [apply Rmult_le_pos; lra|exact M0]).
      assert (C1 : (INR K + 1) * (8 * U) <= 1) by (apply Rle_trans with (1073741825 * (8 * U)); [apply Rmult_le_compat_r; lra|lra]).
      assert (C2 : (INR K + 1) * (8 * U) * M <= 1 * M) by (apply Rmult_le_compat_r; lra).
      assert (C3 : (INR V + 1) * (8 * U) * rsum K (expected phi) <= (INR V + 1) * (8 * U) * (2 * M)).
      { apply Rmult_le_compat_l; [apply Rmult_le_pos; lra|]. apply Rabs_le_inv in B. lra. }
      assert (C4 : 0 <= U * M) by (apply Rmult_le_pos; lra). assert (C5 : 0 <= INR K * (U * M)) by (apply Rmult_le_pos; lra).
      replace ((INR K + INR V + 2) * (16 * U) * M) with ((INR V + 1) * (8 * U) * (2 * M) + (INR K + 1) * (8 * U) * M + (8 * (INR K * (U * M)) + 8 * (U * M))) by ring.
      set (c := rsum K (expected phi)) in *. apply Rabs_le. apply Rabs_le_inv in A, B. split; lra.
    Qed.

    Lemma psi_d (low : nat) s : (1 <= Z.of_nat low <= 300)%Z -> (forall i, (i < K)%nat -> / INR low <= B2R (vget alpha i)) -> sound s ->
      exists psi, psi_of 7 (fst s) = Ok psi /\ length psi = K /\ forall i, (i < K)%nat -> is_finite (vget psi i) = true /\ - INR (low + 8) <= B2R (vget psi i) <= 82.
    Proof.
      intros Hl Low [_ _ SL SG _ _ _ _]. destruct s as [g ph]. cbn [fst snd] in *. unfold psi_of.
      destruct (vmapM_in (digamma 7) g (fun _ t => is_finite t = true /\ - INR (low + 8) <= B2R t <= 82)) as (psi & E & L & P).
      - intros i Hi. rewrite SL in Hi. destruct (SG i Hi) as [F B]. specialize (Low i Hi).
        destruct (digamma_d lg ex lga sum Hlg (vget g i) low F) as (t & E & Ft & Bt).
        + split; [lra|]. eapply Rle_trans; [apply B|]. apply bpow_le. lia.
        + lia.
        + exists t. auto.
      - rewrite SL in *. exists psi. auto.
    Qed.
    Lemma gamma_sound phi : mrows phi = K -> ncols phi = V ->
      (forall i n, (i < K)%nat -> (n < V)%nat -> is_finite (mget phi i n) = true /\ 0 <= B2R (mget phi i n) <= 1) ->
      (forall n, (n < V)%nat -> nth n X 0%Z <> 0%Z -> Rabs (rsum K (fun i => B2R (mget phi i n)) - 1) <= (INR K + 1) / 2 ^ 50) ->
      (forall i n, (i < K)%nat -> (n < V)%nat -> / 2 ^ 250 <= B2R (mget (p_beta m) i n) -> 0 < B2R (mget phi i n)) ->
      sound (compute_gamma X alpha phi, phi).
    Proof.
      intros Rp Cp Bphi Sphi Al. destruct unit_facts as (PU & SU & _ & _ & E50 & _ & _). pose proof (di_vocabulary _ _ _ DI) as HV.
      destruct (gamma_coefficient X alpha phi) as [Lg Cg]. rewrite (di_alpha_length _ _ _ DI), Cp in *.
      assert (Acc : forall i, (i < K)%nat -> is_finite (vget (compute_gamma X alpha phi) i) = true /\ B2R (vget alpha i) <= B2R (vget (compute_gamma X alpha phi) i) /\
        Rabs (B2R (vget (compute_gamma X alpha phi) i) - expected phi i) <= INR V * (4 * U) * expected phi i /\ B2R (vget (compute_gamma X alpha phi) i) <= pow 33).
      { intros i Hi. rewrite (Cg i Hi). destruct (di_alpha _ _ _ DI i Hi) as [Fa Ba]. apply accumulate_d; try assumption.
        - intros j _. apply le_IZR, count_pos.
        - intros j Hj. exact (Bphi i j Hi Hj).
        - rewrite count_sum. apply count_total. }
      split; cbn [fst snd].
      - exact Rp.
      - exact Cp.
      - exact Lg.
      - intros i Hi. destruct (Acc i Hi) as (F & A & _ & B). auto.
      - exact Bphi.
      - exact Sphi.
      - exact Al.
      - intros i Hi. destruct (Acc i Hi) as (_ & _ & E & _). eapply Rle_trans; [exact E|]. unfold Rdiv. rewrite E50.
        pose proof (expected_pos phi (fun i n Hi Hn => proj1 (proj2 (Bphi i n Hi Hn))) i Hi). pose proof (pos_INR V).
        apply Rmult_le_compat_r; [lra|]. apply Rmult_le_compat; lra.
    Qed.

    Lemma normal_column p n k : let raw := mtab K V p in (n < V)%nat -> (-1074 <= k <= 900)%Z ->
      (forall i, (i < K)%nat -> is_finite (mget raw i n) = true /\ 0 <= B2R (mget raw i n) <= pow k) ->
      let phi := normalize_cols raw in
      (forall i, (i < K)%nat -> is_finite (mget phi i n) = true /\ 0 <= B2R (mget phi i n) <= 1) /\
      ((exists i, (i < K)%nat /\ 0 < B2R (mget raw i n)) -> Rabs (rsum K (fun i => B2R (mget phi i n)) - 1) <= (INR K + 1) / 2 ^ 50) /\
      (forall i j, (i < K)%nat -> pow j <= B2R (mget raw i n) -> (-1074 <= j - k - 30 <= 0)%Z -> pow (j - k - 30) <= B2R (mget phi i n)) /\
      rsum K (fun i => B2R (mget phi i n)) <= 1 + (INR K + 1) / 2 ^ 50.
    Proof.
      intros raw Hn Hk H phi. pose proof (di_topics _ _ _ DI) as HK.
      assert (Hphi : forall i, (i < K)%nat -> mget phi i n = let s := redux (vtab K (fun i => mget raw i n)) in if eqb s zero then mget raw i n else div (mget raw i n) s).
      { intros i Hi. unfold phi, normalize_cols. unfold raw at 2 4. rewrite ncols_tab. cbn [mrows mtab]. rewrite mget_tab by assumption. replace (mcol raw n) with (vtab K (fun i => mget raw i n)); [reflexivity|]. unfold raw. rewrite mcol_tab by exact Hn. unfold vtab. apply map_ext_in. intros j Hj. apply in_seq in Hj. apply mget_tab; lia. }
      destruct (normal_d K (fun i => mget raw i n) k ltac:(lia) Hk H) as (N1 & N2 & N3).
      assert (Er : rsum K (fun i => B2R (mget phi i n)) = rsum K (fun i => B2R ((fun i => let s := redux (vtab K (fun i => mget raw i n)) in if eqb s zero then mget raw i n else div (mget raw i n) s) i))).
      { apply rsum_ext. intros i Hi. now rewrite Hphi. }
      split; [intros i Hi; rewrite Hphi by exact Hi; exact (N1 i Hi)|]. split; [intros P; rewrite Er; exact (N2 P)|]. split; [intros i j Hi B J; rewrite Hphi by exact Hi; exact (N3 i j Hi B J)|].
      assert (U0 : 0 <= (INR K + 1) / 2 ^ 50) by (apply Rle_mult_inv_pos; [pose proof (pos_INR K); lra|apply pow_lt; lra]).
      assert (D : forall j, (exists i, (i < j)%nat /\ (i < K)%nat /\ 0 < B2R (mget raw i n)) \/ (forall i, (i < j)%nat -> (i < K)%nat -> B2R (mget raw i n) = 0)).
      { induction j as [|j IH]; [right; intros; lia|]. destruct IH as [(i & A & B)|IH]; [left; exists i; split; [lia|exact B]|].
        destruct (Nat.lt_ge_cases j K) as [Hj|Hj]; [|right; intros i A B; apply IH; lia].
        destruct (Rle_lt_dec (B2R (mget raw j n)) 0) as [L|L]; [|left; exists j; split; [lia|]; split; assumption].
        right. intros i A B. destruct (Nat.eq_dec i j) as [->|]; [|apply IH; lia]. pose proof (H j Hj). lra. }
      destruct (D K) as [(i & _ & P)|Z].
      - specialize (N2 (ex_intro _ i P)). rewrite Er. apply Rabs_le_inv in N2. cbv beta zeta in N2 |- *. lra.
      - rewrite (rsum_ext K _ (fun _ => 0)); [rewrite rsum_const, Rmult_0_r; lra|]. intros i Hi. rewrite Hphi by exact Hi. cbv zeta. set (s := redux _).
        destruct (eqb s zero) eqn:E; [apply Z; assumption|]. exfalso.
        destruct (summed_in k (vtab K (fun i => mget raw i n)) s (Hsum _) ltac:(lia)) as (Fs & Bs & _ & Es).
        { rewrite vtab_length. lia. }
        { apply Forall_forall. intros x Hx. unfold vtab in Hx. apply in_map_iff in Hx. destruct Hx as (j & <- & Hj). apply in_seq in Hj. apply H. lia. }
        assert (Lz : lval (vtab K (fun i => mget raw i n)) = 0).
        { unfold lval. rewrite vtab_map. change (rsum K (fun i => B2R (mget raw i n)) = 0). rewrite (rsum_ext K _ (fun _ => 0)); [rewrite rsum_const; ring|]. intros j Hj. apply Z; assumption. }
        rewrite Lz, Rmult_0_r, Rminus_0_r in Es. assert (S0 : B2R s = 0) by (apply Rabs_le_inv in Es; lra).
        assert (eqb s zero = true) by (apply is_zero; assumption). congruence.
    Qed.
    (** From unnormalised probabilities to the next state *)
    Lemma raw_sound p lo hi : let raw := mtab K V p in (-1074 <= hi <= 900)%Z -> (-1074 <= lo - hi - 30 <= 0)%Z ->
      (forall i n, (i < K)%nat -> (n < V)%nat -> is_finite (mget raw i n) = true /\ 0 <= B2R (mget raw i n) <= pow hi /\
        (/ 2 ^ 250 <= B2R (mget (p_beta m) i n) -> pow lo <= B2R (mget raw i n))) ->
      sound (compute_gamma X alpha (normalize_cols raw), normalize_cols raw).
    Proof.
      intros raw Hh Hl Hraw.
      assert (Rp : mrows (normalize_cols raw) = K) by reflexivity. assert (Cp : ncols (normalize_cols raw) = V) by (unfold normalize_cols, raw; now rewrite !ncols_tab).
      assert (N : forall n, (n < V)%nat -> _) by exact (fun n Hn => normal_column p n hi Hn Hh (fun i Hi => conj (proj1 (Hraw i n Hi Hn)) (proj1 (proj2 (Hraw i n Hi Hn))))).
      apply gamma_sound; [exact Rp|exact Cp|intros i n Hi Hn; now apply (N n Hn)| |].
      - intros n Hn NZ. apply (N n Hn). destruct (di_supported _ _ _ DI n Hn NZ) as (i & Hi & S). exists i. split; [exact Hi|]. eapply Rlt_le_trans; [apply (bpow_gt_0 radix2 lo)|]. apply Hraw; assumption.
      - intros i n Hi Hn S. destruct (N n Hn) as (_ & _ & N3 & _). eapply Rlt_le_trans; [apply (bpow_gt_0 radix2 (lo - hi - 30))|]. apply (N3 i lo Hi); [|exact Hl]. apply Hraw; assumption.
    Qed.
    Lemma weights_range e lo hi : (0 <= lo)%Z -> (0 <= hi)%Z -> (lo + hi <= 794)%Z ->
      (forall i, (i < K)%nat -> is_finite (vget e i) = true /\ pow (- lo) <= B2R (vget e i) <= pow hi) ->
      sound (compute_gamma X alpha (scale_normalize (p_beta m) e), scale_normalize (p_beta m) e).
    Proof.
      intros L0 H0 Hlh Be. unfold scale_normalize. apply (raw_sound _ (- 250 - lo) hi); [lia|lia|].
      intros i n Hi Hn. rewrite mget_tab by assumption. destruct (di_beta _ _ _ DI i n Hi Hn) as [Fb Bb]. destruct (Be i Hi) as [Fe Bi].
      assert (PE : 0 < pow (- lo)) by apply bpow_gt_0.
      destruct (mul_in (mget (p_beta m) i n) (vget e i) Fb Fe 0 (pow hi) (rep_Z 0 ltac:(lia)) (rep_pow hi ltac:(lia))) as (F & V1 & B).
      { split; [apply Rmult_le_pos; lra|]. apply Rle_trans with (1 * pow hi); [|lra]. apply Rmult_le_compat; lra. }
      split; [exact F|]. split; [exact B|]. intros S.
      destruct (mul_in (mget (p_beta m) i n) (vget e i) Fb Fe (pow (-250 - lo)) (pow hi) (rep_pow (-250 - lo) ltac:(lia)) (rep_pow hi ltac:(lia))) as (_ & _ & B').
      { split; [|apply Rle_trans with (1 * pow hi); [apply Rmult_le_compat; lra|lra]].
        unfold Z.sub. rewrite bpow_plus. apply Rmult_le_compat; try apply bpow_ge_0; [|apply Bi].
        eapply Rle_trans; [|exact S]. right. change (-250)%Z with (- (250))%Z. rewrite bpow_opp. f_equal. now rewrite bpow_powerRZ. }
      exact (proj1 B').
    Qed.
    Lemma weights_sound e : (forall i, (i < K)%nat -> is_finite (vget e i) = true /\ pow (-497) <= B2R (vget e i) <= pow 256) ->
      sound (compute_gamma X alpha (scale_normalize (p_beta m) e), scale_normalize (p_beta m) e).
    Proof. exact (weights_range e 497 256 ltac:(lia) ltac:(lia) ltac:(lia)). Qed.
    Lemma step_sound s : sound s -> exists s', (let* phi := compute_unsupervised_phi 7 (p_beta m) (fst s) in Ok (compute_gamma X alpha phi, phi)) = Ok s' /\ sound s'.
    Proof.
      intros S. destruct (psi_d 300 s ltac:(lia)) as (psi & Epsi & Lpsi & Bpsi); [|exact S|].
      { replace (INR 300) with 300 by (rewrite INR_IZR_INZ; reflexivity). intros i Hi. apply (di_alpha _ _ _ DI i Hi). }
      replace (INR (300 + 8)) with 308 in Bpsi by (rewrite INR_IZR_INZ; reflexivity).
      destruct (vmapM_in fast_exp psi (fun _ t => is_finite t = true /\ pow (-497) <= B2R t <= pow 256)) as (e & Ee & Le & Be).
      { intros i Hi. rewrite Lpsi in Hi. destruct (Bpsi i Hi) as [F B]. apply (fast_exp_d lg ex lga sum Hex); [exact F|]. lra. }
      rewrite Lpsi in *. unfold compute_unsupervised_phi. rewrite Epsi. cbn [bind]. rewrite Ee. cbn [bind]. eexists. split; [reflexivity|]. now apply weights_sound.
    Qed.

    Lemma init_sound : sound (init_gamma alpha (Zsum X) K, init_phi K (length X)).
    Proof.
      destruct unit_facts as (PU & SU & PT & ST & E50 & _ & _). pose proof (di_topics _ _ _ DI) as HK. pose proof (di_vocabulary _ _ _ DI) as HV.
      destruct (INR_small K ltac:(lia)) as [K0 K1]. destruct (INR_small V HV) as [V0 V1]. pose proof count_total as [N0 N1].
      assert (K2 : 1 <= INR K) by (change 1 with (INR 1); apply le_INR; lia).
      destruct (int_d lg ex lga sum (Z.of_nat K) ltac:(lia)) as [FK VK]. rewrite <- INR_IZR_INZ in VK.
      destruct (int_d lg ex lga sum (Zsum X)) as [FN VN].
      { assert (0 <= Zsum X)%Z by (apply le_IZR; exact N0). pose proof (di_length _ _ _ DI). unfold Zsum in *. lia. }
      destruct (one_d lg ex lga sum) as [F1 W1].
      assert (I0 : 0 < / INR K <= 1). { split; [apply Rinv_0_lt_compat; lra|]. rewrite <- Rinv_1. apply Rinv_le_contravar; lra. }
      destruct (div_in one (ofZ (Z.of_nat K)) F1 0 1 (rep_Z 0 ltac:(lia)) (rep_Z 1 ltac:(lia))) as (Fq & Vq & Bq).
      { rewrite VK. lra. }
      { rewrite W1, VK. lra. }
      set (q := ddiv one (ofZ (Z.of_nat K))) in *. rewrite W1, VK in Vq. pose proof (rnd_error (1 / INR K)) as Eq. rewrite <- Vq in Eq.
      rewrite (Rabs_pos_eq (1 / INR K)) in Eq by lra.
      assert (Hh : 0 <= IZR (Zsum X) / INR K <= 2 ^ 31).
      { split; [apply Rle_mult_inv_pos; lra|]. apply Rle_div_l; [lra|]. assert (2 ^ 31 * 1 <= 2 ^ 31 * INR K) by (apply Rmult_le_compat_l; lra). lra. }
      destruct (div_in (ofZ (Zsum X)) (ofZ (Z.of_nat K)) FN 0 (pow 31) (rep_Z 0 ltac:(lia)) (rep_pow 31 ltac:(lia))) as (Fh & Vh & Bh).
      { rewrite VK. lra. }
      { rewrite VN, VK. change (pow 31) with 2147483648. lra. }
      set (h := ddiv (ofZ (Zsum X)) (ofZ (Z.of_nat K))) in *. rewrite VN, VK in Vh. pose proof (rnd_error (IZR (Zsum X) / INR K)) as Eh. rewrite <- Vh in Eh.
      rewrite (Rabs_pos_eq (IZR (Zsum X) / INR K)) in Eh by lra.
      assert (Hp : forall i n, (i < K)%nat -> (n < V)%nat -> mget (init_phi K (length X)) i n = q).
      { intros i n Hi Hn. unfold init_phi. rewrite mget_tab; [reflexivity|exact Hi|]. rewrite (di_words _ _ _ DI). exact Hn. }
      assert (Hg : forall i, (i < K)%nat -> vget (init_gamma alpha (Zsum X) K) i = dadd (vget alpha i) h).
      { intros i Hi. unfold vget, init_gamma. rewrite (nth_indep _ zero (add zero (div (ofZ (Zsum X)) (ofZ (Z.of_nat K))))) by (rewrite map_length, (di_alpha_length _ _ _ DI); exact Hi).
        rewrite (map_nth (fun a => add a (div (ofZ (Zsum X)) (ofZ (Z.of_nat K)))) alpha zero i). reflexivity. }
      assert (He : forall i, (i < K)%nat -> expected (init_phi K (length X)) i = B2R (vget alpha i) + IZR (Zsum X) * B2R q).
      { intros i Hi. unfold expected. f_equal. rewrite (rsum_ext V _ (fun n => count n * B2R q)) by (intros n Hn; now rewrite Hp). now rewrite rsum_mult_r, count_sum. }
      assert (Ha : forall i, (i < K)%nat -> is_finite (dadd (vget alpha i) h) = true /\ B2R (dadd (vget alpha i) h) = rnd (B2R (vget alpha i) + B2R h) /\
        B2R (vget alpha i) <= B2R (dadd (vget alpha i) h) <= pow 33).
      { intros i Hi. destruct (di_alpha _ _ _ DI i Hi) as [Fa Ba]. apply add_in; [exact Fa|exact Fh|apply rep_val; exact Fa|apply rep_pow; lia|].
        change (pow 31) with 2147483648 in Bh. change (pow 33) with 8589934592. lra. }
      split; cbn [fst snd].
      - reflexivity.
      - unfold init_phi. rewrite ncols_tab. apply (di_words _ _ _ DI).
      - unfold init_gamma. rewrite map_length. apply (di_alpha_length _ _ _ DI).
      - intros i Hi. rewrite (Hg i Hi). destruct (Ha i Hi) as (F & _ & B). auto.
      - intros i n Hi Hn. rewrite Hp by assumption. auto.
      - intros n Hn _. rewrite (rsum_ext K _ (fun _ => B2R q)) by (intros i Hi; now rewrite Hp). rewrite rsum_const. unfold Rdiv at 1. rewrite E50.
        replace (INR K * B2R q - 1) with (INR K * (B2R q - 1 / INR K)) by (field; lra). rewrite Rabs_mult, (Rabs_pos_eq (INR K)) by lra.
        apply Rle_trans with (INR K * (U * (1 / INR K) + T0)); [apply Rmult_le_compat_l; lra|].
        replace (INR K * (U * (1 / INR K) + T0)) with (U + INR K * T0) by (field; lra).
        assert (INR K * T0 <= INR K * U) by (apply Rmult_le_compat_l; lra). assert (0 <= INR K * U) by (apply Rmult_le_pos; lra). lra.
      - intros i n Hi Hn _. rewrite Hp by assumption. apply Rabs_le_inv in Eq. assert (/ 1073741824 <= 1 / INR K) by (unfold Rdiv; rewrite Rmult_1_l; apply Rinv_le_contravar; lra).
        assert (U * (1 / INR K) <= / 2 * (1 / INR K)) by (apply Rmult_le_compat_r; lra). lra.
      - intros i Hi. rewrite (Hg i Hi), (He i Hi). unfold Rdiv at 1. rewrite E50. destruct (di_alpha _ _ _ DI i Hi) as [Fa Ba]. destruct (Ha i Hi) as (_ & Va & _).
        pose proof (rnd_add_error (vget alpha i) h) as Es. rewrite <- Va in Es. set (a := B2R (vget alpha i)) in *. rewrite (Rabs_pos_eq (a + B2R h)) in Es by lra.
        set (g := B2R (dadd (vget alpha i) h)) in *. set (y := IZR (Zsum X) / INR K) in *. set (N := IZR (Zsum X)) in *.
        assert (Q : Rabs (N * B2R q - y) <= U * y + N * T0).
        { replace (N * B2R q - y) with (N * (B2R q - 1 / INR K)) by (unfold y; field; lra). rewrite Rabs_mult, (Rabs_pos_eq N) by exact N0.
          apply Rle_trans with (N * (U * (1 / INR K) + T0)); [apply Rmult_le_compat_l; assumption|]. right. unfold y. field. lra. }
        assert (NT : N * T0 <= U * (/ 300) / 1000).
        { apply Rle_trans with (2147483648 * T0); [apply Rmult_le_compat_r; lra|]. lra. }
        assert (UA : U * (/ 300) <= U * a) by (apply Rmult_le_compat_l; lra).
        assert (UY : 0 <= U * y) by (apply Rmult_le_pos; lra).
        assert (UH : U * B2R h <= U * (2 * y + T0)).
        { apply Rmult_le_compat_l; [lra|]. apply Rabs_le_inv in Eh. assert (U * y <= / 2 * y) by (apply Rmult_le_compat_r; lra). lra. }
        assert (UT : U * T0 <= T0). { assert (U * T0 <= 1 * T0) by (apply Rmult_le_compat_r; lra). lra. }
        assert (UQ : U * (N * B2R q) >= U * (/ 2 * y) - U * (N * T0)).
        { rewrite <- Rmult_minus_distr_l. apply Rle_ge, Rmult_le_compat_l; [lra|]. apply Rabs_le_inv in Q. assert (U * y <= / 2 * y) by (apply Rmult_le_compat_r; lra). lra. }
        assert (NTU : U * (N * T0) <= N * T0).
        { assert (0 <= N * T0) by (apply Rmult_le_pos; lra). assert (U * (N * T0) <= 1 * (N * T0)) by (apply Rmult_le_compat_r; lra). lra. }
        assert (W0 : 0 <= U * (a + N * B2R q)) by (apply Rmult_le_pos; [lra|]; assert (0 <= N * B2R q) by (apply Rmult_le_pos; lra); lra).
        assert (W : 0 <= INR V * (U * (a + N * B2R q))) by (apply Rmult_le_pos; assumption).
        replace ((INR V + 1) * (8 * U) * (a + N * B2R q)) with (8 * (INR V * (U * (a + N * B2R q))) + 8 * (U * a) + 8 * (U * (N * B2R q))) by ring.
        apply Rabs_le. apply Rabs_le_inv in Es, Eh, Q. rewrite Rmult_plus_distr_l in Es. rewrite Rmult_plus_distr_l in UH.
        set (z1 := INR V * (U * (a + N * B2R q))) in *. set (z2 := U * a) in *. set (z3 := U * (N * B2R q)) in *. set (z4 := U * y) in *. set (z5 := N * B2R q) in *. set (z6 := N * T0) in *.
        set (z7 := U * B2R h) in *. set (z8 := U * T0) in *. replace (U * (/ 2 * y)) with (/ 2 * z4) in UQ by (unfold z4; ring). replace (U * (2 * y)) with (2 * z4) in UH by (unfold z4; ring).
        replace (U * z6) with (U * z6) in UQ by reflexivity. clearbody z1 z2 z3 z4 z5 z6 z7 z8 y N a g. split; lra.
    Qed.

    Lemma result_double s : sound s -> double_posterior X m (fst s) (snd s).
    Proof.
      intros S. pose proof (mass s S) as M. destruct S as [A B C D E F Al G]. split; try assumption.
      intros i Hi. destruct (D i Hi) as [D1 D2]. split; [exact D1|apply D2].
    Qed.

    Lemma likelihood_defined s : sound s -> exists v, compute_unsupervised_likelihood 7 X alpha (p_beta m) (snd s) (fst s) = Ok v.
    Proof.
      intros [_ _ SL SG _ _ _ _]. unfold compute_unsupervised_likelihood. cbv zeta. pose proof (di_topics _ _ _ DI) as HK.
      assert (P : forall i, (i < K)%nat -> is_finite (vget (fst s) i) = true /\ 0 <= B2R (vget (fst s) i) <= pow 33).
      { intros i Hi. destruct (SG i Hi) as [F B]. pose proof (di_alpha _ _ _ DI i Hi). split; [exact F|lra]. }
      destruct (summed_in 33 (fst s) (sum (fst s)) (Hsum _) ltac:(lia)) as (Fs & Bs & _).
      { rewrite SL. lia. }
      { apply Forall_forall. intros x Hx. apply (In_nth _ _ zero) in Hx. destruct Hx as (i & Hi & <-). apply P. rewrite <- SL. exact Hi. }
      destruct (digamma_defined (sum (fst s)) Fs (proj1 Bs)) as (t & Et). change (sum (fst s)) with (redux (fst s)) in Et. rewrite Et. cbn [bind].
      destruct (vmapM_in (digamma 7) (fst s) (fun _ _ => True)) as (psi & E & _).
      { intros i Hi. rewrite SL in Hi. destruct (P i Hi) as [F B]. destruct (digamma_defined _ F (proj1 B)) as (y & Ey). exists y. auto. }
      unfold psi_of. rewrite E. cbn [bind].
      destruct (vmapM_in (fun x => Ok (slgamma x)) alpha (fun _ _ => True)) as (l1 & E1 & _); [intros; eexists; split; [reflexivity|exact I]|]. rewrite E1. cbn [bind].
      destruct (vmapM_in (fun x => Ok (slgamma x)) (fst s) (fun _ _ => True)) as (l2 & E2 & _); [intros; eexists; split; [reflexivity|exact I]|]. rewrite E2. cbn [bind].
      eexists. reflexivity.
    Qed.

    Theorem unsupervised_double cf emit (d : doc double) : d_words d = X ->
      exists gamma phi ev, unsupervised_doc_e_step 7 cf emit d m = Ok (mk_vparams gamma phi [], ev) /\ double_posterior X m gamma phi /\ (emit = true -> exists v, ev = Some v).
    Proof.
      intros EX. unfold unsupervised_doc_e_step. rewrite EX. pose proof count_total as [N0 _]. pose proof (di_length _ _ _ DI) as N1. apply le_IZR in N0.
      assert (EN : int_sum X = Ok (Zsum X)).
      { unfold int_sum. cbv zeta. replace (_ && _)%bool with true; [reflexivity|]. symmetry. apply andb_true_iff. split; [apply Z.leb_le|apply Z.ltb_lt]; unfold Zsum in *; lia. }
      rewrite EN. cbn [bind]. replace (sizes_ok d m) with true.
      2:{ symmetry. unfold sizes_ok. rewrite EX, (di_alpha_length _ _ _ DI), (di_words _ _ _ DI), !Nat.eqb_refl. reflexivity. }
      cbn [negb]. cbv zeta.
      destruct (em_loop_inv sound fst (fun s => let* phi := compute_unsupervised_phi 7 (p_beta m) (fst s) in Ok (compute_gamma X alpha phi, phi)) (e_tolerance cf) step_sound
        (e_iterations cf) (zeros K) _ init_sound) as ([g phi] & E & S).
      rewrite E. cbn [bind]. pose proof (result_double _ S) as R. cbn [fst snd] in R. unfold report. destruct emit.
      - destruct (likelihood_defined _ S) as (v & Ev). cbn [fst snd] in Ev. rewrite Ev. cbn [bind]. exists g, phi, (Some v). split; [reflexivity|]. split; [exact R|]. eauto.
      - cbn [bind]. exists g, phi, None. split; [reflexivity|]. split; [exact R|]. discriminate.
    Qed.
  End Step.
End Double.
