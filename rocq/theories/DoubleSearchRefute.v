(** Near a minimum the line search does not test its first step, and can leave at a worse point. *)
Require Import Reals ZArith List Bool Arith Lia Lra Permutation.
From Flocq Require Import Core.Core IEEE754.BinarySingleNaN.
Require Import Verif.Base Verif.Scalar Verif.Mat Verif.HostModel Verif.UtilsModel Verif.OptModel.
Require Import Verif.DoubleSpec Verif.DoubleSearchSpec Verif.DoubleArith Verif.DoubleUtils Verif.DoubleProofs Verif.DoubleTrainRefute Verif.DoubleCorrTrainRefute Verif.DoubleSearch Verif.DoubleSearchProofs.
Import ListNotations.
Open Scope R_scope.

Lemma pow_double k : (-1074 <= k <= 970)%Z -> exists x : double, is_finite x = true /\ B2R x = pow k.
Proof.
  intros H. pose proof (binary_normalize_correct 53 1024 eq_refl eq_refl mode_NE 1 k false) as C. cbv zeta in C.
  assert (E : F2R (Float radix2 1 k) = pow k) by (unfold F2R; cbn; lra). rewrite E in C. rewrite (rnd_exact _ (rep_pow k H)) in C. rewrite Rlt_bool_true in C; [|apply rep_pow; exact H].
  eexists. split; apply C.
Qed.
Definition is_zero_d (z : double) : Prop := exists b, z = B754_zero b.
Lemma is_zero_intro (z : double) : is_finite z = true -> B2R z = 0 -> is_zero_d z.
Proof. apply finite_zero. Qed.
Lemma zero_mul_r (x y : double) : is_finite x = true -> is_zero_d y -> is_zero_d (dmul x y).
Proof. intros F (b & ->). destruct x as [c|c| |c m e H]; try discriminate F; eexists; reflexivity. Qed.
Lemma zero_mul_l (x y : double) : is_zero_d x -> is_finite y = true -> is_zero_d (dmul x y).
Proof. intros (b & ->) F. destruct y as [c|c| |c m e H]; try discriminate F; eexists; reflexivity. Qed.
Lemma zero_add (x y : double) : is_zero_d x -> is_zero_d y -> is_zero_d (dadd x y).
Proof. intros (b & ->) (c & ->). destruct b, c; eexists; reflexivity. Qed.
Lemma zero_sub (x y : double) : is_zero_d x -> is_zero_d y -> is_zero_d (dsub x y).
Proof. intros (b & ->) (c & ->). destruct b, c; eexists; reflexivity. Qed.
Lemma zero_div (x y : double) : is_zero_d x -> is_finite y = true -> B2R y <> 0 -> is_zero_d (ddiv x y).
Proof. intros (b & ->) F N. destruct y as [c|c| |c m e H]; try discriminate F; [now elim N|]. eexists. reflexivity. Qed.
Lemma zero_summed l s : summed l s -> (forall x, In x l -> is_zero_d x) -> is_zero_d s.
Proof.
  intros S. induction S as [|x|l1 s1 l2 s2 l S1 IH1 S2 IH2 P]; intros H; [now exists false|apply H; now left|].
  apply zero_add; [apply IH1|apply IH2]; intros x Hx; apply H, (Permutation_in _ (Permutation_sym P)), in_or_app; auto.
Qed.
Lemma is_zero_val (z : double) : is_zero_d z -> is_finite z = true /\ B2R z = 0.
Proof. intros (b & ->). split; reflexivity. Qed.
Lemma zero_add_val (x y : double) : is_zero_d x -> is_finite y = true -> is_finite (dadd x y) = true /\ B2R (dadd x y) = B2R y.
Proof.
  intros Z F. destruct (is_zero_val x Z) as [Fx Vx]. pose proof (rep_val y F) as R. destruct (add_in x y Fx F _ _ R R) as (A & _ & B); [rewrite Vx; lra|]. split; [exact A|lra].
Qed.
Lemma exact_mul (x y : double) r : is_finite x = true -> is_finite y = true -> B2R x * B2R y = r -> rep r -> is_finite (dmul x y) = true /\ B2R (dmul x y) = r.
Proof. intros Fx Fy E R. destruct (mul_in x y Fx Fy _ _ R R) as (A & _ & B); [lra|]. split; [exact A|lra]. Qed.

(** a number not below 1/2 swallows one below 2^-59 *)
Lemma swallow (v z : double) : is_finite v = true -> is_finite z = true -> / 2 <= B2R v -> B2R v <= 8 -> 0 <= B2R z <= pow (-58) -> is_finite (dsub v z) = true /\ B2R v <= B2R (dsub v z).
Proof.
  intros Fv Fz Lo Hi Z. assert (P58 : pow (-58) <= / 4) by (apply Rle_trans with (pow (-2)); [apply bpow_le; lia|cbn; lra]).
  destruct (sub_in v z Fv Fz 0 8 (rep_Z 0 ltac:(lia)) (rep_Z 8 ltac:(lia))) as (F & E & _); [lra|]. split; [exact F|]. rewrite E.
  assert (G : generic_format radix2 fexp (B2R v)) by apply generic_format_B2R.
  assert (Q : pow (-2) <= pred radix2 fexp (B2R v)).
  { apply pred_ge_gt; [apply fexp_valid|apply rep_pow; lia|exact G|cbn; lra]. }
  apply round_N_ge_midp; [apply fexp_valid|exact G|].
  assert (S : pred radix2 fexp (B2R v) + ulp radix2 fexp (pred radix2 fexp (B2R v)) = B2R v) by (apply pred_plus_ulp; [apply fexp_valid|lra|exact G]).
  assert (W : pow (-54) <= ulp radix2 fexp (pred radix2 fexp (B2R v))).
  { apply Rle_trans with (ulp radix2 fexp (pow (-2))); [rewrite ulp_bpow; apply bpow_le; vm_compute; discriminate|]. apply ulp_le; [apply fexp_valid|exact (FLT_exp_monotone (-1074) 53)|].
    rewrite !Rabs_pos_eq; [exact Q| |apply bpow_ge_0]. eapply Rle_trans; [|exact Q]. apply bpow_ge_0. }
  assert (pow (-54) = 16 * pow (-58)). { change (-54)%Z with (4 + -58)%Z. rewrite bpow_plus. cbn [bpow]. change (Z.pow_pos radix2 4) with 16%Z. lra. }
  assert (0 < pow (-58)) by apply bpow_gt_0. lra.
Qed.

Section Worse.
  Variables (lg ex lga : double -> double) (sum : list double -> double).
  Local Hint Extern 0 (ops _) => exact (DO lg ex lga sum) : typeclass_instances.
  Hypothesis Hsum : forall l, summed l (sum l).
  Hypothesis Hlg : rough_log lg.
  Hypothesis Hex : forall b, ex (B754_zero b) = one.
  Ltac norm := change (@add double (DO lg ex lga sum)) with dadd in *; change (@sub double (DO lg ex lga sum)) with dsub in *;
    change (@mul double (DO lg ex lga sum)) with dmul in *; change (@div double (DO lg ex lga sum)) with ddiv in *; change (@zero double (DO lg ex lga sum)) with (B754_zero false : double) in *.
  Notation half := (OptModel.half : double).

  (** two documents without words, of classes 0 and 1; one topic *)
  Definition no_words : mat double := mk_mat 1 [[B754_zero false]; [B754_zero false]].
  Definition both : list Z := [0%Z; 1%Z].
  Definition at_ (a : double) : mat double := mtab 1 2 (fun _ _ => a).
  Variables w0 w1 L : double.
  Hypotheses (F0 : is_finite w0 = true) (F1 : is_finite w1 = true) (V0 : B2R w0 = 1) (V1 : B2R w1 = 1) (FL : is_finite L = true) (VL : B2R L = pow 10).
  Let s : double := redux [one; one].
  Lemma s_two : is_finite s = true /\ B2R s = 2.
  Proof.
    destruct (one_d lg ex lga sum) as [Fo Vo]. assert (S : summed [one; one] s) by exact (Hsum _).
    destruct (exact_sum 1 _ s (rep_Z 1 ltac:(lia)) ltac:(rewrite Rmult_1_r; apply (rep_Z 2); lia) S) as [A B]; [cbn; lia|intros x [<-|[<-|[]]]; auto|]. split; [exact A|]. rewrite B. unfold lval, lsum. cbn [map fold_right]. rewrite Vo. lra.
  Qed.
  Lemma lg_two : is_finite (lg s) = true /\ / 4 <= B2R (lg s) <= 2.
  Proof.
    destruct s_two as [Fs Vs]. destruct (Hlg s Fs ltac:(lra)) as [A B]. split; [exact A|]. rewrite Vs in B. pose proof ln_lt_2. assert (ln 2 < 1); [|lra].
    rewrite <- (ln_exp 1). apply ln_increasing; [lra|]. pose proof (exp_ineq1 1 ltac:(lra)). lra.
  Qed.

  Lemma no_topics (a : double) d : (d < 2)%nat -> is_finite a = true -> exists z, matT_vec (at_ a) (mcol no_words d) = [z; z] /\ is_zero_d z.
  Proof.
    intros Hd Fa. unfold matT_vec. change (ncols (at_ a)) with 2%nat. exists (dot (vtab 1 (fun _ => a)) (mcol no_words d)). split.
    - unfold vtab at 1. cbn [seq map]. unfold at_. rewrite !mcol_tab by lia. reflexivity.
    - unfold dot. apply (zero_summed _ _ (Hsum _)). intros x Hx. unfold vtab in Hx. cbn [seq map length] in Hx. destruct Hx as [<-|[]]. norm. apply zero_mul_r; [exact Fa|].
      destruct d as [|[|d]]; [exists false; reflexivity..|lia].
  Qed.
  Lemma exps z : is_zero_d z -> map sexp [z; z] = [one; one].
  Proof. intros (b & ->). cbn [map]. change (@sexp double (DO lg ex lga sum)) with ex. now rewrite Hex. Qed.
  Lemma lik_step (l w z : double) m : is_finite l = true -> is_finite w = true -> B2R w = 1 -> is_zero_d z -> B2R l = - (INR m * B2R (lg s)) -> (m <= 1)%nat ->
    is_finite (dsub (dadd l (dmul w z)) (dmul w (lg s))) = true /\ B2R (dsub (dadd l (dmul w z)) (dmul w (lg s))) = - (INR (S m) * B2R (lg s)).
  Proof.
    intros Fl Fw Vw Z Vl Hm. destruct lg_two as [Fg Bg]. destruct (is_zero_val _ (zero_mul_r w z Fw Z)) as [Fz Vz]. pose proof (rep_val l Fl) as Rl.
    destruct (add_in l (dmul w z) Fl Fz _ _ Rl Rl) as (A & _ & B); [rewrite Vz; lra|].
    destruct (exact_mul w (lg s) (B2R (lg s)) Fw Fg ltac:(rewrite Vw; lra) (rep_val _ Fg)) as [C D].
    assert (R : rep (- (INR (S m) * B2R (lg s)))).
    { destruct m as [|[|m]]; [cbn [INR]| |lia].
      - rewrite Rmult_1_l, <- B2R_Bopp. apply rep_val. now rewrite is_finite_Bopp.
      - replace (INR 2) with 2 by (cbn; lra). rewrite Ropp_mult_distr_r, <- B2R_Bopp. apply rep_twice. rewrite B2R_Bopp. apply Rle_lt_trans with 4; [apply Rabs_le; lra|].
        apply Rlt_trans with (pow 3); [cbn; lra|apply bpow_lt; lia]. }
    destruct (sub_in _ _ A C _ _ R R) as (E & _ & G); [rewrite D; assert (X : B2R (dadd l (dmul w z)) = B2R l) by lra; rewrite X, Vl, S_INR; lra|]. split; [exact E|lra].
  Qed.
  Lemma value_at (a : double) : is_finite a = true -> exists lik, mlr_value no_words both [w0; w1] L (at_ a) = Ok (plus_norm lg ex lga sum lik L (at_ a)) /\ is_finite lik = true /\ B2R lik = - (2 * B2R (lg s)).
  Proof.
    intros Fa. unfold mlr_value. replace (fits no_words both [w0; w1] (at_ a)) with true by reflexivity. cbn [negb]. eexists. split; [reflexivity|]. cbn [length both seq fold_left].
    destruct (no_topics a 0 ltac:(lia) Fa) as (z & -> & Z). destruct (no_topics a 1 ltac:(lia) Fa) as (z' & -> & Z'). rewrite (exps z Z), (exps z' Z').
    change (label both 0) with 0%nat. change (label both 1) with 1%nat. change (vget [w0; w1] 0) with w0. change (vget [w0; w1] 1) with w1. change (vget [z; z] 0) with z. change (vget [z'; z'] 1) with z'.
    change (@slog double (DO lg ex lga sum)) with lg. fold s. norm.
    destruct (lik_step (B754_zero false) w0 z 0 eq_refl F0 V0 Z) as [A B]; [cbn; lra|lia|]. revert A B. generalize (dsub (dadd (B754_zero false) (dmul w0 z)) (dmul w0 (lg s))). intros l A B.
    destruct (lik_step l w1 z' 1 A F1 V1 Z' B ltac:(lia)) as [C D]. split; [exact C|]. rewrite D. cbn [INR]. lra.
  Qed.

  Definition flat (g : mat double) : Prop := forall i c, (i < 1)%nat -> (c < 2)%nat -> is_zero_d (mget g i c).
  Lemma gradient_at (a : double) r : is_finite a = true -> B2R a * pow 10 = r -> rep r -> exists g, mlr_gradient no_words both [w0; w1] L (at_ a) = Ok g /\ mrows g = 1%nat /\ ncols g = 2%nat /\
    forall c, (c < 2)%nat -> is_finite (mget g 0 c) = true /\ B2R (mget g 0 c) = r.
  Proof.
    intros Fa Er Rr. unfold mlr_gradient. replace (fits no_words both [w0; w1] (at_ a)) with true by reflexivity. cbn [negb]. change (mrows (at_ a)) with 1%nat. change (ncols (at_ a)) with 2%nat.
    eexists. split; [reflexivity|]. split; [reflexivity|]. split; [reflexivity|]. intros c Hc. rewrite mget_tab by lia. replace (mget (at_ a) 0 c) with a by (unfold at_; now rewrite mget_tab by lia). norm.
    destruct (exact_mul a L r Fa FL ltac:(rewrite VL; exact Er) Rr) as [A B]. rewrite <- B.
    apply zero_add_val; [|exact A]. match goal with |- is_zero_d (mget ?g 0 c) => cut (flat g); [intros G; apply G; lia|] end.
    assert (Hw : forall d, (d < 2)%nat -> is_finite (vget [w0; w1] (label both d)) = true) by (intros [|[|d]] Hd; [exact F0|exact F1|lia]).
    assert (HX : forall d, (d < 2)%nat -> is_zero_d (mget no_words 0 d)) by (intros [|[|d]] Hd; [exists false; reflexivity..|lia]).
    assert (Step : forall g d, (d < 2)%nat -> flat g -> flat (let g0 := mtab 1 2 (fun i c0 => if Nat.eqb c0 (label both d) then dsub (mget g i c0) (dmul (vget [w0; w1] (label both d)) (mget no_words i d)) else mget g i c0) in
      let t := map sexp (matT_vec (at_ a) (mcol no_words d)) in mtab 1 2 (fun i c0 => dadd (mget g0 i c0) (ddiv (dmul (vget [w0; w1] (label both d)) (dmul (mget no_words i d) (vget t c0))) (redux t))))).
    { intros g d Hd G i c' Hi Hc'. cbv zeta. rewrite mget_tab by lia. rewrite mget_tab by lia. destruct (no_topics a d Hd Fa) as (z & -> & Z). rewrite (exps z Z). fold s. assert (i = 0)%nat by lia. subst i.
      destruct s_two as [Fs Vs]. destruct (one_d lg ex lga sum) as [Fo Vo]. apply zero_add.
      - destruct (Nat.eqb c' (label both d)); [|apply G; lia]. apply zero_sub; [apply G; lia|]. apply zero_mul_r; auto.
      - apply zero_div; [|exact Fs|lra]. apply zero_mul_r; [auto|]. apply zero_mul_l; [auto|]. destruct c' as [|[|c']]; [exact Fo|exact Fo|lia]. }
    cbn [length both seq fold_left]. apply Step; [lia|]. apply Step; [lia|]. intros i c' Hi Hc'. rewrite mget_tab by lia. exists false. reflexivity.
  Qed.

  (** ** The search *)
  Variable x0 : double.
  Hypotheses (Fx : is_finite x0 = true) (Vx : B2R x0 = pow (-36)).
  Let p : problem double := mk_problem (mlr_value no_words both [w0; w1] L) (mlr_gradient no_words both [w0; w1] L).

  Lemma norm_of (a : double) (r : R) : is_finite a = true -> B2R a * B2R a = r -> rep r -> rep (2 * r) -> is_finite (squared_norm (at_ a)) = true /\ B2R (squared_norm (at_ a)) = 2 * r.
  Proof.
    intros Fa E R R2. destruct (exact_mul a a r Fa Fa E R) as [A B]. unfold squared_norm. assert (M : mall (at_ a) = [a; a]) by reflexivity. rewrite M. cbn [map]. norm.
    assert (S : summed [dmul a a; dmul a a] (redux [dmul a a; dmul a a])) by exact (Hsum _). destruct (exact_sum r _ _ R R2 S) as [C D]; [cbn; lia|intros x [<-|[<-|[]]]; auto|]. split; [exact C|]. rewrite D. unfold lval, lsum. cbn [map fold_right]. lra.
  Qed.
  Lemma pow_mul a b : pow a * pow b = pow (a + b).
  Proof. now rewrite bpow_plus. Qed.
  Lemma pow_half k : pow k / 2 = pow (k - 1).
  Proof. replace k with (1 + (k - 1))%Z at 1 by lia. rewrite bpow_plus. cbn [bpow]. change (Z.pow_pos radix2 1) with 2%Z. lra. Qed.
  Lemma pow_twice k : 2 * pow k = pow (k + 1).
  Proof. replace (k + 1)%Z with (1 + k)%Z by lia. rewrite bpow_plus. cbn [bpow]. change (Z.pow_pos radix2 1) with 2%Z. lra. Qed.

  (** the objective is the same constant plus 1024 times the square *)
  Lemma objective_at (a : double) (q : R) : is_finite a = true -> B2R a * B2R a = q -> rep q -> rep (2 * q) -> rep (pow 10 * (2 * q)) -> rep (pow 10 * q) -> 0 <= pow 10 * q <= 1 ->
    exists v, value p (at_ a) = Ok v /\ is_finite v = true /\ B2R v = rnd (2 * B2R (lg s) + pow 10 * q) /\ / 2 <= B2R v <= 5.
  Proof.
    intros Fa E R R2 R3 R4 B. destruct (value_at a Fa) as (lik & EV & Fk & Vk). cbn [value p]. rewrite EV. eexists. split; [reflexivity|]. unfold plus_norm. norm.
    destruct (norm_of a q Fa E R R2) as [A C]. destruct (exact_mul L _ _ FL A ltac:(rewrite VL, C; reflexivity) R3) as [D G].
    destruct (int_d lg ex lga sum 2 ltac:(lia)) as [F2 V2]. destruct (div_in (dmul L (squared_norm (at_ a))) (ofZ 2) D _ _ R4 R4) as (H & _ & I); [lra|rewrite G, V2; lra|].
    destruct lg_two as [Fg Bg]. change (@opp double (DO lg ex lga sum)) with (@Bopp 53 1024). assert (Fo : is_finite (Bopp lik) = true) by now rewrite is_finite_Bopp.
    assert (VD : B2R (ddiv (dmul L (squared_norm (at_ a))) (ofZ 2)) = pow 10 * q) by lra.
    destruct (add_in (Bopp lik) _ Fo H (/ 2) 5 ltac:(replace (/ 2) with (pow (-1)) by (cbn; lra); apply rep_pow; lia) (rep_Z 5 ltac:(lia))) as (J & K & M); [rewrite B2R_Bopp, Vk, VD; lra|].
    split; [exact J|]. split; [|exact M]. rewrite K, B2R_Bopp, Vk, VD. f_equal. lra.
  Qed.

  Lemma worse_eta fuel limit tolerance : (1 <= limit)%nat -> (1076 <= fuel)%nat -> is_finite tolerance = true -> 0 <= B2R tolerance ->
    exists eta' reports v v', fit_eta fuel limit tolerance p (at_ x0) = Ok (eta', reports) /\ value p (at_ x0) = Ok v /\ value p eta' = Ok v' /\
      is_finite v = true /\ is_finite v' = true /\ B2R v < B2R v' /\ reports = [Bopp v; Bopp v].
  Proof.
    intros Hlim Hf Ft Pt.
    (* the start *)
    destruct (objective_at x0 (pow (-72))) as (v & EV & Fv & Vv & Bv); [exact Fx|rewrite Vx, pow_mul; reflexivity|apply rep_pow; lia|rewrite pow_twice; apply rep_pow; lia|rewrite pow_twice, pow_mul; apply rep_pow; lia|rewrite pow_mul; apply rep_pow; lia|rewrite pow_mul; split; [apply bpow_ge_0|apply (bpow_le radix2 _ 0); lia]|].
    destruct (gradient_at x0 (pow (-26)) Fx) as (g & EG & R1 & C1 & G); [rewrite Vx, pow_mul; reflexivity|apply rep_pow; lia|].
    (* the decrease *)
    set (beta := (one / ofZ 1000 : double)%S).
    assert (Bb : is_finite beta = true /\ 0 <= B2R beta <= pow (-9)).
    { destruct (one_d lg ex lga sum) as [Fo Vo]. destruct (int_d lg ex lga sum 1000 ltac:(lia)) as [Fi Vi]. unfold beta. norm.
      destruct (div_in one (ofZ 1000) Fo 0 (pow (-9)) (rep_Z 0 ltac:(lia)) (rep_pow (-9) ltac:(lia))) as (A & _ & B); [rewrite Vi; lra|rewrite Vo, Vi; cbn; lra|]. split; assumption. }
    destruct Bb as [Fb Bb].
    assert (M : mall (mtab (mrows g) (ncols g) (fun i j => dmul (mget g i j) (mget g i j))) = [dmul (mget g 0 0) (mget g 0 0); dmul (mget g 0 1) (mget g 0 1)]) by (rewrite R1, C1; reflexivity).
    assert (D : is_finite (decrease_of lg ex lga sum beta g g) = true /\ 0 <= B2R (decrease_of lg ex lga sum beta g g) <= pow (-60)).
    { unfold decrease_of. rewrite M.
      assert (Q : forall c, (c < 2)%nat -> is_finite (dmul (mget g 0 c) (mget g 0 c)) = true /\ B2R (dmul (mget g 0 c) (mget g 0 c)) = pow (-52)).
      { intros c Hc. destruct (G c Hc) as [A B]. apply exact_mul; [exact A|exact A|rewrite B, pow_mul; reflexivity|apply rep_pow; lia]. }
      destruct (Q 0%nat ltac:(lia)) as [A0 B0]. destruct (Q 1%nat ltac:(lia)) as [A1 B1]. revert A0 B0 A1 B1. generalize (dmul (mget g 0 0) (mget g 0 0)) (dmul (mget g 0 1) (mget g 0 1)). intros q0 q1 A0 B0 A1 B1.
      assert (S : summed [q0; q1] (redux [q0; q1])) by exact (Hsum _). destruct (exact_sum (pow (-52)) _ _ (rep_pow (-52) ltac:(lia)) ltac:(rewrite pow_twice; apply rep_pow; lia) S) as [E H]; [cbn; lia|intros x [<-|[<-|[]]]; auto|].
      assert (V : B2R (redux [q0; q1]) = pow (-51)). { rewrite H. unfold lval, lsum. cbn [map fold_right]. rewrite B0, B1. transitivity (2 * pow (-52)); [lra|]. rewrite pow_twice. reflexivity. }
      destruct (mul_in beta _ Fb E 0 (pow (-60)) (rep_Z 0 ltac:(lia)) (rep_pow (-60) ltac:(lia))) as (I & _ & J); [|split; assumption]. rewrite V. pose proof (bpow_gt_0 radix2 (-51)). split; [nra|].
      replace (pow (-60)) with (pow (-9) * pow (-51)) by (rewrite pow_mul; reflexivity). apply Rmult_le_compat_r; lra. }
    destruct D as [Fd Bd].
    (* the first test fails *)
    destruct (size_value lg ex lga sum 0 ltac:(lia)) as [Fs0 Vs0]. change (1 - Z.of_nat 0)%Z with 1%Z in Vs0.
    assert (T : ltb (dsub v (dmul (sizes lg ex lga sum 0) (decrease_of lg ex lga sum beta g g))) v = false).
    { destruct (mul_in _ _ Fs0 Fd 0 (pow (-59)) (rep_Z 0 ltac:(lia)) (rep_pow (-59) ltac:(lia))) as (A & _ & B).
      { rewrite Vs0. change (pow 1) with 2. split; [lra|]. replace (pow (-59)) with (2 * pow (-60)) by (rewrite pow_twice; reflexivity). lra. }
      assert (P58 : pow (-59) <= pow (-58)) by (apply bpow_le; lia). destruct (swallow v _ Fv A ltac:(lra) ltac:(lra) ltac:(lra)) as [C E].
      match goal with |- ?t = false => destruct t eqn:X end; [|reflexivity]. apply (ltb_d lg ex lga sum) in X; [lra|assumption..]. }
    (* the next point *)
    assert (Nx : exists b, step (at_ x0) (sizes lg ex lga sum 0) g = at_ b /\ is_finite b = true /\ B2R b = pow (-36) - pow (-25)).
    { destruct (G 0%nat ltac:(lia)) as [A0 B0]. destruct (G 1%nat ltac:(lia)) as [A1 B1]. assert (E : mget g 0 1 = mget g 0 0) by (apply same_double; try assumption; [congruence|rewrite B0; apply Rgt_not_eq, bpow_gt_0]).
      exists (dsub x0 (dmul (sizes lg ex lga sum 0) (mget g 0 0))). split.
      - unfold step, at_. rewrite mrows_tab, ncols_tab. apply mtab_ext. intros i j Hi Hj. rewrite mget_tab by lia. assert (i = 0)%nat by lia. subst i. destruct j as [|[|j]]; [reflexivity|now rewrite E|lia].
      - destruct (exact_mul _ _ (pow (-25)) Fs0 A0) as [Fm Vm]; [rewrite Vs0, B0, pow_mul; reflexivity|apply rep_pow; lia|].
        assert (R : rep (pow (-36) - pow (-25))). { replace (pow (-36) - pow (-25)) with (IZR (-2047) * pow (-36)); [apply rep_scale; lia|]. change (-25)%Z with (11 + -36)%Z. rewrite bpow_plus. cbn [bpow]. change (Z.pow_pos radix2 11) with 2048%Z. lra. }
        destruct (sub_in x0 _ Fx Fm _ _ R R) as (A & _ & B); [rewrite Vx, Vm; lra|]. split; [exact A|lra]. }
    destruct Nx as (b & EN & Fb' & Vb).
    (* the objective there *)
    assert (Qb : B2R b * B2R b = IZR (2047 * 2047) * pow (-72)).
    { rewrite Vb. change (-25)%Z with (11 + -36)%Z. rewrite bpow_plus. replace (pow (-72)) with (pow (-36) * pow (-36)) by (rewrite pow_mul; reflexivity). cbn [bpow]. change (Z.pow_pos radix2 11) with 2048%Z. rewrite mult_IZR. ring. }
    assert (Hq : forall k, pow 10 * (IZR (2047 * 2047) * pow k) = IZR (2047 * 2047) * pow (10 + k)) by (intros k; rewrite bpow_plus; ring).
    assert (H2 : 2 * (IZR (2047 * 2047) * pow (-72)) = IZR (2047 * 2047) * pow (-71)) by (change (-71)%Z with (-72 + 1)%Z; rewrite <- pow_twice; ring).
    assert (P42 : pow (-41) < IZR (2047 * 2047) * pow (-62)).
    { change (-41)%Z with (21 + -62)%Z. rewrite bpow_plus. apply Rmult_lt_compat_r; [apply bpow_gt_0|]. cbn [bpow]. change (Z.pow_pos radix2 21) with 2097152%Z. apply IZR_lt. reflexivity. }
    assert (P42' : IZR (2047 * 2047) * pow (-62) < pow (-40)).
    { change (-40)%Z with (22 + -62)%Z. rewrite bpow_plus. apply Rmult_lt_compat_r; [apply bpow_gt_0|]. cbn [bpow]. change (Z.pow_pos radix2 22) with 4194304%Z. apply IZR_lt. reflexivity. }
    assert (P1 : pow (-40) <= 1) by (apply (bpow_le radix2 _ 0); lia). assert (P0 := bpow_gt_0 radix2 (-41)).
    destruct (objective_at b (IZR (2047 * 2047) * pow (-72))) as (v' & EV' & Fv' & Vv' & Bv');
      [exact Fb'|exact Qb|apply rep_scale; lia|rewrite H2; apply rep_scale; lia|rewrite H2, Hq; apply rep_scale; lia|rewrite Hq; apply rep_scale; lia|rewrite Hq; change (10 + -72)%Z with (-62)%Z; lra|].
    rewrite Hq in Vv'. change (10 + -72)%Z with (-62)%Z in Vv'. rewrite pow_mul in Vv. change (10 + -72)%Z with (-62)%Z in Vv.
    destruct lg_two as [Fg Bg].
    assert (Lt : B2R v < B2R v').
    { pose proof (rnd_error (2 * B2R (lg s) + pow (-62))) as E1. pose proof (rnd_error (2 * B2R (lg s) + IZR (2047 * 2047) * pow (-62))) as E2. rewrite <- Vv in E1. rewrite <- Vv' in E2.
      assert (Q62 : pow (-62) <= pow (-53)) by (apply bpow_le; lia). assert (Q75 : pow (-1075) <= pow (-53)) by (apply bpow_le; lia). assert (G62 := bpow_gt_0 radix2 (-62)). assert (G53 := bpow_gt_0 radix2 (-53)).
      assert (Q41 : pow (-41) = 4096 * pow (-53)). { change (-41)%Z with (12 + -53)%Z. rewrite bpow_plus. cbn [bpow]. change (Z.pow_pos radix2 12) with 4096%Z. lra. }
      assert (Q53 : pow (-53) <= 1) by (apply (bpow_le radix2 _ 0); lia).
      rewrite (Rabs_pos_eq (2 * B2R (lg s) + pow (-62))) in E1 by lra. rewrite (Rabs_pos_eq (2 * B2R (lg s) + IZR (2047 * 2047) * pow (-62))) in E2 by lra.
      apply Rabs_le_inv in E1, E2. assert (pow (-53) * (2 * B2R (lg s) + pow (-62)) <= 5 * pow (-53)) by nra. assert (pow (-53) * (2 * B2R (lg s) + IZR (2047 * 2047) * pow (-62)) <= 5 * pow (-53)) by nra. lra. }
    (* the run *)
    destruct (search_ends lg ex lga sum Hsum p beta (at_ x0) g g fuel) as (k & w & u & EU & ES & (Hk & Rk & _)).
    { apply proper_tab. }
    { intros (c & Hc & Hz). unfold at_, mtab, vtab in Hc. cbn [mcols seq map] in Hc. assert (X : c = [x0]) by (destruct Hc as [<-|[<-|[]]]; reflexivity). subst c. destruct Hz as [Hz|[]]. subst x0. cbn [B2R] in Vx. pose proof (bpow_gt_0 radix2 (-36)). lra. }
    { intros y' [Y1 Y2]. cbn [value p]. unfold mlr_value. replace (fits no_words both [w0; w1] y') with true; [eexists; reflexivity|]. unfold fits. rewrite Y1, Y2. reflexivity. }
    { split; [exact R1|rewrite C1; reflexivity]. }
    { exact Hf. }
    rewrite EV in EU. injection EU as <-. destruct Rk as [[-> ->]|(_ & _ & X)]; [|congruence].
    exists (at_ b), [Bopp v; Bopp v], v, v'. split; [|split; [exact EV|split; [exact EV'|split; [exact Fv|split; [exact Fv'|split; [exact Lt|reflexivity]]]]]].
    unfold fit_eta. rewrite EV. cbn [bind]. destruct fuel as [|fuel]; [lia|]. cbn [minimize]. unfold m_progress at 1. cbn [fst snd].
    replace (Nat.ltb 0 limit) with true by (symmetry; apply Nat.ltb_lt; lia).
    assert (N1 : ltb v (B754_zero false) = false) by (match goal with |- ?t = false => destruct t eqn:X end; [apply (ltb_d lg ex lga sum) in X; [cbn [B2R] in X; lra|exact Fv|reflexivity]|reflexivity]).
    assert (N2 : eqb (dsub v v) (B754_zero false) = true).
    { destruct (sub_in v v Fv Fv 0 0 (rep_Z 0 ltac:(lia)) (rep_Z 0 ltac:(lia))) as (A & _ & B); [lra|]. destruct (finite_zero _ A ltac:(lra)) as (bb & ->). destruct bb; reflexivity. }
    norm. rewrite N1, N2. cbn [negb andb].
    change (gradient p (at_ x0)) with (mlr_gradient no_words both [w0; w1] L (at_ x0)). rewrite EG. cbn [bind]. fold beta. rewrite ES. cbn [bind].
    destruct fuel as [|fuel]; [lia|]. cbn [minimize]. unfold m_progress at 1. cbn [fst snd]. norm. rewrite (ratio_zero lg ex lga sum tolerance v Ft Pt), andb_false_r. cbn [bind snd]. rewrite EN. reflexivity.
  Qed.
End Worse.
