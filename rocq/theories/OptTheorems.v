(** Properties C44-C48: the logistic regressions and their minimisation, over the reals. *)
Require Import Reals ZArith List Arith Bool Lia Lra.
From Coquelicot Require Import Coquelicot.
Require Import Verif.Base Verif.Scalar Verif.Mat Verif.UtilsModel Verif.OptModel Verif.OptSpec Verif.OptReal Verif.OptProofs.
Import ListNotations.
Open Scope R_scope.

(** C44: for every training set (features [X], one column per document; labels [y] below the number
    of eta's columns), penalty and eta, the computed value is the balanced negative log likelihood
    plus penalty, and the computed gradient is its gradient: its entries are the partial
    derivatives, and it gives the derivative in every direction. *)
Theorem C44_mlr_gradient lg (K C : nat) (X : mat R) (y : list Z) (L : R) : let O := Rops lg in
  mrows X = K -> (length y <= ncols X)%nat -> y <> [] ->
  (forall l, In l y -> (0 <= l < Z.of_nat C)%Z /\ (l < 2 ^ 31 - 1)%Z) ->
  let objective := mlr_objective K C (fun d i => mget X i d) y L in
  exists p, mlr X y L = Ok p /\
    forall e, value p (mtab K C e) = Ok (objective e) /\
      exists g, gradient p (mtab K C e) = Ok (mtab K C g) /\
        partials_at K C objective e g /\ gradient_at K C objective e g.
Proof.
  intros O HX HD Hn Hy objective. destruct (mlr_computes lg K C X y L HX HD Hn Hy) as (p & E & V & G).
  exists p. split; [exact E|]. intros e. split; [apply V|]. destruct (G e) as (g & G1 & G2). exists g.
  split; [exact G1|]. split; [|exact G2]. refine (gradient_partials K C objective e g _ G2). exact (f_ext K C p objective V).
Qed.

(** a training set with two documents and two classes: the hypotheses hold, and at eta = 0 the objective is 2 ln 2 *)
Example C44_case lg : let O := Rops lg in
  exists p, mlr (mk_mat 1 [[1]; [2]]) [0; 1]%Z 0 = Ok p /\ value p (mtab 1 2 (fun _ _ => 0)) = Ok (2 * ln 2).
Proof.
  intros O. destruct (C44_mlr_gradient lg 1 2 (mk_mat 1 [[1]; [2]]) [0; 1]%Z 0) as (p & E & H).
  - reflexivity.
  - cbn. lia.
  - discriminate.
  - intros l [<-|[<-|[]]]; lia.
  - exists p. split; [exact E|]. destruct (H (fun _ _ => 0)) as [-> _]. f_equal.
    unfold mlr_objective, softmax, score, balanced, occurrences, largest, inner, rsum, lsum. cbn -[ln exp].
    rewrite !Rmult_0_l, !Rplus_0_r, exp_0. replace (1 / (1 + 1)) with (/ 2) by lra. rewrite ln_Rinv by lra. field.
Qed.

(** C45: the same for the second-order objective, wherever its logarithm is of a positive number;
    that is everywhere if the variances are positive semi-definite (they need not be symmetric). *)
Theorem C45_second_order_gradient lg (K C : nat) (X : mat R) (V : list (mat R)) (y : list Z) (L : R) : let O := Rops lg in
  mrows X = K -> (length y <= ncols X)%nat -> y <> [] ->
  (forall l, In l y -> (0 <= l < Z.of_nat C)%Z /\ (l < 2 ^ 31 - 1)%Z) ->
  (length y <= length V)%nat -> (forall v, In v V -> mrows v = K /\ ncols v = K) ->
  let x := fun d i => mget X i d in let v := fun d i j => mget (vnth V d) i j in
  let objective := so_objective K C x v y L in
  exists p, so X V y L = Ok p /\
    forall e, value p (mtab K C e) = Ok (objective e) /\
      exists g, gradient p (mtab K C e) = Ok (mtab K C g) /\
        ((forall d, (d < length y)%nat -> 0 < rsum C (fun c => approx_exp K e (x d) (v d) c)) ->
         partials_at K C objective e g /\ gradient_at K C objective e g).
Proof.
  intros O HX HD Hn Hy HVn HV x v objective. destruct (so_problem lg K C X V y L HX HD Hn Hy HVn HV) as (p & E & Vl & G).
  exists p. split; [exact E|]. intros e. split; [apply Vl|]. destruct (G e) as (g & G1 & G2). exists g.
  split; [exact G1|]. intros Hpos. specialize (G2 Hpos). split; [|exact G2].
  refine (gradient_partials K C objective e g _ G2). exact (f_ext K C p objective Vl).
Qed.
Theorem C45_semi_definite (K C : nat) (e : entries) (x : nat -> R) (v : nat -> nat -> R) :
  (0 < C)%nat -> psd K v -> 0 < rsum C (fun c => approx_exp K e x v c).
Proof. exact (approx_pos K C e x v). Qed.
(** one document, two topics, a variance that is not symmetric *)
Example C45_case lg : let O := Rops lg in let v := mk_mat 2 [[1; 1]; [0; 1]] in
  psd 2 (mget v) /\
  exists p, so (mk_mat 2 [[1; 2]]) [v] [1]%Z (1 / 2) = Ok p /\
    value p (mtab 2 2 (fun _ _ => 0)) = Ok (1 / 2 * ln 2) /\
    forall e, exists g, gradient p (mtab 2 2 e) = Ok (mtab 2 2 g) /\
      partials_at 2 2 (so_objective 2 2 (fun d i => mget (mk_mat 2 [[1; 2]]) i d) (fun d i j => mget (vnth [v] d) i j) [1]%Z (1 / 2)) e g.
Proof.
  intros O v. assert (P : psd 2 (mget v)).
  { intros u. unfold rsum, lsum. cbn. assert (0 <= (u 0%nat + u 1%nat / 2) * (u 0%nat + u 1%nat / 2) + 3 / 4 * (u 1%nat * u 1%nat)); [|lra].
    assert (forall z : R, 0 <= z * z) by (intros; nra). specialize (H (u 0%nat + u 1%nat / 2)) as A. specialize (H (u 1%nat)). lra. }
  split; [exact P|].
  destruct (C45_second_order_gradient lg 2 2 (mk_mat 2 [[1; 2]]) [v] [1]%Z (1 / 2)) as (p & E & H).
  - reflexivity.
  - cbn. lia.
  - discriminate.
  - intros l [<-|[]]; lia.
  - cbn. lia.
  - intros a [<-|[]]. split; reflexivity.
  - exists p. split; [exact E|]. split.
    + destruct (H (fun _ _ => 0)) as [-> _]. f_equal.
      unfold so_objective, approx_exp, quadratic, score, balanced, occurrences, largest, inner, rsum, lsum. cbn -[ln exp].
      rewrite !Rmult_0_l, !Rplus_0_r, exp_0. replace (1 * (1 + 0 / 2) + 1 * (1 + 0 / 2)) with 2 by lra. field.
    + intros e. destruct (H e) as [_ (g & G1 & G2)]. exists g. split; [exact G1|]. apply G2.
      intros d Hd. apply C45_semi_definite; [lia|]. replace d with 0%nat by (cbn in Hd; lia). exact P.
Qed.

(** C46: for every objective that has a gradient at the start, the search along the gradient ends.
    The value it returns is the objective at the point it returns, and the step satisfies the
    sufficient-decrease inequality.  Unless the gradient is zero, the step is the first of 1, tau, tau^2, ... that does. *)
Theorem C46_armijo lg (K C : nat) (p : problem R) (f : entries -> R) (beta tau : R) (e g : entries) : let O := Rops lg in
  (forall e, value p (mtab K C e) = Ok (f e)) -> 0 < beta < 1 -> 0 < tau < 1 -> gradient_at K C f e g ->
  exists n a, 0 < a /\
    (forall fuel, (n <= fuel)%nat ->
       armijo_search fuel beta tau p (mtab K C e) (mtab K C g) (mtab K C g) =
       Ok (mtab K C (along e (- a) g), f (along e (- a) g))) /\
    f (along e (- a) g) <= f e - a * beta * inner K C g g /\
    ((forall i c, (i < K)%nat -> (c < C)%nat -> g i c = 0) \/
     exists k, a = tau ^ k /\ forall j, (j < k)%nat -> f e - tau ^ j * beta * inner K C g g < f (along e (- tau ^ j) g)).
Proof. exact (armijo_gradient lg K C p f beta tau e g). Qed.
(** The same for any other direction in which the objective decreases. *)
Theorem C46_descent_direction lg (K C : nat) (p : problem R) (f : entries -> R) (beta tau : R) (e g d : entries) : let O := Rops lg in
  (forall e, value p (mtab K C e) = Ok (f e)) -> 0 < beta < 1 -> 0 < tau < 1 ->
  0 < inner K C g d -> is_derive (fun t => f (along e t d)) 0 (inner K C g d) ->
  exists k, (forall fuel, (k < fuel)%nat ->
      armijo_search fuel beta tau p (mtab K C e) (mtab K C g) (mtab K C d) =
      Ok (mtab K C (along e (- tau ^ k) d), f (along e (- tau ^ k) d))) /\
    f (along e (- tau ^ k) d) <= f e - tau ^ k * (beta * inner K C g d) /\
    forall j, (j < k)%nat -> f e - tau ^ j * (beta * inner K C g d) < f (along e (- tau ^ j) d).
Proof. intros O Hv Hb Ht Hs Hd. exact (armijo_descent lg K C p f Hv beta tau e g d Hb Ht Hs Hd). Qed.
(** z^2 from z = 1: the full step overshoots to -1, half of it reaches 0 *)
Example C46_case lg : let O := Rops lg in
  let p := mk_problem (fun m => Ok (mget m 0 0 * mget m 0 0)) (fun m => Ok (mtab 1 1 (fun _ _ => 2 * mget m 0 0))) in
  computes 1 1 p (fun e => e 0%nat 0%nat * e 0%nat 0%nat) /\
  armijo_search 5 (1 / 1000) (/ 2) p (mtab 1 1 (fun _ _ => 1)) (mtab 1 1 (fun _ _ => 2)) (mtab 1 1 (fun _ _ => 2)) =
  Ok (mtab 1 1 (fun _ _ => 0), 0).
Proof.
  intros O p. split.
  - split; [reflexivity|]. intros e. exists (fun _ _ => 2 * e 0%nat 0%nat). split; [reflexivity|].
    intros d. unfold along, inner, rsum, lsum. cbn. auto_derive; [trivial|ring].
  - unfold armijo_search, armijo_loop, step, p, mall, mtab, vtab, ncols. cbn -[Rlt_dec].
    replace (1 / / 2) with 2 by field. replace (2 * / 2) with 1 by field. rewrite Rmult_1_l.
    destruct (Rlt_dec _ _) as [A|A]; [|exfalso; lra].
    destruct (Rlt_dec _ _) as [B|B]; [|exfalso; lra].
    destruct (Rlt_dec _ _) as [D|D]; [exfalso; lra|]. cbn.
    replace (1 - 1 * / 2 * 2) with 0 by field. rewrite !Rmult_0_l. reflexivity.
Qed.

(** C47: fitting eta, as the supervised M steps configure it: for every objective with a gradient, every
    starting point, iteration limit and tolerance, it ends after at most [limit] iterations at a
    point that is not worse.  The log likelihoods it reports (one before the first and one after
    every iteration) never decrease, the last one belongs to the returned eta, and it stops
    at the limit, or after an iteration whose improvement is within the tolerance, or at once if the objective is negative. *)
Theorem C47_fit lg (K C : nat) (p : problem R) (f : entries -> R) (limit : nat) (tolerance : R) (e : entries) : let O := Rops lg in
  computes K C p f ->
  exists fuel0, forall fuel, (fuel0 <= fuel)%nat ->
    exists e' reported, fit_eta fuel limit tolerance p (mtab K C e) = Ok (mtab K C e', - f e :: reported) /\
      (length reported <= limit)%nat /\ f e' <= f e /\
      non_decreasing (- f e :: reported) /\ last (- f e :: reported) 0 = - f e' /\
      (length reported = limit \/ (reported = [] /\ f e < 0) \/ small_step tolerance (- f e :: reported)).
Proof. exact (fit_eta_R lg K C p f limit tolerance e). Qed.
(** This applies to the regressions of the two M steps, whose objectives are not negative for L >= 0. *)
Theorem C47_logistic lg (K C : nat) (X : mat R) (y : list Z) (L : R) : let O := Rops lg in
  mrows X = K -> (length y <= ncols X)%nat -> y <> [] ->
  (forall l, In l y -> (0 <= l < Z.of_nat C)%Z /\ (l < 2 ^ 31 - 1)%Z) ->
  let objective := mlr_objective K C (fun d i => mget X i d) y L in
  (exists p, mlr X y L = Ok p /\ computes K C p objective) /\ (0 <= L -> forall e, 0 <= objective e).
Proof.
  intros O HX HD Hn Hy objective. split; [exact (mlr_computes lg K C X y L HX HD Hn Hy)|].
  intros HL e. apply mlr_objective_nonneg; [exact HL|]. intros l H. now apply Hy.
Qed.
Theorem C47_second_order lg (K C : nat) (X : mat R) (V : list (mat R)) (y : list Z) (L : R) : let O := Rops lg in
  mrows X = K -> (length y <= ncols X)%nat -> y <> [] ->
  (forall l, In l y -> (0 <= l < Z.of_nat C)%Z /\ (l < 2 ^ 31 - 1)%Z) ->
  (length y <= length V)%nat -> (forall v, In v V -> mrows v = K /\ ncols v = K /\ psd K (mget v)) ->
  let objective := so_objective K C (fun d i => mget X i d) (fun d => mget (vnth V d)) y L in
  (exists p, so X V y L = Ok p /\ computes K C p objective) /\ (0 <= L -> forall e, 0 <= objective e).
Proof.
  intros O HX HD Hn Hy HVn HV objective. split; [exact (so_computes lg K C X V y L HX HD Hn Hy HVn HV)|].
  intros HL e. apply so_objective_nonneg; [exact HL| |].
  - intros l H. now apply Hy.
  - intros d Hd. apply HV. apply nth_In. lia.
Qed.
(** fitting eta to one document with two classes, at most three iterations: the result is not worse than eta = 0 *)
Example C47_case lg : let O := Rops lg in
  exists p, mlr (mk_mat 1 [[1]; [2]]) [0; 1]%Z (1 / 100) = Ok p /\
  exists fuel eta reported, fit_eta fuel 3 (1 / 100) p (mtab 1 2 (fun _ _ => 0)) = Ok (eta, reported) /\
    (1 <= length reported <= 4)%nat /\ non_decreasing reported.
Proof.
  intros O. destruct (C47_logistic lg 1 2 (mk_mat 1 [[1]; [2]]) [0; 1]%Z (1 / 100)) as [(p & E & H) _].
  - reflexivity.
  - cbn. lia.
  - discriminate.
  - intros l [<-|[<-|[]]]; lia.
  - exists p. split; [exact E|]. destruct (C47_fit lg 1 2 p _ 3 (1 / 100) (fun _ _ => 0) H) as (fuel & F).
    destruct (F fuel (le_n fuel)) as (e' & rep & R1 & R2 & _ & R3 & _). exists fuel, (mtab 1 2 e').
    eexists. split; [exact R1|]. split; [cbn [length]; lia|exact R3].
Qed.

(** C48: the weights give every class that occurs the same total weight D/C, where D is the number
    of labels and C the largest label plus one. *)
Theorem C48_balanced lg (y : list Z) : let O := Rops lg in
  y <> [] -> (forall l, In l y -> (0 <= l < 2 ^ 31 - 1)%Z) ->
  exists w, class_weights y = Ok w /\ length w = Z.to_nat (largest y + 1) /\
    forall l, In l y -> INR (occurrences y l) * nth (Z.to_nat l) w 0 = INR (length y) / IZR (largest y + 1).
Proof.
  intros O Hn Hl. destruct (class_weights_R lg y Hn Hl) as (w & E & A & B). exists w. split; [exact E|]. split; [exact A|].
  intros l H. rewrite <- (balanced_total y l H), <- (B l H). reflexivity.
Qed.
Example C48_case lg : let O := Rops lg in class_weights [0; 2; 0; 0]%Z = Ok [4 / (3 * 3); 4 / (0 * 3); 4 / (1 * 3)].
Proof.
  intros O. unfold class_weights. cbn [max_label fold_left bind forallb]. unfold vtab.
  change (Z.to_nat (Z.max (Z.max (Z.max 0 2) 0) 0 + 1)) with 3%nat. cbn.
  replace (0 + 1 + 1 + 1) with 3 by ring. replace (0 + 1) with 1 by ring. reflexivity.
Qed.

Print Assumptions C44_mlr_gradient.
Print Assumptions C45_second_order_gradient.
Print Assumptions C45_semi_definite.
Print Assumptions C46_armijo.
Print Assumptions C46_descent_direction.
Print Assumptions C47_fit.
Print Assumptions C47_logistic.
Print Assumptions C47_second_order.
Print Assumptions C48_balanced.
