(** The property of the line search and the fits of the supervised M steps in double precision. *)
Require Import Reals ZArith List Arith.
From Flocq Require Import Core.Core IEEE754.BinarySingleNaN.
Require Import Verif.Base Verif.Scalar Verif.Mat Verif.HostModel Verif.UtilsModel Verif.BuilderModel Verif.EStepModel Verif.OptModel Verif.MStepModel Verif.MStepSpec.
Require Import Verif.DoubleSpec Verif.DoubleSearchSpec Verif.DoubleSearchProofs Verif.DoubleSearchTrain Verif.DoubleSearchRefute Verif.DoubleSearchCases.
Import ListNotations.
Open Scope R_scope.

(** C87.  The M step can leave a larger objective, and report that nothing changed: an epoch of two documents without words, of classes 0 and 1, from eta = (2^-36, 2^-36),
    with a regularisation of 1024, any tolerance not below zero and any positive limit of iterations. *)
Theorem C87_refuted lg ex lga sum : let O := double_ops lg ex lga sum in
  rough_log lg -> (forall b, ex (B754_zero b) = one) -> (forall l, summed l (sum l)) ->
  let item c := (mk_doc [0%Z] (Some c) 1 [], mk_vparams [one] (mk_mat 1 [[one]]) []) : item double in
  let l := [item 0%Z; item 1%Z] in
  exists (x0 L : double), coefficients 1 2 (mk_mat 1 [[x0]; [x0]]) /\ is_finite x0 = true /\ is_finite L = true /\ B2R L = 1024 /\
    forall fuel limit tolerance, (1 <= limit)%nat -> (1076 <= fuel)%nat -> is_finite tolerance = true -> 0 <= B2R tolerance ->
    let m := mk_params [one] (mk_mat 1 [[one]]) (mk_mat 1 [[x0]; [x0]]) in
    exists p eta' v v', mlr (mk_mat 1 (map (mixture 1 [one]) l)) (map class_of l) L = Ok p /\
      weights (mrun (fast_maximizer fuel limit tolerance L) (epoch l) m new_fast) = Ok (eta', [Bopp v; Bopp v]) /\
      value p (p_eta m) = Ok v /\ value p eta' = Ok v' /\ is_finite v = true /\ is_finite v' = true /\ B2R v < B2R v'.
Proof. exact (fun Hlg Hex Hsum => worse_epoch lg ex lga sum Hsum Hlg Hex). Qed.
Print Assumptions C87_refuted.

(** What holds.  The line search ends for every objective with a value everywhere, every start without -0, every gradient and direction, with infinities and NaN or not.  It returns
    x0 - a * direction with a = 2, without a test and with the objective of the start; or with a = 1, 1/2, ..., 2^-1074 or 0 and the objective there; and by its own arithmetic
    what it returns as the value is not above the start's minus a * decrease. *)
Theorem C87_search_partial lg ex lga sum (p : problem double) (beta : double) (x0 g d : mat double) (fuel : nat) : let O := double_ops lg ex lga sum in
  (forall l, summed l (sum l)) -> proper x0 -> no_minus_zero x0 -> (forall y, same_size y x0 -> exists v, value p y = Ok v) -> same_size g x0 -> (1076 <= fuel)%nat ->
  let decrease := mul beta (redux (mall (mtab (mrows g) (ncols g) (fun i j => mul (mget g i j) (mget d i j))))) in
  exists x v v0 a, armijo_search fuel beta half p x0 g d = Ok (x, v) /\ value p x0 = Ok v0 /\ x = step x0 a d /\ is_finite a = true /\
    ltb (sub v0 (mul a decrease)) v = false /\
    ((B2R a = 2 /\ v = v0) \/ ((B2R a = 0 \/ exists j, (j <= 1074)%nat /\ B2R a = bpow radix2 (- Z.of_nat j)) /\ value p x = Ok v)).
Proof. exact (fun Hsum => search_result lg ex lga sum Hsum p beta x0 g d fuel). Qed.
Print Assumptions C87_search_partial.
(** So the M steps of the supervised models end, after any number of epochs, whatever the E steps gave (infinities and NaN too), with coefficients of the same size. *)
Theorem C87_fast_partial lg ex lga sum (K V C fuel limit : nat) (tolerance L : double) (ls : list (list (item double))) (m : params double) : let O := double_ops lg ex lga sum in
  (forall l, summed l (sum l)) -> (0 < K)%nat -> (Z.of_nat C < 2 ^ 31)%Z -> (1076 <= fuel)%nat -> (limit <= fuel)%nat ->
  Forall (fun l => l <> [] /\ Forall (fun x => sized K V x /\ classified C x) l) ls -> length (p_alpha m) = K -> coefficients K C (p_eta m) ->
  exists m' s e, mrun (fast_maximizer fuel limit tolerance L) (epochs ls) m new_fast = Ok (m', s, e) /\ coefficients K C (p_eta m').
Proof. exact (fun Hsum HK HC Hf Hl => fast_ends lg ex lga sum Hsum K V C fuel limit tolerance L HK HC Hf Hl ls m). Qed.
Print Assumptions C87_fast_partial.
Theorem C87_semi_partial lg ex lga sum (K V C fuel limit : nat) (tolerance L : double) (ls : list (list (item double))) (m : params double) : let O := double_ops lg ex lga sum in
  (forall l, summed l (sum l)) -> (0 < K)%nat -> (Z.of_nat C < 2 ^ 31)%Z -> (1076 <= fuel)%nat -> (limit <= fuel)%nat ->
  Forall (fun l => Exists (fun x => labelled x = true) l /\ Forall (fun x => sized K V x /\ exists c, d_class (fst x) = Some c /\ (c < Z.of_nat C)%Z) l) ls -> length (p_alpha m) = K -> coefficients K C (p_eta m) ->
  exists m' s e, mrun (semi_maximizer fuel limit tolerance L) (epochs ls) m new_fast = Ok (m', s, e) /\ coefficients K C (p_eta m').
Proof. exact (fun Hsum HK HC Hf Hl => semi_ends lg ex lga sum Hsum K V C fuel limit tolerance L HK HC Hf Hl ls m). Qed.
Print Assumptions C87_semi_partial.
Theorem C87_slda_partial lg ex lga sum (K V C fuel limit : nat) (tolerance L : double) (ls : list (list (item double))) (m : params double) : let O := double_ops lg ex lga sum in
  (forall l, summed l (sum l)) -> (0 < K)%nat -> (Z.of_nat C < 2 ^ 31)%Z -> (1076 <= fuel)%nat -> (limit <= fuel)%nat ->
  Forall (fun l => l <> [] /\ Forall (fun x => sized K V x /\ short x /\ classified C x) l) ls -> length (p_alpha m) = K -> coefficients K C (p_eta m) ->
  exists m' s e, mrun (sup_maximizer fuel limit tolerance L) (epochs ls) m new_sup = Ok (m', s, e) /\ coefficients K C (p_eta m').
Proof. exact (fun Hsum HK HC Hf Hl => sup_ends lg ex lga sum Hsum K V C fuel limit tolerance L HK HC Hf Hl ls m). Qed.
Print Assumptions C87_slda_partial.
(** And with a tolerance not below zero, what they report never falls; and the new objective is the one reported last and not above the old one, unless the last two reports are the same. *)
Theorem C87_fast_reports_partial lg ex lga sum (K C fuel limit : nat) (tolerance L : double) (l : list (item double)) (m : params double) p v0 eta' reports : let O := double_ops lg ex lga sum in
  (forall l, summed l (sum l)) -> (Z.of_nat C < 2 ^ 31)%Z -> (1076 <= fuel)%nat -> is_finite tolerance = true -> 0 <= B2R tolerance ->
  coefficients K C (p_eta m) -> l <> [] -> Forall (classified C) l ->
  mlr (mk_mat K (map (mixture K (p_alpha m)) l)) (map class_of l) L = Ok p -> value p (p_eta m) = Ok v0 ->
  trained fuel limit tolerance L K l m = Ok (eta', reports) -> closes p v0 eta' reports.
Proof. exact (fun Hsum HC Hf => trained_closes lg ex lga sum Hsum K C fuel limit tolerance L HC Hf l m p v0 eta' reports). Qed.
Print Assumptions C87_fast_reports_partial.
Theorem C87_slda_reports_partial lg ex lga sum (K V C fuel limit : nat) (tolerance L : double) (l : list (item double)) (m : params double) p v0 eta' reports : let O := double_ops lg ex lga sum in
  (forall l, summed l (sum l)) -> (Z.of_nat C < 2 ^ 31)%Z -> (1076 <= fuel)%nat -> is_finite tolerance = true -> 0 <= B2R tolerance ->
  coefficients K C (p_eta m) -> l <> [] -> Forall (classified C) l ->
  so (mk_mat K (map (mean_topics K (p_alpha m)) l)) (map (second_moment K V) l) (map class_of l) L = Ok p -> value p (p_eta m) = Ok v0 ->
  trained_slda fuel limit tolerance L K V l m = Ok (eta', reports) -> closes p v0 eta' reports.
Proof. exact (fun Hsum HC Hf => trained_slda_closes lg ex lga sum Hsum K V C fuel limit tolerance L HC Hf l m p v0 eta' reports). Qed.
Print Assumptions C87_slda_reports_partial.
(** two epochs with infinite and NaN posteriors, from infinite and NaN coefficients *)
Example C87_case lg ex lga sum (limit : nat) (tolerance L : double) : let O := double_ops lg ex lga sum in
  (forall l, summed l (sum l)) -> (limit <= 2000)%nat ->
  let wild c a b := (mk_doc [3%Z] (Some c) 1 [], mk_vparams [a] (mk_mat 1 [[b]]) []) : item double in
  let ls := [[wild 0%Z B754_nan one; wild 1%Z (B754_infinity true) B754_nan]; [wild 1%Z one (B754_infinity false)]] in
  let m := mk_params [one] (mk_mat 1 [[one]]) (mk_mat 1 [[B754_infinity false]; [B754_nan]]) in
  exists m' s e, mrun (fast_maximizer 2000 limit tolerance L) (epochs ls) m new_fast = Ok (m', s, e).
Proof. exact (fun Hsum => wild_run lg ex lga sum Hsum limit tolerance L). Qed.
