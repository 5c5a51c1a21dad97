(** Property C93: gradient descent with a constant step. *)
Require Import ZArith List Arith Reals Lia Lra FunctionalExtensionality.
From Coquelicot Require Import Coquelicot.
Require Import Verif.Base Verif.Scalar Verif.Mat Verif.OptModel Verif.OptSpec Verif.OptReal Verif.OptProofs Verif.DescentSpec Verif.DescentProofs Verif.DescentLogistic.
Import ListNotations.
Local Open Scope R_scope.

(** C93.  Whatever the callback: it is asked first about the start and then about each new point in turn, with the objective's value there and
    the number of the point; the first time it declines, after [n] steps, minimize returns the n-th point. *)
Theorem C93_run lg (K C : nat) (p : problem R) (f : entries -> R) (G : entries -> entries) {St} (progress : St -> R -> nat -> bool * St) (a : R) (e : entries) (s : St) (n fuel : nat) :
  let O := Rops lg in let values := fun k => f (point G a e k) in
  computes_with K C p f G ->
  (forall k, (k < n)%nat -> answer progress values s k = true) -> answer progress values s n = false -> (n <= fuel)%nat ->
  minimize fuel (constant_search a) progress p (mtab K C e) (f e) 0 s = Ok (mtab K C (point G a e n), told_state progress values s (S n)).
Proof. intros O values HP H1 H2 HF. exact (run_from lg K C p f G HP progress a e s n fuel 0 H1 H2 HF). Qed.
Print Assumptions C93_run.

(** C93.  Every step of a size between 0 and 2 / L lowers the objective, or the gradient is zero there ... *)
Theorem C93_decrease (K C : nat) (f : entries -> R) (G : entries -> entries) (L a : R) (e : entries) (n : nat) :
  (forall e, gradient_at K C f e (G e)) -> curvature K C G L -> 0 <= a ->
  f (point G a e (S n)) <= f (point G a e n) - a * (1 - L * a / 2) * inner K C (G (point G a e n)) (G (point G a e n)).
Proof. intros HG HL Ha. exact (one_step K C f G L HG HL (point G a e n) a Ha). Qed.
Print Assumptions C93_decrease.
(** ... and among the first [n] points is one where the square of the gradient is at most a constant divided by n, if the objective has a lower bound. *)
Theorem C93_gradient_vanishes (K C : nat) (f : entries -> R) (G : entries -> entries) (L a low : R) (e : entries) (n : nat) :
  (forall e, gradient_at K C f e (G e)) -> curvature K C G L -> 0 < a -> L * a < 2 -> (forall e, low <= f e) -> (0 < n)%nat ->
  exists k, (k < n)%nat /\ inner K C (G (point G a e k)) (G (point G a e k)) <= (f e - low) / (a * (1 - L * a / 2)) / INR n.
Proof.
  intros HG HL Ha HLa Hlow Hn. pose proof (steps_sum K C f G L HG HL e a n ltac:(lra)) as H. pose proof (Hlow (point G a e n)) as Hm.
  set (q := fun k => inner K C (G (point G a e k)) (G (point G a e k))) in *. set (t := a * (1 - L * a / 2)) in *.
  assert (Ht : 0 < t) by (apply Rmult_lt_0_compat; lra). assert (HN : 0 < INR n) by (apply lt_0_INR; lia). set (B := (f e - low) / t / INR n).
  destruct (Exists_dec (fun k => q k <= B) (seq 0 n) (fun k => Rle_dec (q k) B)) as [E|E].
  - apply Exists_exists in E. destruct E as (k & I & E). apply in_seq in I. exists k. split; [lia|exact E].
  - exfalso. assert (A : rsum n (fun _ => B) < rsum n q).
    { apply rsum_lt; [|exists 0%nat; split; [lia|]].
      - intros i Hi. apply Rnot_lt_le. intros X. apply E. apply Exists_exists. exists i. split; [apply in_seq; lia|lra].
      - apply Rnot_le_lt. intros X. apply E. apply Exists_exists. exists 0%nat. split; [apply in_seq; lia|lra]. }
    rewrite rsum_const in A. assert (EB : INR n * B * t = f e - low) by (unfold B; field; lra). nra.
Qed.
Print Assumptions C93_gradient_vanishes.

(** C93.  The logistic regression of the M steps is such an objective, with L the penalty plus the weighted sum of the squared features. *)
Theorem C93_logistic lg (K C : nat) (X : mat R) (y : list Z) (L : R) : let O := Rops lg in
  mrows X = K -> (length y <= ncols X)%nat -> y <> [] -> (forall l, In l y -> (0 <= l < Z.of_nat C)%Z /\ (l < 2 ^ 31 - 1)%Z) ->
  exists p G, mlr X y L = Ok p /\ computes_with K C p (mlr_objective K C (fun d i => mget X i d) y L) G /\
    curvature K C G (L + rsum (length y) (fun d => balanced y (nth d y 0%Z) * rsum K (fun i => mget X i d * mget X i d))).
Proof. exact (mlr_computes_with lg K C X y L). Qed.
Print Assumptions C93_logistic.

(** z^2 / 2 from z = 1 with half steps, three times: 1/8 *)
Example C93_case lg : let O := Rops lg in
  let p := mk_problem (fun m => Ok (mget m 0 0 * mget m 0 0 / 2)) (fun m => Ok (mtab 1 1 (fun _ _ => mget m 0 0))) in
  let f := fun e : entries => e 0%nat 0%nat * e 0%nat 0%nat / 2 in let G := fun (e : entries) (_ _ : nat) => e 0%nat 0%nat in
  computes_with 1 1 p f G /\ curvature 1 1 G 1 /\ (forall e, 0 <= f e) /\
  minimize 5 (constant_search (/ 2)) (fun (s : unit) _ k => (Nat.ltb k 3, s)) p (mtab 1 1 (fun _ _ => 1)) (/ 2) 0 tt = Ok (mtab 1 1 (fun _ _ => / 8), tt).
Proof.
  intros O p f G. assert (I1 : forall a b, inner 1 1 a b = a 0%nat 0%nat * b 0%nat 0%nat) by (intros a b; unfold inner; rewrite rsum_S, rsum_0, rsum_S, rsum_0; ring).
  assert (HP : computes_with 1 1 p f G).
  { intros e. cbn [p value gradient]. rewrite mget_tab by lia. split; [reflexivity|]. split; [reflexivity|]. intros d. rewrite I1. unfold f, along, G.
    auto_derive; [exact I|field]. }
  split; [exact HP|]. split; [intros e d; rewrite !I1; unfold along, G; lra|]. split; [intros e; unfold f; nra|].
  assert (E : f (fun _ _ => 1) = / 2) by (unfold f; field).
  pose proof (C93_run lg 1 1 p f G (fun (s : unit) _ k => (Nat.ltb k 3, s)) (/ 2) (fun _ _ => 1) tt 3 5 HP) as H. cbv zeta in H. rewrite E in H. etransitivity; [apply H|].
  - intros k Hk. apply Nat.ltb_lt. exact Hk.
  - reflexivity.
  - lia.
  - f_equal. f_equal. apply mtab_ext. intros i c _ _. cbn [point]. unfold along, G. field.
Qed.
