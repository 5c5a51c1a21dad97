(** Lemmas about gradient descent with a constant step. *)
Require Import List Arith Reals Lia Lra FunctionalExtensionality.
From Coquelicot Require Import Coquelicot.
Require Import Verif.Base Verif.Scalar Verif.Mat Verif.OptModel Verif.OptSpec Verif.OptReal Verif.OptProofs Verif.DescentSpec.
Local Open Scope R_scope.

Lemma along_along e s t d : along (along e s d) t d = along e (s + t) d.
Proof. unfold along. extensionality i. extensionality c. ring. Qed.
Lemma along_0 e d : along e 0 d = e.
Proof. unfold along. extensionality i. extensionality c. ring. Qed.
Lemma inner_scale K C a d t : inner K C a (fun i c => t * d i c) = t * inner K C a d.
Proof. unfold inner. rewrite <- rsum_mult_l. apply rsum_ext. intros i _. rewrite <- rsum_mult_l. apply rsum_ext. intros c _. ring. Qed.
Lemma inner_scale_l K C a d t : inner K C (fun i c => t * a i c) d = t * inner K C a d.
Proof. unfold inner. rewrite <- rsum_mult_l. apply rsum_ext. intros i _. rewrite <- rsum_mult_l. apply rsum_ext. intros c _. ring. Qed.

Section Descent.
  Variables K C : nat.
  Variable f : entries -> R.
  Variable G : entries -> entries.
  Variable L : R.
  Hypothesis HG : forall e, gradient_at K C f e (G e).
  Hypothesis HL : curvature K C G L.

  Lemma slope e d t : is_derive (fun s => f (along e s d)) t (inner K C (G (along e t d)) d).
  Proof.
    pose proof (HG (along e t d) d) as H. apply is_derive_ext with (g := fun s => f (along e s d)) (f := fun s => f (along (along e t d) (s - t) d)).
    - intros s. rewrite along_along. do 2 f_equal. ring.
    - replace (inner K C (G (along e t d)) d) with (1 * inner K C (G (along e t d)) d) by ring.
      apply (is_derive_comp (fun u => f (along (along e t d) u d)) (fun s => s - t)).
      + replace (t - t) with 0 by ring. exact H.
      + replace 1 with (1 - 0) by ring. apply d_minus; [exact (is_derive_id (K := R_AbsRing) t)|apply d_const].
  Qed.
  Lemma curve e d t : 0 <= t -> inner K C (G (along e t d)) d - inner K C (G e) d <= L * t * inner K C d d.
  Proof.
    intros Ht. destruct (Req_dec t 0) as [->|Hn]; [rewrite along_0; lra|]. pose proof (HL e (fun i c => t * d i c)) as H.
    assert (E : along e 1 (fun i c => t * d i c) = along e t d) by (unfold along; extensionality i; extensionality c; ring).
    rewrite E, !inner_scale, inner_scale_l in H. apply Rmult_le_reg_l with t; [lra|]. nra.
  Qed.
  (** The value along a direction is under a parabola. *)
  Lemma parabola e d t : 0 <= t -> f (along e t d) <= f e + t * inner K C (G e) d + L * t * t / 2 * inner K C d d.
  Proof.
    intros Ht. set (N := inner K C d d). set (D := inner K C (G e) d).
    set (h := fun s => f (along e s d) - s * D - L * s * s / 2 * N).
    assert (DH : forall s, is_derive h s (inner K C (G (along e s d)) d - D - L * s * N)).
    { intros s. unfold h. pose proof (slope e d s) as S.
      apply d_minus; [apply d_minus; [exact S|auto_derive; [exact I|ring]]|auto_derive; [exact I|field]]. }
    destruct (MVT_gen h 0 t (fun s => inner K C (G (along e s d)) d - D - L * s * N)) as (c & Hc & E).
    - intros s _. apply DH.
    - intros s _. apply continuity_pt_filterlim. apply (ex_derive_continuous h). eexists. apply DH.
    - rewrite Rmin_left, Rmax_right in Hc by lra. pose proof (curve e d c ltac:(lra)) as H. fold D N in H.
      assert (h t <= h 0) by nra. unfold h in H0. rewrite along_0 in H0. lra.
  Qed.
  Lemma one_step e a : 0 <= a -> f (along e (- a) (G e)) <= f e - a * (1 - L * a / 2) * inner K C (G e) (G e).
  Proof.
    intros Ha. pose proof (parabola e (fun i c => - 1 * G e i c) a Ha) as H.
    assert (E : along e a (fun i c => - 1 * G e i c) = along e (- a) (G e)) by (unfold along; extensionality i; extensionality c; ring).
    rewrite E, inner_scale_l, !inner_scale in H. lra.
  Qed.
  Lemma steps_sum e a n : 0 <= a -> a * (1 - L * a / 2) * rsum n (fun k => inner K C (G (point G a e k)) (G (point G a e k))) <= f e - f (point G a e n).
  Proof.
    intros Ha. induction n as [|n IH]; [rewrite rsum_0; cbn; lra|]. rewrite rsum_S. cbn [point]. pose proof (one_step (point G a e n) a Ha). lra.
  Qed.
End Descent.

Section Run.
  Variable lg : R -> R.
  #[local] Hint Extern 0 (ops R) => exact (Rops lg) : typeclass_instances.
  Variables K C : nat.
  Variable p : problem R.
  Variable f : entries -> R.
  Variable G : entries -> entries.
  Hypothesis HP : computes_with K C p f G.
  Context {St : Type}.
  Variable progress : St -> R -> nat -> bool * St.
  Variables (a : R) (e : entries) (s : St).
  Notation values := (fun k => f (point G a e k)).

  Lemma run_from n fuel k : (forall i, (i < n)%nat -> answer progress values s (k + i) = true) -> answer progress values s (k + n) = false -> (n <= fuel)%nat ->
    minimize fuel (constant_search a) progress p (mtab K C (point G a e k)) (f (point G a e k)) k (told_state progress values s k)
    = Ok (mtab K C (point G a e (k + n)), told_state progress values s (S (k + n))).
  Proof.
    revert fuel k. induction n as [|n IH]; intros fuel k H1 H2 HF.
    - rewrite Nat.add_0_r in *. unfold answer in H2. destruct fuel; cbn [minimize told_state]; destruct (progress _ _ _) as [b s'] eqn:E; cbn in H2 |- *; subst b; reflexivity.
    - destruct fuel as [|fuel]; [lia|]. cbn [minimize]. pose proof (H1 0%nat ltac:(lia)) as B. rewrite Nat.add_0_r in B. unfold answer in B.
      assert (ES : told_state progress values s (S k) = snd (progress (told_state progress values s k) (f (point G a e k)) k)) by reflexivity.
      destruct (progress (told_state progress values s k) (f (point G a e k)) k) as [b s'] eqn:E. cbn in B, ES. subst b.
      destruct (HP (point G a e k)) as (_ & -> & _). cbn [bind]. unfold constant_search. rewrite (step_R lg). change (along (point G a e k) (- a) (G (point G a e k))) with (point G a e (S k)).
      destruct (HP (point G a e (S k))) as (-> & _). cbn [bind]. rewrite <- ES. rewrite IH; [now rewrite Nat.add_succ_comm| |now rewrite <- Nat.add_succ_comm in H2|lia].
      intros i Hi. rewrite Nat.add_succ_comm. apply H1. lia.
  Qed.
End Run.
