(** Coefficients that overflow the softmax: the fast supervised E step is undefined. *)
Require Import Reals ZArith List Bool Arith Lia Lra Psatz Permutation.
From Flocq Require Import Core.Core IEEE754.BinarySingleNaN.
Require Import Verif.Base Verif.Scalar Verif.Mat Verif.HostModel Verif.UtilsModel Verif.BuilderModel Verif.EStepModel Verif.EStepAny.
Require Import Verif.DoubleSpec Verif.DoubleArith Verif.DoubleUtils Verif.DoubleProofs Verif.DoubleTrainRefute.
Import ListNotations.
Open Scope R_scope.

Notation inf := (B754_infinity false : double).
Lemma summed_inf l s : summed l s -> (forall x, In x l -> x = inf) -> s = inf \/ (l = [] /\ s = B754_zero false).
Proof.
  induction 1 as [|x|l1 s1 l2 s2 l S1 IH1 S2 IH2 P]; intros H.
  - right. split; reflexivity.
  - left. apply H. now left.
  - destruct IH1 as [->|[-> ->]]; [intros x Hx; apply H, (Permutation_in _ (Permutation_sym P)), in_or_app; now left| |];
      (destruct IH2 as [->|[-> ->]]; [intros x Hx; apply H, (Permutation_in _ (Permutation_sym P)), in_or_app; now right| |]); try (left; reflexivity).
    right. split; [|reflexivity]. apply Permutation_sym, Permutation_nil in P. exact P.
Qed.

Section Refute.
  Variables (lg ex lga : double -> double) (sum : list double -> double).
  Local Hint Extern 0 (ops _) => exact (DO lg ex lga sum) : typeclass_instances.
  Hypothesis Hlg : rough_log lg.
  Hypothesis Hex : overflows ex.
  Hypothesis Hsum : forall l, summed l (sum l).
  Notation half := (div one (ofZ 2) : double).

  (** two topics, one word each, and a coefficient of 2000 for each topic's class *)
  Definition steep : params double := mk_params [half; half] (mk_mat 2 [[one; zero]; [zero; one]]) (mk_mat 2 [[ofZ 2000; zero]; [zero; ofZ 2000]]).
  Definition labelled_word (y : Z) : doc double := mk_doc [1; 0]%Z (Some y) 1 [].
  Lemma steep_input : double_input (/ 300) [1; 0]%Z steep.
  Proof. destruct (apart_input lg ex lga sum) as [A1 A2 A3 A4 A5 A6 A7 A8 A9]. split; assumption. Qed.

  (** the mean topics of the document *)
  Definition z0 : double := dadd zero (dmul (ddiv (ofZ 1) (ofZ 1)) half).
  Lemma ratio_one : is_finite (ddiv (ofZ 1) (ofZ 1)) = true /\ B2R (ddiv (ofZ 1) (ofZ 1) : double) = 1.
  Proof.
    destruct (int_d lg ex lga sum 1 ltac:(lia)) as [F V]. destruct (div_in (ofZ 1) (ofZ 1) F 1 1 (rep_Z 1 ltac:(lia)) (rep_Z 1 ltac:(lia))) as (Fd & _ & B); [rewrite V; lra|rewrite V; lra|]. split; [exact Fd|]. change (B2R (ddiv (ofZ 1) (ofZ 1)) = 1). lra.
  Qed.
  Lemma z0_d : is_finite z0 = true /\ B2R z0 = / 2.
  Proof.
    destruct (half_d' lg ex lga sum) as [Fh Vh]. destruct ratio_one as [F1 V1]. assert (Rh : rep (/ 2)) by (replace (/ 2) with (IZR 1 * pow (-1)) by (cbn; lra); apply rep_scale; lia).
    destruct (mul_in (ddiv (ofZ 1) (ofZ 1)) half F1 Fh (/ 2) (/ 2) Rh Rh) as (Fm & _ & Bm). { rewrite V1, Vh. lra. }
    destruct (add_in zero (dmul (ddiv (ofZ 1) (ofZ 1)) half) (zero_d lg ex lga sum) Fm (/ 2) (/ 2) Rh Rh) as (Fa & _ & Ba). { change (B2R (zero : double)) with 0. lra. }
    split; [exact Fa|]. unfold z0. lra.
  Qed.
  Lemma first_z : sum_cols_scaled (init_phi 2 2) (ratio [1; 0]%Z 1) (vtab 2 (fun _ => zero)) = [z0; z0].
  Proof.
    unfold sum_cols_scaled. change (ncols (init_phi 2 2)) with 2%nat. cbn [seq fold_left ratio map].
    change (vget [ofZ 1 / ofZ 1; ofZ 0 / ofZ 1]%S 0) with (ddiv (ofZ 1) (ofZ 1)). change (vget [ofZ 1 / ofZ 1; ofZ 0 / ofZ 1]%S 1) with (ddiv (ofZ 0) (ofZ 1)).
    assert (N : eqb (ddiv (ofZ 1) (ofZ 1)) zero = false).
    { destruct ratio_one as [F V]. destruct (eqb _ _) eqn:E; [|reflexivity]. apply (is_zero lg ex lga sum) in E; [|exact F]. lra. }
    rewrite N. assert (E : eqb (ddiv (ofZ 0) (ofZ 1) : double) zero = true).
    { destruct (int_d lg ex lga sum 1 ltac:(lia)) as [F V]. destruct (int_d lg ex lga sum 0 ltac:(lia)) as [Fz Vz]. destruct (div_in (ofZ 0) (ofZ 1) Fz 0 0 (rep_Z 0 ltac:(lia)) (rep_Z 0 ltac:(lia))) as (Fd & _ & B); [rewrite V; lra|rewrite V, Vz; lra|].
      apply (is_zero lg ex lga sum); [exact Fd|]. lra. }
    rewrite E. reflexivity.
  Qed.
  (** its scores *)
  Lemma score_d c : (c < 2)%nat -> is_finite (vget (matT_vec (p_eta steep) [z0; z0]) c) = true /\ 900 <= B2R (vget (matT_vec (p_eta steep) [z0; z0]) c).
  Proof.
    intros Hc. destruct z0_d as [Fz Vz]. destruct (int_d lg ex lga sum 2000 ltac:(lia)) as [F2 V2]. destruct unit_facts as (PU & SU & _ & _ & _ & _ & E52).
    destruct (mul_in (ofZ 2000) z0 F2 Fz 1000 1000 (rep_Z 1000 ltac:(lia)) (rep_Z 1000 ltac:(lia))) as (Fa & _ & Ba); [rewrite V2, Vz; lra|].
    destruct (mul_in zero z0 (zero_d lg ex lga sum) Fz 0 0 (rep_Z 0 ltac:(lia)) (rep_Z 0 ltac:(lia))) as (Fb & _ & Bb); [change (B2R (zero : double)) with 0; lra|].
    set (a := dmul (ofZ 2000) z0) in *. set (b := dmul zero z0) in *.
    assert (S : forall l, l = [a; b] \/ l = [b; a] -> is_finite (sum l) = true /\ 900 <= B2R (sum l)).
    { intros l Hl. destruct (summed_in 10 l (sum l) (Hsum l) ltac:(lia)) as (Fs & _ & _ & Es).
      - destruct Hl as [-> | ->]; cbn; lia.
      - change (pow 10) with 1024. destruct Hl as [-> | ->]; repeat constructor; try assumption; lra.
      - split; [exact Fs|]. assert (Lv : lval l = 1000) by (destruct Hl as [-> | ->]; unfold lval, lsum; cbn [map fold_right]; lra).
        assert (Ll : INR (length l) = 2) by (destruct Hl as [-> | ->]; cbn; lra). rewrite Lv, Ll, E52 in Es. apply Rabs_le_inv in Es. lra. }
    destruct c as [|[|c]]; [| |lia].
    - apply (S [a; b]). now left.
    - apply (S [b; a]). now right.
  Qed.
  Lemma fast_exp_inf (x : double) : is_finite x = true -> 900 <= B2R x -> fast_exp x = Ok inf.
  Proof.
    intros F B. destruct (int_d lg ex lga sum 100 ltac:(lia)) as [F1 V1]. unfold fast_exp, fast_exp_pos. destruct (ltb x zero) eqn:L.
    - apply (ltb_d lg ex lga sum) in L; [|exact F|reflexivity]. change (B2R (zero : double)) with 0 in L. lra.
    - replace (ltb (ofZ 100) x) with true by (symmetry; apply (ltb_d lg ex lga sum); [assumption..|rewrite V1; lra]). change (sexp x) with (ex x). now rewrite Hex.
  Qed.

  Lemma scores_overflow : vmapM fast_exp (matT_vec (p_eta steep) [z0; z0]) = Ok [inf; inf].
  Proof.
    destruct (score_d 0 ltac:(lia)) as [F0 B0]. destruct (score_d 1 ltac:(lia)) as [F1 B1].
    assert (E : matT_vec (p_eta steep) [z0; z0] = [vget (matT_vec (p_eta steep) [z0; z0]) 0; vget (matT_vec (p_eta steep) [z0; z0]) 1]) by reflexivity.
    rewrite E. set (a := vget _ 0) in *. set (b := vget _ 1) in *. clearbody a b. unfold vmapM. cbn [map]. rewrite !fast_exp_inf by assumption. reflexivity.
  Qed.

  Lemma steep_phi (C : double) (y : nat) (g : list double) psi : psi_of 7 g = Ok psi ->
    compute_supervised_approximate_phi 7 (ratio [1; 0]%Z 1) 1 y (p_beta steep) (p_eta steep) g C (init_phi 2 2) = UB.
  Proof.
    intros Ep. unfold compute_supervised_approximate_phi. cbn [Z.eqb]. rewrite Ep. cbn [bind]. change (mrows (init_phi 2 2)) with 2%nat. cbv zeta. rewrite first_z, scores_overflow. cbn [bind].
    set (q := map _ [inf; inf]). assert (Q : q = [nan; nan]).
    { unfold q. cbn [map]. assert (S : redux [inf; inf] = inf).
      { destruct (summed_inf [inf; inf] (sum [inf; inf]) (Hsum _)) as [E|[E _]]; [intros x [<-|[<-|[]]]; reflexivity|exact E|discriminate E]. }
      rewrite S. reflexivity. }
    rewrite Q. destruct (max_coeff (mall (p_eta steep))) as [[mx k]|] eqn:M; [|reflexivity].
    set (es := if ltb zero mx then _ else _). assert (Re : mrows es = 2%nat) by (unfold es; destruct (ltb zero mx); reflexivity). assert (Ce : ncols es = 2%nat) by (unfold es; destruct (ltb zero mx); reflexivity). clearbody es. clear q Q.
    assert (Me : vget (mat_vec es [nan; nan]) 0 = nan).
    { unfold mat_vec. rewrite Re, vget_tab by lia. unfold dot. eapply summed_nan; [apply Hsum|]. assert (L : length (mrow es 0) = 2%nat) by (unfold mrow; rewrite vtab_length; exact Ce). rewrite L.
      left. apply mul_nan_r. }
    change (mrows (p_beta steep)) with 2%nat. unfold vmapM, vtab. cbn [seq map]. rewrite Me.
    change (vget psi 0 + C * (mget es 0 y - nan))%S with (dadd (vget psi 0) (dmul C (dsub (mget es 0 y) nan))). rewrite sub_nan_r, mul_nan_r, add_nan_r.
    cbn [seqM]. rewrite (fast_exp_nan lg ex lga sum). reflexivity.
  Qed.

  Theorem steep_undefined (iterations : nat) (tol weight C : double) (emit : bool) (y : Z) : (1 <= iterations)%nat -> is_finite tol = true -> B2R tol <= / 2 -> (0 <= y < 2)%Z ->
    fast_supervised_doc_e_step 7 (mk_econf iterations tol weight) C emit (labelled_word y) steep = UB.
  Proof.
    intros Hi Ft Bt Hy. unfold fast_supervised_doc_e_step. cbn [d_words d_class labelled_word]. change (int_sum [1; 0]%Z) with (Ok (A := Z) 1%Z). cbn [bind].
    change (sizes_ok (labelled_word y) steep) with true. replace (class_ok y steep) with true.
    2:{ symmetry. unfold class_ok. cbn. apply andb_true_iff. split; [apply Z.leb_le|apply Z.ltb_lt]; lia. }
    cbn [negb andb]. cbv zeta. cbn [e_iterations e_tolerance].
    destruct iterations as [|it]; [lia|]. cbn [em_loop fst snd].
    change (init_gamma (p_alpha steep) 1 (mrows (p_beta steep))) with (g0 lg ex lga sum). change (mrows (p_beta steep)) with 2%nat. rewrite (first_test lg ex lga sum Hsum) by assumption.
    destruct (psi_d lg ex lga sum Hlg [1; 0]%Z steep 300 (init_gamma (p_alpha steep) (Zsum [1; 0]%Z) (mrows (p_beta steep)), init_phi (mrows (p_beta steep)) (length [1; 0]%Z))) as (psi & Ep & _).
    - lia.
    - replace (INR 300) with 300 by (rewrite INR_IZR_INZ; reflexivity). intros i Hi'. apply (di_alpha _ _ _ steep_input i Hi').
    - apply init_sound. exact steep_input.
    - change (length [1%Z; 0%Z]) with 2%nat. rewrite (steep_phi C (Z.to_nat y) (g0 lg ex lga sum) psi Ep). reflexivity.
  Qed.
End Refute.
