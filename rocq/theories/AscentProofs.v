(** The E steps climb their bounds. *)
Require Import Reals ZArith List Arith Bool Lia Lra.
Require Import Verif.Base Verif.Scalar Verif.Mat Verif.RealLemmas Verif.UtilsModel Verif.UtilsSpec Verif.UtilsProofs Verif.DigammaProofs.
Require Import Verif.BuilderModel Verif.EStepModel Verif.EStepSpec Verif.EStepReal Verif.EStepOpt Verif.EStepElbo Verif.EStepZero Verif.LgammaSpec Verif.LgammaProofs.
Require Import Verif.UpdateSpec Verif.UpdateProofs.
Import ListNotations.
Open Scope R_scope.

Section Ascent.
  Variable lg : R -> R.
  Local Hint Extern 0 (ops _) => exact (Rops lg) : typeclass_instances.
  Variable dfuel : nat.
  Hypothesis Hfuel : (7 <= dfuel)%nat.
  Notation fexp := (fexp lg).
  Notation dig := (dig lg).
  Variables (psi : R -> R) (X : list Z) (m : params R).
  Hypothesis HL : is_lgamma lg.
  Hypothesis Hpsi : is_digamma psi.
  Hypothesis PI : proper_input X m.
  Notation K := (mrows (p_beta m)).
  Notation V := (ncols (p_beta m)).
  Notation x n := (IZR (nth n X 0%Z)).

  (** ** Gamma *)
  Lemma elbo_gamma gamma phi : elbo lg psi X m gamma phi =
    lg (rsum K (vget (p_alpha m))) - rsum K (fun i => lg (vget (p_alpha m) i)) +
    rsum V (fun n => x n * rsum K (fun i => mget phi i n * (ln (mget (p_beta m) i n) - ln (mget phi i n)))) +
    log_beta lg K (vget gamma) +
    rsum K (fun i => (vget (p_alpha m) i + rsum V (fun n => x n * mget phi i n) - vget gamma i) * slope psi K (vget gamma) i).
  Proof.
    unfold elbo, e_ln_dirichlet, phi_part, log_beta.
    rewrite (rsum_ext V (fun n => x n * rsum K (fun i => mget phi i n * (e_ln_theta psi m gamma i + ln (mget (p_beta m) i n) - ln (mget phi i n))))
      (fun n => x n * rsum K (fun i => mget phi i n * (ln (mget (p_beta m) i n) - ln (mget phi i n))) + rsum K (fun i => x n * mget phi i n * e_ln_theta psi m gamma i))).
    2: { intros n _. rewrite <- !rsum_mult_l, <- rsum_plus. apply rsum_ext. intros i _. ring. }
    rewrite rsum_plus, (rsum_swap V K).
    rewrite (rsum_ext K (fun i => (vget (p_alpha m) i + _ - _) * _) (fun i => (vget (p_alpha m) i - 1) * e_ln_theta psi m gamma i +
      rsum V (fun n => x n * mget phi i n * e_ln_theta psi m gamma i) - (vget gamma i - 1) * e_ln_theta psi m gamma i)).
    - rewrite rsum_minus, rsum_plus. ring.
    - intros i _. rewrite rsum_mult_r. unfold slope, e_ln_theta. ring.
  Qed.
  (** The gamma update maximises the bound, exactly. *)
  Lemma gamma_optimal gamma phi : length gamma = K -> (forall i, (i < K)%nat -> 0 < vget gamma i) ->
    ncols phi = V -> (forall i n, (i < K)%nat -> (n < V)%nat -> nth n X 0%Z <> 0%Z -> 0 <= mget phi i n) ->
    elbo lg psi X m gamma phi <= elbo lg psi X m (compute_gamma X (p_alpha m) phi) phi.
  Proof.
    intros Hl Hg Hc Hp. rewrite !elbo_gamma. set (g := compute_gamma X (p_alpha m) phi).
    assert (G : forall i, (i < K)%nat -> vget g i = vget (p_alpha m) i + rsum V (fun n => x n * mget phi i n)).
    { intros i Hi. unfold g. rewrite (compute_gamma_R lg), Hc, vget_tab by (now rewrite (pi_alpha _ _ PI)). reflexivity. }
    rewrite (rsum_zero K (fun i => (_ - vget g i) * _)) by (intros i Hi; rewrite G by exact Hi; ring).
    assert (P : 0 <= gap lg psi K (vget gamma) (vget g)).
    { apply gap_nonneg; [exact HL|exact Hpsi|apply (pi_topics _ _ PI)|exact Hg|]. intros i Hi. rewrite G by exact Hi. pose proof (pi_alpha_pos _ _ PI i Hi).
      assert (0 <= rsum V (fun n => x n * mget phi i n)); [|lra]. apply rsum_nonneg. intros n Hn. destruct (Z.eq_dec (nth n X 0%Z) 0) as [->|N]; [lra|].
      apply Rmult_le_pos; [apply IZR_le; apply counts_nth; apply (pi_counts _ _ PI)|now apply Hp]. }
    unfold gap in P. rewrite (rsum_ext K (fun i => (vget g i - vget gamma i) * slope psi K (vget gamma) i)
      (fun i => (vget (p_alpha m) i + rsum V (fun n => x n * mget phi i n) - vget gamma i) * slope psi K (vget gamma) i)) in P by (intros i Hi; now rewrite G by exact Hi).
    lra.
  Qed.

  (** ** Bounds with a class term [c] per topic *)
  Variable c : nat -> R.
  Hypothesis HS : forall n, (n < V)%nat -> nth n X 0%Z <> 0%Z -> supported (p_beta m) n.
  Notation N := (fold_right Z.add 0%Z X).
  Definition bound (gamma : list R) (phi : mat R) : R := elbo lg psi X m gamma phi + rsum V (fun n => x n * rsum K (fun i => mget phi i n * c i)).
  Lemma bound_words gamma phi : bound gamma phi =
    e_ln_dirichlet lg psi m gamma (p_alpha m) - e_ln_dirichlet lg psi m gamma gamma + word_part X (p_beta m) (fun i _ => e_ln_theta psi m gamma i + c i) phi.
  Proof.
    unfold bound, elbo, phi_part, word_part.
    rewrite (rsum_ext V (fun n => x n * rsum K (fun i => mget phi i n * (e_ln_theta psi m gamma i + c i + _ - _)))
      (fun n => x n * rsum K (fun i => mget phi i n * (e_ln_theta psi m gamma i + ln (mget (p_beta m) i n) - ln (mget phi i n))) + x n * rsum K (fun i => mget phi i n * c i))).
    - rewrite rsum_plus. ring.
    - intros n _. rewrite <- Rmult_plus_distr_l, <- rsum_plus. f_equal. apply rsum_ext. intros i _. ring.
  Qed.
  Notation good := (good lg X m).
  Lemma good_range s i : good s -> (i < K)%nat -> vget (p_alpha m) i <= vget (fst s) i <= vget (p_alpha m) i + IZR N.
  Proof.
    intros ((_ & _ & P & C) & _ & G) Hi. rewrite G by exact Hi. change N with (Zsum X). rewrite Zsum_rsum, (pi_words _ _ PI).
    assert (B : forall n, (n < V)%nat -> 0 <= x n * mget (snd s) i n <= x n).
    { intros n Hn. pose proof (IZR_le _ _ (counts_nth X n (pi_counts _ _ PI))). pose proof (P i n Hi Hn).
      pose proof (rsum_le_term K (fun i => mget (snd s) i n) i (fun j Hj => P j n Hj Hn) Hi) as T. cbv beta in T.
      assert (mget (snd s) i n <= 1) by (destruct (C n Hn) as [E|[E _]]; lra). nra. }
    split.
    - assert (0 <= rsum V (fun n => x n * mget (snd s) i n)) by (apply rsum_nonneg; intros n Hn; apply B; exact Hn). lra.
    - apply Rplus_le_compat_l. apply rsum_le. intros n Hn. apply B. exact Hn.
  Qed.
  Lemma good_total s : good s -> rsum K (vget (fst s)) = rsum K (vget (p_alpha m)) + IZR N.
  Proof.
    intros ((_ & _ & P & C) & _ & G). rewrite (rsum_ext K _ _ G). rewrite rsum_plus. f_equal. rewrite (rsum_swap K V).
    change N with (Zsum X). rewrite Zsum_rsum, (pi_words _ _ PI). apply rsum_ext. intros n Hn. rewrite rsum_mult_l.
    destruct (Z.eq_dec (nth n X 0%Z) 0) as [->|NX]; [lra|]. destruct (C n Hn) as [->|[_ S]]; [ring|]. elim S. now apply HS.
  Qed.

  Variable up : list R -> outcome (mat R).
  Variable eps : R.
  Hypothesis Heps : 0 <= eps.
  Hypothesis UP : forall s, good s -> exists phi, up (fst s) = Ok phi /\ good_phi lg (p_beta m) phi /\ competitor X (p_beta m) phi /\
    forall q, competitor X (p_beta m) q -> word_part X (p_beta m) (fun i _ => e_ln_theta psi m (fst s) i + c i) q <=
      word_part X (p_beta m) (fun i _ => e_ln_theta psi m (fst s) i + c i) phi + 2 * eps * IZR N.

  Notation step := (fun s : list R * mat R => let* phi := up (fst s) in Ok (compute_gamma X (p_alpha m) phi, phi)).
  Lemma one_step s : good s -> exists s', step s = Ok s' /\ good s' /\ competitor X (p_beta m) (snd s') /\
    forall q, competitor X (p_beta m) q -> bound (fst s) q <= bound (fst s') (snd s') + 2 * eps * IZR N.
  Proof.
    intros G. destruct (UP s G) as (phi & E & GP & CP & O). exists (compute_gamma X (p_alpha m) phi, phi). rewrite E. cbn [bind fst snd].
    split; [reflexivity|]. split; [now apply (good_next lg X m PI)|]. split; [exact CP|]. intros q Hq. specialize (O q Hq).
    apply Rle_trans with (bound (fst s) phi + 2 * eps * IZR N); [rewrite !bound_words; lra|]. apply Rplus_le_compat_r. apply Rplus_le_compat_r.
    apply gamma_optimal; [apply G|apply (good_pos lg X m PI); exact G|apply GP|]. intros i n Hi Hn _. now apply (proj1 (proj2 (proj2 GP))).
  Qed.
  Lemma steps tol limit : forall old s t, good s -> competitor X (p_beta m) (snd s) ->
    em_loop limit tol fst step old s = Ok t -> bound (fst s) (snd s) <= bound (fst t) (snd t) + 2 * eps * IZR N * INR limit.
  Proof.
    assert (HN : 0 <= IZR N) by (change N with (Zsum X); rewrite Zsum_rsum; apply rsum_nonneg; intros n _; apply IZR_le; apply counts_nth; apply (pi_counts _ _ PI)).
    assert (0 <= 2 * eps * IZR N) by (apply Rmult_le_pos; lra).
    induction limit as [|l IH]; intros old s t G CP E.
    - injection E as <-. change (INR 0) with 0. lra.
    - cbn [em_loop] in E. pose proof (pos_INR l). destruct (converged old (fst s) tol).
      + injection E as <-. rewrite S_INR. nra.
      + destruct (one_step s G) as (s' & Es & G' & C' & O). rewrite Es in E. cbn [bind] in E. specialize (IH _ _ _ G' C' E). specialize (O _ CP). rewrite S_INR. lra.
  Qed.
  (** The whole loop: nothing happened, or the result is no worse than any assignment with the first gamma. *)
  Lemma climbs tol limit old s : good s -> exists t, em_loop limit tol fst step old s = Ok t /\ good t /\
    (t = s /\ (limit = 0%nat \/ mean_change old (fst s) < tol) \/ competitor X (p_beta m) (snd t) /\
     forall q, competitor X (p_beta m) q -> bound (fst s) q <= bound (fst t) (snd t) + 2 * eps * IZR N * INR limit).
  Proof.
    intros G. destruct limit as [|l]; [exists s; cbn; auto 6|]. cbn [em_loop]. destruct (converged old (fst s) tol) eqn:CV.
    { exists s. split; [reflexivity|]. split; [exact G|]. left. split; [reflexivity|]. right. unfold converged in CV. cbn [ltb Rops] in CV. unfold mean_change. destruct (Rlt_dec _ _) as [H|H] in CV; [exact H|discriminate CV]. }
    destruct (one_step s G) as (s' & Es & G' & C' & O). rewrite Es. cbn [bind].
    destruct (em_loop_inv lg (fun s => good s /\ competitor X (p_beta m) (snd s)) fst step tol) with (limit := l) (old := fst s) (s := s') as (t & Et & Gt & Ct).
    - intros r [Gr Cr]. destruct (one_step r Gr) as (r' & Er & Gr' & Cr' & _). eauto.
    - auto.
    - exists t. split; [exact Et|]. split; [exact Gt|]. right. split; [exact Ct|]. intros q Hq. pose proof (steps tol l _ _ _ G' C' Et). specialize (O q Hq). rewrite S_INR. lra.
  Qed.
  (** More iterations do not lose more than the error per extra iteration. *)
  Lemma more' tol n : forall k old s t u, good s -> competitor X (p_beta m) (snd s) ->
    em_loop n tol fst step old s = Ok t -> em_loop (n + k) tol fst step old s = Ok u ->
    bound (fst t) (snd t) <= bound (fst u) (snd u) + 2 * eps * IZR N * INR k.
  Proof.
    assert (HN : 0 <= IZR N) by (change N with (Zsum X); rewrite Zsum_rsum; apply rsum_nonneg; intros n' _; apply IZR_le; apply counts_nth; apply (pi_counts _ _ PI)).
    assert (0 <= 2 * eps * IZR N) by (apply Rmult_le_pos; lra).
    induction n as [|n IH]; intros k old s t u G CP Et Eu; pose proof (pos_INR k).
    - injection Et as <-. now apply (steps tol k old).
    - cbn [em_loop Nat.add] in Et, Eu. destruct (converged old (fst s) tol).
      + injection Et as <-. injection Eu as <-. nra.
      + destruct (one_step s G) as (s' & Es & G' & C' & _). rewrite Es in Et, Eu. cbn [bind] in Et, Eu. eapply IH; eassumption.
  Qed.
  Lemma more tol n k old s t u : good s -> (1 <= n)%nat ->
    em_loop n tol fst step old s = Ok t -> em_loop (n + k) tol fst step old s = Ok u ->
    bound (fst t) (snd t) <= bound (fst u) (snd u) + 2 * eps * IZR N * INR k.
  Proof.
    assert (HN : 0 <= IZR N) by (change N with (Zsum X); rewrite Zsum_rsum; apply rsum_nonneg; intros n' _; apply IZR_le; apply counts_nth; apply (pi_counts _ _ PI)).
    assert (0 <= 2 * eps * IZR N) by (apply Rmult_le_pos; lra).
    destruct n as [|n]; [lia|]. intros G _ Et Eu. pose proof (pos_INR k). cbn [em_loop Nat.add] in Et, Eu. destruct (converged old (fst s) tol).
    - injection Et as <-. injection Eu as <-. nra.
    - destruct (one_step s G) as (s' & Es & G' & C' & _). rewrite Es in Et, Eu. cbn [bind] in Et, Eu. eapply (more' tol n k); eassumption.
  Qed.
End Ascent.

(** ** The updates of the E steps *)
Section Steps.
  Variable lg : R -> R.
  Local Hint Extern 0 (ops _) => exact (Rops lg) : typeclass_instances.
  Variable dfuel : nat.
  Hypothesis Hfuel : (7 <= dfuel)%nat.
  Notation fexp := (fexp lg).
  Notation dig := (dig lg).
  Variables (psi : R -> R) (X : list Z) (m : params R).
  Hypothesis HL : is_lgamma lg.
  Hypothesis Hpsi : is_digamma psi.
  Hypothesis PI : proper_input X m.
  Notation K := (mrows (p_beta m)).
  Notation V := (ncols (p_beta m)).
  Notation N := (fold_right Z.add 0%Z X).
  Hypothesis HS : forall n, (n < V)%nat -> nth n X 0%Z <> 0%Z -> supported (p_beta m) n.
  Notation good := (good lg X m).

  Lemma scale_normalize_competitor (e : list R) : (forall i, (i < K)%nat -> 0 < vget e i) -> competitor X (p_beta m) (scale_normalize (p_beta m) e).
  Proof.
    intros He n Hn Hx. destruct (scale_normalize_good lg (p_beta m) e (pi_beta_nonneg _ _ PI) He) as (_ & _ & P & C).
    split; [destruct (C n Hn) as [E|[_ E]]; [exact E|elim E; now apply HS]|]. intros i Hi. split; [now apply P|]. intros Z.
    unfold scale_normalize. rewrite (normalize_cols_R lg) by (try exact Hi; now rewrite ncols_tab). rewrite mget_tab by assumption. rewrite Z.
    cbn [mul Rops]. destruct (Req_EM_T _ 0); [ring|]. unfold Rdiv. ring.
  Qed.

  Lemma init_gamma_start : init_gamma (p_alpha m) N K = start_gamma X m.
  Proof.
    unfold init_gamma, start_gamma. rewrite <- (vtab_eta (p_alpha m) 0) at 1. rewrite vtab_map, (pi_alpha _ _ PI). apply vtab_ext. intros i _.
    cbn [add div ofZ Rops]. now rewrite INR_IZR_INZ.
  Qed.
  Lemma init_phi_start : init_phi K (length X) = start_phi m.
  Proof. unfold init_phi, start_phi. rewrite (pi_words _ _ PI). cbn [div one ofZ Rops]. now rewrite INR_IZR_INZ. Qed.

  Section Unsupervised.
    Variable eps : R.
    Hypothesis He : forall i x, (i < K)%nat -> vget (p_alpha m) i <= x <= vget (p_alpha m) i + IZR N -> Rmax 1 (Rabs (psi x)) / 1023 + 3 / 10 ^ 9 <= eps.
    Lemma unsupervised_up s : good s -> exists phi, compute_unsupervised_phi dfuel (p_beta m) (fst s) = Ok phi /\ good_phi lg (p_beta m) phi /\ competitor X (p_beta m) phi /\
      forall q, competitor X (p_beta m) q -> word_part X (p_beta m) (fun i _ => e_ln_theta psi m (fst s) i + 0) q <=
        word_part X (p_beta m) (fun i _ => e_ln_theta psi m (fst s) i + 0) phi + 2 * eps * IZR N.
    Proof.
      intros G. destruct (phi_optimal lg dfuel Hfuel psi X m (fst s) eps Hpsi (proj1 (proj2 G)) (good_pos lg X m PI s G)
        (pi_beta_nonneg _ _ PI) (pi_counts _ _ PI) (pi_words _ _ PI)) as (phi & E & O).
      { intros i Hi. apply (He i); [exact Hi|]. apply (good_range lg X m PI s i G Hi). }
      exists phi. split; [exact E|]. rewrite (unsupervised_phi_R lg X m PI dfuel Hfuel s G) in E.
      assert (E' : phi = scale_normalize (p_beta m) (map fexp (map dig (fst s)))) by congruence.
      split; [rewrite E'; now apply (unsupervised_phi_good lg X m PI)|]. split.
      { rewrite E'. apply scale_normalize_competitor. intros i Hi. apply map_fexp_pos. rewrite map_length, (proj1 (proj2 G)). exact Hi. }
      intros q Hq. specialize (O q Hq).
      assert (W : forall r, word_part X (p_beta m) (fun i _ => e_ln_theta psi m (fst s) i + 0) r = phi_part psi X m (fst s) r).
      { intros r. unfold word_part, phi_part. apply rsum_ext. intros n _. f_equal. apply rsum_ext. intros i _. now rewrite Rplus_0_r. }
      rewrite !W. exact O.
    Qed.
    Lemma eps_nonneg : 0 <= eps.
    Proof.
      pose proof (He 0 (vget (p_alpha m) 0) (pi_topics _ _ PI)) as H. pose proof (Rmax_l 1 (Rabs (psi (vget (p_alpha m) 0)))).
      assert (0 <= IZR N) by (change N with (Zsum X); rewrite Zsum_rsum; apply rsum_nonneg; intros n _; apply IZR_le; apply counts_nth; apply (pi_counts _ _ PI)).
      assert (0 < 3 / 10 ^ 9) by lra. lra.
    Qed.
    Lemma bound_zero gamma phi : bound lg psi X m (fun _ => 0) gamma phi = elbo lg psi X m gamma phi.
    Proof. unfold bound. rewrite (rsum_zero V (fun n => _ * rsum K _)); [ring|]. intros n _. rewrite (rsum_zero K (fun i => _ * 0)); [ring|]. intros; ring. Qed.

    Lemma unsupervised_climbs cf emit d : d_words d = X ->
      exists gamma phi ev, unsupervised_doc_e_step dfuel cf emit d m = Ok (mk_vparams gamma phi [], ev) /\
        let g0 := start_gamma X m in
        (gamma = g0 /\ phi = start_phi m /\ (e_iterations cf = 0%nat \/ mean_change (zeros (O:=Rops lg) K) g0 < e_tolerance cf) \/
         competitor X (p_beta m) phi /\
         forall q, competitor X (p_beta m) q -> elbo lg psi X m g0 q <= elbo lg psi X m gamma phi + 2 * eps * IZR N * INR (e_iterations cf)).
    Proof.
      intros E. unfold unsupervised_doc_e_step. rewrite E, (int_sum_ok lg X m PI). cbn [bind]. rewrite (sizes_ok_true lg X m PI d E). cbn [negb].
      destruct (climbs lg psi X m HL Hpsi PI (fun _ => 0) (compute_unsupervised_phi dfuel (p_beta m)) eps eps_nonneg unsupervised_up (e_tolerance cf) (e_iterations cf)
        (zeros (O:=Rops lg) K) (init_gamma (p_alpha m) (Zsum X) K, init_phi K (length X)) (good_init lg X m PI)) as ([gamma phi] & -> & G & R).
      cbn [bind]. destruct (unsupervised_likelihood_ok lg X m PI dfuel Hfuel _ G) as (l & El). cbn [fst snd] in El.
      destruct (report_ok emit _ (ex_intro _ l El)) as (ev & -> & Hev). cbn [bind].
      exists gamma, phi, ev. split; [reflexivity|]. cbv zeta. change (Zsum X) with N in R. rewrite init_gamma_start, init_phi_start in R. destruct R as [[R RC]|[R1 R2]]; [left; split; [exact (f_equal fst R)|split; [exact (f_equal snd R)|exact RC]]|right].
      split; [exact R1|]. intros q Hq. specialize (R2 q Hq). rewrite !bound_zero in R2. exact R2.
    Qed.
    Lemma unsupervised_more cf cf' emit emit' d gamma phi ev gamma' phi' ev' : d_words d = X -> e_tolerance cf' = e_tolerance cf ->
      (1 <= e_iterations cf <= e_iterations cf')%nat ->
      unsupervised_doc_e_step dfuel cf emit d m = Ok (mk_vparams gamma phi [], ev) ->
      unsupervised_doc_e_step dfuel cf' emit' d m = Ok (mk_vparams gamma' phi' [], ev') ->
      elbo lg psi X m gamma phi <= elbo lg psi X m gamma' phi' + 2 * eps * IZR N * INR (e_iterations cf' - e_iterations cf).
    Proof.
      intros E Et [Hi Hk]. unfold unsupervised_doc_e_step. rewrite E, (int_sum_ok lg X m PI). cbn [bind]. rewrite (sizes_ok_true lg X m PI d E). cbn [negb]. rewrite Et.
      replace (e_iterations cf') with (e_iterations cf + (e_iterations cf' - e_iterations cf))%nat at 1 by lia.
      match goal with |- bind ?A _ = _ -> bind ?B _ = _ -> _ => destruct A as [t| |] eqn:At, B as [u| |] eqn:Bu; try discriminate end.
      apply (more lg dfuel Hfuel psi X m HL Hpsi PI (fun _ => 0) (compute_unsupervised_phi dfuel (p_beta m)) eps eps_nonneg unsupervised_up) with (n := e_iterations cf) (t := t) in Bu;
        [|apply (good_init lg X m PI)|exact Hi|exact At]. rewrite !bound_zero in Bu. destruct t as [g p], u as [g' p']. cbn [bind fst snd] in *.
      destruct (report emit _); try discriminate. destruct (report emit' _); try discriminate. cbn [bind]. intros Q1 Q2.
      assert (g = gamma /\ p = phi /\ g' = gamma' /\ p' = phi') as (-> & -> & -> & ->) by (repeat split; congruence). exact Bu.
    Qed.
  End Unsupervised.

  Section Multinomial.
    Variables (w eps : R) (yz : Z).
    Notation y := (Z.to_nat yz).
    Hypothesis He : forall i x, (i < K)%nat -> vget (p_alpha m) i <= x <= vget (p_alpha m) i + IZR N ->
      Rmax 1 (Rabs (psi x - psi (rsum K (vget (p_alpha m)) + IZR N) + w * ln (mget (p_eta m) i y) - 1)) / 1023 + 5 / 10 ^ 9 <= eps.
    Notation c := (fun i => w * ln (mget (p_eta m) i y)).
    Lemma multinomial_up s : good s -> exists phi, compute_supervised_multinomial_phi dfuel y (p_beta m) (p_eta m) (fst s) w = Ok phi /\ good_phi lg (p_beta m) phi /\ competitor X (p_beta m) phi /\
      forall q, competitor X (p_beta m) q -> word_part X (p_beta m) (fun i _ => e_ln_theta psi m (fst s) i + c i) q <=
        word_part X (p_beta m) (fun i _ => e_ln_theta psi m (fst s) i + c i) phi + 2 * eps * IZR N.
    Proof.
      intros G. destruct (multinomial_optimal lg dfuel Hfuel psi X m Hpsi PI (fst s) (proj1 (proj2 G)) (good_pos lg X m PI s G) y w eps) as (phi & E & O).
      { intros i Hi. unfold multinomial_worth, e_ln_theta. rewrite (good_total lg X m PI HS s G). apply (He i); [exact Hi|]. apply (good_range lg X m PI s i G Hi). }
      exists phi. split; [exact E|]. unfold compute_supervised_multinomial_phi in E. rewrite (psi_of_R lg dfuel Hfuel) in E by now apply (good_pos_in lg X m PI). cbn [bind] in E.
      rewrite (digamma_R lg dfuel Hfuel) in E by now apply (good_sum_pos lg X m PI). cbn [bind] in E. cbv zeta in E. rewrite (vmapM_fexp lg) in E. cbn [bind] in E.
      set (e := map fexp _) in E. assert (E' : phi = scale_normalize (p_beta m) e) by congruence.
      assert (P : forall i, (i < K)%nat -> 0 < vget e i) by (intros i Hi; unfold e; apply map_fexp_pos; now rewrite vtab_length).
      split; [rewrite E'; apply (scale_normalize_good lg); [apply (pi_beta_nonneg _ _ PI)|exact P]|]. split; [rewrite E'; now apply scale_normalize_competitor|exact O].
    Qed.
    Lemma eps_nonneg' : 0 <= eps.
    Proof.
      pose proof (He 0 (vget (p_alpha m) 0) (pi_topics _ _ PI)) as H. 
      match type of H with _ -> Rmax 1 ?r / _ + _ <= _ => pose proof (Rmax_l 1 r) end.
      assert (0 <= IZR N) by (change N with (Zsum X); rewrite Zsum_rsum; apply rsum_nonneg; intros n _; apply IZR_le; apply counts_nth; apply (pi_counts _ _ PI)).
      assert (0 < 5 / 10 ^ 9) by lra. lra.
    Qed.
    Lemma bound_multinomial gamma phi : bound lg psi X m c gamma phi = multinomial_bound lg psi X m w y gamma phi.
    Proof.
      unfold bound, multinomial_bound. f_equal. rewrite <- rsum_mult_l. apply rsum_ext. intros n _.
      rewrite <- !rsum_mult_l. apply rsum_ext. intros i _. ring.
    Qed.
    Lemma multinomial_climbs cf mu emit d : d_words d = X -> d_class d = Some yz -> class_in_range yz m -> (yz < Z.of_nat (length (d_priors d)))%Z ->
      exists gamma phi ev, multinomial_doc_e_step dfuel cf mu w emit d m = Ok (mk_vparams gamma phi [], ev) /\
        let g0 := start_gamma X m in
        (gamma = g0 /\ phi = start_phi m /\ (e_iterations cf = 0%nat \/ mean_change (zeros (O:=Rops lg) K) g0 < e_compute_likelihood cf) \/
         competitor X (p_beta m) phi /\
         forall q, competitor X (p_beta m) q ->
           multinomial_bound lg psi X m w y g0 q <= multinomial_bound lg psi X m w y gamma phi + 2 * eps * IZR N * INR (e_iterations cf)).
    Proof.
      intros E Ey Hy Hp. unfold multinomial_doc_e_step. rewrite E, (int_sum_ok lg X m PI). cbn [bind]. rewrite Ey.
      rewrite (sizes_ok_true lg X m PI d E), (class_ok_true m yz Hy), (proj2 (Z.ltb_lt _ _) Hp). cbn [negb andb].
      destruct (climbs lg psi X m HL Hpsi PI c (fun g => compute_supervised_multinomial_phi dfuel y (p_beta m) (p_eta m) g w) eps eps_nonneg' multinomial_up (e_compute_likelihood cf) (e_iterations cf)
        (zeros (O:=Rops lg) K) (init_gamma (p_alpha m) (Zsum X) K, init_phi K (length X)) (good_init lg X m PI)) as ([gamma phi] & -> & G & R).
      cbn [bind]. assert (L : exists l, compute_supervised_multinomial_likelihood dfuel X y (p_alpha m) (p_beta m)
            (p_eta m) phi gamma (vget (d_priors d) y) mu (div one (ofZ (d_corpus_size d))) = Ok l).
      { unfold compute_supervised_multinomial_likelihood. destruct (unsupervised_likelihood_ok lg X m PI dfuel Hfuel _ G) as (l & El).
        cbn [fst snd] in El. rewrite El. cbn [bind]. rewrite (int_sum_ok lg X m PI). cbn [bind]. eauto. }
      destruct (report_ok emit _ L) as (ev & -> & Hev). cbn [bind].
      exists gamma, phi, ev. split; [reflexivity|]. cbv zeta. change (Zsum X) with N in R. rewrite init_gamma_start, init_phi_start in R. destruct R as [[R RC]|[R1 R2]]; [left; split; [exact (f_equal fst R)|split; [exact (f_equal snd R)|exact RC]]|right].
      split; [exact R1|]. intros q Hq. specialize (R2 q Hq). rewrite !bound_multinomial in R2. exact R2.
    Qed.
    Lemma multinomial_more cf cf' mu mu' emit emit' d gamma phi ev gamma' phi' ev' : d_words d = X -> d_class d = Some yz -> class_in_range yz m ->
      (yz < Z.of_nat (length (d_priors d)))%Z -> e_compute_likelihood cf' = e_compute_likelihood cf ->
      (1 <= e_iterations cf <= e_iterations cf')%nat ->
      multinomial_doc_e_step dfuel cf mu w emit d m = Ok (mk_vparams gamma phi [], ev) ->
      multinomial_doc_e_step dfuel cf' mu' w emit' d m = Ok (mk_vparams gamma' phi' [], ev') ->
      multinomial_bound lg psi X m w y gamma phi <= multinomial_bound lg psi X m w y gamma' phi' + 2 * eps * IZR N * INR (e_iterations cf' - e_iterations cf).
    Proof.
      intros E Ey Hy Hp Et [Hi Hk]. unfold multinomial_doc_e_step. rewrite E, (int_sum_ok lg X m PI). cbn [bind]. rewrite Ey.
      rewrite (sizes_ok_true lg X m PI d E), (class_ok_true m yz Hy), (proj2 (Z.ltb_lt _ _) Hp). cbn [negb andb]. rewrite Et.
      replace (e_iterations cf') with (e_iterations cf + (e_iterations cf' - e_iterations cf))%nat at 1 by lia. cbv zeta.
      match goal with |- bind ?A _ = _ -> bind ?B _ = _ -> _ => destruct A as [t| |] eqn:At, B as [u| |] eqn:Bu; try discriminate end.
      apply (more lg dfuel Hfuel psi X m HL Hpsi PI c (fun g => compute_supervised_multinomial_phi dfuel y (p_beta m) (p_eta m) g w) eps eps_nonneg' multinomial_up) with (n := e_iterations cf) (t := t) in Bu;
        [|apply (good_init lg X m PI)|exact Hi|exact At]. rewrite !bound_multinomial in Bu. destruct t as [g p], u as [g' p']. cbn [bind fst snd] in *.
      destruct (report emit _); try discriminate. destruct (report emit' _); try discriminate. cbn [bind]. intros Q1 Q2.
      assert (g = gamma /\ p = phi /\ g' = gamma' /\ p' = phi') as (-> & -> & -> & ->) by (repeat split; congruence). exact Bu.
    Qed.
  End Multinomial.
End Steps.
