(** The sLDA E step climbs its bound for documents whose words occur once. *)
Require Import Reals ZArith List Arith Bool Lia Lra.
Require Import Verif.Base Verif.Scalar Verif.Mat Verif.RealLemmas Verif.UtilsModel Verif.UtilsSpec Verif.UtilsProofs Verif.DigammaProofs.
Require Import Verif.BuilderModel Verif.EStepModel Verif.EStepSpec Verif.EStepReal Verif.EStepOpt Verif.EStepElbo Verif.EStepZero Verif.EStepStop Verif.EStepSlda Verif.LgammaSpec Verif.LgammaProofs.
Require Import Verif.UpdateSpec Verif.UpdateProofs Verif.UpdateSlda Verif.AscentProofs.
Import ListNotations.
Open Scope R_scope.

Section Once.
  Variable lg : R -> R.
  Local Hint Extern 0 (ops _) => exact (Rops lg) : typeclass_instances.
  Notation fexp := (fexp lg).
  Variables (psi : R -> R) (X : list Z) (m : params R) (yz : Z).
  Hypothesis HL : is_lgamma lg.
  Hypothesis Hpsi : is_digamma psi.
  Hypothesis PI : proper_input X m.
  Hypothesis HC : class_in_range yz m.
  Hypothesis HS : forall n, (n < ncols (p_beta m))%nat -> nth n X 0%Z <> 0%Z -> supported (p_beta m) n.
  Hypothesis H1 : forall x, In x X -> (x <= 1)%Z.
  Notation K := (mrows (p_beta m)).
  Notation V := (ncols (p_beta m)).
  Notation C := (ncols (p_eta m)).
  Notation N := (fold_right Z.add 0%Z X).
  Notation y := (Z.to_nat yz).
  Notation x n := (IZR (nth n X 0%Z)).
  Notation total := (slda_document_bound lg psi fexp X m y).
  Variables (rho eps : R) (fpi : nat).
  Hypothesis Hrho : forall i k c, (i < K)%nat -> (k < K)%nat -> (c < C)%nat -> fexp (mget (p_eta m) i c / IZR N) <= rho * fexp (mget (p_eta m) k c / IZR N).
  Hypothesis He : forall i g r, (i < K)%nat -> vget (p_alpha m) i <= g <= vget (p_alpha m) i + IZR N -> 0 <= r <= rho ->
    Rmax 1 (Rabs (psi g + mget (p_eta m) i y / IZR N - r)) / 1023 + 3 / 10 ^ 9 <= eps.

  Lemma total_words gamma phi : total gamma phi =
    e_ln_dirichlet lg psi m gamma (p_alpha m) - e_ln_dirichlet lg psi m gamma gamma + slda_bound fexp psi X m gamma y phi.
  Proof.
    unfold slda_document_bound, slda_bound. cbv zeta.
    pose proof (bound_words lg psi X m (fun i => mget (p_eta m) i y / IZR N) gamma phi) as B. unfold bound in B. rewrite B. lra.
  Qed.
  Lemma nth_01 n : (nth n X 0 = 0 \/ nth n X 0 = 1)%Z.
  Proof.
    destruct (Nat.lt_ge_cases n (length X)) as [L|L]; [|left; now apply nth_overflow].
    pose proof (nth_In X 0%Z L) as I. pose proof (pi_counts _ _ PI _ I). pose proof (H1 _ I). lia.
  Qed.
  Lemma consistent_good s : consistent fexp X N m s -> good lg X m (s_gamma s, s_phi s).
  Proof. intros CO. apply (state_good lg X m). split; [split; [|split]; apply CO|]. split; apply CO. Qed.
  Lemma consistent_gamma s : consistent fexp X N m s -> s_gamma s = compute_gamma X (p_alpha m) (s_phi s).
  Proof.
    intros CO. rewrite (compute_gamma_R lg). apply nth_ext with (d := 0) (d' := 0).
    - rewrite vtab_length, (co_gamma_length _ _ _ _ _ CO). symmetry. apply (pi_alpha _ _ PI).
    - intros i Hi. rewrite (co_gamma_length _ _ _ _ _ CO) in Hi. change (vget (s_gamma s) i = vget (vtab (length (p_alpha m)) (fun i => vget (p_alpha m) i + rsum (ncols (s_phi s)) (fun n => x n * mget (s_phi s) i n))) i).
      rewrite vget_tab by (now rewrite (pi_alpha _ _ PI)). rewrite (co_gamma _ _ _ _ _ CO) by exact Hi. now rewrite (co_cols _ _ _ _ _ CO).
  Qed.
  (** the documented h of one word varies between topics by the factor [rho] at most *)
  Lemma h_ratio s n i q : consistent fexp X N m s -> (n < V)%nat -> nth n X 0%Z = 1%Z -> (i < K)%nat -> UpdateSpec.distribution K q ->
    let h := documented_h fexp X N (p_eta m) (s_phi s) n in 0 <= h i / rsum K (fun k => h k * vget q k) <= rho.
  Proof.
    intros CO Hn E1 Hi (_ & Q0 & Q1) h.
    assert (SP : simplex_phi lg m (s_phi s)) by (split; [|split]; apply CO).
    assert (P : forall c, 0 < rprod (ncols (s_phi s)) (fun l => if Nat.eqb l n then 1 else word_factor fexp X N (p_eta m) (s_phi s) c l)).
    { intros c. apply rprod_pos. intros l Hl. destruct (Nat.eqb l n); [lra|]. apply (factor_pos lg X m (s_phi s) c l SP). now rewrite <- (co_cols _ _ _ _ _ CO). }
    assert (Ph : forall k, 0 < h k).
    { intros k. unfold h, documented_h. apply rsum_pos_all; [destruct HC; lia|]. intros c Hc. apply Rmult_lt_0_compat; [apply P|apply fexp_pos]. }
    assert (R : forall k, (k < K)%nat -> h i <= rho * h k).
    { intros k Hk. unfold h, documented_h. rewrite <- rsum_mult_l. apply rsum_le. intros c Hc.
      pose proof (Hrho i k c Hi Hk Hc) as Q. rewrite E1. replace (mget (p_eta m) i c * (1 / IZR N)) with (mget (p_eta m) i c / IZR N) by (unfold Rdiv; ring).
      replace (mget (p_eta m) k c * (1 / IZR N)) with (mget (p_eta m) k c / IZR N) by (unfold Rdiv; ring).
      apply Rle_trans with (rprod (ncols (s_phi s)) (fun l => if Nat.eqb l n then 1 else word_factor fexp X N (p_eta m) (s_phi s) c l) * (rho * fexp (mget (p_eta m) k c / IZR N))); [|right; ring].
      apply Rmult_le_compat_l; [left; apply P|exact Q]. }
    set (D := rsum K (fun k => h k * vget q k)).
    assert (B : h i <= rho * D).
    { unfold D. rewrite <- rsum_mult_l. rewrite <- (Rmult_1_r (h i)), <- Q1, <- rsum_mult_l. apply rsum_le. intros k Hk. rewrite <- Rmult_assoc.
      apply Rmult_le_compat_r; [now apply Q0|now apply R]. }
    assert (D0 : 0 <= D) by (apply rsum_nonneg; intros k Hk; apply Rmult_le_pos; [left; apply Ph|now apply Q0]).
    assert (D1 : 0 < D).
    { destruct D0 as [|Z]; [assumption|]. rewrite <- Z in B. pose proof (Ph i). lra. }
    pose proof (Ph i). split.
    - apply Rmult_le_pos; [lra|left; now apply Rinv_0_lt_compat].
    - apply (Rmult_le_reg_r D); [exact D1|]. unfold Rdiv. rewrite Rmult_assoc, Rinv_l by lra. lra.
  Qed.

  (** One word. *)
  Definition fine (s : slda R) : Prop := consistent fexp X N m s /\ psi_of 7 (s_gamma s) = Ok (s_psi s) /\ competitor X (p_beta m) (s_phi s).
  Lemma word_up s n : fine s -> (n < V)%nat ->
    exists s', slda_word 7 X (ratio X N) y (p_beta m) (p_eta m) fpi s n = Ok s' /\ fine s' /\
      total (s_gamma s) (s_phi s) <= total (s_gamma s') (s_phi s') + 2 * eps * INR fpi * x n.
  Proof.
    intros (CO & EP & CP) Hn. destruct (nth_01 n) as [E|E].
    - exists s. unfold slda_word, Xget. rewrite E. split; [reflexivity|]. split; [split; auto|]. lra.
    - destruct (slda_word_ok lg X m yz PI HC HS 7 (le_n 7) fpi s n CO Hn) as (s' & Es & CO' & _).
      destruct (slda_word_bound lg psi X m yz fpi s n eps Hpsi PI HC HS CO EP CP Hn E) as (s2 & Es2 & EP' & CP' & B).
      { intros i q Hi D. cbv zeta. apply He; [exact Hi| |now apply h_ratio]. apply (good_range lg X m PI (s_gamma s, s_phi s) i (consistent_good s CO) Hi). }
      change (Zsum X) with N in Es. rewrite Es2 in Es. injection Es as ->. exists s'. split; [exact Es2|]. split; [split; auto|]. rewrite E, Rmult_1_r.
      apply Rle_trans with (total (s_gamma s) (s_phi s') + 2 * eps * INR fpi); [rewrite !total_words; lra|]. apply Rplus_le_compat_r.
      unfold slda_document_bound. cbv zeta. apply Rplus_le_compat_r. apply Rplus_le_compat_r. rewrite (consistent_gamma s' CO').
      apply gamma_optimal; auto; try apply CO; try apply CO'.
      + apply (good_pos lg X m PI (s_gamma s, s_phi s)). now apply consistent_good.
      + intros i l Hi Hl _. now apply (co_phi _ _ _ _ _ CO').
  Qed.
  Lemma words_up k : forall j s, (j + k = V)%nat -> fine s ->
    exists s', fold_left (fun acc n => let* s := acc in slda_word 7 X (ratio X N) y (p_beta m) (p_eta m) fpi s n) (seq j k) (Ok s) = Ok s' /\ fine s' /\
      total (s_gamma s) (s_phi s) <= total (s_gamma s') (s_phi s') + 2 * eps * INR fpi * rsum k (fun n => x (j + n)%nat).
  Proof.
    induction k as [|k IH]; intros j s Hj F.
    - exists s. split; [reflexivity|]. split; [exact F|]. cbn. lra.
    - cbn [seq fold_left bind]. destruct (word_up s j F ltac:(lia)) as (s' & -> & F' & B'). destruct (IH (S j) s' ltac:(lia) F') as (s2 & E2 & F2 & B2).
      exists s2. split; [exact E2|]. split; [exact F2|]. rewrite rsum_S_l, Nat.add_0_r.
      rewrite (rsum_ext k (fun i => x (j + S i)%nat) (fun n => x (S j + n)%nat)) by (intros i _; f_equal; f_equal; lia). lra.
  Qed.
  (** One pass. *)
  Definition right (s : list R * mat R * option (list R)) : Prop := state_ok lg X m (fst (fst s)) (snd (fst s)) /\ competitor X (p_beta m) (snd (fst s)).
  Lemma pass_up s : right s -> exists s', step lg X m yz 7 fpi s = Ok s' /\ right s' /\
    total (fst (fst s)) (snd (fst s)) <= total (fst (fst s')) (snd (fst s')) + 2 * eps * INR fpi * IZR N.
  Proof.
    intros [(Hp & Hl & Hg) CP]. unfold step, compute_supervised_phi_gamma.
    rewrite (psi_of_R lg 7 (le_n 7)) by (apply (gamma_pos lg X m PI (fst (fst s)) (snd (fst s))); assumption). cbn [bind].
    destruct (all_products_R lg X m yz PI HC (snd (fst s)) Hp) as (p & -> & Lp & Hpr). cbn [bind]. rewrite (pi_words _ _ PI).
    destruct (words_up V 0 (mk_slda (snd (fst s)) (fst (fst s)) p (map (dig lg) (fst (fst s))) (snd s)) (Nat.add_0_l V)) as (s' & E & (CO & _ & CP') & B).
    - split; [constructor; try apply Hp; auto|]. split; [|exact CP]. cbn [s_gamma s_psi].
      apply (psi_of_R lg 7 (le_n 7)). apply (gamma_pos lg X m PI (fst (fst s)) (snd (fst s))); assumption.
    - change (fold_right Z.add 0%Z X) with (Zsum X) in E. rewrite E. cbn [bind]. eexists. split; [reflexivity|]. cbn [fst snd]. split.
      + split; [split; [split; [|split]; apply CO|split; apply CO]|exact CP'].
      + cbn [s_gamma s_phi] in B. change N with (Zsum X). rewrite Zsum_rsum, (pi_words _ _ PI).
        rewrite (rsum_ext V (fun n => x (0 + n)%nat) (fun n => x n)) in B by reflexivity. exact B.
  Qed.
  Lemma eps_pos : 0 <= eps.
  Proof.
    assert (Hk : (0 < K)%nat) by apply (pi_topics _ _ PI). assert (Hc : (0 < C)%nat) by (destruct HC; lia).
    assert (0 <= rho).
    { pose proof (Hrho 0 0 0 Hk Hk Hc) as Q. pose proof (fexp_pos lg (mget (p_eta m) 0 0 / IZR N)) as P. destruct (Rle_lt_dec 0 rho) as [|L]; [assumption|].
      assert (rho * fexp (mget (p_eta m) 0 0 / IZR N) < 0); [|lra]. apply Ropp_lt_cancel. rewrite Ropp_0, Ropp_mult_distr_l. apply Rmult_lt_0_compat; lra. }
    assert (HN : 0 <= IZR N) by (change N with (Zsum X); rewrite Zsum_rsum; apply rsum_nonneg; intros n _; apply IZR_le; apply counts_nth; apply (pi_counts _ _ PI)).
    assert (Q := He 0%nat (vget (p_alpha m) 0) 0 Hk). specialize (Q (conj (Rle_refl _) (Rle_trans _ (vget (p_alpha m) 0 + 0) _ (Req_le _ _ (eq_sym (Rplus_0_r _))) (Rplus_le_compat_l _ _ _ HN))) (conj (Rle_refl 0) H)).
    pose proof (Rmax_l 1 (Rabs (psi (vget (p_alpha m) 0) + mget (p_eta m) 0 y / IZR N - 0))). lra.
  Qed.
  Lemma slda_steps tol limit : forall old s t, right s ->
    em_loop limit tol (fun s => fst (fst s)) (step lg X m yz 7 fpi) old s = Ok t ->
    competitor X (p_beta m) (snd (fst t)) /\
    total (fst (fst s)) (snd (fst s)) <= total (fst (fst t)) (snd (fst t)) + 2 * eps * INR fpi * IZR N * INR limit.
  Proof.
    pose proof eps_pos as E0. pose proof (pos_INR fpi).
    assert (HN : 0 <= IZR N) by (change N with (Zsum X); rewrite Zsum_rsum; apply rsum_nonneg; intros n _; apply IZR_le; apply counts_nth; apply (pi_counts _ _ PI)).
    assert (P : 0 <= 2 * eps * INR fpi * IZR N) by (apply Rmult_le_pos; [apply Rmult_le_pos; lra|exact HN]).
    induction limit as [|l IH]; intros old s t G E.
    - injection E as <-. change (INR 0) with 0. split; [apply G|lra].
    - cbn [em_loop] in E. pose proof (pos_INR l). destruct (converged old (fst (fst s)) tol).
      + injection E as <-. split; [apply G|]. rewrite S_INR. nra.
      + destruct (pass_up s G) as (s' & Es & G' & B). rewrite Es in E. cbn [bind] in E. destruct (IH _ _ _ G' E) as [Q1 Q2]. split; [exact Q1|]. rewrite S_INR. lra.
  Qed.
  Lemma slda_climbs cf emit d gamma phi ev : d_words d = X -> d_class d = Some yz -> competitor X (p_beta m) (start_phi m) ->
    supervised_doc_e_step 7 cf fpi emit d m = Ok (mk_vparams gamma phi [], ev) ->
    competitor X (p_beta m) phi /\
    total (start_gamma X m) (start_phi m) <= total gamma phi + 2 * eps * INR fpi * IZR N * INR (e_iterations cf).
  Proof.
    intros E Ey CS. unfold supervised_doc_e_step. rewrite E, (int_sum_ok lg X m PI). cbn [bind]. rewrite Ey.
    rewrite (sizes_ok_true lg X m PI d E), (class_ok_true m yz HC). cbn [negb andb]. intros R.
    apply bind_ok in R as ([[g p] h] & R1 & R). apply bind_ok in R as (ev' & _ & R). injection R as -> -> ->.
    change (em_loop (e_iterations cf) (e_tolerance cf) (fun s => fst (fst s)) (step lg X m yz 7 fpi) (zeros (O:=Rops lg) K)
      (init_gamma (p_alpha m) (Zsum X) K, init_phi K (length X), @None (list R)) = Ok (gamma, phi, h)) in R1.
    apply slda_steps in R1.
    - cbn [fst snd] in R1. rewrite (init_phi_start lg X m PI) in R1. change (Zsum X) with N in R1. rewrite (init_gamma_start lg X m PI) in R1. exact R1.
    - split; [exact (init_ok lg X m PI)|]. cbn [fst snd]. rewrite (init_phi_start lg X m PI). exact CS.
  Qed.
End Once.
