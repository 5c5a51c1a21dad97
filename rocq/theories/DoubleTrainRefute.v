(** A topic without words in the corpus: NaN after one epoch, undefined behaviour in the next. *)
Require Import Reals ZArith List Bool Arith Lia Lra Psatz Permutation.
From Flocq Require Import Core.Core IEEE754.BinarySingleNaN.
Require Import Verif.Base Verif.Scalar Verif.Mat Verif.HostModel Verif.UtilsModel Verif.UtilsFloat Verif.BuilderModel Verif.EStepModel Verif.EStepAny Verif.OptModel Verif.MStepModel Verif.MStepSpec Verif.MStepAny
  Verif.PoolModel Verif.PoolSpec Verif.PoolProofs Verif.LdaModel Verif.TrainSizes Verif.TrainPerm Verif.TrainProofs Verif.TrainFit.
Require Import Verif.DoubleSpec Verif.DoubleTrainSpec Verif.DoubleArith Verif.DoubleUtils Verif.DoubleProofs Verif.DoubleTrain.
Import ListNotations.
Open Scope R_scope.

Notation nan := (B754_nan : double).
Lemma add_nan_l x : dadd nan x = nan.
Proof. destruct x; reflexivity. Qed.
Lemma add_nan_r x : dadd x nan = nan.
Proof. destruct x; reflexivity. Qed.
Lemma mul_nan_l x : dmul nan x = nan.
Proof. destruct x; reflexivity. Qed.
Lemma mul_nan_r x : dmul x nan = nan.
Proof. destruct x; reflexivity. Qed.
Lemma div_nan_r x : ddiv x nan = nan.
Proof. destruct x; reflexivity. Qed.
Lemma div_nan_l x : ddiv nan x = nan.
Proof. destruct x; reflexivity. Qed.
Lemma sub_nan_l x : dsub nan x = nan.
Proof. destruct x; reflexivity. Qed.
Lemma sub_nan_r x : dsub x nan = nan.
Proof. destruct x; reflexivity. Qed.
Lemma summed_nan l s : summed l s -> In nan l -> s = nan.
Proof.
  induction 1 as [|x|l1 s1 l2 s2 l S1 IH1 S2 IH2 P]; intros H.
  - destruct H.
  - now destruct H as [H|[]].
  - apply (Permutation_in _ P) in H. apply in_app_or in H. destruct H as [H|H]; [rewrite (IH1 H); apply add_nan_l|rewrite (IH2 H); apply add_nan_r].
Qed.
Lemma finite_zero (x : double) : is_finite x = true -> B2R x = 0 -> exists b, x = B754_zero b.
Proof.
  intros F Z. destruct x as [b|b| |b mx ex He]; try discriminate F; [eauto|]. exfalso. cbn in Z. apply eq_0_F2R in Z. destruct b; discriminate Z.
Qed.

Section Refute.
  Variables (lg ex lga : double -> double) (sum : list double -> double).
  Local Hint Extern 0 (ops _) => exact (DO lg ex lga sum) : typeclass_instances.
  Hypothesis Hlg : rough_log lg.
  Hypothesis Hex : rough_exp ex.
  Hypothesis Hsum : forall l, summed l (sum l).

  Ltac norm := change (@add double (DO lg ex lga sum)) with dadd; change (@sub double (DO lg ex lga sum)) with dsub;
    change (@mul double (DO lg ex lga sum)) with dmul; change (@div double (DO lg ex lga sum)) with ddiv.
  Lemma digamma_nan : digamma 7 nan = Ok nan.
  Proof.
    unfold digamma. cbn [digamma_shift]. assert (L : ltb nan (ofZ 7 : double) = false) by reflexivity. rewrite L. cbn [bind]. f_equal.
    unfold digamma_series. cbv zeta. norm. rewrite sub_nan_l, div_nan_r, !mul_nan_r, sub_nan_r. apply add_nan_r.
  Qed.
  Lemma fast_exp_nan : fast_exp nan = UB.
  Proof. exact (@fast_exp_nan_F 53 1024 eq_refl eq_refl lg ex lga sum). Qed.

  (** two topics over two words, one word each *)
  Notation half := (div one (ofZ 2) : double).
  Definition apart : params double := mk_params [half; half] (mk_mat 2 [[one; zero]; [zero; one]]) (mk_mat 2 []).
  Definition one_word : doc double := mk_doc [1; 0]%Z None 1 [].

  Lemma half_d' : is_finite half = true /\ B2R half = / 2.
  Proof. exact (half_d lg ex lga sum). Qed.
  Lemma apart_input : double_input (/ 300) [1; 0]%Z apart.
  Proof.
    destruct half_d' as [Fh Vh]. destruct (one_d lg ex lga sum) as [F1 V1].
    split.
    - cbn. lia.
    - cbn. lia.
    - reflexivity.
    - reflexivity.
    - cbn [apart p_beta mrows]. intros i Hi. assert (E : vget (p_alpha apart) i = half) by (destruct i as [|[|i]]; [reflexivity|reflexivity|lia]). rewrite E. split; [exact Fh|]. rewrite Vh. lra.
    - cbn [apart p_beta mrows ncols mcols length]. intros i n Hi Hn.
      destruct i as [|[|i]]; [| |lia]; (destruct n as [|[|n]]; [| |lia]); cbn [mget mcols nth]; rewrite ?V1; split; try assumption; try reflexivity; cbn; lra.
    - cbn. intros x [<-|[<-|[]]]; lia.
    - cbn. lia.
    - cbn [apart p_beta mrows ncols mcols length]. intros n Hn N. destruct n as [|[|n]]; [|cbn in N; congruence|lia]. exists 0%nat. split; [lia|]. cbn [mget mcols nth]. rewrite V1.
      rewrite <- Rinv_1. apply Rinv_le_contravar; [lra|]. apply pow_R1_Rle. lra.
  Qed.

  (** the first test of the loop fails *)
  Definition g0 : list double := [dadd half half; dadd half half].
  Lemma g0_init : init_gamma (p_alpha apart) 1 2 = g0.
  Proof. reflexivity. Qed.
  Lemma g0_d : is_finite (dadd half half) = true /\ B2R (dadd half half) = 1.
  Proof.
    destruct half_d' as [Fh Vh]. destruct (add_in half half Fh Fh 1 1 (rep_Z 1 ltac:(lia)) (rep_Z 1 ltac:(lia))) as (F & _ & B); [rewrite Vh; lra|]. split; [exact F|lra].
  Qed.
  Lemma first_test (tol : double) : is_finite tol = true -> B2R tol <= / 2 -> converged (EStepModel.zeros 2) g0 tol = false.
  Proof.
    intros Ft Bt. destruct g0_d as [Fg Vg]. destruct unit_facts as (PU & SU & _ & _ & _ & _ & E52). unfold converged. cbn [g0 length].
    set (a := sabs (vget (EStepModel.zeros 2) 0 - vget g0 0)%S). set (l := vtab 2 (fun i => sabs (vget (EStepModel.zeros 2) i - vget g0 i)%S)).
    assert (El : l = [a; a]) by reflexivity.
    assert (Ha : is_finite a = true /\ B2R a = 1).
    { unfold a. change (is_finite (Babs (dsub zero (dadd half half))) = true /\ B2R (Babs (dsub zero (dadd half half))) = 1). rewrite is_finite_Babs, B2R_Babs.
      destruct (sub_in zero (dadd half half) (zero_d lg ex lga sum) Fg (-1) (-1) (rep_Z (-1) ltac:(lia)) (rep_Z (-1) ltac:(lia))) as (F & _ & B).
      { change (B2R (zero : double)) with 0. lra. }
      split; [exact F|]. rewrite Rabs_left1; lra. }
    destruct Ha as [Fa Va].
    destruct (summed_in 0 l (sum l) (Hsum l) ltac:(lia)) as (Fs & Bs & _ & Es).
    { rewrite El. cbn. lia. }
    { rewrite El. repeat constructor; try assumption; rewrite Va; cbn; lra. }
    assert (Lv : lval l = 2) by (rewrite El; unfold lval, lsum; cbn [map fold_right]; lra). assert (Ll : INR (length l) = 2) by (rewrite El; cbn; lra).
    rewrite Lv, Ll, E52 in Es. rewrite Ll in Bs. destruct (int_d lg ex lga sum 2 ltac:(lia)) as [F2 V2].
    assert (Sb : 19 / 10 <= B2R (sum l)) by (apply Rabs_le_inv in Es; lra).
    destruct (div_in (sum l) (ofZ 2) Fs (3 / 4) 2) as (Fd & _ & Bd).
    { replace (3 / 4) with (IZR 3 * pow (-2)) by (cbn; lra). apply rep_scale; lia. }
    { apply rep_Z. lia. }
    { rewrite V2. lra. }
    { rewrite V2. change (pow 0) with 1 in Bs. lra. }
    destruct (ltb (redux l / ofZ (Z.of_nat 2))%S tol) eqn:L; [|reflexivity]. apply (ltb_d lg ex lga sum) in L; [|exact Fd|exact Ft].
    change (B2R (ddiv (sum l) (ofZ 2)) < B2R tol) in L. lra.
  Qed.

  (** an update of the posterior gives word 0 nothing from topic 1 *)
  Notation update m := (fun s : list double * mat double => let* phi := compute_unsupervised_phi 7 (p_beta m) (fst s) in Ok (compute_gamma [1; 0]%Z (p_alpha m) phi, phi)).
  Lemma update_dead s s' : update apart s = Ok s' -> sound lg ex lga sum [1; 0]%Z apart s' -> B2R (mget (snd s') 1 0) = 0.
  Proof.
    intros E S. apply bind_ok' in E. destruct E as (phi & E & X). assert (Es : snd s' = phi) by (revert X; generalize (compute_gamma [1; 0]%Z (p_alpha apart) phi); intros g X; now injection X as <-). rewrite Es. clear X. destruct (so_phi _ _ _ _ _ _ _ S 1%nat 0%nat) as [F _]; [cbn; lia|cbn; lia|]. rewrite Es in F. clear S Es.
    unfold compute_unsupervised_phi in E. apply bind_ok' in E. destruct E as (psi & _ & E). apply bind_ok' in E. destruct E as (e & _ & E). injection E as <-. revert F.
    unfold scale_normalize, normalize_cols. cbn [mrows mtab apart p_beta]. rewrite ncols_tab. cbn [ncols mcols length]. rewrite !mget_tab by lia. cbv zeta.
    set (s0 := redux _). change (mget (mk_mat 2 [[one; zero]; [zero; one]]) 1 0) with (B754_zero false : double). norm. clearbody s0.
    destruct (vget e 1) as [b|b| |b mx x Hx]; destruct (eqb s0 zero); cbn [dmul Bmult xorb]; try discriminate; try reflexivity; destruct s0 as [b2|b2| |b2 mx2 x2 Hx2]; try discriminate; try reflexivity; destruct b, b2; discriminate || reflexivity.
  Qed.

  Variables (iterations : nat) (tol weight : double).
  Hypotheses (Hi : (2 <= iterations)%nat) (Ft : is_finite tol = true) (Bt : B2R tol <= / 2).
  Notation cf := (mk_econf iterations tol weight).

  Lemma dead_step emit : exists g phi ev, unsupervised_doc_e_step 7 cf emit one_word apart = Ok (mk_vparams g phi [], ev) /\
    mrows phi = 2%nat /\ ncols phi = 2%nat /\ length g = 2%nat /\ B2R (mget phi 1 0) = 0 /\
    (forall i n, (i < 2)%nat -> (n < 2)%nat -> is_finite (mget phi i n) = true).
  Proof.
    pose proof apart_input as DI. pose proof (step_sound lg ex lga sum Hlg Hex Hsum [1; 0]%Z apart DI) as Step.
    pose proof (init_sound lg ex lga sum [1; 0]%Z apart DI) as Init. pose proof (likelihood_defined lg ex lga sum Hsum [1; 0]%Z apart DI) as Lk.
    unfold unsupervised_doc_e_step. cbn [d_words one_word]. change (int_sum [1; 0]%Z) with (Ok (A := Z) 1%Z). cbn [bind].
    change (sizes_ok one_word apart) with true. cbn [negb]. cbv zeta. cbn [e_iterations e_tolerance].
    destruct iterations as [|it]; [lia|]. cbn [em_loop fst].
    change (init_gamma (p_alpha apart) 1 (mrows (p_beta apart))) with g0. change (mrows (p_beta apart)) with 2%nat. rewrite first_test by assumption.
    destruct (Step _ Init) as (s1 & E1 & S1). change (init_gamma (p_alpha apart) (Zsum [1; 0]%Z) (mrows (p_beta apart))) with g0 in E1. cbn [fst] in E1.
    change (length [1%Z; 0%Z]) with 2%nat in *. rewrite E1. cbn [bind].
    assert (D1 : B2R (mget (snd s1) 1 0) = 0) by (exact (update_dead (g0, init_phi 2 2) s1 E1 S1)).
    destruct (em_loop_inv (fun s => sound lg ex lga sum [1; 0]%Z apart s /\ B2R (mget (snd s) 1 0) = 0) fst (update apart) tol) with (limit := it) (old := g0) (s := s1) as ([g phi] & E & S & Z).
    { intros s [S _]. destruct (Step s S) as (s' & E & S'). exists s'. split; [exact E|]. split; [exact S'|]. exact (update_dead s s' E S'). }
    { split; assumption. }
    rewrite E. cbn [bind]. specialize (Lk (g, phi) S). cbn [fst snd] in Lk, Z. destruct Lk as (v & Ev).
    assert (R : exists ev, report emit (compute_unsupervised_likelihood 7 [1; 0]%Z (p_alpha apart) (p_beta apart) phi g) = Ok ev).
    { unfold report. destruct emit; [rewrite Ev|]; cbn [bind]; eauto. }
    destruct R as (ev & ->). cbn [bind]. exists g, phi, ev. destruct S as [A1 A2 A3 _ A5 _ _ _]. cbn [fst snd] in *. split; [reflexivity|]. split; [exact A1|]. split; [exact A2|]. split; [exact A3|]. split; [exact Z|].
    intros i n H1 H2. apply A5; assumption.
  Qed.

  (** the first epoch *)
  Definition nan_row (beta : mat double) : Prop := mrows beta = 2%nat /\ ncols beta = 2%nat /\ mget beta 1 0 = nan /\ mget beta 1 1 = nan.
  Lemma mul_zero_r (x : double) : is_finite x = true -> exists b, dmul x (B754_zero false) = B754_zero b.
  Proof. destruct x as [b|b| |b mx e He]; intros F; try discriminate F; eexists; reflexivity. Qed.
  Lemma add_zero_zero b : exists b', dadd (B754_zero false) (B754_zero b) = B754_zero b'.
  Proof. destruct b; eexists; reflexivity. Qed.
  Lemma first_epoch W ep st p : partial_fit_call 7 unsupervised_maximizer (Classic cf) W [one_word] (Ok empty_mat) (apart, ep) st p ->
    exists beta, p = (set_beta apart beta, S ep) /\ nan_row beta /\ st = Ok (MStepAny.zeros 2 2).
  Proof.
    intros E. destruct (dead_step false) as (g & phi & ev & E1 & R1 & R2 & R3 & Z & F).
    assert (Po : posterior 7 (Classic cf) ep one_word apart = Ok (mk_vparams g phi [])).
    { unfold posterior. cbn [doc_e_step]. destruct (dead_step true) as (g' & phi' & ev' & E' & _). rewrite E'. cbn [bind]. rewrite E1. reflexivity. }
    set (x := (one_word, mk_vparams g phi []) : item double).
    destruct (partial_fit_run 7 unsupervised_maximizer (Classic cf) (unsupervised_same lg ex lga sum) W [one_word] empty_mat (apart, ep) st p [x] E (Permutation_refl _)) as (l2 & P2 & Run).
    { repeat constructor. exact Po. }
    apply Permutation_sym, Permutation_length_1_inv in P2. subst l2.
    assert (Sz : Forall (sized 2 2) [x]) by (repeat constructor; cbn [x fst snd v_phi v_gamma]; assumption || reflexivity).
    destruct (Run _ _ _ (unsupervised_epoch 2 2 ltac:(lia) empty_mat [x] apart (or_introl eq_refl) Sz ltac:(discriminate))) as [-> ->].
    eexists. split; [reflexivity|]. split; [|reflexivity]. set (b := word_counts 2 2 [x]).
    assert (B0 : exists z, mget b 1 0 = B754_zero z).
    { unfold b, word_counts, totals. cbn [fold_left]. rewrite !mget_tab by lia. unfold assigned, count. cbn [x fst snd v_phi d_words one_word nth]. norm.
      destruct (finite_zero (mget phi 1 0) (F 1%nat 0%nat ltac:(lia) ltac:(lia)) Z) as (z & ->). destruct z; eexists; reflexivity. }
    assert (B1 : exists z, mget b 1 1 = B754_zero z).
    { unfold b, word_counts, totals. cbn [fold_left]. rewrite !mget_tab by lia. unfold assigned, count. cbn [x fst snd v_phi d_words one_word nth]. norm.
      change (ofZ 0 : double) with (B754_zero false : double). destruct (mul_zero_r (mget phi 1 1) (F 1%nat 1%nat ltac:(lia) ltac:(lia))) as (z & ->). apply add_zero_zero. }
    destruct B0 as (z0 & B0), B1 as (z1 & B1). split; [reflexivity|]. split; [apply ncols_tab|].
    assert (S : exists z, redux (vtab 2 (fun n => mget b 1 n)) = B754_zero z).
    { cbn [vtab seq map]. rewrite B0, B1. change (redux (B754_zero z0 :: [B754_zero z1])) with (sum [B754_zero z0; B754_zero z1]).
      destruct (summed_in 0 [B754_zero z0; B754_zero z1] (sum [B754_zero z0; B754_zero z1]) (Hsum _) ltac:(lia)) as (Fs & _ & _ & Es).
      { cbn. lia. }
      { repeat constructor; cbn; lra. }
      apply finite_zero; [exact Fs|]. unfold lval, lsum in Es. cbn [map fold_right B2R] in Es. apply Rabs_le_inv in Es. lra. }
    destruct S as (z & S). unfold over_row_sums. rewrite !mget_tab by lia. fold b. rewrite S, B0, B1. split; destruct z; reflexivity.
  Qed.

  (** the second epoch *)
  Lemma loop_ends {S} (tol' : double) it (gam : S -> list double) upd old s s1 : converged old (gam s) tol' = false -> upd s = Ok s1 -> converged (gam s) (gam s1) tol' = false -> upd s1 = UB ->
    em_loop (Datatypes.S (Datatypes.S it)) tol' gam upd old s = UB.
  Proof. intros C1 U1 C2 U2. cbn [em_loop]. rewrite C1, U1. cbn [bind]. rewrite C2, U2. reflexivity. Qed.
  Lemma first_psi : exists psi e, psi_of 7 g0 = Ok psi /\ vmapM fast_exp psi = Ok e.
  Proof.
    pose proof apart_input as DI. pose proof (init_sound lg ex lga sum [1; 0]%Z apart DI) as I. change (Zsum [1; 0]%Z) with 1%Z in I. change (mrows (p_beta apart)) with 2%nat in I. rewrite g0_init in I.
    destruct (step_sound lg ex lga sum Hlg Hex Hsum [1; 0]%Z apart DI _ I) as (s1 & E1 & _). clear I. cbn [fst] in E1. generalize dependent g0. intros g E1.
    apply bind_ok' in E1. destruct E1 as (ph & E1 & _). unfold compute_unsupervised_phi in E1. apply bind_ok' in E1. destruct E1 as (psi & Ep & E1). apply bind_ok' in E1. destruct E1 as (e & Ee & _).
    exists psi, e. split; [exact Ep|exact Ee].
  Qed.
  Lemma nan_psi beta : compute_unsupervised_phi 7 beta [nan; nan] = UB.
  Proof.
    assert (P : psi_of 7 [nan; nan] = Ok [nan; nan]) by (unfold psi_of, vmapM; cbn [map]; rewrite digamma_nan; reflexivity). unfold compute_unsupervised_phi. rewrite P. cbn [bind].
    assert (Q : vmapM fast_exp [nan; nan] = UB) by (unfold vmapM; cbn [map]; rewrite fast_exp_nan; reflexivity). rewrite Q. reflexivity.
  Qed.
  Lemma nan_test (tol' : double) : converged g0 [nan; nan] tol' = false.
  Proof.
    unfold converged. cbn [length]. assert (S : redux (vtab 2 (fun i => sabs (vget g0 i - vget [nan; nan] i)%S)) = nan).
    { apply (summed_nan (vtab 2 (fun i => sabs (vget g0 i - vget [nan; nan] i)%S))); [apply Hsum|]. cbn [vtab seq map]. left. change (vget [nan; nan] 0) with nan. norm. now rewrite sub_nan_r. }
    rewrite S. norm. rewrite div_nan_l. reflexivity.
  Qed.
  Lemma nan_update beta : nan_row beta -> exists phi, compute_unsupervised_phi 7 beta g0 = Ok phi /\ compute_gamma [1; 0]%Z (p_alpha apart) phi = [nan; nan].
  Proof.
    intros (R1 & R2 & N0 & N1). destruct first_psi as (psi & e & Ep & Ee). exists (scale_normalize beta e). split; [unfold compute_unsupervised_phi; rewrite Ep; cbn [bind]; rewrite Ee; reflexivity|]. clear Ep Ee.
    assert (Ph : forall i, (i < 2)%nat -> mget (scale_normalize beta e) i 0 = nan).
    { intros i H. unfold scale_normalize, normalize_cols. cbn [mrows mtab]. rewrite ncols_tab, R1, R2. rewrite mget_tab by lia. cbv zeta. rewrite mcol_tab by lia.
      assert (S : redux (vtab 2 (fun i => (mget beta i 0 * vget e i)%S)) = nan).
      { apply (summed_nan (vtab 2 (fun i => (mget beta i 0 * vget e i)%S))); [apply Hsum|]. cbn [vtab seq map]. right. left. rewrite N0. apply mul_nan_l. }
      cbn [mrows mtab]. rewrite S. change (eqb nan zero) with false. cbv iota. norm. apply div_nan_r. }
    set (phi := scale_normalize beta e) in *.
    destruct (gamma_coefficient [1; 0]%Z (p_alpha apart) phi) as [Lg Cg]. change (length (p_alpha apart)) with 2%nat in *.
    assert (Cp : ncols phi = 2%nat) by (unfold phi, scale_normalize, normalize_cols; now rewrite !ncols_tab). rewrite Cp in Cg. clearbody phi.
    assert (Gi : forall i, (i < 2)%nat -> vget (compute_gamma [1; 0]%Z (p_alpha apart) phi) i = nan).
    { intros i H. rewrite (Cg i H). cbn [seq fold_left]. unfold acc_step. cbn [nth Z.eqb]. rewrite (Ph i H). norm. now rewrite mul_nan_r, add_nan_r. }
    apply nth_ext with (d := zero) (d' := zero); [exact Lg|]. rewrite Lg. intros i H. change (vget (compute_gamma [1; 0]%Z (p_alpha apart) phi) i = vget [nan; nan] i). rewrite (Gi i H). destruct i as [|[|i]]; [reflexivity|reflexivity|lia].
  Qed.
  Lemma nan_step beta emit : nan_row beta -> unsupervised_doc_e_step 7 cf emit one_word (set_beta apart beta) = UB.
  Proof.
    intros N. destruct (nan_update beta N) as (phi & U1 & G). pose proof N as (R1 & R2 & _).
    unfold unsupervised_doc_e_step. cbn [d_words one_word]. change (int_sum [1; 0]%Z) with (Ok (A := Z) 1%Z). cbn [bind].
    assert (Sz : sizes_ok one_word (set_beta apart beta) = true) by (unfold sizes_ok; cbn [set_beta p_beta p_alpha one_word d_words]; rewrite R1, R2; reflexivity).
    rewrite Sz. cbn [negb]. cbv zeta. cbn [e_iterations e_tolerance set_beta p_beta p_alpha]. rewrite R1.
    change (init_gamma (p_alpha apart) 1 2) with g0.
    destruct iterations as [|[|it]]; [lia|lia|].
    rewrite (loop_ends tol it fst _ (EStepModel.zeros 2) (g0, init_phi 2 (length [1; 0]%Z)) ([nan; nan], phi)); [reflexivity| | | |]; cbn [fst].
    - apply first_test; assumption.
    - rewrite U1. cbn [bind]. now rewrite G.
    - apply nan_test.
    - rewrite nan_psi. reflexivity.
  Qed.

  (** an undefined M step object stays undefined *)
  Lemma consume_ub D l : forall p, consume (train_feed (unsupervised_maximizer (T := double)) D) l (UB, p) = (UB, p).
  Proof. induction l as [|[i v] l IH]; intros p; [reflexivity|]. unfold consume in *. cbn [fold_left fst snd]. apply IH. Qed.
  Lemma ub_stays k W D p st p' : partial_fit_call 7 unsupervised_maximizer k W D UB p st p' -> st = UB.
  Proof.
    intros H. destruct (partial_fit_order 7 unsupervised_maximizer k (unsupervised_same lg ex lga sum) W D UB p st p' H) as (D' & l & _ & E). cbv zeta in E. rewrite consume_ub in E.
    cbn [fst snd] in E. unfold train_m_end in E. cbn [bind settle fst] in E. now injection E as -> ->.
  Qed.
  Lemma second_epoch W ep beta st p s : nan_row beta ->
    partial_fit_call 7 unsupervised_maximizer (Classic cf) W [one_word] (Ok s) (set_beta apart beta, ep) st p -> st = UB.
  Proof.
    intros N H. destruct (partial_fit_order 7 unsupervised_maximizer (Classic cf) (unsupervised_same lg ex lga sum) _ _ _ _ _ _ H) as (D' & l & P & E). cbv zeta in E.
    assert (Po : posterior 7 (Classic cf) ep one_word (set_beta apart beta) = UB) by (unfold posterior; cbn [doc_e_step]; now rewrite nan_step).
    cbn [map fst snd] in P. rewrite Po in P. apply Permutation_sym, Permutation_length_1_inv in P. destruct l as [|[i v] [|y l]]; try discriminate P. cbn [map] in P. unfold result in P. cbn [fst snd] in P.
    injection P as P1 P2. subst v. unfold consume in E. cbn [fold_left fst snd] in E. unfold train_feed, train_m_end in E. cbn [bind settle fst snd] in E. now injection E as -> ->.
  Qed.
  Lemma ub_fit k W D n : forall p st p', fit_call 7 unsupervised_maximizer k W D n UB p st p' -> st = UB.
  Proof. induction n as [|n IH]; intros p st p' F; inversion F; subst; [reflexivity|]. apply ub_stays in H0. subst st1. eauto. Qed.

  Theorem only_input d : In d [one_word] -> double_input (/ 300) (d_words d) apart.
  Proof. intros [<-|[]]. exact apart_input. Qed.
  Theorem topic_lost W ep : (0 < W)%nat ->
    (exists st p, fit_call 7 unsupervised_maximizer (Classic cf) W [one_word] 1 (Ok empty_mat) (apart, ep) st p) /\
    (forall st p, fit_call 7 unsupervised_maximizer (Classic cf) W [one_word] 1 (Ok empty_mat) (apart, ep) st p ->
      forall n, (n < 2)%nat -> mget (p_beta (fst p)) 1 n = nan) /\
    (forall n st p, fit_call 7 unsupervised_maximizer (Classic cf) W [one_word] (2 + n) (Ok empty_mat) (apart, ep) st p -> st = UB).
  Proof.
    intros HW. split; [|split].
    - exact (fit_returns 7 2 2 0 _ _ _ _ _ _ (Classic cf) W [one_word] 1 (step_unsupervised 2 2 0) HW _ _).
    - intros st p F. inversion F; subst. match goal with H : fit_call _ _ _ _ _ 0 _ _ _ _ |- _ => inversion H; subst end.
      match goal with H : partial_fit_call _ _ _ _ _ _ _ _ _ |- _ => destruct (first_epoch _ _ _ _ H) as (beta & -> & (_ & _ & N0 & N1) & _) end.
      intros n Hn. cbn [fst set_beta p_beta]. destruct n as [|[|n]]; [exact N0|exact N1|lia].
    - intros n st p F. change (2 + n)%nat with (S (S n)) in F. inversion F; subst. match goal with H : partial_fit_call _ _ _ _ _ _ _ _ _ |- _ => destruct (first_epoch _ _ _ _ H) as (beta & -> & N & ->) end.
      match goal with H : fit_call _ _ _ _ _ (S n) _ _ _ _ |- _ => inversion H; subst end.
      match goal with H : partial_fit_call _ _ _ _ _ (Ok (MStepAny.zeros 2 2)) _ _ _ |- _ => apply (second_epoch _ _ _ _ _ _ N) in H; subst end.
      eapply ub_fit. eassumption.
  Qed.
End Refute.
