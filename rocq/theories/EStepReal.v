(** The E steps in exact arithmetic: the returned posteriors are valid. *)
Require Import Reals ZArith List Arith Bool Lia Lra.
Require Import Verif.Base Verif.Scalar Verif.Mat Verif.UtilsModel Verif.UtilsProofs Verif.DigammaProofs.
Require Import Verif.BuilderModel Verif.EStepModel Verif.EStepSpec.
Import ListNotations.
Open Scope R_scope.

Section Real.
  Variable lg : R -> R.
  Local Hint Extern 0 (ops _) => exact (Rops lg) : typeclass_instances.
  Notation fexp := (fexp lg).
  Notation dig := (dig lg).

  Lemma fast_exp_R x : fast_exp x = Ok (fexp x).
  Proof. exact (fast_exp_value lg x). Qed.

  Lemma vmapM_fexp v : vmapM fast_exp v = Ok (map fexp v).
  Proof. apply seqM_ok. intros x _. apply fast_exp_R. Qed.
  Lemma mmapM_fexp_tab r c f : mmapM fast_exp (mtab r c f) = Ok (mtab r c (fun i j => fexp (f i j))).
  Proof.
    unfold mmapM. cbn [mcols mrows mtab]. rewrite (seqM_ok _ (fun col => map fexp col)).
    - cbn [bind]. unfold mtab. f_equal. f_equal. rewrite vtab_map. apply vtab_ext. intros j _. apply vtab_map.
    - intros x _. apply vmapM_fexp.
  Qed.

  Lemma vget_map (f : R -> R) v i : (i < length v)%nat -> vget (map f v) i = f (vget v i).
  Proof. intros H. unfold vget. rewrite (nth_indep _ zero (f zero)) by (now rewrite map_length). apply map_nth. Qed.
  Lemma in_vget (v : list R) x : In x v -> exists i, (i < length v)%nat /\ x = vget v i.
  Proof. intros H. destruct (In_nth v x 0 H) as (i & Hi & E). exists i. split; [assumption|]. now symmetry. Qed.

  Lemma compute_gamma_R X alpha phi :
    compute_gamma X alpha phi = vtab (length alpha) (fun i => vget alpha i + rsum (ncols phi) (fun n => IZR (nth n X 0%Z) * mget phi i n)).
  Proof. exact (sum_cols_scaled_int_R lg phi X alpha). Qed.
  Lemma sum_cols_R (m : mat R) y r :
    sum_cols_scaled m y r = vtab (length r) (fun i => vget r i + rsum (ncols m) (fun j => vget y j * mget m i j)).
  Proof. exact (sum_cols_scaled_R lg m y r). Qed.

  Lemma normalize_cols_R (m : mat R) i j : (i < mrows m)%nat -> (j < ncols m)%nat ->
    mget (normalize_cols m) i j = if Req_EM_T (rsum (mrows m) (fun i => mget m i j)) 0 then mget m i j
      else mget m i j / rsum (mrows m) (fun i => mget m i j).
  Proof. exact (normalize_cols_get lg m i j). Qed.

  Lemma em_loop_inv {A} (P : A -> Prop) (g : A -> list R) up tol :
    (forall s, P s -> exists s', up s = Ok s' /\ P s') ->
    forall limit old s, P s -> exists t, em_loop limit tol g up old s = Ok t /\ P t.
  Proof.
    intros H. induction limit as [|l IH]; intros old s Hs; [exists s; auto|]. cbn [em_loop].
    destruct (converged old (g s) tol); [exists s; auto|].
    destruct (H s Hs) as (s' & E & Hs'). rewrite E. cbn [bind]. now apply IH.
  Qed.

  (** ** Columns *)
  Definition good_phi (beta phi : mat R) : Prop :=
    mrows phi = mrows beta /\ ncols phi = ncols beta /\
    (forall i n, (i < mrows beta)%nat -> (n < ncols beta)%nat -> 0 <= mget phi i n) /\
    (forall n, (n < ncols beta)%nat -> rsum (mrows beta) (fun i => mget phi i n) = 1 \/
       rsum (mrows beta) (fun i => mget phi i n) = 0 /\ ~ supported beta n).

  Lemma normalize_cols_good beta w : (forall i n, (i < mrows beta)%nat -> (n < ncols beta)%nat -> 0 <= mget beta i n) ->
    mrows w = mrows beta -> ncols w = ncols beta ->
    (forall i n, (i < mrows beta)%nat -> (n < ncols beta)%nat -> exists e, 0 < e /\ mget w i n = mget beta i n * e) ->
    good_phi beta (normalize_cols w).
  Proof.
    intros Hb Hr Hc Hw. split; [exact Hr|]. split; [unfold normalize_cols; rewrite ncols_tab; exact Hc|].
    assert (W : forall i n, (i < mrows beta)%nat -> (n < ncols beta)%nat -> 0 <= mget w i n).
    { intros i n Hi Hn. destruct (Hw i n Hi Hn) as (e & He & ->). apply Rmult_le_pos; [now apply Hb|lra]. }
    assert (P : forall n, (n < ncols beta)%nat -> 0 <= rsum (mrows beta) (fun i => mget w i n)).
    { intros n Hn. apply rsum_nonneg. intros i Hi. now apply W. }
    assert (G : forall i n, (i < mrows beta)%nat -> (n < ncols beta)%nat ->
      mget (normalize_cols w) i n = if Req_EM_T (rsum (mrows beta) (fun i => mget w i n)) 0 then mget w i n
        else mget w i n / rsum (mrows beta) (fun i => mget w i n)).
    { intros i n Hi Hn. rewrite <- Hr in Hi |- *. rewrite <- Hc in Hn. exact (normalize_cols_get lg w i n Hi Hn). }
    split.
    - intros i n Hi Hn. rewrite G by assumption. destruct (Req_EM_T _ 0) as [Z|Z]; [now apply W|].
      apply Rmult_le_pos; [now apply W|]. left. apply Rinv_0_lt_compat. specialize (P n Hn). lra.
    - intros n Hn. destruct (Req_EM_T (rsum (mrows beta) (fun i => mget w i n)) 0) as [Z|Z].
      + right. split.
        * rewrite (rsum_ext _ _ (fun i => mget w i n)); [exact Z|]. intros i Hi. rewrite G by assumption.
          destruct (Req_EM_T _ 0); [reflexivity|contradiction].
        * intros (i & Hi & Ni). destruct (Hw i n Hi Hn) as (e & He & Ew).
          pose proof (rsum_zero_inv (mrows beta) (fun i => mget w i n) (fun j Hj => W j n Hj Hn) Z i Hi) as Zi.
          cbv beta in Zi. rewrite Ew in Zi. apply Rmult_integral in Zi. lra.
      + left. rewrite (rsum_ext _ _ (fun i => mget w i n / rsum (mrows beta) (fun i => mget w i n))).
        * rewrite rsum_div. unfold Rdiv. now apply Rinv_r.
        * intros i Hi. rewrite G by assumption. destruct (Req_EM_T _ 0); [contradiction|reflexivity].
  Qed.

  Lemma scale_normalize_good beta e : (forall i n, (i < mrows beta)%nat -> (n < ncols beta)%nat -> 0 <= mget beta i n) ->
    (forall i, (i < mrows beta)%nat -> 0 < vget e i) -> good_phi beta (scale_normalize beta e).
  Proof.
    intros Hb He. apply normalize_cols_good; auto using mrows_tab, ncols_tab.
    intros i n Hi Hn. exists (vget e i). split; [auto|]. now rewrite mget_tab.
  Qed.

  Lemma init_phi_good beta : (0 < mrows beta)%nat -> good_phi beta (init_phi (mrows beta) (ncols beta)).
  Proof.
    intros HK. unfold init_phi. assert (0 < INR (mrows beta)) by now apply lt_0_INR.
    split; [reflexivity|]. split; [apply ncols_tab|]. split.
    - intros i n Hi Hn. rewrite mget_tab by assumption. cbn [div one ofZ Rops]. rewrite <- INR_IZR_INZ.
      left. apply Rdiv_lt_0_compat; lra.
    - intros n Hn. left. rewrite (rsum_ext _ _ (fun _ => 1 / INR (mrows beta))).
      + rewrite rsum_const. field. lra.
      + intros i Hi. rewrite mget_tab by assumption. cbn [div one ofZ Rops]. now rewrite <- INR_IZR_INZ.
  Qed.

  Lemma Zsum_rsum X : IZR (Zsum X) = rsum (length X) (fun n => IZR (nth n X 0%Z)).
  Proof.
    induction X as [|x X IH]; [reflexivity|]. cbn [length]. rewrite rsum_S_l. cbn [nth Zsum fold_right].
    rewrite plus_IZR. unfold Zsum in IH. rewrite IH. reflexivity.
  Qed.
  Lemma Zsum_nonneg X : (forall x, In x X -> (0 <= x)%Z) -> (0 <= Zsum X)%Z.
  Proof.
    induction X as [|x X IH]; intros H; [cbn; lia|]. cbn. specialize (H x (or_introl eq_refl)) as Hx.
    assert (0 <= Zsum X)%Z by (apply IH; intros; apply H; now right). unfold Zsum in *. lia.
  Qed.
  Lemma counts_nth X n : (forall x, In x X -> (0 <= x)%Z) -> (0 <= nth n X 0)%Z.
  Proof.
    intros H. destruct (lt_dec n (length X)) as [L|L]; [apply H; now apply nth_In|].
    rewrite nth_overflow by lia. lia.
  Qed.

  Section Input.
    Variables (X : list Z) (m : params R).
    Hypothesis PI : proper_input X m.
    Notation K := (mrows (p_beta m)).
    Notation V := (ncols (p_beta m)).

    Lemma int_sum_ok : int_sum X = Ok (Zsum X).
    Proof.
      unfold int_sum. cbv zeta. pose proof (Zsum_nonneg X (pi_counts _ _ PI)) as H.
      pose proof (pi_length _ _ PI) as H2. change (fold_right Z.add 0%Z X) with (Zsum X) in H2.
      rewrite (proj2 (Z.leb_le _ _)) by lia. rewrite (proj2 (Z.ltb_lt _ _)) by lia. reflexivity.
    Qed.
    Lemma sizes_ok_true (d : doc R) : d_words d = X -> sizes_ok d m = true.
    Proof.
      intros E. unfold sizes_ok. rewrite E, (pi_alpha _ _ PI), (pi_words _ _ PI). now rewrite !Nat.eqb_refl.
    Qed.
    Lemma class_ok_true y : class_in_range y m -> class_ok y m = true.
    Proof.
      intros [H1 H2]. unfold class_ok. rewrite H1, Nat.eqb_refl. cbn [andb].
      rewrite (proj2 (Z.leb_le _ _)) by lia. now rewrite (proj2 (Z.ltb_lt _ _)) by lia.
    Qed.

    (** the loop invariant *)
    Definition good (s : list R * mat R) : Prop :=
      good_phi (p_beta m) (snd s) /\ length (fst s) = K /\
      forall i, (i < K)%nat -> vget (fst s) i = vget (p_alpha m) i + rsum V (fun n => IZR (nth n X 0%Z) * mget (snd s) i n).

    Lemma good_pos s : good s -> forall i, (i < K)%nat -> 0 < vget (fst s) i.
    Proof.
      intros ((_ & _ & Hp & _) & _ & Hg) i Hi. rewrite Hg by assumption.
      pose proof (pi_alpha_pos _ _ PI i Hi).
      assert (0 <= rsum V (fun n => IZR (nth n X 0%Z) * mget (snd s) i n)); [|lra].
      apply rsum_nonneg. intros n Hn. apply Rmult_le_pos; [|now apply Hp].
      apply (IZR_le 0). apply counts_nth. apply (pi_counts _ _ PI).
    Qed.
    Lemma good_pos_in s : good s -> forall x, In x (fst s) -> 0 < x.
    Proof.
      intros H x Hx. destruct (in_vget _ _ Hx) as (i & Hi & ->). apply good_pos; [assumption|].
      destruct H as (_ & L & _). now rewrite <- L.
    Qed.
    Lemma good_sum_pos s : good s -> 0 < redux (fst s).
    Proof.
      intros H. change (redux (fst s)) with (lsum (fst s)). rewrite <- rsum_lsum.
      assert (L : length (fst s) = K) by apply H. rewrite L. apply rsum_pos_all; [apply (pi_topics _ _ PI)|].
      intros i Hi. now apply (good_pos s).
    Qed.

    Lemma good_next phi : good_phi (p_beta m) phi -> good (compute_gamma X (p_alpha m) phi, phi).
    Proof.
      intros H. split; [exact H|]. cbn [fst snd]. rewrite compute_gamma_R, vtab_length.
      split; [apply (pi_alpha _ _ PI)|]. intros i Hi. rewrite vget_tab by (now rewrite (pi_alpha _ _ PI)).
      destruct H as (_ & -> & _). reflexivity.
    Qed.

    Lemma good_init : good (init_gamma (p_alpha m) (Zsum X) K, init_phi K (length X)).
    Proof.
      rewrite (pi_words _ _ PI). split; [apply init_phi_good, (pi_topics _ _ PI)|]. cbn [fst snd].
      unfold init_gamma. rewrite map_length. split; [apply (pi_alpha _ _ PI)|]. intros i Hi.
      assert (0 < INR K) by (apply lt_0_INR, (pi_topics _ _ PI)).
      rewrite (vget_map (fun a => add a (div (ofZ (Zsum X)) (ofZ (Z.of_nat K))))) by (now rewrite (pi_alpha _ _ PI)).
      cbn [add div ofZ Rops]. f_equal.
      rewrite (rsum_ext V _ (fun n => IZR (nth n X 0%Z) * (1 / INR K))).
      - rewrite rsum_mult_r, Zsum_rsum, (pi_words _ _ PI), <- INR_IZR_INZ. field. lra.
      - intros n Hn. unfold init_phi. rewrite mget_tab by assumption. cbn [div one ofZ Rops].
        now rewrite <- INR_IZR_INZ.
    Qed.

    Lemma good_valid gamma phi : good (gamma, phi) -> valid_posterior X m gamma phi.
    Proof.
      intros ((Hr & Hc & Hp & Hs) & Hl & Hg). cbn [fst snd] in *. constructor; auto.
      intros Hsup. rewrite (rsum_ext K _ (fun i => vget (p_alpha m) i + rsum V (fun n => IZR (nth n X 0%Z) * mget phi i n))) by exact Hg.
      rewrite rsum_plus. f_equal. rewrite rsum_swap. apply rsum_ext. intros n Hn. rewrite rsum_mult_l.
      destruct (Z.eq_dec (nth n X 0%Z) 0) as [Z|Z]; [rewrite Z; cbn; ring|].
      destruct (Hs n Hn) as [->|[_ N]]; [ring|]. exfalso. apply N. now apply Hsup.
    Qed.

    Lemma map_fexp_pos v i : (i < length v)%nat -> 0 < vget (map fexp v) i.
    Proof. intros H. rewrite vget_map by assumption. apply fexp_pos. Qed.

    Lemma max_coeff_some (v : list R) : v <> [] -> exists a b, max_coeff v = Some (a, b).
    Proof. destruct v as [|x r]; [congruence|]. intros _. cbn. destruct (max_from x 0 1 r). eauto. Qed.

    Lemma mall_length (a : mat R) : length (mall a) = (mrows a * ncols a)%nat.
    Proof.
      unfold mall, vtab. assert (G : forall l, length (concat (map (mcol a) l)) = (mrows a * length l)%nat).
      { induction l as [|j l IH]; [cbn; lia|]. cbn [map concat]. rewrite app_length, IH. unfold mcol. rewrite vtab_length. cbn. lia. }
      rewrite G. now rewrite seq_length.
    Qed.

    Lemma report_ok emit (l : outcome R) : (exists v, l = Ok v) -> exists e, report emit l = Ok e /\ (emit = true -> exists v, e = Some v).
    Proof. intros (v & ->). destruct emit; cbn; eexists; split; try reflexivity; intros; eauto; discriminate. Qed.

    Lemma exp_eta_R eta r : exp_eta_scaled eta r = Ok (mtab (mrows eta) (ncols eta) (fun i j => fexp (mget eta i j * r))).
    Proof. unfold exp_eta_scaled. apply mmapM_fexp_tab. Qed.

    Lemma all_products_ok sk (Xr : list R) eta phi : exists p, all_products sk X Xr eta phi = Ok p.
    Proof.
      unfold all_products. generalize (vtab (ncols eta) (fun _ : nat => @one R (Rops lg))). generalize (seq 0 (length X)).
      induction l as [|n l IH]; intros p; [cbn; eauto|]. cbn [fold_left bind].
      destruct (sk && (Xget X n =? 0)%Z)%bool; [apply IH|]. rewrite exp_eta_R. cbn [bind]. apply IH.
    Qed.

    Lemma last_word_some p n k : (k < n)%nat -> p (Xget X k) = true -> exists j, last_word p X n = Some j.
    Proof.
      revert k. induction n as [|n IH]; intros k Hk Hp; [lia|]. cbn. destruct (p (Xget X n)) eqn:E; [eauto|].
      apply (IH k); [|assumption]. destruct (Nat.eq_dec k n) as [->|]; [congruence|lia].
    Qed.

    Definition nonempty : Prop := exists n, (0 < nth n X 0)%Z.
    Lemma nonempty_lt : nonempty -> exists n, (n < length X)%nat /\ (0 < nth n X 0)%Z.
    Proof.
      intros (n & Hn). exists n. split; [|assumption]. destruct (lt_dec n (length X)) as [L|L]; [assumption|].
      rewrite nth_overflow in Hn by lia. lia.
    Qed.
    Lemma compute_h_ok (Xr : list R) eta phi : nonempty -> exists h, compute_h X Xr eta phi = Ok (Some h).
    Proof.
      intros NE. destruct (nonempty_lt NE) as (n & Hn & Hp). unfold compute_h.
      destruct (all_products_ok true Xr eta phi) as (p & ->). cbn [bind].
      destruct (last_word_some (fun x => negb (x =? 0)%Z) (length X) n Hn) as (j & ->).
      { unfold Xget. destruct (Z.eqb_spec (nth n X 0%Z) 0); [lia|reflexivity]. }
      rewrite exp_eta_R. cbn [bind]. eauto.
    Qed.

    (** tau is a distribution over the vocabulary *)
    Definition good_tau (tau : list R) : Prop :=
      length tau = V /\ (forall n, (n < V)%nat -> 0 < vget tau n) /\ ((0 < V)%nat -> rsum V (vget tau) = 1).

    Lemma correspondence_tau_good y phi : ncols phi = V ->
      exists tau, compute_supervised_correspondence_tau (Z.to_nat y) (p_eta m) phi = Ok tau /\ good_tau tau.
    Proof.
      intros Hc. unfold compute_supervised_correspondence_tau. cbv zeta. rewrite vmapM_fexp. cbn [bind].
      eexists. split; [reflexivity|].
      set (v := map fexp _). assert (L : length v = V).
      { unfold v, matT_vec. now rewrite map_length, vtab_length. }
      assert (P : forall n, (n < V)%nat -> 0 < vget v n).
      { intros n Hn. unfold v. apply map_fexp_pos. unfold v in L. rewrite map_length in L. lia. }
      assert (S : redux v = rsum V (vget v)).
      { change (redux v) with (lsum v). rewrite <- rsum_lsum, L. reflexivity. }
      unfold normalize_vec. cbv zeta. rewrite S. cbn [eqb Rops zero].
      destruct (Nat.eq_dec V 0) as [Z|Z].
      - destruct (Req_EM_T _ 0) as [Zr|Zr]; (split; [now rewrite ?map_length|split; [intros n Hn; exfalso; lia|intros; exfalso; lia]]).
      - assert (0 < rsum V (vget v)) by (apply rsum_pos_all; [lia|assumption]).
        destruct (Req_EM_T _ 0) as [Zr|Zr]; [lra|]. split; [now rewrite map_length|]. split.
        + intros n Hn. rewrite (vget_map (fun x => div x (rsum V (vget v)))) by lia. apply Rdiv_lt_0_compat; auto.
        + intros _. rewrite (rsum_ext V _ (fun n => vget v n / rsum V (vget v))).
          * rewrite rsum_div. unfold Rdiv. now apply Rinv_r.
          * intros n Hn. rewrite (vget_map (fun x => div x (rsum V (vget v)))) by lia. reflexivity.
    Qed.

    Variable dfuel : nat.
    Hypothesis Hfuel : (7 <= dfuel)%nat.
    Lemma digamma_R x : 0 < x -> digamma dfuel x = Ok (dig x).
    Proof. intros H. exact (digamma_fuel lg dfuel x H Hfuel). Qed.
    Lemma psi_of_R g : (forall x, In x g -> 0 < x) -> psi_of dfuel g = Ok (map dig g).
    Proof. intros H. apply seqM_ok. intros x Hx. apply digamma_R. auto. Qed.

    (** ** Phi updates *)

    Lemma unsupervised_phi_R s : good s ->
      compute_unsupervised_phi dfuel (p_beta m) (fst s) = Ok (scale_normalize (p_beta m) (map fexp (map dig (fst s)))).
    Proof.
      intros H. unfold compute_unsupervised_phi. rewrite psi_of_R by now apply good_pos_in. cbn [bind].
      rewrite vmapM_fexp. reflexivity.
    Qed.
    Lemma unsupervised_phi_good s : good s ->
      good_phi (p_beta m) (scale_normalize (p_beta m) (map fexp (map dig (fst s)))).
    Proof.
      intros H. apply scale_normalize_good; [apply (pi_beta_nonneg _ _ PI)|].
      intros i Hi. apply map_fexp_pos. rewrite map_length. destruct H as (_ & -> & _). assumption.
    Qed.

    Lemma approximate_phi_good y w s : class_in_range y m -> good s ->
      exists phi, compute_supervised_approximate_phi dfuel (ratio X (Zsum X)) (Zsum X) (Z.to_nat y) (p_beta m) (p_eta m)
                    (fst s) w (snd s) = Ok phi /\ good_phi (p_beta m) phi.
    Proof.
      intros [C1 C2] H. unfold compute_supervised_approximate_phi.
      destruct (Z.eqb_spec (Zsum X) 0) as [Z|Z]; [exists (snd s); split; [reflexivity|apply H]|].
      rewrite psi_of_R by now apply good_pos_in. cbn [bind]. rewrite vmapM_fexp. cbn [bind]. cbv zeta.
      destruct (max_coeff_some (mall (p_eta m))) as (mx & bi & ->).
      { intros E. apply (f_equal (@length R)) in E. rewrite mall_length, C1 in E. cbn [length] in E.
        apply Nat.eq_mul_0 in E. pose proof (pi_topics _ _ PI). destruct E; lia. }
      cbv beta iota. rewrite vmapM_fexp. cbn [bind]. eexists. split; [reflexivity|].
      apply scale_normalize_good; [apply (pi_beta_nonneg _ _ PI)|].
      intros i Hi. apply map_fexp_pos. now rewrite vtab_length.
    Qed.

    Lemma multinomial_phi_good y w s : good s ->
      exists phi, compute_supervised_multinomial_phi dfuel (Z.to_nat y) (p_beta m) (p_eta m) (fst s) w = Ok phi /\
                  good_phi (p_beta m) phi.
    Proof.
      intros H. unfold compute_supervised_multinomial_phi. rewrite psi_of_R by now apply good_pos_in. cbn [bind].
      rewrite digamma_R by now apply good_sum_pos. cbn [bind]. cbv zeta. rewrite vmapM_fexp. cbn [bind].
      eexists. split; [reflexivity|]. apply scale_normalize_good; [apply (pi_beta_nonneg _ _ PI)|].
      intros i Hi. apply map_fexp_pos. now rewrite vtab_length.
    Qed.

    Lemma correspondence_phi_good y tau s : good s ->
      exists phi, compute_supervised_correspondence_phi dfuel (Z.to_nat y) (p_beta m) (p_eta m) (fst s) tau = Ok phi /\
                  good_phi (p_beta m) phi.
    Proof.
      intros H. unfold compute_supervised_correspondence_phi. rewrite psi_of_R by now apply good_pos_in. cbn [bind].
      rewrite vmapM_fexp. cbn [bind]. rewrite mmapM_fexp_tab. cbn [bind]. eexists. split; [reflexivity|].
      apply normalize_cols_good; auto using mrows_tab, ncols_tab; [apply (pi_beta_nonneg _ _ PI)|].
      intros i n Hi Hn. rewrite mget_tab by assumption. cbn [mul Rops].
      exists (vget (map fexp (map dig (fst s))) i * fexp (slog (mget (p_eta m) i (Z.to_nat y)) * vget tau n)). split.
      - apply Rmult_lt_0_compat; [|apply fexp_pos].
        apply map_fexp_pos. rewrite map_length. destruct H as (_ & -> & _). assumption.
      - rewrite mget_tab by assumption. apply Rmult_assoc.
    Qed.

    (** ** Likelihoods are defined *)
    Lemma unsupervised_likelihood_ok s : good s ->
      exists l, compute_unsupervised_likelihood dfuel X (p_alpha m) (p_beta m) (snd s) (fst s) = Ok l.
    Proof.
      intros H. unfold compute_unsupervised_likelihood. cbv zeta. rewrite digamma_R by now apply good_sum_pos. cbn [bind].
      rewrite psi_of_R by now apply good_pos_in. cbn [bind]. unfold vmapM.
      rewrite !(seqM_ok (fun x : R => Ok (slgamma x)) slgamma) by auto. cbn [bind]. eauto.
    Qed.

    Lemma supervised_likelihood_h_ok y h s : nonempty -> good s ->
      exists l, compute_supervised_likelihood_h dfuel X y (p_alpha m) (p_beta m) (p_eta m) (snd s) (fst s) (Some h) = Ok l.
    Proof.
      intros NE H. unfold compute_supervised_likelihood_h. destruct (unsupervised_likelihood_ok s H) as (l & ->). cbn [bind].
      rewrite int_sum_ok. cbn [bind]. destruct (nonempty_lt NE) as (n & Hn & Hp).
      destruct (last_word_some (fun x => (0 <? x)%Z) (length X) n Hn) as (j & ->).
      { unfold Xget. now apply Z.ltb_lt. }
      eauto.
    Qed.
    Lemma supervised_likelihood_ok y s : nonempty -> good s ->
      exists l, compute_supervised_likelihood dfuel X y (p_alpha m) (p_beta m) (p_eta m) (snd s) (fst s) = Ok l.
    Proof.
      intros NE H. unfold compute_supervised_likelihood. rewrite int_sum_ok. cbn [bind].
      destruct (compute_h_ok (ratio X (Zsum X)) (p_eta m) (snd s) NE) as (h & ->). cbn [bind].
      now apply supervised_likelihood_h_ok.
    Qed.

    (** ** The E steps *)
    Lemma unsupervised_valid cf emit d : d_words d = X ->
      exists gamma phi ev, unsupervised_doc_e_step dfuel cf emit d m = Ok (mk_vparams gamma phi [], ev) /\
        valid_posterior X m gamma phi /\ (emit = true -> exists v, ev = Some v).
    Proof.
      intros E. unfold unsupervised_doc_e_step. rewrite E, int_sum_ok. cbn [bind]. rewrite (sizes_ok_true d E). cbn [negb].
      destruct (em_loop_inv good fst (fun s => let* phi := compute_unsupervised_phi dfuel (p_beta m) (fst s) in
                  Ok (compute_gamma X (p_alpha m) phi, phi)) (e_tolerance cf)) with
        (limit := e_iterations cf) (old := zeros (O:=Rops lg) K) (s := (init_gamma (p_alpha m) (Zsum X) K, init_phi K (length X)))
        as ([gamma phi] & -> & G).
      - intros s Hs. rewrite unsupervised_phi_R by assumption. cbn [bind]. eexists. split; [reflexivity|].
        apply good_next. now apply unsupervised_phi_good.
      - apply good_init.
      - cbn [bind]. destruct (unsupervised_likelihood_ok _ G) as (l & El). cbn [fst snd] in El.
        destruct (report_ok emit _ (ex_intro _ l El)) as (ev & -> & Hev). cbn [bind].
        exists gamma, phi, ev. split; [reflexivity|]. split; [now apply good_valid|assumption].
    Qed.

    Lemma fast_valid cf w emit d y : d_words d = X -> d_class d = Some y -> class_in_range y m ->
      (emit = true -> nonempty) ->
      exists gamma phi ev, fast_supervised_doc_e_step dfuel cf w emit d m = Ok (mk_vparams gamma phi [], ev) /\
        valid_posterior X m gamma phi /\ (emit = true -> exists v, ev = Some v).
    Proof.
      intros E Ey Hy NE. unfold fast_supervised_doc_e_step. rewrite E, int_sum_ok. cbn [bind]. rewrite Ey.
      rewrite (sizes_ok_true d E), (class_ok_true y Hy). cbn [negb andb].
      destruct (em_loop_inv good fst (fun s => let* phi := compute_supervised_approximate_phi dfuel (ratio X (Zsum X)) (Zsum X)
                  (Z.to_nat y) (p_beta m) (p_eta m) (fst s) w (snd s) in
                  Ok (compute_gamma X (p_alpha m) phi, phi)) (e_tolerance cf)) with
        (limit := e_iterations cf) (old := zeros (O:=Rops lg) K) (s := (init_gamma (p_alpha m) (Zsum X) K, init_phi K (length X)))
        as ([gamma phi] & -> & G).
      - intros s Hs. destruct (approximate_phi_good y w s Hy Hs) as (phi & -> & Hp). cbn [bind].
        eexists. split; [reflexivity|]. now apply good_next.
      - apply good_init.
      - cbn [bind]. destruct emit.
        + destruct (supervised_likelihood_ok (Z.to_nat y) _ (NE eq_refl) G) as (l & El). cbn [fst snd] in El.
          destruct (report_ok true _ (ex_intro _ l El)) as (ev & -> & Hev). cbn [bind].
          exists gamma, phi, ev. split; [reflexivity|]. split; [now apply good_valid|assumption].
        + cbn [report bind]. exists gamma, phi, None. split; [reflexivity|]. split; [now apply good_valid|discriminate].
    Qed.

    Lemma multinomial_valid cf mu w emit d y : d_words d = X -> d_class d = Some y -> class_in_range y m ->
      (y < Z.of_nat (length (d_priors d)))%Z ->
      exists gamma phi ev, multinomial_doc_e_step dfuel cf mu w emit d m = Ok (mk_vparams gamma phi [], ev) /\
        valid_posterior X m gamma phi /\ (emit = true -> exists v, ev = Some v).
    Proof.
      intros E Ey Hy Hp. unfold multinomial_doc_e_step. rewrite E, int_sum_ok. cbn [bind]. rewrite Ey.
      rewrite (sizes_ok_true d E), (class_ok_true y Hy), (proj2 (Z.ltb_lt _ _) Hp). cbn [negb andb].
      destruct (em_loop_inv good fst (fun s => let* phi := compute_supervised_multinomial_phi dfuel
                  (Z.to_nat y) (p_beta m) (p_eta m) (fst s) w in
                  Ok (compute_gamma X (p_alpha m) phi, phi)) (e_compute_likelihood cf)) with
        (limit := e_iterations cf) (old := zeros (O:=Rops lg) K) (s := (init_gamma (p_alpha m) (Zsum X) K, init_phi K (length X)))
        as ([gamma phi] & -> & G).
      - intros s Hs. destruct (multinomial_phi_good y w s Hs) as (phi & -> & Hphi). cbn [bind].
        eexists. split; [reflexivity|]. now apply good_next.
      - apply good_init.
      - cbn [bind]. assert (L : exists l, compute_supervised_multinomial_likelihood dfuel X (Z.to_nat y) (p_alpha m) (p_beta m)
            (p_eta m) phi gamma (vget (d_priors d) (Z.to_nat y)) mu (div one (ofZ (d_corpus_size d))) = Ok l).
        { unfold compute_supervised_multinomial_likelihood. destruct (unsupervised_likelihood_ok _ G) as (l & El).
          cbn [fst snd] in El. rewrite El. cbn [bind]. rewrite int_sum_ok. cbn [bind]. eauto. }
        destruct (report_ok emit _ L) as (ev & -> & Hev). cbn [bind].
        exists gamma, phi, ev. split; [reflexivity|]. split; [now apply good_valid|assumption].
    Qed.

    Lemma correspondence_valid cf mu emit d y : d_words d = X -> d_class d = Some y -> class_in_range y m ->
      exists gamma phi tau ev, correspondence_doc_e_step dfuel cf mu emit d m = Ok (mk_vparams gamma phi tau, ev) /\
        valid_posterior X m gamma phi /\ good_tau tau /\ (emit = true -> exists v, ev = Some v).
    Proof.
      intros E Ey Hy. unfold correspondence_doc_e_step. rewrite E, int_sum_ok. cbn [bind]. rewrite Ey.
      rewrite (sizes_ok_true d E), (class_ok_true y Hy). cbn [negb andb].
      destruct (em_loop_inv (fun s => good (fst s) /\ good_tau (snd s)) (fun s => fst (fst s))
        (fun s => let* phi := compute_supervised_correspondence_phi dfuel (Z.to_nat y) (p_beta m) (p_eta m) (fst (fst s)) (snd s) in
                      let* tau := compute_supervised_correspondence_tau (Z.to_nat y) (p_eta m) phi in
                      Ok (compute_gamma X (p_alpha m) phi, phi, tau)) (e_tolerance cf)) with
        (limit := e_iterations cf) (old := zeros (O:=Rops lg) K)
        (s := (init_gamma (p_alpha m) (Zsum X) K, init_phi K (length X), vtab (length X) (fun _ => div one (ofZ (Z.of_nat (length X))))))
        as ([[gamma phi] tau] & -> & G & Ht).
      - intros [s tau] [Hs Htau]. cbn [fst snd] in *.
        destruct (correspondence_phi_good y tau s Hs) as (phi & -> & Hphi). cbn [bind].
        destruct (correspondence_tau_good y phi) as (tau' & -> & Ht'); [apply Hphi|]. cbn [bind].
        eexists. split; [reflexivity|]. split; [now apply good_next|exact Ht'].
      - split; [apply good_init|]. cbn [snd]. rewrite (pi_words _ _ PI). split; [apply vtab_length|].
        assert (V0 : forall n, (n < V)%nat -> vget (vtab V (fun _ => div one (ofZ (Z.of_nat V)))) n = 1 / INR V).
        { intros n Hn. rewrite vget_tab by assumption. cbn [div one ofZ Rops]. now rewrite <- INR_IZR_INZ. }
        split.
        + intros n Hn. rewrite V0 by assumption. apply Rdiv_lt_0_compat; [lra|]. apply lt_0_INR. lia.
        + intros HV. rewrite (rsum_ext V _ (fun _ => 1 / INR V)) by exact V0. rewrite rsum_const.
          assert (0 < INR V) by now apply lt_0_INR. field. lra.
      - cbn [bind]. assert (L : exists l, compute_supervised_correspondence_likelihood dfuel X (Z.to_nat y) (p_alpha m) (p_beta m)
            (p_eta m) phi gamma tau mu (div one (ofZ (d_corpus_size d))) = Ok l).
        { unfold compute_supervised_correspondence_likelihood. destruct (unsupervised_likelihood_ok _ G) as (l & El).
          cbn [fst snd] in El. rewrite El. cbn [bind]. rewrite int_sum_ok. cbn [bind]. eauto. }
        destruct (report_ok emit _ L) as (ev & -> & Hev). cbn [bind].
        exists gamma, phi, tau, ev. split; [reflexivity|]. split; [now apply good_valid|]. split; assumption.
    Qed.
  End Input.
End Real.
