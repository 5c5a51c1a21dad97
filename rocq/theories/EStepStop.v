(** When the loops of the E steps end. *)
Require Import Reals ZArith List Arith Bool Lia Lra.
Require Import Verif.Base Verif.Scalar Verif.Mat Verif.UtilsModel Verif.UtilsProofs Verif.DigammaProofs.
Require Import Verif.BuilderModel Verif.EStepModel Verif.EStepSpec Verif.EStepAny Verif.EStepReal.
Import ListNotations.

Section Any.
  Context {T : Type} {O : ops T}.
  Variable dfuel : nat.

  Lemma bind_ok {A B} (o : outcome A) (f : A -> outcome B) b : bind o f = Ok b -> exists a, o = Ok a /\ f a = Ok b.
  Proof. destruct o; cbn; [eauto|discriminate..]. Qed.
  Lemma int_sum_value (X : list Z) N : int_sum X = Ok N -> N = Zsum X.
  Proof. unfold int_sum. destruct (_ && _)%bool; [|discriminate]. now intros H; injection H. Qed.
  Lemma loop_runs {A} tol (g : A -> list T) up K limit s t :
    em_loop limit tol g up (zeros K) s = Ok t ->
    exists n, (n <= limit)%nat /\ runs up (below K g tol) limit None s n t.
  Proof.
    intros H. destruct (em_loop_runs tol g up K limit None s t H) as (n & R). exists n. split; [|exact R].
    exact (runs_le _ _ _ _ _ _ _ R).
  Qed.

  Lemma unsupervised_stops cf emit d m g phi tau ev : unsupervised_doc_e_step dfuel cf emit d m = Ok (mk_vparams g phi tau, ev) ->
    let K := mrows (p_beta m) in let X := d_words d in
    exists n, (n <= e_iterations cf)%nat /\
      runs (fun s => let* phi := compute_unsupervised_phi dfuel (p_beta m) (fst s) in
                     Ok (compute_gamma X (p_alpha m) phi, phi))
        (below K fst (e_tolerance cf)) (e_iterations cf) None
        (init_gamma (p_alpha m) (Zsum X) K, init_phi K (length X)) n (g, phi).
  Proof.
    unfold unsupervised_doc_e_step. intros H. apply bind_ok in H. destruct H as (N & EN & H).
    destruct (sizes_ok d m); cbn [negb] in H; [|discriminate]. cbv zeta in H. apply bind_ok in H. destruct H as ([g' p'] & EL & H).
    apply bind_ok in H. destruct H as (e & _ & H). injection H as <- <- _ _.
    apply int_sum_value in EN. subst N. exact (loop_runs _ _ _ _ _ _ _ EL).
  Qed.
  Lemma fast_stops cf w emit d m y g phi tau ev : d_class d = Some y ->
    fast_supervised_doc_e_step dfuel cf w emit d m = Ok (mk_vparams g phi tau, ev) ->
    let K := mrows (p_beta m) in let X := d_words d in
    exists n, (n <= e_iterations cf)%nat /\
      runs (fun s => let* phi := compute_supervised_approximate_phi dfuel (ratio X (Zsum X)) (Zsum X) (Z.to_nat y) (p_beta m) (p_eta m) (fst s) w (snd s) in
                     Ok (compute_gamma X (p_alpha m) phi, phi))
        (below K fst (e_tolerance cf)) (e_iterations cf) None
        (init_gamma (p_alpha m) (Zsum X) K, init_phi K (length X)) n (g, phi).
  Proof.
    intros Ey. unfold fast_supervised_doc_e_step. rewrite Ey. intros H. apply bind_ok in H. destruct H as (N & EN & H).
    destruct (_ && _)%bool; cbn [negb] in H; [|discriminate]. cbv zeta in H. apply bind_ok in H. destruct H as ([g' p'] & EL & H).
    apply bind_ok in H. destruct H as (e & _ & H). injection H as <- <- _ _.
    apply int_sum_value in EN. subst N. exact (loop_runs _ _ _ _ _ _ _ EL).
  Qed.
  Lemma multinomial_stops cf mu w emit d m y g phi tau ev : d_class d = Some y ->
    multinomial_doc_e_step dfuel cf mu w emit d m = Ok (mk_vparams g phi tau, ev) ->
    let K := mrows (p_beta m) in let X := d_words d in
    exists n, (n <= e_iterations cf)%nat /\
      runs (fun s => let* phi := compute_supervised_multinomial_phi dfuel (Z.to_nat y) (p_beta m) (p_eta m) (fst s) w in
                     Ok (compute_gamma X (p_alpha m) phi, phi))
        (below K fst (e_compute_likelihood cf)) (e_iterations cf) None
        (init_gamma (p_alpha m) (Zsum X) K, init_phi K (length X)) n (g, phi).
  Proof.
    intros Ey. unfold multinomial_doc_e_step. rewrite Ey. intros H. apply bind_ok in H. destruct H as (N & EN & H).
    destruct (_ && _)%bool; cbn [negb] in H; [|discriminate]. cbv zeta in H. apply bind_ok in H. destruct H as ([g' p'] & EL & H).
    apply bind_ok in H. destruct H as (e & _ & H). injection H as <- <- _ _.
    apply int_sum_value in EN. subst N. exact (loop_runs _ _ _ _ _ _ _ EL).
  Qed.
  Lemma correspondence_stops cf mu emit d m y g phi tau ev : d_class d = Some y ->
    correspondence_doc_e_step dfuel cf mu emit d m = Ok (mk_vparams g phi tau, ev) ->
    let K := mrows (p_beta m) in let X := d_words d in let V := length X in
    exists n, (n <= e_iterations cf)%nat /\
      runs (fun s => let* phi := compute_supervised_correspondence_phi dfuel (Z.to_nat y) (p_beta m) (p_eta m) (fst (fst s)) (snd s) in
                     let* tau := compute_supervised_correspondence_tau (Z.to_nat y) (p_eta m) phi in
                     Ok (compute_gamma X (p_alpha m) phi, phi, tau))
        (below K (fun s => fst (fst s)) (e_tolerance cf)) (e_iterations cf) None
        (init_gamma (p_alpha m) (Zsum X) K, init_phi K V, vtab V (fun _ => div one (ofZ (Z.of_nat V)))) n (g, phi, tau).
  Proof.
    intros Ey. unfold correspondence_doc_e_step. rewrite Ey. intros H. apply bind_ok in H. destruct H as (N & EN & H).
    destruct (_ && _)%bool; cbn [negb] in H; [|discriminate]. cbv zeta in H. apply bind_ok in H. destruct H as ([[g' p'] t'] & EL & H).
    apply bind_ok in H. destruct H as (e & _ & H). injection H as <- <- <- _.
    apply int_sum_value in EN. subst N. exact (loop_runs _ _ _ _ _ _ _ EL).
  Qed.
  Lemma supervised_stops cf fpi emit d m y g phi tau ev : d_class d = Some y ->
    supervised_doc_e_step dfuel cf fpi emit d m = Ok (mk_vparams g phi tau, ev) ->
    let K := mrows (p_beta m) in let X := d_words d in
    exists n h, (n <= e_iterations cf)%nat /\
      runs (fun s => let* r := compute_supervised_phi_gamma dfuel X (ratio X (Zsum X)) (Z.to_nat y) (p_beta m) (p_eta m) fpi
                                 (snd (fst s)) (fst (fst s)) (snd s) in
                     Ok (s_gamma r, s_phi r, s_h r))
        (below K (fun s => fst (fst s)) (e_tolerance cf)) (e_iterations cf) None
        (init_gamma (p_alpha m) (Zsum X) K, init_phi K (length X), None) n (g, phi, h).
  Proof.
    intros Ey. unfold supervised_doc_e_step. rewrite Ey. intros H. apply bind_ok in H. destruct H as (N & EN & H).
    destruct (_ && _)%bool; cbn [negb] in H; [|discriminate]. cbv zeta in H. apply bind_ok in H. destruct H as ([[g' p'] h] & EL & H).
    apply bind_ok in H. destruct H as (e & _ & H). injection H as <- <- _ _.
    apply int_sum_value in EN. subst N.
    destruct (loop_runs _ _ _ _ _ _ _ EL) as (n & Hn & R). exists n, h. auto.
  Qed.
End Any.

(** The multinomial E step compares with the fraction of documents whose likelihood is computed. *)
Section Stop.
  Open Scope R_scope.
  Variable lg : R -> R.
  Local Hint Extern 0 (ops _) => exact (Rops lg) : typeclass_instances.
  Variable dfuel : nat.
  Hypothesis Hfuel : (7 <= dfuel)%nat.

  Definition stop_model : params R := mk_params [1/10; 1/10] (mk_mat 2 [[1; 0]]) (mk_mat 2 [[1; 1]]).
  Definition stop_doc : doc R := mk_doc [1%Z] (Some 0%Z) 1 [1].
  (** one iteration allowed, tolerance 0, likelihood computed for every document *)
  Definition stop_conf : econf R := mk_econf 1 0 1.

  Lemma stop_run (mu w : R) : multinomial_doc_e_step dfuel stop_conf mu w false stop_doc stop_model =
    Ok (mk_vparams (init_gamma [1/10; 1/10] 1 2) (init_phi 2 1) [], None).
  Proof.
    unfold multinomial_doc_e_step. cbn [d_words d_class stop_doc]. change (int_sum [1%Z]) with (Ok 1%Z). cbn [bind].
    replace (sizes_ok stop_doc stop_model) with true by reflexivity. replace (class_ok 0 stop_model) with true by reflexivity.
    cbn [andb negb d_priors stop_doc length Z.of_nat Z.ltb]. change (0 ?= Z.of_nat 1)%Z with Lt. cbn [negb]. cbv zeta.
    cbn [e_iterations e_compute_likelihood stop_conf em_loop]. cbn [fst].
    assert (CV : converged (zeros (mrows (p_beta stop_model))) (init_gamma (p_alpha stop_model) 1 (mrows (p_beta stop_model))) 1 = true).
    { unfold converged, init_gamma, zeros. cbn -[Rabs Rlt_dec]. destruct (Rlt_dec _ _) as [L|L]; [reflexivity|]. exfalso. apply L.
      rewrite !Rabs_left by lra. lra. }
    rewrite CV. reflexivity.
  Qed.

  Lemma stop_not_runs (w : R) n : ~ runs (fun s => let* phi := compute_supervised_multinomial_phi dfuel 0 (p_beta stop_model) (p_eta stop_model) (fst s) w in
                     Ok (compute_gamma [1%Z] (p_alpha stop_model) phi, phi))
        (below 2 fst (e_tolerance stop_conf)) (e_iterations stop_conf) None
        (init_gamma [1/10; 1/10] 1 2, init_phi 2 1) n (init_gamma [1/10; 1/10] 1 2, init_phi 2 1).
  Proof.
    intros H. inversion H as [|l p s B|l p s s' k t B E R]; subst; clear H.
    - unfold below, mean_change, init_gamma in B. cbn -[Rabs Rlt_dec] in B. destruct (Rlt_dec _ _) as [L|L]; [|discriminate].
      pose proof (Rabs_pos (0 - (1 / 10 + 1 / 2))). lra.
    - inversion R; subst. clear R. apply bind_ok in E. destruct E as (phi & Ep & E). injection E as _ E.
      unfold compute_supervised_multinomial_phi in Ep. cbn [fst] in Ep. rewrite (psi_of_R lg dfuel Hfuel) in Ep.
      2:{ intros x [<-|[<-|[]]]; cbn; lra. }
      cbn [bind] in Ep. apply bind_ok in Ep. destruct Ep as (dg & _ & Ep). cbv zeta in Ep. rewrite (vmapM_fexp lg) in Ep. cbn [bind] in Ep. injection Ep as Ep. rewrite <- Ep in E.
      assert (Q : mget (init_phi 2 1) 1 0 = 1 / 2) by reflexivity. rewrite <- E in Q. clear E Ep.
      unfold scale_normalize in Q. rewrite (normalize_cols_R lg) in Q by (cbn; lia).
      rewrite !mget_tab in Q by (cbn; lia).
      assert (Z0 : mget {| mrows := 2; mcols := [[1; 0]] |} 1 0 = 0) by reflexivity. rewrite Z0 in Q.
      destruct (Req_EM_T _ 0) in Q; cbn [mul div Rops] in Q; unfold Rdiv in Q; rewrite ?Rmult_0_l in Q; lra.
  Qed.
End Stop.
