(** The sizes of what the E steps return, for every scalar type. *)
Require Import ZArith List Bool Arith Lia.
Require Import Verif.Base Verif.Scalar Verif.Mat Verif.UtilsModel Verif.BuilderModel Verif.EStepModel Verif.MStepModel Verif.MStepSpec Verif.MStepAny Verif.LdaModel.
Import ListNotations.

Section Sizes.
  Context {T : Type} {O : ops T}.
  Variable dfuel : nat.

  Lemma em_loop_keeps {A} (I : A -> Prop) limit tol (g : A -> list T) up : (forall s s', I s -> up s = Ok s' -> I s') ->
    forall p s t, I s -> em_loop limit tol g up p s = Ok t -> I t.
  Proof.
    intros H. induction limit as [|n IH]; intros p s t Hs; cbn [em_loop].
    - intros E. now injection E as <-.
    - destruct (converged _ _ _); [intros E; now injection E as <-|]. intros E. apply bind_ok' in E.
      destruct E as (s' & E1 & E2). eauto.
  Qed.
  Lemma seqM_length {A} (l : list (outcome A)) r : seqM l = Ok r -> length r = length l.
  Proof.
    revert r. induction l as [|x l IH]; intros r H; cbn in H; [now injection H as <-|].
    apply bind_ok' in H. destruct H as (a & _ & H). apply bind_ok' in H. destruct H as (b & E & H). injection H as <-. cbn. now rewrite (IH b E).
  Qed.
  Lemma compute_gamma_length X (alpha : list T) phi : length (compute_gamma X alpha phi) = length alpha.
  Proof.
    unfold compute_gamma, sum_cols_scaled_int. generalize (seq 0 (ncols phi)). intros l. revert alpha.
    induction l as [|j l IH]; intros alpha; cbn; [reflexivity|]. rewrite IH. destruct (_ =? _)%Z; [reflexivity|]. apply vtab_length.
  Qed.
  Lemma normalize_cols_shape (m : mat T) : mrows (normalize_cols m) = mrows m /\ ncols (normalize_cols m) = ncols m.
  Proof. unfold normalize_cols. now rewrite mrows_tab, ncols_tab. Qed.
  Lemma scale_normalize_shape (b : mat T) e : mrows (scale_normalize b e) = mrows b /\ ncols (scale_normalize b e) = ncols b.
  Proof.
    unfold scale_normalize. destruct (normalize_cols_shape (mtab (mrows b) (ncols b) (fun i j => mul (mget b i j) (vget e i)))) as [-> ->].
    now rewrite mrows_tab, ncols_tab.
  Qed.

  (** gamma and phi have the sizes of alpha and beta *)
  Definition fitting (m : params T) (gamma : list T) (phi : mat T) : Prop :=
    length gamma = length (p_alpha m) /\ mrows phi = mrows (p_beta m) /\ ncols phi = ncols (p_beta m).
  Lemma init_fitting m N V : V = ncols (p_beta m) ->
    fitting m (init_gamma (p_alpha m) N (mrows (p_beta m))) (init_phi (mrows (p_beta m)) V).
  Proof. intros ->. unfold fitting, init_gamma, init_phi. now rewrite map_length, mrows_tab, ncols_tab. Qed.
  Lemma new_fitting m X phi : mrows phi = mrows (p_beta m) -> ncols phi = ncols (p_beta m) -> fitting m (compute_gamma X (p_alpha m) phi) phi.
  Proof. intros H1 H2. unfold fitting. now rewrite compute_gamma_length. Qed.

  Lemma slda_word_fitting X r y m fpi s n s' : fitting m (s_gamma s) (s_phi s) ->
    slda_word dfuel X r y (p_beta m) (p_eta m) fpi s n = Ok s' -> fitting m (s_gamma s') (s_phi s').
  Proof.
    intros (H1 & H2 & H3). unfold slda_word. destruct (_ =? 0)%Z; [intros E; injection E as <-; now repeat split|].
    intros E. apply bind_ok' in E. destruct E as (ee & _ & E). apply bind_ok' in E. destruct E as (new & _ & E).
    apply bind_ok' in E. destruct E as (psi & _ & E). injection E as <-. cbn [s_gamma s_phi].
    unfold fitting, set_col. now rewrite vtab_length, mrows_tab, ncols_tab.
  Qed.
  Lemma slda_fitting X r y m fpi phi gamma h s' : fitting m gamma phi ->
    compute_supervised_phi_gamma dfuel X r y (p_beta m) (p_eta m) fpi phi gamma h = Ok s' -> fitting m (s_gamma s') (s_phi s').
  Proof.
    intros H E. unfold compute_supervised_phi_gamma in E. apply bind_ok' in E. destruct E as (psi & _ & E).
    apply bind_ok' in E. destruct E as (pr & _ & E).
    assert (A : forall l (acc : outcome (slda T)), (forall s, acc = Ok s -> fitting m (s_gamma s) (s_phi s)) -> forall s',
      fold_left (fun acc n => let* s := acc in slda_word dfuel X r y (p_beta m) (p_eta m) fpi s n) l acc = Ok s' -> fitting m (s_gamma s') (s_phi s')).
    { induction l as [|n l IH]; intros acc Ha s1; cbn [fold_left]; [apply Ha|]. apply IH. intros s2 E2.
      apply bind_ok' in E2. destruct E2 as (s3 & E3 & E2). exact (slda_word_fitting X r y m fpi s3 n s2 (Ha s3 E3) E2). }
    apply (A _ (Ok (mk_slda phi gamma pr psi h))) with (2 := E). intros s1 E1. injection E1 as <-. exact H.
  Qed.

  Lemma report_end {A} (x : A) emit (lik : outcome T) (r : A) e : (let* ev := report emit lik in Ok (x, ev)) = Ok (r, e) -> r = x.
  Proof. intros E. apply bind_ok' in E. destruct E as (ev & _ & E). now injection E as <- <-. Qed.
  Lemma sizes_ok_eq (d : doc T) m : sizes_ok d m = true -> length (p_alpha m) = mrows (p_beta m) /\ length (d_words d) = ncols (p_beta m).
  Proof. unfold sizes_ok. intros H. apply andb_prop in H. destruct H as [H1 H2]. apply Nat.eqb_eq in H1, H2. tauto. Qed.
  Lemma fitting_sized (d : doc T) m gamma phi tau : sizes_ok d m = true -> fitting m gamma phi ->
    sized (mrows (p_beta m)) (ncols (p_beta m)) (d, mk_vparams gamma phi tau).
  Proof. intros H (F1 & F2 & F3). apply sizes_ok_eq in H. destruct H as [H1 H2]. unfold sized. cbn [fst snd v_phi v_gamma]. repeat split; congruence. Qed.

  Lemma e_step_sized k : forall epochs emit d m v e, doc_e_step dfuel k epochs emit d m = Ok (v, e) ->
    sized (mrows (p_beta m)) (ncols (p_beta m)) (d, v).
  Proof.
    induction k; intros epochs emit d m v e; cbn [doc_e_step].
    - unfold unsupervised_doc_e_step. intros E. apply bind_ok' in E. destruct E as (N & _ & E).
      destruct (sizes_ok d m) eqn:Hs; [|discriminate]. cbn [negb] in E. apply bind_ok' in E. destruct E as ([gamma phi] & E1 & E).
      apply report_end in E. subst v. apply fitting_sized; [assumption|].
      refine (em_loop_keeps (fun s => fitting m (fst s) (snd s)) _ _ _ _ _ _ _ (gamma, phi) _ E1).
      + intros s s' _ U. apply bind_ok' in U. destruct U as (p & U & U'). injection U' as <-.
        apply bind_ok' in U. destruct U as (psi & _ & U). apply bind_ok' in U. destruct U as (ex & _ & U). injection U as <-.
        apply new_fitting; apply scale_normalize_shape.
      + apply init_fitting. now apply sizes_ok_eq in Hs.
    - unfold supervised_doc_e_step. intros E. apply bind_ok' in E. destruct E as (N & _ & E). destruct (d_class d); [|discriminate].
      destruct (sizes_ok d m) eqn:Hs; [|discriminate]. cbn [negb andb] in E. destruct (class_ok z m); [|discriminate]. cbn [negb] in E.
      apply bind_ok' in E. destruct E as ([[gamma phi] h] & E1 & E).
      apply report_end in E. subst v. apply fitting_sized; [assumption|].
      refine (em_loop_keeps (fun s => fitting m (fst (fst s)) (snd (fst s))) _ _ _ _ _ _ _ (gamma, phi, h) _ E1).
      + intros s s' F U. apply bind_ok' in U. destruct U as (r & U & U'). injection U' as <-. cbn [fst snd]. exact (slda_fitting _ _ _ _ _ _ _ _ _ F U).
      + apply init_fitting. now apply sizes_ok_eq in Hs.
    - unfold fast_supervised_doc_e_step. intros E. apply bind_ok' in E. destruct E as (N & _ & E). destruct (d_class d); [|discriminate].
      destruct (sizes_ok d m) eqn:Hs; [|discriminate]. cbn [negb andb] in E. destruct (class_ok z m); [|discriminate]. cbn [negb] in E.
      apply bind_ok' in E. destruct E as ([gamma phi] & E1 & E).
      apply report_end in E. subst v. apply fitting_sized; [assumption|].
      refine (em_loop_keeps (fun s => fitting m (fst s) (snd s)) _ _ _ _ _ _ _ (gamma, phi) _ E1).
      + intros s s' F U. apply bind_ok' in U. destruct U as (p & U & U'). injection U' as <-. cbn [fst snd].
        unfold compute_supervised_approximate_phi in U. destruct (N =? 0)%Z.
        * injection U as <-. apply new_fitting; apply F.
        * apply bind_ok' in U. destruct U as (psi & _ & U). apply bind_ok' in U. destruct U as (ex & _ & U).
          destruct (max_coeff _) as [[mx ?]|]; [|discriminate]. apply bind_ok' in U. destruct U as (e0 & _ & U). injection U as <-.
          apply new_fitting; apply scale_normalize_shape.
      + apply init_fitting. now apply sizes_ok_eq in Hs.
    - unfold semi_supervised_doc_e_step. destruct (d_class d) as [y|]; [|discriminate]. destruct (y <? 0)%Z; eauto.
    - unfold multinomial_doc_e_step. intros E. apply bind_ok' in E. destruct E as (N & _ & E). destruct (d_class d); [|discriminate].
      destruct (sizes_ok d m) eqn:Hs; [|discriminate]. cbn [negb andb] in E. destruct (class_ok z m && _)%bool; [|discriminate]. cbn [negb] in E.
      apply bind_ok' in E. destruct E as ([gamma phi] & E1 & E).
      apply report_end in E. subst v. apply fitting_sized; [assumption|].
      refine (em_loop_keeps (fun s => fitting m (fst s) (snd s)) _ _ _ _ _ _ _ (gamma, phi) _ E1).
      + intros s s' F U. apply bind_ok' in U. destruct U as (p & U & U'). injection U' as <-. cbn [fst snd].
        unfold compute_supervised_multinomial_phi in U. apply bind_ok' in U. destruct U as (psi & _ & U). apply bind_ok' in U. destruct U as (ex & _ & U).
        apply bind_ok' in U. destruct U as (e0 & _ & U). injection U as <-.
        apply new_fitting; apply scale_normalize_shape.
      + apply init_fitting. now apply sizes_ok_eq in Hs.
    - unfold correspondence_doc_e_step. intros E. apply bind_ok' in E. destruct E as (N & _ & E). destruct (d_class d); [|discriminate].
      destruct (sizes_ok d m) eqn:Hs; [|discriminate]. cbn [negb andb] in E. destruct (class_ok z m); [|discriminate]. cbn [negb] in E.
      apply bind_ok' in E. destruct E as ([[gamma phi] tau] & E1 & E).
      apply report_end in E. subst v. apply fitting_sized; [assumption|].
      refine (em_loop_keeps (fun s => fitting m (fst (fst s)) (snd (fst s))) _ _ _ _ _ _ _ (gamma, phi, tau) _ E1).
      + intros s s' F U. apply bind_ok' in U. destruct U as (p & U & U'). apply bind_ok' in U'. destruct U' as (t & _ & U'). injection U' as <-. cbn [fst snd].
        unfold compute_supervised_correspondence_phi in U. apply bind_ok' in U. destruct U as (psi & _ & U). apply bind_ok' in U. destruct U as (ex & _ & U).
        apply bind_ok' in U. destruct U as (f & _ & U). injection U as <-.
        apply new_fitting;
          match goal with |- context [normalize_cols ?x] => destruct (normalize_cols_shape x) as [S1 S2]; rewrite mrows_tab in S1; rewrite ncols_tab in S2 end; assumption.
      + apply init_fitting. now apply sizes_ok_eq in Hs.
  Qed.

  (** the correspondence E step also returns a tau of the size of the vocabulary *)
  Lemma tau_sized cf mu epochs emit d m v e : doc_e_step dfuel (Correspondence cf mu) epochs emit d m = Ok (v, e) ->
    length (v_tau v) = ncols (p_beta m).
  Proof.
    cbn [doc_e_step]. unfold correspondence_doc_e_step. intros E. apply bind_ok' in E. destruct E as (N & _ & E). destruct (d_class d); [|discriminate].
    destruct (sizes_ok d m) eqn:Hs; [|discriminate]. cbn [negb andb] in E. destruct (class_ok z m); [|discriminate]. cbn [negb] in E.
    apply bind_ok' in E. destruct E as ([[gamma phi] tau] & E1 & E).
    apply report_end in E. subst v. cbn [v_tau].
    refine (em_loop_keeps (fun s => length (snd s) = ncols (p_beta m)) _ _ _ _ _ _ _ (gamma, phi, tau) _ E1).
    - intros s s' F U. apply bind_ok' in U. destruct U as (p & U & U'). apply bind_ok' in U'. destruct U' as (t & U2 & U'). injection U' as <-. cbn [fst snd].
      unfold compute_supervised_correspondence_phi in U. apply bind_ok' in U. destruct U as (psi & _ & U). apply bind_ok' in U. destruct U as (ex & _ & U).
      apply bind_ok' in U. destruct U as (f & _ & U). injection U as <-.
      unfold compute_supervised_correspondence_tau in U2. apply bind_ok' in U2. destruct U2 as (e0 & U2 & U3). injection U3 as <-.
      apply seqM_length in U2. unfold normalize_vec. destruct (eqb _ _); rewrite ?map_length, U2, map_length;
        unfold matT_vec; rewrite vtab_length; match goal with |- context [normalize_cols ?x] => destruct (normalize_cols_shape x) as [S1 S2]; rewrite ncols_tab in S2 end; assumption.
    - cbn [snd]. rewrite vtab_length. now apply sizes_ok_eq in Hs.
  Qed.
  Lemma posterior_e_step k epochs d (m : params T) v : posterior dfuel k epochs d m = Ok v -> exists e, doc_e_step dfuel k epochs false d m = Ok (v, e).
  Proof.
    unfold posterior. intros E. apply bind_ok' in E. destruct E as (? & _ & E). apply bind_ok' in E. destruct E as ([v' e] & E1 & E).
    injection E as <-. eauto.
  Qed.
  Lemma posterior_sized k epochs d (m : params T) v : posterior dfuel k epochs d m = Ok v -> sized (mrows (p_beta m)) (ncols (p_beta m)) (d, v).
  Proof. intros E. apply posterior_e_step in E. destruct E as (e & E). exact (e_step_sized _ _ _ _ _ _ _ E). Qed.
  Lemma posterior_tau cf mu epochs d (m : params T) v : posterior dfuel (Correspondence cf mu) epochs d m = Ok v -> length (v_tau v) = ncols (p_beta m).
  Proof. intros E. apply posterior_e_step in E. destruct E as (e & E). exact (tau_sized _ _ _ _ _ _ _ _ E). Qed.
End Sizes.
