(** Lemmas about the options of the applications. *)
Require Import ZArith List Bool Arith Lia String.
Require Import Verif.Base Verif.Scalar Verif.Mat Verif.UtilsModel Verif.BuilderModel Verif.AppsModel.
Import ListNotations.
Local Open Scope nat_scope.

Ltac bind_step H :=
  match type of H with
  | bind ?x _ = Ok _ => let E := fresh "E" in destruct x eqn:E; cbn [bind] in H; try discriminate H
  end.

Section Options.
  Context {T : Type} {O : ops T}.
  Variable args : string -> value.
  Variable stol : string -> outcome Z.
  Variable stof : string -> outcome T.
  Variable model_at : string -> outcome (params T).
  Variable uniform_draws : Z -> nat -> nat -> T.
  Variable document_draws : Z -> nat -> nat -> nat.
  Variable hw : nat.
  Notation init := (supervised_init args stol model_at uniform_draws document_draws).

  Lemma unsupervised_throws f words X y b :
    args "--continue"%string = VEmpty -> args "--continue_from_unsupervised"%string = VString f ->
    init words X y b = Throw ERuntime.
  Proof. intros A B. unfold supervised_init. rewrite A, B. reflexivity. Qed.

  Lemma continue_loads f m words X y b b' :
    args "--continue"%string = VString f -> model_at f = Ok m -> init words X y b = Ok b' ->
    snd b' = m.
  Proof.
    intros A B. unfold supervised_init. rewrite A. cbn [given asString bind]. rewrite B. cbn [bind].
    destruct b as (c, p). cbn [call bind]. intros E. injection E as <-. cbn. destruct m; reflexivity.
  Qed.

  Lemma slda_init words X y b : slda_train args stol stof model_at uniform_draws document_draws hw words X y = Ok b ->
    exists b0, init words X y b0 = Ok b.
  Proof.
    unfold slda_train. intros H. repeat bind_step H. injection H as <-. eauto.
  Qed.
  Lemma fslda_init words X y b : fslda_train args stol stof model_at uniform_draws document_draws hw words X y = Ok b ->
    exists b0, init words X y b0 = Ok b.
  Proof.
    unfold fslda_train. intros H. repeat bind_step H. injection H as <-. eauto.
  Qed.
  Lemma fslda_online_init words X y b : fslda_online_train args stol stof model_at uniform_draws document_draws hw words X y = Ok b ->
    exists b0, init words X y b0 = Ok b.
  Proof.
    unfold fslda_online_train. intros H. repeat bind_step H. injection H as <-. eauto.
  Qed.

  Lemma lda_continue f m words X b :
    args "--continue"%string = VString f -> model_at f = Ok m ->
    lda_train args stol stof model_at uniform_draws document_draws hw words X = Ok b ->
    p_alpha (snd b) = p_alpha m /\ p_beta (snd b) = p_beta m.
  Proof.
    intros A B. unfold lda_train. rewrite A. cbn [given asString bind]. rewrite B. cbn [bind]. intros H.
    do 6 bind_step H. destruct a4 as (c, p). cbn [call bind] in H.
    unfold eta_zeros in H. destruct (mrows (p_beta (topics_from_model m p)) =? 0); [discriminate H|]. cbn [bind] in H.
    bind_step H. injection H as <-. split; reflexivity.
  Qed.

  (** The transform commands succeed whenever their options can be read and the model has topics. *)
  Lemma transform_ok supervised f m n e t :
    args "MODEL"%string = VString f -> model_at f = Ok m -> mrows (p_beta m) <> 0 ->
    long_arg args stol "--workers" = Ok n -> long_arg args stol "--e_step_iterations" = Ok e ->
    float_arg args stof "--e_step_tolerance" = Ok t ->
    exists c, transform_command args stol stof model_at hw supervised
      = Ok (c, mk_params (p_alpha m) (p_beta m) (if supervised then p_eta m else empty_mat))
      /\ c_e c = EClassic.
  Proof.
    intros A B D E1 E2 E3. unfold transform_command, transform_builder. rewrite A. cbn [asString bind]. rewrite B. cbn [bind].
    rewrite E1, E2, E3. cbn [bind call]. destruct (Nat.eqb_spec (mrows (p_beta m)) 0) as [Z0|_]; [contradiction|].
    destruct supervised; cbn [bind call]; unfold check_build;
      cbn [fst snd topics_from_model eta_from_model empty_params p_beta p_eta p_alpha];
      destruct (Nat.eqb_spec (mrows (p_beta m)) 0) as [Z0|_]; try contradiction.
    - cbn. rewrite Bool.andb_false_r. cbn. eexists; split; reflexivity.
    - cbn. eexists; split; reflexivity.
  Qed.
End Options.
