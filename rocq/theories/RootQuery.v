(** Lemmas about transform and evaluate in the root directory's application. *)
Require Import ZArith List Bool Arith Lia Ascii String.
Require Import Verif.Base Verif.Scalar Verif.Mat Verif.NumpyModel Verif.NumpySpec Verif.NumpyProofs Verif.HostModel Verif.HostProofs Verif.DiskModel Verif.DiskProofs
  Verif.UtilsModel Verif.BuilderModel Verif.EStepModel Verif.EStepStop Verif.OptModel Verif.MStepModel Verif.MStepSpec Verif.PoolModel Verif.LdaModel Verif.InferProofs Verif.TrainSizes
  Verif.SettingsModel Verif.AppsModel Verif.ShapeSpec Verif.ShapeProofs Verif.CommandModel Verif.CommandSpec Verif.CommandProofs Verif.CommandFiles
  Verif.RootModel Verif.RootSpec Verif.RootScore.
Import ListNotations.
Local Open Scope nat_scope.
Local Open Scope list_scope.

Section Query.
  Context {T : Type} {O : ops T}.
  Variable to_bytes : T -> elem.
  Variable of_bytes : elem -> T.
  Hypothesis round : forall x, of_bytes (to_bytes x) = x.
  Hypothesis width : forall x, List.length (to_bytes x) = 8.
  Variable dfuel : nat.
  Variable args : string -> value.
  Variable stol : string -> outcome Z.
  Variable stof : string -> outcome T.
  Variable hw : nat.
  Variable jk : nat -> junk.
  Notation long_arg := (long_arg args stol).
  Notation float_arg := (float_arg args stof).
  Notation model_at := (model_at of_bytes jk).
  Notation gammas := (gammas dfuel).

  Lemma predict_length k epochs W (m : params T) X p : predict_call dfuel k epochs W m X (Ok p) -> List.length p = List.length X.
  Proof.
    intros (g0 & G & E). apply transform_unique in G. destruct (bind_ok _ _ _ (eq_sym E)) as (g & -> & E1). symmetry in G. destruct (gammas_sizes _ _ _ _ _ _ G) as [_ G2].
    destruct (bind_ok _ _ _ E1) as (s & D & E2). cbn beta in E2. unfold predict_scores in E2. apply seqM_length in E2. rewrite vtab_length in E2. rewrite E2, <- G2.
    unfold decision_function in D. destruct (negb _); [discriminate|]. injection D as <-. apply ncols_tab.
  Qed.

  Section Given.
    Variables (d : disk) (x y0 : emat) (f : string) (m : params T) (n e : Z) (t : T) (q : bool).
    Hypotheses (D : data_xy args jk d = Ok (x, y0)) (A : args "MODEL"%string = VString f) (B : model_at d f = Ok m) (NZ : 1 <= mrows (p_beta m))
      (E1 : long_arg "--workers" = Ok n) (E2 : long_arg "--e_step_iterations" = Ok e) (E3 : float_arg "--e_step_tolerance" = Ok t) (E4 : args "--quiet"%string = VBool q).
    Notation k := (Classic (mk_econf (size e) t one)).
    Lemma query_is : root_query of_bytes args stol stof hw jk d = Ok (columns x, y0, mk_object m k ClassicM 20 (size n)).
    Proof.
      unfold root_query. rewrite D. cbn [bind]. rewrite A. cbn [asString bind]. rewrite B. cbn [bind]. rewrite E1. cbn [bind scall_step]. rewrite E2. cbn [bind]. rewrite E3. cbn [bind scall_step].
      unfold topics_from_model, eta_from_model. cbn [p_alpha p_beta p_eta empty_params]. replace (mrows (p_beta m) =? 0) with false by (symmetry; apply Nat.eqb_neq; lia).
      cbn [store_e s_e_requires_eta s_m_requires_eta new_settings orb]. rewrite andb_false_r. cbn [bind]. rewrite E4. cbn [asBool bind]. destruct m; reflexivity.
    Qed.
    Variables (y : list Z) (W : nat) (p : list nat).
    Hypotheses (LY : labels y0 = Ok y) (P : predict_call dfuel k 0 W m (columns x) (Ok p)).
    Lemma evaluate_is r : evaluate_main of_bytes dfuel args stol stof hw jk d r -> r = accuracy_score y (map Z.of_nat p).
    Proof.
      unfold evaluate_main. rewrite query_is. cbn [ob_e ob_workers ob_params]. intros (p' & P' & ->).
      assert (EP : p' = Ok p). { destruct P' as (g & G & ->), P as (g' & G' & ->). now rewrite (transform_unique _ _ _ _ _ _ _ G), (transform_unique _ _ _ _ _ _ _ G'). }
      rewrite EP. cbn [bind]. now rewrite LY.
    Qed.
    Lemma evaluate_ends : 0 < size n -> exists r, evaluate_main of_bytes dfuel args stol stof hw jk d r.
    Proof.
      intros HN. eexists. unfold evaluate_main. rewrite query_is. cbn [ob_e ob_workers ob_params]. eexists. split; [|reflexivity]. eexists. split; [apply transform_exists, HN|reflexivity].
    Qed.
    Variables (g : mat T) (out : string).
    Hypotheses (G : transform_call dfuel k 0 W m (columns x) (Ok g)) (OUT : args "OUTPUT"%string = VString out) (ST : storable (mrows (p_beta m)) (em_cols x)).
    Lemma gammas_saved : exists w a, save false F8 (emat_of to_bytes g) = Ok w /\ mat_of of_bytes a = g /\
      forall j, NumpyModel.load false F8 false false j (mk_stream w true) = Ok (a, mk_stream [] true).
    Proof.
      pose proof G as TC. apply transform_unique in TC. symmetry in TC. destruct (gammas_sizes _ _ _ _ _ _ TC) as [G1 G2]. rewrite columns_length in G2. destruct ST as (S1 & S2 & S3).
      assert (TB : tabulated g).
      { unfold InferProofs.gammas, gather in TC. destruct (bind_ok _ _ _ TC) as (cols & _ & TC1). cbn beta in TC1. destruct (forallb _ cols) eqn:FB; [|discriminate]. injection TC1 as <-.
        unfold tabulated. cbn [mrows mcols]. rewrite forallb_forall in FB. apply Forall_forall. intros cc I. now apply Nat.eqb_eq, FB. }
      assert (VM : valid_matrix F8 (emat_of to_bytes g)) by (apply emat_valid; [exact width|lia|lia|rewrite G1, G2; exact S3]).
      destruct (matrix_roundtrip_same F8 (emat_of to_bytes g) false (jk 0) [] ltac:(repeat constructor) VM ltac:(discriminate)) as (w & SV & _).
      exists w, (emat_of to_bytes g). split; [exact SV|]. split; [exact (emat_round to_bytes of_bytes round g TB)|]. intros j.
      destruct (matrix_roundtrip_same F8 (emat_of to_bytes g) false j [] ltac:(repeat constructor) VM ltac:(discriminate)) as (w' & SV' & LD).
      rewrite SV in SV'. injection SV' as <-. now rewrite app_nil_r in LD.
    Qed.
    Lemma both_is W' r : transform_predict_call dfuel k 0 W' m (columns x) r -> r = Ok (g, p).
    Proof.
      intros (g1 & H1 & ->). rewrite (transform_unique _ _ _ _ _ _ _ H1), <- (transform_unique _ _ _ _ _ _ _ G). cbn [bind].
      destruct P as (g' & G' & E). rewrite (transform_unique _ _ _ _ _ _ _ G'), <- (transform_unique _ _ _ _ _ _ _ G) in E. cbn [bind] in E.
      destruct (decision_function m g) as [s| |]; cbn [bind] in *; try discriminate. now rewrite <- E.
    Qed.
    Lemma transform_is r d' : root_transform_main to_bytes of_bytes dfuel args stol stof hw jk good_device d r d' ->
      r = accuracy_score y (map Z.of_nat p) /\ (forall name, name <> bytes out -> d' name = d name) /\
      exists w a, d' (bytes out) = Some w /\ mat_of of_bytes a = g /\ forall j, NumpyModel.load false F8 false false j (mk_stream w true) = Ok (a, mk_stream [] true).
    Proof.
      unfold root_transform_main. rewrite query_is. cbn [ob_e ob_workers ob_params]. intros (gp & H & R). rewrite (both_is _ _ H) in R. cbn [bind] in R. rewrite OUT in R. cbn [asString bind] in R.
      destruct gammas_saved as (w & a & SV & MA & LD). rewrite SV in R. cbn [bind] in R. rewrite LY in R. cbn [bind] in R. destruct R as [-> GD]. unfold good_device in GD. subst d'.
      split; [reflexivity|]. split; [|exists w, a; split; [apply (saved_last [])|split; [exact MA|exact LD]]].
      intros name NE. apply (saved_other [(bytes out, w)] d name). intros [E|[]]. now apply NE.
    Qed.
    Lemma transform_ends : 0 < size n -> exists r d', root_transform_main to_bytes of_bytes dfuel args stol stof hw jk good_device d r d'.
    Proof.
      intros HN. destruct gammas_saved as (w & a & SV & _). exists (accuracy_score y (map Z.of_nat p)), (saved_all d [(bytes out, w)]). unfold root_transform_main. rewrite query_is. cbn [ob_e ob_workers ob_params].
      exists (Ok (g, p)). split.
      - assert (H : exists r, transform_predict_call dfuel k 0 (size n) m (columns x) r) by (eexists; eexists; split; [apply transform_exists, HN|reflexivity]).
        destruct H as (r & H). now rewrite <- (both_is _ _ H).
      - cbn [bind]. rewrite OUT. cbn [asString bind]. rewrite SV. cbn [bind]. rewrite LY. split; reflexivity.
    Qed.
  End Given.
End Query.
