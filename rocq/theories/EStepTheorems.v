(** Property theorems C29-C36: the E steps. *)
Require Import Reals ZArith List Lra Lia.
From Flocq Require Import Core.Core IEEE754.BinarySingleNaN.
Require Import Verif.Base Verif.Scalar Verif.Mat Verif.UtilsModel Verif.UtilsSpec Verif.UtilsProofs.
Require Import Verif.BuilderModel Verif.EStepModel Verif.EStepSpec.
Require Import Verif.UtilsFloat Verif.EStepAny Verif.EStepFloat Verif.EStepReal Verif.EStepZero Verif.EStepCorr.
Require Import Verif.EStepOpt Verif.EStepElbo Verif.EStepStop Verif.EStepSlda.
Import ListNotations.
Open Scope R_scope.

(** ** C29: absent words do not influence gamma.
    [same_on_words]: the two models differ only in the topics' entries for words with count zero.
    The outcome (a gamma, an exception or undefined behaviour) is the same. *)
Theorem C29_unsupervised : forall (T : Type) (O : ops T) dfuel cf emit (d : doc T) (m m' : params T),
  same_on_words (d_words d) m m' ->
  omap (fun r => v_gamma (fst r)) (unsupervised_doc_e_step dfuel cf emit d m) =
  omap (fun r => v_gamma (fst r)) (unsupervised_doc_e_step dfuel cf emit d m').
Proof.
  exact (fun T O dfuel cf emit d m m' H =>
    orel_omap _ _ _ _ _ (unsupervised_words dfuel cf emit d m m' H) (fun a b R => proj1 R)).
Qed.
Theorem C29_multinomial : forall (T : Type) (O : ops T) dfuel cf mu w emit (d : doc T) (m m' : params T),
  same_on_words (d_words d) m m' ->
  omap (fun r => v_gamma (fst r)) (multinomial_doc_e_step dfuel cf mu w emit d m) =
  omap (fun r => v_gamma (fst r)) (multinomial_doc_e_step dfuel cf mu w emit d m').
Proof.
  exact (fun T O dfuel cf mu w emit d m m' H =>
    orel_omap _ _ _ _ _ (multinomial_words dfuel cf mu w emit d m m' H) (fun a b R => proj1 R)).
Qed.
Theorem C29_slda : forall (T : Type) (O : ops T) dfuel cf fpi emit (d : doc T) (m m' : params T),
  same_on_words (d_words d) m m' ->
  omap (fun r => v_gamma (fst r)) (supervised_doc_e_step dfuel cf fpi emit d m) =
  omap (fun r => v_gamma (fst r)) (supervised_doc_e_step dfuel cf fpi emit d m').
Proof.
  exact (fun T O dfuel cf fpi emit d m m' H =>
    orel_omap _ _ _ _ _ (supervised_words dfuel cf fpi emit d m m' H) (fun a b R => proj1 R)).
Qed.
Theorem C29_fast_double : forall (lg ex lga : binary_float 53 1024 -> binary_float 53 1024) sum
    dfuel cf w emit (d : doc (binary_float 53 1024)) m m',
  let O := Fops 53 1024 lg ex lga sum in
  same_on_words (d_words d) m m' ->
  omap (fun r => v_gamma (fst r)) (fast_supervised_doc_e_step dfuel cf w emit d m) =
  omap (fun r => v_gamma (fst r)) (fast_supervised_doc_e_step dfuel cf w emit d m').
Proof.
  exact (fun lg ex lga sum dfuel cf w emit d m m' H =>
    let O := Fops 53 1024 lg ex lga sum in
    orel_omap _ _ _ _ _ (fast_words dfuel cf w emit d m m' (zero_ratio_F 53 1024 eq_refl lg ex lga sum) H) (fun a b R => proj1 R)).
Qed.
Theorem C29_fast_float : forall (lg ex lga : binary_float 24 128 -> binary_float 24 128) sum
    dfuel cf w emit (d : doc (binary_float 24 128)) m m',
  let O := Fops 24 128 lg ex lga sum in
  same_on_words (d_words d) m m' ->
  omap (fun r => v_gamma (fst r)) (fast_supervised_doc_e_step dfuel cf w emit d m) =
  omap (fun r => v_gamma (fst r)) (fast_supervised_doc_e_step dfuel cf w emit d m').
Proof.
  exact (fun lg ex lga sum dfuel cf w emit d m m' H =>
    let O := Fops 24 128 lg ex lga sum in
    orel_omap _ _ _ _ _ (fast_words dfuel cf w emit d m m' (zero_ratio_F 24 128 eq_refl lg ex lga sum) H) (fun a b R => proj1 R)).
Qed.
Theorem C29_fast_exact : forall (lg : R -> R) dfuel cf w emit (d : doc R) m m',
  let O := Rops lg in
  same_on_words (d_words d) m m' ->
  omap (fun r => v_gamma (fst r)) (fast_supervised_doc_e_step dfuel cf w emit d m) =
  omap (fun r => v_gamma (fst r)) (fast_supervised_doc_e_step dfuel cf w emit d m').
Proof.
  exact (fun lg dfuel cf w emit d m m' H =>
    let O := Rops lg in
    orel_omap _ _ _ _ _ (fast_words dfuel cf w emit d m m' (zero_ratio_R lg) H) (fun a b R => proj1 R)).
Qed.
(** The correspondence E step normalises tau over the whole vocabulary, so there it is false. *)
Theorem C29_refuted : forall (lg : R -> R), let O := Rops lg in
  exists cf mu (d : doc R) m m', same_on_words (d_words d) m m' /\
    omap (fun r => v_gamma (fst r)) (correspondence_doc_e_step 7 cf mu false d m) <>
    omap (fun r => v_gamma (fst r)) (correspondence_doc_e_step 7 cf mu false d m').
Proof.
  exact (fun lg => let O := Rops lg in
    ex_intro _ ex_conf (ex_intro _ 2 (ex_intro _ ex_doc (ex_intro _ (ex_model lg 0) (ex_intro _ (ex_model lg 1)
      (correspondence_absent_words lg 7 (le_n 7))))))).
Qed.
(** Two models that differ at an absent word, one of them with a NaN. *)
Example C29_nan : forall lg ex lga sum, let O := Fops 53 1024 lg ex lga sum in
  same_on_words [1%Z; 0%Z] (mk_params [one; one] (mk_mat 2 [[one; zero]; [one; one]]) (mk_mat 2 []))
                           (mk_params [one; one] (mk_mat 2 [[one; zero]; [one; B754_nan]]) (mk_mat 2 [])).
Proof.
  intros. repeat split. intros i [|[|n]] H; [reflexivity|now elim H|]. destruct n; now elim H.
Qed.

(** A model and a document with all the properties required below. *)
Definition ok_model : params R :=
  mk_params [1/10; 1/10] (mk_mat 2 [[1/2; 1/3]; [1/2; 2/3]]) (mk_mat 2 [[1; -1]; [0; 1/2]]).
Definition ok_doc : doc R := mk_doc [2%Z; 0%Z] (Some 1%Z) 1 [1/2; 1/2].
Example C30_inputs : forall lg, let O := Rops lg in proper_input (d_words ok_doc) ok_model.
Proof.
  intros. constructor; cbn; try lia; auto.
  - intros [|[|i]] Hi; [| |lia]; unfold vget; cbn; lra.
  - intros [|[|i]] [|[|n]] Hi Hn; try lia; unfold mget; cbn; lra.
Qed.
Example C31_class : forall lg, let O := Rops lg in class_in_range 1 ok_model.
Proof. intros. split; [reflexivity|cbn; lia]. Qed.
Example C32_supported : forall lg, let O := Rops lg in
  forall n, (n < ncols (p_beta ok_model))%nat -> nth n (d_words ok_doc) 0%Z <> 0%Z -> supported (p_beta ok_model) n.
Proof. intros. exists 0%nat. split; [cbn; lia|]. destruct n as [|[|n]]; unfold mget; cbn in *; try lra; lia. Qed.

(** ** C30: the unsupervised E step returns a valid posterior *)
Theorem C30_valid_posterior : forall (lg : R -> R) (cf : econf R) (emit : bool) (d : doc R) (m : params R),
  let O := Rops lg in
  proper_input (d_words d) m ->
  exists gamma phi ev, unsupervised_doc_e_step 7 cf emit d m = Ok (mk_vparams gamma phi [], ev) /\
    valid_posterior (d_words d) m gamma phi /\ (emit = true -> exists v, ev = Some v).
Proof. exact (fun lg cf emit d m PI => unsupervised_valid lg (d_words d) m PI 7 (le_n 7) cf emit d eq_refl). Qed.

(** ** C31: the supervised variants return valid posteriors.  The likelihood of the fast
    supervised E step is only defined for documents with a word. *)
Theorem C31_fast : forall (lg : R -> R) (cf : econf R) (w : R) (emit : bool) (d : doc R) (m : params R) (y : Z),
  let O := Rops lg in
  proper_input (d_words d) m -> d_class d = Some y -> class_in_range y m ->
  (emit = true -> exists n, (0 < nth n (d_words d) 0)%Z) ->
  exists gamma phi ev, fast_supervised_doc_e_step 7 cf w emit d m = Ok (mk_vparams gamma phi [], ev) /\
    valid_posterior (d_words d) m gamma phi /\ (emit = true -> exists v, ev = Some v).
Proof.
  exact (fun lg cf w emit d m y PI Ey Hy NE => fast_valid lg (d_words d) m PI 7 (le_n 7) cf w emit d y eq_refl Ey Hy NE).
Qed.
Theorem C31_multinomial : forall (lg : R -> R) (cf : econf R) (mu w : R) (emit : bool) (d : doc R) (m : params R) (y : Z),
  let O := Rops lg in
  proper_input (d_words d) m -> d_class d = Some y -> class_in_range y m ->
  (forall i, (i < mrows (p_beta m))%nat -> 0 < mget (p_eta m) i (Z.to_nat y)) ->
  (y < Z.of_nat (length (d_priors d)))%Z ->
  exists gamma phi ev, multinomial_doc_e_step 7 cf mu w emit d m = Ok (mk_vparams gamma phi [], ev) /\
    valid_posterior (d_words d) m gamma phi /\ (emit = true -> exists v, ev = Some v).
Proof.
  exact (fun lg cf mu w emit d m y PI Ey Hy _ Hp => multinomial_valid lg (d_words d) m PI 7 (le_n 7) cf mu w emit d y eq_refl Ey Hy Hp).
Qed.
Theorem C31_correspondence : forall (lg : R -> R) (cf : econf R) (mu : R) (emit : bool) (d : doc R) (m : params R) (y : Z),
  let O := Rops lg in let V := ncols (p_beta m) in
  proper_input (d_words d) m -> d_class d = Some y -> class_in_range y m ->
  (forall i, (i < mrows (p_beta m))%nat -> 0 < mget (p_eta m) i (Z.to_nat y)) ->
  exists gamma phi tau ev, correspondence_doc_e_step 7 cf mu emit d m = Ok (mk_vparams gamma phi tau, ev) /\
    valid_posterior (d_words d) m gamma phi /\
    (length tau = V /\ (forall n, (n < V)%nat -> 0 < vget tau n) /\ ((0 < V)%nat -> rsum V (vget tau) = 1)) /\
    (emit = true -> exists v, ev = Some v).
Proof.
  exact (fun lg cf mu emit d m y PI Ey Hy _ => correspondence_valid lg (d_words d) m PI 7 (le_n 7) cf mu emit d y eq_refl Ey Hy).
Qed.

(** ** C32: the sLDA E step.  [fexp lg] is the value of the library's exponential (C24). *)
Theorem C32_valid_posterior : forall (lg : R -> R) (cf : econf R) (fpi : nat) (d : doc R) (m : params R) (y : Z),
  let O := Rops lg in
  proper_input (d_words d) m -> d_class d = Some y -> class_in_range y m ->
  (forall n, (n < ncols (p_beta m))%nat -> nth n (d_words d) 0%Z <> 0%Z -> supported (p_beta m) n) ->
  exists gamma phi, supervised_doc_e_step 7 cf fpi false d m = Ok (mk_vparams gamma phi [], None) /\
    valid_posterior (d_words d) m gamma phi.
Proof.
  exact (fun lg cf fpi d m y PI Ey Hy HS => slda_no_report lg (d_words d) m y PI Hy HS 7 (le_n 7) cf fpi d eq_refl Ey).
Qed.
(** One pass over the words starts consistent and ends consistent ... *)
Theorem C32_pass_consistent : forall (lg : R -> R) (X : list Z) (m : params R) (y : Z) (fpi : nat) phi gamma h,
  let O := Rops lg in let N := fold_right Z.add 0%Z X in
  let K := mrows (p_beta m) in let V := ncols (p_beta m) in
  proper_input X m -> class_in_range y m ->
  (forall n, (n < V)%nat -> nth n X 0%Z <> 0%Z -> supported (p_beta m) n) ->
  (mrows phi = K /\ ncols phi = V /\ forall n, (n < V)%nat ->
     (forall i, (i < K)%nat -> 0 <= mget phi i n) /\ rsum K (fun i => mget phi i n) = 1) ->
  (length gamma = K /\ forall i, (i < K)%nat ->
     vget gamma i = vget (p_alpha m) i + rsum V (fun n => IZR (nth n X 0%Z) * mget phi i n)) ->
  exists s, compute_supervised_phi_gamma 7 X (ratio X N) (Z.to_nat y) (p_beta m) (p_eta m) fpi phi gamma h = Ok s /\
    consistent (fexp lg) X N m s.
Proof. exact phi_gamma_consistent. Qed.
(** ... and in it, every word finds and leaves a consistent state and uses the documented h. *)
Theorem C32_word_documented_h : forall (lg : R -> R) (X : list Z) (m : params R) (y : Z) (fpi : nat) (s : slda R) (n : nat),
  let O := Rops lg in let N := fold_right Z.add 0%Z X in
  proper_input X m -> class_in_range y m ->
  (forall n, (n < ncols (p_beta m))%nat -> nth n X 0%Z <> 0%Z -> supported (p_beta m) n) ->
  consistent (fexp lg) X N m s -> (n < ncols (p_beta m))%nat ->
  exists s', slda_word 7 X (ratio X N) (Z.to_nat y) (p_beta m) (p_eta m) fpi s n = Ok s' /\
    consistent (fexp lg) X N m s' /\
    (nth n X 0%Z <> 0%Z -> exists h, s_h s' = Some h /\
       forall i, (i < mrows (p_beta m))%nat -> vget h i = documented_h (fexp lg) X N (p_eta m) (s_phi s) n i).
Proof. exact slda_word_consistent. Qed.
(** The reported likelihood is the plain one plus the class term with the product over all words. *)
Theorem C32_likelihood : forall (lg : R -> R) (cf : econf R) (fpi : nat) (d : doc R) (m : params R) (y : Z),
  let O := Rops lg in let X := d_words d in let N := fold_right Z.add 0%Z X in
  let K := mrows (p_beta m) in let V := ncols (p_beta m) in
  proper_input X m -> d_class d = Some y -> class_in_range y m ->
  (forall n, (n < V)%nat -> nth n X 0%Z <> 0%Z -> supported (p_beta m) n) ->
  (0 < e_iterations cf)%nat -> e_tolerance cf <= (rsum K (vget (p_alpha m)) + IZR N) / INR K ->
  (exists n, (0 < nth n X 0)%Z) ->
  exists gamma phi v l, supervised_doc_e_step 7 cf fpi true d m = Ok (mk_vparams gamma phi [], Some v) /\
    valid_posterior X m gamma phi /\
    compute_unsupervised_likelihood 7 X (p_alpha m) (p_beta m) phi gamma = Ok l /\
    v = l + rsum V (fun n => IZR (nth n X 0%Z) * rsum K (fun i => mget phi i n * mget (p_eta m) i (Z.to_nat y))) / IZR N
          - ln (class_normaliser (fexp lg) X N (p_eta m) phi).
Proof.
  exact (fun lg cf fpi d m y PI Ey Hy HS => slda_report lg (d_words d) m y PI Hy HS 7 (le_n 7) cf fpi d eq_refl Ey).
Qed.
Example C32_stop : forall lg, let O := Rops lg in
  1 / 10 <= (rsum 2 (vget (p_alpha ok_model)) + IZR 2) / INR 2.
Proof. intros. unfold rsum, vget. cbn. lra. Qed.

(** ** C33: at most [e_iterations] updates; earlier only when the mean absolute change of gamma is
    below the tolerance (see [runs] and [below]).  For every scalar type. *)
Theorem C33_unsupervised : forall (T : Type) (O : ops T) dfuel cf emit (d : doc T) (m : params T) g phi tau ev,
  unsupervised_doc_e_step dfuel cf emit d m = Ok (mk_vparams g phi tau, ev) ->
  let K := mrows (p_beta m) in let X := d_words d in
  exists n, (n <= e_iterations cf)%nat /\
    runs (fun s => let* phi := compute_unsupervised_phi dfuel (p_beta m) (fst s) in
                   Ok (compute_gamma X (p_alpha m) phi, phi))
      (below K fst (e_tolerance cf)) (e_iterations cf) None
      (init_gamma (p_alpha m) (Zsum X) K, init_phi K (length X)) n (g, phi).
Proof. exact (fun T O dfuel => unsupervised_stops dfuel). Qed.
Theorem C33_fast : forall (T : Type) (O : ops T) dfuel cf w emit (d : doc T) (m : params T) y g phi tau ev,
  d_class d = Some y ->
  fast_supervised_doc_e_step dfuel cf w emit d m = Ok (mk_vparams g phi tau, ev) ->
  let K := mrows (p_beta m) in let X := d_words d in
  exists n, (n <= e_iterations cf)%nat /\
    runs (fun s => let* phi := compute_supervised_approximate_phi dfuel (ratio X (Zsum X)) (Zsum X) (Z.to_nat y)
                                 (p_beta m) (p_eta m) (fst s) w (snd s) in
                   Ok (compute_gamma X (p_alpha m) phi, phi))
      (below K fst (e_tolerance cf)) (e_iterations cf) None
      (init_gamma (p_alpha m) (Zsum X) K, init_phi K (length X)) n (g, phi).
Proof. exact (fun T O dfuel => fast_stops dfuel). Qed.
Theorem C33_correspondence : forall (T : Type) (O : ops T) dfuel cf mu emit (d : doc T) (m : params T) y g phi tau ev,
  d_class d = Some y ->
  correspondence_doc_e_step dfuel cf mu emit d m = Ok (mk_vparams g phi tau, ev) ->
  let K := mrows (p_beta m) in let X := d_words d in let V := length X in
  exists n, (n <= e_iterations cf)%nat /\
    runs (fun s => let* phi := compute_supervised_correspondence_phi dfuel (Z.to_nat y) (p_beta m) (p_eta m) (fst (fst s)) (snd s) in
                   let* tau := compute_supervised_correspondence_tau (Z.to_nat y) (p_eta m) phi in
                   Ok (compute_gamma X (p_alpha m) phi, phi, tau))
      (below K (fun s => fst (fst s)) (e_tolerance cf)) (e_iterations cf) None
      (init_gamma (p_alpha m) (Zsum X) K, init_phi K V, vtab V (fun _ => div one (ofZ (Z.of_nat V)))) n (g, phi, tau).
Proof. exact (fun T O dfuel => correspondence_stops dfuel). Qed.
Theorem C33_slda : forall (T : Type) (O : ops T) dfuel cf fpi emit (d : doc T) (m : params T) y g phi tau ev,
  d_class d = Some y ->
  supervised_doc_e_step dfuel cf fpi emit d m = Ok (mk_vparams g phi tau, ev) ->
  let K := mrows (p_beta m) in let X := d_words d in
  exists n h, (n <= e_iterations cf)%nat /\
    runs (fun s => let* r := compute_supervised_phi_gamma dfuel X (ratio X (Zsum X)) (Z.to_nat y) (p_beta m) (p_eta m) fpi
                               (snd (fst s)) (fst (fst s)) (snd s) in
                   Ok (s_gamma r, s_phi r, s_h r))
      (below K (fun s => fst (fst s)) (e_tolerance cf)) (e_iterations cf) None
      (init_gamma (p_alpha m) (Zsum X) K, init_phi K (length X), None) n (g, phi, h).
Proof. exact (fun T O dfuel => supervised_stops dfuel). Qed.
(** The multinomial E step compares with the compute_likelihood setting instead. *)
Theorem C33_multinomial_partial : forall (T : Type) (O : ops T) dfuel cf mu w emit (d : doc T) (m : params T) y g phi tau ev,
  d_class d = Some y ->
  multinomial_doc_e_step dfuel cf mu w emit d m = Ok (mk_vparams g phi tau, ev) ->
  let K := mrows (p_beta m) in let X := d_words d in
  exists n, (n <= e_iterations cf)%nat /\
    runs (fun s => let* phi := compute_supervised_multinomial_phi dfuel (Z.to_nat y) (p_beta m) (p_eta m) (fst s) w in
                   Ok (compute_gamma X (p_alpha m) phi, phi))
      (below K fst (e_compute_likelihood cf)) (e_iterations cf) None
      (init_gamma (p_alpha m) (Zsum X) K, init_phi K (length X)) n (g, phi).
Proof. exact (fun T O dfuel => multinomial_stops dfuel). Qed.
Theorem C33_refuted : forall (lg : R -> R) (mu w : R), let O := Rops lg in
  exists cf (d : doc R) m y g phi, d_class d = Some y /\
    multinomial_doc_e_step 7 cf mu w false d m = Ok (mk_vparams g phi [], None) /\
    let K := mrows (p_beta m) in let X := d_words d in
    forall n, ~ runs (fun s => let* phi := compute_supervised_multinomial_phi 7 (Z.to_nat y) (p_beta m) (p_eta m) (fst s) w in
                               Ok (compute_gamma X (p_alpha m) phi, phi))
      (below K fst (e_tolerance cf)) (e_iterations cf) None
      (init_gamma (p_alpha m) (Zsum X) K, init_phi K (length X)) n (g, phi).
Proof.
  exact (fun lg mu w => let O := Rops lg in
    ex_intro _ stop_conf (ex_intro _ stop_doc (ex_intro _ stop_model (ex_intro _ 0%Z (ex_intro _ _ (ex_intro _ _
      (conj eq_refl (conj (stop_run lg 7 mu w) (stop_not_runs lg 7 (le_n 7) w))))))))).
Qed.

(** ** C34: the phi update maximises the bound up to twice the error of the exponential per word.
    [phi_part] is the part of the bound that depends on phi. *)
Theorem C34_phi_optimal : forall (lg psi : R -> R) (X : list Z) (m : params R) (gamma : list R) (eps : R),
  let O := Rops lg in let K := mrows (p_beta m) in let V := ncols (p_beta m) in
  is_digamma psi -> length gamma = K -> (forall i, (i < K)%nat -> 0 < vget gamma i) ->
  (forall i n, (i < K)%nat -> (n < V)%nat -> 0 <= mget (p_beta m) i n) ->
  (forall x, In x X -> (0 <= x)%Z) -> length X = V ->
  (forall i, (i < K)%nat -> Rmax 1 (Rabs (psi (vget gamma i))) / 1023 + 3 / 10 ^ 9 <= eps) ->
  exists phi, compute_unsupervised_phi 7 (p_beta m) gamma = Ok phi /\
    forall q, competitor X (p_beta m) q ->
      phi_part psi X m gamma q <= phi_part psi X m gamma phi + 2 * eps * IZR (fold_right Z.add 0%Z X).
Proof. exact (fun lg => phi_optimal lg 7 (le_n 7)). Qed.
Example C34_competitor : forall lg, let O := Rops lg in
  competitor (d_words ok_doc) (p_beta ok_model) (mk_mat 2 [[1/4; 3/4]; [0; 0]]).
Proof.
  intros lg O [|[|n]] Hn Hx; [|now elim Hx|cbn in Hn; lia]. split.
  - unfold rsum, mget. cbn. lra.
  - intros [|[|i]] Hi; [| |cbn in Hi; lia]; unfold mget; cbn; lra.
Qed.

(** ** C35: without supervision the fast supervised E step is the plain one *)
Theorem C35_no_supervision : forall (lg : R -> R) (cf : econf R) (w : R) (emit emit' : bool) (d : doc R) (m : params R) (y : Z),
  let O := Rops lg in
  proper_input (d_words d) m -> d_class d = Some y -> class_in_range y m ->
  (w = 0 \/ forall i c, (i < mrows (p_eta m))%nat -> (c < ncols (p_eta m))%nat -> mget (p_eta m) i c = 0) ->
  (emit = true -> exists n, (0 < nth n (d_words d) 0)%Z) ->
  exists gamma phi phi' ev ev',
    fast_supervised_doc_e_step 7 cf w emit d m = Ok (mk_vparams gamma phi [], ev) /\
    unsupervised_doc_e_step 7 cf emit' d m = Ok (mk_vparams gamma phi' [], ev') /\
    (fold_right Z.add 0%Z (d_words d) <> 0%Z -> phi = phi').
Proof.
  exact (fun lg cf w emit emit' d m y PI Ey Hy NS NE =>
    no_supervision_same lg 7 (le_n 7) (d_words d) m PI cf w emit emit' d y eq_refl Ey Hy NS NE).
Qed.

(** ** C36: the reported likelihood is the evidence lower bound, when no word occurs twice; up to
    the errors of digamma and of the 1e-44 (tiny) added inside the logarithms *)
Theorem C36_partial : forall (lg psi : R -> R) (b : R) (cf : econf R) (d : doc R) (m : params R),
  let O := Rops lg in let X := d_words d in let K := mrows (p_beta m) in let V := ncols (p_beta m) in
  is_digamma psi -> proper_input X m -> (forall x, In x X -> (x <= 1)%Z) ->
  0 < b -> (forall i n, (i < K)%nat -> (n < V)%nat -> nth n X 0%Z <> 0%Z -> b <= mget (p_beta m) i n) ->
  exists gamma phi v, unsupervised_doc_e_step 7 cf true d m = Ok (mk_vparams gamma phi [], Some v) /\
    let N := rsum V (fun n => IZR (nth n X 0%Z)) in
    Rabs (v - elbo lg psi X m gamma phi) <=
      2 / 10 ^ 9 * (rsum K (fun i => Rabs (vget (p_alpha m) i - 1)) + rsum K (fun i => Rabs (vget gamma i - 1)) + N) +
      / 10 ^ 44 * N * (/ b + INR K).
Proof. exact (fun lg psi b cf d m Hpsi => unsupervised_elbo lg 7 (le_n 7) psi (d_words d) m b cf d Hpsi eq_refl). Qed.
(** A word that occurs twice is counted once in two of the terms. *)
Theorem C36_refuted : forall (lg psi : R -> R) (cf : econf R), let O := Rops lg in
  is_digamma psi ->
  exists (d : doc R) m gamma phi v, proper_input (d_words d) m /\
    unsupervised_doc_e_step 7 cf true d m = Ok (mk_vparams gamma phi [], Some v) /\
    3 / 100 < v - elbo lg psi (d_words d) m gamma phi.
Proof. exact twice_refutes. Qed.
Example C36_once : forall x, In x [1%Z; 0%Z; 1%Z] -> (x <= 1)%Z.
Proof. intros x [<-|[<-|[<-|[]]]]; lia. Qed.

Print Assumptions C29_unsupervised.
Print Assumptions C29_multinomial.
Print Assumptions C29_slda.
Print Assumptions C29_fast_double.
Print Assumptions C29_fast_float.
Print Assumptions C29_fast_exact.
Print Assumptions C29_refuted.
Print Assumptions C30_valid_posterior.
Print Assumptions C31_fast.
Print Assumptions C31_multinomial.
Print Assumptions C31_correspondence.
Print Assumptions C32_valid_posterior.
Print Assumptions C32_pass_consistent.
Print Assumptions C32_word_documented_h.
Print Assumptions C32_likelihood.
Print Assumptions C33_unsupervised.
Print Assumptions C33_fast.
Print Assumptions C33_correspondence.
Print Assumptions C33_slda.
Print Assumptions C33_multinomial_partial.
Print Assumptions C33_refuted.
Print Assumptions C34_phi_optimal.
Print Assumptions C35_no_supervision.
Print Assumptions C36_partial.
Print Assumptions C36_refuted.
