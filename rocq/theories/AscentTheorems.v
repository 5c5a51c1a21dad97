(** Property theorem C69: the E steps climb their bounds. *)
Require Import Reals ZArith List Lra Lia.
Require Import Verif.Base Verif.Scalar Verif.Mat Verif.UtilsModel Verif.UtilsSpec Verif.UtilsProofs.
Require Import Verif.BuilderModel Verif.EStepModel Verif.EStepSpec Verif.EStepTheorems Verif.LgammaSpec Verif.LgammaProofs.
Require Import Verif.UpdateSpec Verif.UpdateCases Verif.AscentProofs Verif.AscentSlda Verif.AscentCases.
Import ListNotations.
Open Scope R_scope.

(** ** The gamma update maximises the bound, exactly: lg and psi are the logarithm of the gamma function and its derivative *)
Theorem C69_gamma : forall (lg psi : R -> R) (X : list Z) (m : params R) (gamma : list R) (phi : mat R), let O := Rops lg in
  let K := mrows (p_beta m) in let V := ncols (p_beta m) in
  is_lgamma lg -> is_digamma psi -> proper_input X m ->
  length gamma = K -> (forall i, (i < K)%nat -> 0 < vget gamma i) ->
  ncols phi = V -> (forall i n, (i < K)%nat -> (n < V)%nat -> nth n X 0%Z <> 0%Z -> 0 <= mget phi i n) ->
  elbo lg psi X m gamma phi <= elbo lg psi X m (compute_gamma X (p_alpha m) phi) phi.
Proof. exact (fun lg psi X m gamma phi HL HP PI => gamma_optimal lg psi X m HL HP PI gamma phi). Qed.

(** ** The unsupervised E step: unless it stops at once, its result is no worse than any assignment of the words would have been at
    the start, up to twice the error [eps] of the exponential per word and iteration *)
Theorem C69_unsupervised : forall (lg psi : R -> R) (m : params R) (cf : econf R) (emit : bool) (d : doc R) (eps : R), let O := Rops lg in
  let K := mrows (p_beta m) in let V := ncols (p_beta m) in let X := d_words d in let N := fold_right Z.add 0%Z X in
  is_lgamma lg -> is_digamma psi -> proper_input X m ->
  (forall n, (n < V)%nat -> nth n X 0%Z <> 0%Z -> supported (p_beta m) n) ->
  (forall i x, (i < K)%nat -> vget (p_alpha m) i <= x <= vget (p_alpha m) i + IZR N -> Rmax 1 (Rabs (psi x)) / 1023 + 3 / 10 ^ 9 <= eps) ->
  exists gamma phi ev, unsupervised_doc_e_step 7 cf emit d m = Ok (mk_vparams gamma phi [], ev) /\
    (gamma = start_gamma X m /\ phi = start_phi m /\
       (e_iterations cf = 0%nat \/ mean_change (vtab K (fun _ => 0)) (start_gamma X m) < e_tolerance cf) \/
     competitor X (p_beta m) phi /\ forall q, competitor X (p_beta m) q ->
       elbo lg psi X m (start_gamma X m) q <= elbo lg psi X m gamma phi + 2 * eps * IZR N * INR (e_iterations cf)).
Proof. exact (fun lg psi m cf emit d eps HL HP PI HS He => unsupervised_climbs lg 7 (le_n 7) psi (d_words d) m HL HP PI HS eps He cf emit d eq_refl). Qed.

(** ... and more iterations do not lose more than that per extra iteration. *)
Theorem C69_unsupervised_more : forall (lg psi : R -> R) (m : params R) (cf cf' : econf R) (emit emit' : bool) (d : doc R) (eps : R)
  gamma phi ev gamma' phi' ev', let O := Rops lg in
  let K := mrows (p_beta m) in let V := ncols (p_beta m) in let X := d_words d in let N := fold_right Z.add 0%Z X in
  is_lgamma lg -> is_digamma psi -> proper_input X m ->
  (forall n, (n < V)%nat -> nth n X 0%Z <> 0%Z -> supported (p_beta m) n) ->
  (forall i x, (i < K)%nat -> vget (p_alpha m) i <= x <= vget (p_alpha m) i + IZR N -> Rmax 1 (Rabs (psi x)) / 1023 + 3 / 10 ^ 9 <= eps) ->
  e_tolerance cf' = e_tolerance cf -> (1 <= e_iterations cf <= e_iterations cf')%nat ->
  unsupervised_doc_e_step 7 cf emit d m = Ok (mk_vparams gamma phi [], ev) ->
  unsupervised_doc_e_step 7 cf' emit' d m = Ok (mk_vparams gamma' phi' [], ev') ->
  elbo lg psi X m gamma phi <= elbo lg psi X m gamma' phi' + 2 * eps * IZR N * INR (e_iterations cf' - e_iterations cf).
Proof.
  exact (fun lg psi m cf cf' emit emit' d eps gamma phi ev gamma' phi' ev' HL HP PI HS He =>
    unsupervised_more lg 7 (le_n 7) psi (d_words d) m HL HP PI HS eps He cf cf' emit emit' d gamma phi ev gamma' phi' ev' eq_refl).
Qed.

(** ** The multinomial supervised E step (its second argument of [econf] that ends the loop early is C33) *)
Theorem C69_multinomial : forall (lg psi : R -> R) (m : params R) (cf : econf R) (mu w : R) (emit : bool) (d : doc R) (y : Z) (eps : R), let O := Rops lg in
  let K := mrows (p_beta m) in let V := ncols (p_beta m) in let X := d_words d in let N := fold_right Z.add 0%Z X in
  is_lgamma lg -> is_digamma psi -> proper_input X m ->
  (forall n, (n < V)%nat -> nth n X 0%Z <> 0%Z -> supported (p_beta m) n) ->
  d_class d = Some y -> class_in_range y m -> (y < Z.of_nat (length (d_priors d)))%Z ->
  (forall i x, (i < K)%nat -> vget (p_alpha m) i <= x <= vget (p_alpha m) i + IZR N ->
     Rmax 1 (Rabs (psi x - psi (rsum K (vget (p_alpha m)) + IZR N) + w * ln (mget (p_eta m) i (Z.to_nat y)) - 1)) / 1023 + 5 / 10 ^ 9 <= eps) ->
  exists gamma phi ev, multinomial_doc_e_step 7 cf mu w emit d m = Ok (mk_vparams gamma phi [], ev) /\
    (gamma = start_gamma X m /\ phi = start_phi m /\
       (e_iterations cf = 0%nat \/ mean_change (vtab K (fun _ => 0)) (start_gamma X m) < e_compute_likelihood cf) \/
     competitor X (p_beta m) phi /\ forall q, competitor X (p_beta m) q ->
       multinomial_bound lg psi X m w (Z.to_nat y) (start_gamma X m) q <=
       multinomial_bound lg psi X m w (Z.to_nat y) gamma phi + 2 * eps * IZR N * INR (e_iterations cf)).
Proof.
  exact (fun lg psi m cf mu w emit d y eps HL HP PI HS Ey Hy Hp He =>
    multinomial_climbs lg 7 (le_n 7) psi (d_words d) m HL HP PI HS w eps y He cf mu emit d eq_refl Ey Hy Hp).
Qed.
Theorem C69_multinomial_more : forall (lg psi : R -> R) (m : params R) (cf cf' : econf R) (mu mu' w : R) (emit emit' : bool) (d : doc R) (y : Z) (eps : R)
  gamma phi ev gamma' phi' ev', let O := Rops lg in
  let K := mrows (p_beta m) in let V := ncols (p_beta m) in let X := d_words d in let N := fold_right Z.add 0%Z X in
  is_lgamma lg -> is_digamma psi -> proper_input X m ->
  (forall n, (n < V)%nat -> nth n X 0%Z <> 0%Z -> supported (p_beta m) n) ->
  d_class d = Some y -> class_in_range y m -> (y < Z.of_nat (length (d_priors d)))%Z ->
  (forall i x, (i < K)%nat -> vget (p_alpha m) i <= x <= vget (p_alpha m) i + IZR N ->
     Rmax 1 (Rabs (psi x - psi (rsum K (vget (p_alpha m)) + IZR N) + w * ln (mget (p_eta m) i (Z.to_nat y)) - 1)) / 1023 + 5 / 10 ^ 9 <= eps) ->
  e_compute_likelihood cf' = e_compute_likelihood cf -> (1 <= e_iterations cf <= e_iterations cf')%nat ->
  multinomial_doc_e_step 7 cf mu w emit d m = Ok (mk_vparams gamma phi [], ev) ->
  multinomial_doc_e_step 7 cf' mu' w emit' d m = Ok (mk_vparams gamma' phi' [], ev') ->
  multinomial_bound lg psi X m w (Z.to_nat y) gamma phi <=
  multinomial_bound lg psi X m w (Z.to_nat y) gamma' phi' + 2 * eps * IZR N * INR (e_iterations cf' - e_iterations cf).
Proof.
  exact (fun lg psi m cf cf' mu mu' w emit emit' d y eps gamma phi ev gamma' phi' ev' HL HP PI HS Ey Hy Hp He =>
    multinomial_more lg 7 (le_n 7) psi (d_words d) m HL HP PI HS w eps y He cf cf' mu mu' emit emit' d gamma phi ev gamma' phi' ev' eq_refl Ey Hy Hp).
Qed.

(** ** sLDA (C67): the whole E step, for a document whose words occur at most once and can be emitted by every topic. [rho] bounds the ratio
    of the exponentials of eta's entries for two topics; eps the error of the exponential per fixed-point iteration. False without the
    restriction to words that occur once: C67_refuted. *)
Theorem C67_document_partial : forall (lg psi : R -> R) (m : params R) (cf : econf R) (fpi : nat) (emit : bool) (d : doc R) (y : Z) (rho eps : R) gamma phi ev,
  let O := Rops lg in
  let K := mrows (p_beta m) in let V := ncols (p_beta m) in let C := ncols (p_eta m) in let X := d_words d in let N := fold_right Z.add 0%Z X in
  is_lgamma lg -> is_digamma psi -> proper_input X m -> d_class d = Some y -> class_in_range y m ->
  (forall n, (n < V)%nat -> nth n X 0%Z <> 0%Z -> supported (p_beta m) n) ->
  (forall x, In x X -> (x <= 1)%Z) -> competitor X (p_beta m) (start_phi m) ->
  (forall i k c, (i < K)%nat -> (k < K)%nat -> (c < C)%nat -> fexp lg (mget (p_eta m) i c / IZR N) <= rho * fexp lg (mget (p_eta m) k c / IZR N)) ->
  (forall i g r, (i < K)%nat -> vget (p_alpha m) i <= g <= vget (p_alpha m) i + IZR N -> 0 <= r <= rho ->
     Rmax 1 (Rabs (psi g + mget (p_eta m) i (Z.to_nat y) / IZR N - r)) / 1023 + 3 / 10 ^ 9 <= eps) ->
  supervised_doc_e_step 7 cf fpi emit d m = Ok (mk_vparams gamma phi [], ev) ->
  competitor X (p_beta m) phi /\
  slda_document_bound lg psi (fexp lg) X m (Z.to_nat y) (start_gamma X m) (start_phi m) <=
  slda_document_bound lg psi (fexp lg) X m (Z.to_nat y) gamma phi + 2 * eps * INR fpi * IZR N * INR (e_iterations cf).
Proof.
  exact (fun lg psi m cf fpi emit d y rho eps gamma phi ev HL HP PI Ey HC HS H1 CS Hr He =>
    slda_climbs lg psi (d_words d) m y HL HP PI HC HS H1 rho eps fpi Hr He cf emit d gamma phi ev eq_refl Ey CS).
Qed.
Example C67_document_case : forall lg psi, let O := Rops lg in is_digamma psi ->
  let m := generative_model in let d := mk_doc [1; 1]%Z (Some 1%Z) 1 [1/2; 1/2] in let X := d_words d in
  proper_input X m /\ (forall n, (n < 2)%nat -> nth n X 0%Z <> 0%Z -> supported (p_beta m) n) /\
  class_in_range 1 m /\ competitor X (p_beta m) (start_phi m) /\ (forall x, In x X -> (x <= 1)%Z) /\
  exists rho eps,
    (forall i k c, (i < 2)%nat -> (k < 2)%nat -> (c < 2)%nat -> fexp lg (mget (p_eta m) i c / 2) <= rho * fexp lg (mget (p_eta m) k c / 2)) /\
    (forall i g r, (i < 2)%nat -> vget (p_alpha m) i <= g <= vget (p_alpha m) i + 2 -> 0 <= r <= rho ->
       Rmax 1 (Rabs (psi g + mget (p_eta m) i 1 / 2 - r)) / 1023 + 3 / 10 ^ 9 <= eps).
Proof. exact climbing_once. Qed.

(** The functions exist, and a two topic model and a three word document meet the hypotheses. *)
Example C69_functions : exists lg psi, is_lgamma lg /\ is_digamma psi.
Proof. exact climbing_functions. Qed.
Example C69_case : forall lg psi w, let O := Rops lg in is_digamma psi ->
  let m := generative_model in let d := mk_doc [2; 1]%Z (Some 1%Z) 1 [1/2; 1/2] in let X := d_words d in
  proper_input X m /\ (forall n, (n < 2)%nat -> nth n X 0%Z <> 0%Z -> supported (p_beta m) n) /\
  class_in_range 1 m /\ competitor X (p_beta m) once_phi /\ competitor X (p_beta m) (start_phi m) /\
  ~ mean_change (vtab 2 (fun _ => 0)) (start_gamma X m) < 1 / 100 /\
  (exists eps, forall i x, (i < 2)%nat -> vget (p_alpha m) i <= x <= vget (p_alpha m) i + 3 -> Rmax 1 (Rabs (psi x)) / 1023 + 3 / 10 ^ 9 <= eps) /\
  (exists eps, forall i x, (i < 2)%nat -> vget (p_alpha m) i <= x <= vget (p_alpha m) i + 3 ->
     Rmax 1 (Rabs (psi x - psi (rsum 2 (vget (p_alpha m)) + 3) + w * ln (mget (p_eta m) i 1) - 1)) / 1023 + 5 / 10 ^ 9 <= eps).
Proof. exact climbing_case. Qed.

Print Assumptions C69_gamma.
Print Assumptions C69_unsupervised.
Print Assumptions C69_unsupervised_more.
Print Assumptions C69_multinomial.
Print Assumptions C69_multinomial_more.
Print Assumptions C67_document_partial.
