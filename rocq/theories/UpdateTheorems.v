(** Property theorems C66-C68: what the supervised E steps optimise and report. *)
Require Import Reals ZArith List Lra Lia.
From Coquelicot Require Import Coquelicot.
Require Import Verif.Base Verif.Scalar Verif.Mat Verif.UtilsModel Verif.UtilsSpec Verif.UtilsProofs.
Require Import Verif.BuilderModel Verif.EStepModel Verif.EStepSpec Verif.EStepReal Verif.EStepElbo Verif.EStepSlda Verif.EStepTheorems.
Require Import Verif.UpdateSpec Verif.UpdateProofs Verif.UpdateSlda Verif.UpdateRefute Verif.UpdateReport Verif.UpdateCases.
Import ListNotations.
Open Scope R_scope.

(** ** C66: each supervised phi update maximises its objective, up to twice the error of the exponential per word *)
Theorem C66_multinomial : forall (lg psi : R -> R) (X : list Z) (m : params R) (gamma : list R) (y : nat) (w eps : R),
  let O := Rops lg in let K := mrows (p_beta m) in
  is_digamma psi -> proper_input X m -> length gamma = K -> (forall i, (i < K)%nat -> 0 < vget gamma i) ->
  (forall i, (i < K)%nat -> Rmax 1 (Rabs (multinomial_worth psi m gamma w y i 0 - 1)) / 1023 + 5 / 10 ^ 9 <= eps) ->
  exists phi, compute_supervised_multinomial_phi 7 y (p_beta m) (p_eta m) gamma w = Ok phi /\
    forall q, competitor X (p_beta m) q ->
      word_part X (p_beta m) (multinomial_worth psi m gamma w y) q <=
      word_part X (p_beta m) (multinomial_worth psi m gamma w y) phi + 2 * eps * IZR (fold_right Z.add 0%Z X).
Proof. exact (fun lg psi X m gamma y w eps Hpsi PI Hg Hpos => multinomial_optimal lg 7 (le_n 7) psi X m Hpsi PI gamma Hg Hpos y w eps). Qed.

Theorem C66_correspondence_phi : forall (lg psi : R -> R) (X : list Z) (m : params R) (gamma tau : list R) (y : nat) (eps : R),
  let O := Rops lg in let K := mrows (p_beta m) in let V := ncols (p_beta m) in
  is_digamma psi -> proper_input X m -> length gamma = K -> (forall i, (i < K)%nat -> 0 < vget gamma i) ->
  (forall i n, (i < K)%nat -> (n < V)%nat ->
     Rmax 1 (Rabs (psi (vget gamma i))) / 1023 + Rmax 1 (Rabs (vget tau n * ln (mget (p_eta m) i y))) / 1023 + 4 / 10 ^ 9 <= eps) ->
  exists phi, compute_supervised_correspondence_phi 7 y (p_beta m) (p_eta m) gamma tau = Ok phi /\
    forall q, competitor X (p_beta m) q ->
      word_part X (p_beta m) (correspondence_worth psi m gamma tau y) q <=
      word_part X (p_beta m) (correspondence_worth psi m gamma tau y) phi + 2 * eps * IZR (fold_right Z.add 0%Z X).
Proof. exact (fun lg psi X m gamma tau y eps Hpsi PI Hg Hpos => correspondence_optimal lg 7 (le_n 7) psi X m Hpsi PI gamma Hg Hpos y tau eps). Qed.

Theorem C66_correspondence_tau : forall (lg : R -> R) (m : params R) (y : nat) (phi : mat R) (eps : R),
  let O := Rops lg in let K := mrows (p_beta m) in let V := ncols (p_beta m) in
  mrows (p_eta m) = K -> mrows phi = K -> ncols phi = V -> (0 < V)%nat ->
  (forall n, (n < V)%nat -> Rmax 1 (Rabs (rsum K (fun i => mget phi i n * ln (mget (p_eta m) i y)))) / 1023 + 1 / 10 ^ 9 <= eps) ->
  exists tau, compute_supervised_correspondence_tau y (p_eta m) phi = Ok tau /\
    forall q, distribution V q -> tau_part m y phi q <= tau_part m y phi tau + 2 * eps.
Proof. exact (fun lg => tau_optimal lg 7 (le_n 7)). Qed.

Theorem C66_fast : forall (lg psi : R -> R) (X : list Z) (m : params R) (gamma : list R) (y : Z) (w : R) (phi0 : mat R) (s eps : R),
  let O := Rops lg in let K := mrows (p_beta m) in let N := fold_right Z.add 0%Z X in
  is_digamma psi -> proper_input X m -> length gamma = K -> (forall i, (i < K)%nat -> 0 < vget gamma i) ->
  (0 < N)%Z -> class_in_range y m -> mrows phi0 = K -> ncols phi0 = ncols (p_beta m) -> scale_of (p_eta m) s ->
  let z := shares X phi0 in
  (forall i, (i < K)%nat ->
     Rmax 1 (Rabs (psi (vget gamma i) + w * (class_pull (fexp lg) (p_eta m) z (Z.to_nat y) i / s))) / 1023 + 3 / 10 ^ 9 <= eps) ->
  exists phi, compute_supervised_approximate_phi 7 (ratio X N) N (Z.to_nat y) (p_beta m) (p_eta m) gamma w phi0 = Ok phi /\
    forall q, competitor X (p_beta m) q ->
      word_part X (p_beta m) (fast_worth (fexp lg) psi m gamma w s z (Z.to_nat y)) q <=
      word_part X (p_beta m) (fast_worth (fexp lg) psi m gamma w s z (Z.to_nat y)) phi + 2 * eps * IZR N.
Proof.
  exact (fun lg psi X m gamma y w phi0 s eps Hpsi PI Hg Hpos => fast_optimal lg 7 (le_n 7) psi X m Hpsi PI gamma Hg Hpos y w phi0 s eps).
Qed.
(** The pull of [fast_worth] is the derivative of the class's log probability by the topic's share. *)
Theorem C66_fast_direction : forall (lg : R -> R) (eta : mat R) (z : nat -> R) (y i : nat), let O := Rops lg in
  (i < mrows eta)%nat -> (y < ncols eta)%nat ->
  is_derive (fun t => ln (class_probability exp eta (fun k => if Nat.eqb k i then t else z k) y)) (z i) (class_pull exp eta z y i).
Proof. exact (fun lg eta z y i => @class_pull_gradient (Rops lg) eta z y i). Qed.

Example C66_case : forall lg psi y w, let O := Rops lg in let m := generative_model in let X := [2; 1]%Z in let gamma := [7/4; 9/4] in
  proper_input X m /\ length gamma = 2%nat /\ (forall i, (i < 2)%nat -> 0 < vget gamma i) /\ competitor X (p_beta m) once_phi /\
  mget (p_eta m) 0 0 <> mget (p_eta m) 1 0 /\
  exists eps, (forall i, (i < 2)%nat -> Rmax 1 (Rabs (multinomial_worth psi m gamma w y i 0 - 1)) / 1023 + 5 / 10 ^ 9 <= eps).
Proof.
  intros. split; [apply (generative_input lg); [reflexivity|intros x [<-|[<-|[]]]; lia|reflexivity]|]. split; [reflexivity|].
  split; [intros [|[|i]] Hi; [| |lia]; unfold vget; cbn; lra|]. split; [|split; [unfold mget, vget; cbn; lra|apply bounded_above]].
  intros n Hn _. apply (once_competitor lg); [exact Hn|]. destruct n as [|[|n]]; [discriminate..|cbn in Hn; lia].
Qed.
Example C66_fast_case : forall lg psi w, let O := Rops lg in let m := ok_model in let X := d_words ok_doc in let gamma := [7/4; 9/4] in
  proper_input X m /\ class_in_range 1 m /\ scale_of (p_eta m) 1 /\ (0 < fold_right Z.add 0 X)%Z /\
  exists eps, forall i, (i < 2)%nat ->
     Rmax 1 (Rabs (psi (vget gamma i) + w * (class_pull (fexp lg) (p_eta m) (shares X once_phi) 1 i / 1))) / 1023 + 3 / 10 ^ 9 <= eps.
Proof.
  intros. split; [apply (C30_inputs lg)|]. split; [apply (C31_class lg)|]. split; [|split; [reflexivity|apply bounded_above]].
  left. split; [lra|]. split; [exists 0%nat, 0%nat; repeat split; cbn; lia|].
  intros [|[|i]] [|[|c]] Hi Hc; cbn in Hi, Hc; try lia; unfold mget, vget; cbn; lra.
Qed.

(** ** C67: updating one word's phi does not decrease the bound of sLDA.
    False for a word that occurs more than once ... *)
Theorem C67_refuted : forall (lg psi : R -> R), let O := Rops lg in is_digamma psi ->
  exists (X : list Z) (m : params R) (s : slda R) (n : nat) (eps : R),
    let N := fold_right Z.add 0%Z X in let K := mrows (p_beta m) in
    proper_input X m /\ class_in_range 0 m /\
    (forall n, (n < ncols (p_beta m))%nat -> nth n X 0%Z <> 0%Z -> supported (p_beta m) n) /\
    consistent (fexp lg) X N m s /\ psi_of 7 (s_gamma s) = Ok (s_psi s) /\ competitor X (p_beta m) (s_phi s) /\
    (n < ncols (p_beta m))%nat /\ nth n X 0%Z = 2%Z /\
    (forall i q, (i < K)%nat -> distribution K q ->
       let h := documented_h (fexp lg) X N (p_eta m) (s_phi s) n in
       Rmax 1 (Rabs (psi (vget (s_gamma s) i) + mget (p_eta m) i 0 / IZR N - h i / rsum K (fun k => h k * vget q k))) / 1023 + 3 / 10 ^ 9 <= eps) /\
    exists s', slda_word 7 X (ratio X N) 0 (p_beta m) (p_eta m) 1 s n = Ok s' /\
      slda_bound (fexp lg) psi X m (s_gamma s) 0 (s_phi s') + 2 * eps * INR 1 < slda_bound (fexp lg) psi X m (s_gamma s) 0 (s_phi s).
Proof.
  intros lg psi O Hpsi. exists [2%Z], rep_model, (rep_state lg), 0%nat, (1 / 100).
  split; [exact (rep_input lg)|]. split; [apply rep_class|]. split; [apply rep_supported|]. split; [exact (rep_consistent lg)|]. split; [exact (rep_psi lg)|].
  split; [apply (rep_competitor lg)|]. split; [exact Nat.lt_0_1|]. split; [reflexivity|].
  split; [exact (fun i q Hi D => rep_eps lg psi i q Hpsi Hi D)|exact (rep_decreases lg psi Hpsi)].
Qed.
(** ... and true, up to the error of the exponential, for a word that occurs once. *)
Theorem C67_once_partial : forall (lg psi : R -> R) (X : list Z) (m : params R) (y : Z) (fpi : nat) (s : slda R) (n : nat) (eps : R),
  let O := Rops lg in let N := fold_right Z.add 0%Z X in let K := mrows (p_beta m) in
  is_digamma psi -> proper_input X m -> class_in_range y m ->
  (forall n, (n < ncols (p_beta m))%nat -> nth n X 0%Z <> 0%Z -> supported (p_beta m) n) ->
  consistent (fexp lg) X N m s -> psi_of 7 (s_gamma s) = Ok (s_psi s) -> competitor X (p_beta m) (s_phi s) ->
  (n < ncols (p_beta m))%nat -> nth n X 0%Z = 1%Z ->
  (forall i q, (i < K)%nat -> distribution K q ->
     let h := documented_h (fexp lg) X N (p_eta m) (s_phi s) n in
     Rmax 1 (Rabs (psi (vget (s_gamma s) i) + mget (p_eta m) i (Z.to_nat y) / IZR N - h i / rsum K (fun k => h k * vget q k))) / 1023 + 3 / 10 ^ 9 <= eps) ->
  exists s', slda_word 7 X (ratio X N) (Z.to_nat y) (p_beta m) (p_eta m) fpi s n = Ok s' /\
    psi_of 7 (s_gamma s') = Ok (s_psi s') /\ competitor X (p_beta m) (s_phi s') /\
    slda_bound (fexp lg) psi X m (s_gamma s) (Z.to_nat y) (s_phi s) <=
    slda_bound (fexp lg) psi X m (s_gamma s) (Z.to_nat y) (s_phi s') + 2 * eps * INR fpi.
Proof. exact slda_word_bound. Qed.
Example C67_case : forall lg psi, let O := Rops lg in let X := [1; 1]%Z in let m := generative_model in let s := once_state lg in
  proper_input X m /\ class_in_range 1 m /\ (forall n, (n < 2)%nat -> supported (p_beta m) n) /\
  consistent (fexp lg) X 2 m s /\ psi_of 7 (s_gamma s) = Ok (s_psi s) /\ competitor X (p_beta m) (s_phi s) /\
  exists eps, forall i q, (i < 2)%nat -> distribution 2 q ->
     let h := documented_h (fexp lg) X 2 (p_eta m) (s_phi s) 1 in
     Rmax 1 (Rabs (psi (vget (s_gamma s) i) + mget (p_eta m) i 1 / 2 - h i / rsum 2 (fun k => h k * vget q k))) / 1023 + 3 / 10 ^ 9 <= eps.
Proof.
  intros. split; [apply (generative_input lg); [reflexivity|intros x [<-|[<-|[]]]; lia|reflexivity]|]. split; [split; [reflexivity|cbn; lia]|].
  split; [exact (once_supported lg)|]. split; [apply once_consistent|]. split; [apply once_psi|]. split; [apply (once_competitor lg)|].
  apply (eps_exists lg 2 (fun i => psi (vget (s_gamma s) i) + mget (p_eta m) i 1 / 2)). intros i Hi. apply (once_h lg); [lia|exact Hi].
Qed.

(** ** C68: what the supervised E steps report.
    [l] is the likelihood of the unsupervised model for the same posterior, which C32 shows to be the bound of LDA. *)
Theorem C68_fast : forall (lg : R -> R) (cf : econf R) (w : R) (d : doc R) (m : params R) (y : Z),
  let O := Rops lg in let X := d_words d in let N := fold_right Z.add 0%Z X in let K := mrows (p_beta m) in let V := ncols (p_beta m) in
  proper_input X m -> class_in_range y m -> d_class d = Some y ->
  (forall n, (n < V)%nat -> supported (p_beta m) n) -> (exists n, (0 < nth n X 0)%Z) ->
  exists gamma phi v l, fast_supervised_doc_e_step 7 cf w true d m = Ok (mk_vparams gamma phi [], Some v) /\
    compute_unsupervised_likelihood 7 X (p_alpha m) (p_beta m) phi gamma = Ok l /\
    v = l + rsum V (fun n => IZR (nth n X 0%Z) * rsum K (fun i => mget phi i n * mget (p_eta m) i (Z.to_nat y))) / IZR N
          - ln (class_normaliser (fexp lg) X N (p_eta m) phi).
Proof. exact (fun lg cf w d m y PI HC => fast_report lg (d_words d) m y PI HC cf w d eq_refl). Qed.
(** The prior terms are a document's share, one in [d_corpus_size], of the Dirichlet prior of eta. *)
Theorem C68_multinomial : forall (lg : R -> R) (cf : econf R) (mu w : R) (d : doc R) (m : params R) (y : Z),
  let O := Rops lg in let X := d_words d in let N := fold_right Z.add 0%Z X in let K := mrows (p_beta m) in let V := ncols (p_beta m) in
  let C := ncols (p_eta m) in
  proper_input X m -> class_in_range y m -> d_class d = Some y -> (y < Z.of_nat (length (d_priors d)))%Z ->
  exists gamma phi v l, multinomial_doc_e_step 7 cf mu w true d m = Ok (mk_vparams gamma phi [], Some v) /\
    compute_unsupervised_likelihood 7 X (p_alpha m) (p_beta m) phi gamma = Ok l /\
    v = l + rsum V (fun n => IZR (nth n X 0%Z) * rsum K (fun i => mget phi i n * ln (mget (p_eta m) i (Z.to_nat y))))
          - IZR (N - 1) * ln (vget (d_priors d) (Z.to_nat y))
          + 1 / IZR (d_corpus_size d) *
            ((mu - 1) * rsum C (fun c => rsum (mrows (p_eta m)) (fun i => ln (mget (p_eta m) i c))) + (lg (INR C * mu) - INR C * lg mu)).
Proof. exact (fun lg cf mu w d m y PI HC => multinomial_report lg (d_words d) m y PI HC cf mu w d eq_refl). Qed.
Theorem C68_correspondence : forall (lg : R -> R) (cf : econf R) (mu : R) (d : doc R) (m : params R) (y : Z),
  let O := Rops lg in let X := d_words d in let N := fold_right Z.add 0%Z X in let K := mrows (p_beta m) in let V := ncols (p_beta m) in
  let C := ncols (p_eta m) in
  proper_input X m -> class_in_range y m -> d_class d = Some y ->
  exists gamma phi tau v l, correspondence_doc_e_step 7 cf mu true d m = Ok (mk_vparams gamma phi tau, Some v) /\
    compute_unsupervised_likelihood 7 X (p_alpha m) (p_beta m) phi gamma = Ok l /\
    v = l - rsum V (fun n => IZR (nth n X 0%Z) * (vget tau n * ln (vget tau n + / 10 ^ 44)))
          + rsum V (fun n => IZR (nth n X 0%Z) * (vget tau n * rsum K (fun i => mget phi i n * ln (mget (p_eta m) i (Z.to_nat y)))))
          - ln (IZR N)
          + 1 / IZR (d_corpus_size d) *
            ((mu - 1) * rsum C (fun c => rsum (mrows (p_eta m)) (fun i => ln (mget (p_eta m) i c))) + (lg (INR C * mu) - INR C * lg mu)).
Proof. exact (fun lg cf mu d m y PI HC => correspondence_report lg (d_words d) m y PI HC cf mu d eq_refl). Qed.
Example C68_case : forall lg, let O := Rops lg in let d := mk_doc [2; 1]%Z (Some 1%Z) 5 [1/2; 1/2] in let m := generative_model in
  proper_input (d_words d) m /\ class_in_range 1 m /\ d_class d = Some 1%Z /\ (1 < Z.of_nat (length (d_priors d)))%Z /\
  (forall n, (n < ncols (p_beta m))%nat -> supported (p_beta m) n) /\ (exists n, (0 < nth n (d_words d) 0)%Z).
Proof.
  intros. split; [apply (generative_input lg); [reflexivity|intros x [<-|[<-|[]]]; lia|reflexivity]|]. split; [split; [reflexivity|cbn; lia]|].
  split; [reflexivity|]. split; [reflexivity|]. split; [exact (once_supported lg)|]. exists 0%nat. reflexivity.
Qed.

Print Assumptions C66_multinomial. Print Assumptions C66_correspondence_phi. Print Assumptions C66_correspondence_tau.
Print Assumptions C66_fast. Print Assumptions C66_fast_direction.
Print Assumptions C67_refuted. Print Assumptions C67_once_partial.
Print Assumptions C68_fast. Print Assumptions C68_multinomial. Print Assumptions C68_correspondence.
