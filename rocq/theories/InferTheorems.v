(** Properties C49-C51: inference. *)
Require Import Reals ZArith List Bool Arith Lia Lra.
From Flocq Require Import Core.Core IEEE754.BinarySingleNaN.
Require Import Verif.Base Verif.Scalar Verif.Mat Verif.UtilsModel Verif.BuilderModel Verif.EStepModel Verif.EStepSpec Verif.EStepTheorems
  Verif.PoolModel Verif.LdaModel Verif.InferSpec Verif.InferProofs.
Import ListNotations.
Local Open Scope nat_scope.

(** C49.  Over the reals the decision function computes the scores: eta^T times the normalised gamma - alpha. *)
Theorem C49_scores lg (m : params R) (g : mat R) : let O := Rops lg in
  length (p_alpha m) = mrows g -> mrows (p_eta m) = mrows g ->
  exists s, decision_function m g = Ok s /\ mrows s = ncols (p_eta m) /\ ncols s = ncols g /\
    forall c d, c < ncols (p_eta m) -> d < ncols g -> mget s c d = score m g c d.
Proof. exact (decision_R lg m g). Qed.
(** The predictions are the first classes with the largest scores: over the reals ... *)
Theorem C49_predict lg (s : mat R) : let O := Rops lg in
  0 < mrows s ->
  exists p, predict_scores s = Ok p /\ length p = ncols s /\
    forall d, d < ncols s -> first_best (mrows s) (fun c => mget s c d) (nth d p 0).
Proof. exact (predict_R lg s). Qed.
(** ... and for finite IEEE numbers of every format. *)
Theorem C49_predict_float prec emax (Hprec : Prec_gt_0 prec) (Hemax : Prec_lt_emax prec emax) lg ex lga sum (s : mat (binary_float prec emax)) :
  let O := Fops prec emax lg ex lga sum in
  0 < mrows s -> (forall c d, c < mrows s -> d < ncols s -> is_finite (mget s c d) = true) ->
  exists p, predict_scores s = Ok p /\ length p = ncols s /\
    forall d, d < ncols s -> first_best (mrows s) (fun c => B2R (mget s c d)) (nth d p 0).
Proof. exact (predict_float prec emax lg ex lga sum s). Qed.
(** A call of predict, over any scalar type: the result depends on nothing but the E step, the model and the documents;
    not on the schedule, the number of workers or the random draws. *)
Theorem C49_determined {T} {O : ops T} dfuel k epochs W W' (m : params T) X r r' :
  predict_call dfuel k epochs W m X r -> predict_call dfuel k epochs W' m X r' -> r = r'.
Proof.
  intros (g & G & ->) (g' & G' & ->). now rewrite (transform_unique _ _ _ _ _ _ _ G), (transform_unique _ _ _ _ _ _ _ G').
Qed.
(** The draws: whether the likelihood is computed does not change the variational parameters, for any E step. *)
Theorem C49_draws {T} {O : ops T} dfuel k epochs d (m : params T) emit emit' v e v' e' :
  doc_e_step dfuel k epochs emit d m = Ok (v, e) -> doc_e_step dfuel k epochs emit' d m = Ok (v', e') -> v = v'.
Proof. exact (draws dfuel k epochs d m emit emit' v e v' e'). Qed.
(** With the classic E step, over the reals: for every model and documents of the right sizes, the call succeeds; for
    every document with a word that some topic has, the shares are a distribution; and the prediction is the
    first class with the largest score. *)
Theorem C49_call lg cf epochs W (m : params R) X r : let O := Rops lg in
  Forall (fun x => proper_input x m) X -> X <> [] -> mrows (p_eta m) = mrows (p_beta m) -> 0 < ncols (p_eta m) ->
  predict_call 7 (Classic cf) epochs W m X r ->
  exists g p, transform_call 7 (Classic cf) epochs W m X (Ok g) /\ r = Ok p /\ length p = length X /\
    forall d, d < length X ->
      first_best (ncols (p_eta m)) (fun c => score m g c d) (nth d p 0) /\
      ((exists n, n < length (nth d X []) /\ (0 < nth n (nth d X []) 0)%Z /\ supported (p_beta m) n) ->
       (forall i, i < mrows g -> (0 <= share m g i d)%R) /\ rsum (mrows g) (fun i => share m g i d) = 1%R).
Proof.
  intros O HX Hn He HC (g0 & G & ->). destruct (classic_gammas lg cf epochs m X HX) as (g & Eg & G1 & G2 & G3).
  pose proof (transform_unique _ _ _ _ _ _ _ G) as U. change (gammas (O := O) 7 (Classic cf) epochs m X) with (gammas (O := Rops lg) 7 (Classic cf) epochs m X) in U.
  rewrite Eg in U. subst g0. exists g. cbn [bind].
  destruct X as [|x0 X']; [congruence|]. pose proof (Forall_inv HX) as P0. 
  assert (Ha : length (p_alpha m) = mrows g) by (rewrite G1; apply (pi_alpha _ _ P0)).
  assert (He' : mrows (p_eta m) = mrows g) by congruence.
  destruct (decision_R lg m g Ha He') as (s & Es & S1 & S2 & S3).
  change (decision_function (O := O)) with (decision_function (O := Rops lg)). rewrite Es. cbn [bind].
  destruct (predict_R lg s) as (p & Ep & P1 & P2); [now rewrite S1|]. exists p. split; [exact G|]. split; [exact Ep|]. split; [congruence|].
  intros d Hd. split.
  - destruct (P2 d) as (F1 & F2 & F3); [congruence|]. rewrite S1 in *. assert (Hd' : d < ncols g) by congruence. split; [exact F1|]. split; intros c Hc.
    + specialize (F2 c Hc). rewrite !S3 in F2 by assumption. exact F2.
    + specialize (F3 c Hc). rewrite !S3 in F3 by lia. exact F3.
  - intros Hw. destruct (G3 d Hd) as (phi & V). refine (shares_distribution lg m g (nth d (x0 :: X') []) d phi _ G1 V Hw).
    rewrite Forall_forall in HX. apply HX. now apply nth_In.
Qed.
(** two documents, two topics, two classes; any number of workers but zero makes a call possible *)
Example C49_case lg : let O := Rops lg in
  Forall (fun x => proper_input x ok_model) [[2; 0]; [0; 3]]%Z /\ mrows (p_eta ok_model) = mrows (p_beta ok_model) /\ 0 < ncols (p_eta ok_model) /\
  supported (p_beta ok_model) 1 /\ forall cf, exists r, predict_call 7 (Classic cf) 0 3 ok_model [[2; 0]; [0; 3]]%Z r.
Proof.
  intros O. split; [|split; [reflexivity|split; [cbn; lia|split]]].
  - constructor; [|constructor; [|constructor]]; (constructor; cbn; try lia; auto;
      [intros [|[|i]] Hi; [| |lia]; unfold vget; cbn; lra|intros [|[|i]] [|[|n]] Hi Hn; try lia; unfold mget; cbn; lra]).
  - exists 0. split; [cbn; lia|]. unfold mget. cbn. lra.
  - intros cf. eexists. eexists. split; [apply transform_exists; lia|reflexivity].
Qed.

(** C50, over any scalar type and for every E step: whatever the schedules and numbers of workers of the three calls,
    transform_predict returns what transform and predict return, and fails if one of them does. *)
Theorem C50_consistent {T} {O : ops T} dfuel k epochs W W1 W2 (m : params T) X r g p :
  transform_predict_call dfuel k epochs W m X r -> transform_call dfuel k epochs W1 m X g -> predict_call dfuel k epochs W2 m X p ->
  r = let* g := g in let* p := p in Ok (g, p).
Proof.
  intros (g1 & G1 & ->) G (g2 & G2 & ->). rewrite (transform_unique _ _ _ _ _ _ _ G1), (transform_unique _ _ _ _ _ _ _ G2), (transform_unique _ _ _ _ _ _ _ G).
  destruct (gammas dfuel k epochs m X) as [x| |]; cbn [bind]; [|reflexivity..].
  destruct (decision_function m x) as [s| |]; cbn [bind]; reflexivity.
Qed.
(** With at least one worker the calls return. *)
Theorem C50_returns {T} {O : ops T} dfuel k epochs W (m : params T) X : 0 < W ->
  (exists g, transform_call dfuel k epochs W m X g) /\ (exists p, predict_call dfuel k epochs W m X p) /\
  (exists r, transform_predict_call dfuel k epochs W m X r).
Proof.
  intros HW. pose proof (transform_exists dfuel k epochs W m X HW) as G. split; [eauto|]. split; (eexists; eexists; split; [exact G|reflexivity]).
Qed.

(** C51 is false: with every E step but the classic one, transform and predict are undefined on every non-empty set of
    documents, because the E step casts the documents to labelled ones. *)
Theorem C51_refuted {T} {O : ops T} dfuel k epochs W (m : params T) X : reads_label k = true -> X <> [] ->
  (forall g, transform_call dfuel k epochs W m X g -> g = UB) /\
  (forall p, predict_call dfuel k epochs W m X p -> p = UB) /\
  (forall r, transform_predict_call dfuel k epochs W m X r -> r = UB).
Proof.
  intros H Hn. assert (A : forall g, transform_call dfuel k epochs W m X g -> g = UB).
  { intros g G. rewrite (transform_unique _ _ _ _ _ _ _ G). now apply gammas_reads_label. }
  split; [exact A|]. split; intros p (g & G & ->); now rewrite (A g G).
Qed.
(** With the classic E step they are well defined, over the reals: column d is a valid posterior of document d. *)
Theorem C51_classic_partial lg cf epochs W (m : params R) X g : let O := Rops lg in
  Forall (fun x => proper_input x m) X -> transform_call 7 (Classic cf) epochs W m X g ->
  exists gs, g = Ok gs /\ mrows gs = mrows (p_beta m) /\ ncols gs = length X /\
    forall d, d < length X -> exists phi, valid_posterior (nth d X []) m (mcol gs d) phi.
Proof.
  intros O HX G. rewrite (transform_unique _ _ _ _ _ _ _ G). exact (classic_gammas lg cf epochs m X HX).
Qed.

Print Assumptions C49_scores. Print Assumptions C49_predict. Print Assumptions C49_predict_float. Print Assumptions C49_determined. Print Assumptions C49_draws. Print Assumptions C49_call.
Print Assumptions C50_consistent. Print Assumptions C50_returns. Print Assumptions C51_refuted. Print Assumptions C51_classic_partial.
