(** Property C102: train from scratch in the root directory's application, with distributions of classes. *)
Require Import Reals ZArith List Bool Arith Lia Ascii String.
From Flocq Require Import Core.Core IEEE754.BinarySingleNaN.
Require Import Verif.Base Verif.Scalar Verif.Mat Verif.NumpyModel Verif.NumpySpec Verif.HostModel Verif.HostProofs Verif.DiskModel Verif.BuilderModel Verif.EStepModel Verif.OptModel
  Verif.MStepModel Verif.MStepSpec Verif.PoolModel Verif.LdaModel Verif.TrainFit Verif.SettingsModel Verif.AppsModel Verif.ShapeSpec Verif.CommandModel Verif.CommandSpec Verif.CommandFiles Verif.FreshSpec Verif.FreshTrain
  Verif.DoubleSpec Verif.DoubleTrainSpec Verif.DoubleClassSpec Verif.DoubleMultiTrainSpec Verif.DoubleCorrTrainSpec Verif.DoubleMultiTrainTheorems Verif.DoubleCorrTrainTheorems
  Verif.RootModel Verif.RootSpec Verif.RootSnapSpec Verif.RootCases Verif.RootSnapProofs Verif.RootSnapCases Verif.RootFreshSpec Verif.RootFreshProofs Verif.RootFreshCases.
Import ListNotations.
Local Open Scope nat_scope.
Local Open Scope list_scope.
Local Notation length := List.length.

(** C102.  train --correspondence from scratch in double precision: at most 139 topics, a usual corpus (FreshSpec.v) of at most 2^28 documents, labels from 0, a usual mu.  Whichever
    documents the seeds are, every run ends normally and leaves in MODEL a model, whose alpha is 1 / K, with which training can be continued (C101); with at least one iteration its topics and classes
    are distributions up to rounding.  With a worker there is such a run. *)
Theorem C102_correspondence lg ex lga sum ofuel args stol (stof : string -> outcome double) document_draws hw jk d path n w x y0 y D K C mu : let O := double_ops lg ex lga sum in
  rough_log lg -> rough_log_below lg -> rough_exp ex -> (forall l, summed l (sum l)) ->
  scratch_options args stol stof path K n w -> off args "--multinomial" -> on args "--correspondence" -> float_arg args stof "--mu" = Ok mu ->
  data_xy args jk d = Ok (x, y0) -> labels y0 = Ok y -> labelled_docs (columns x) y = Ok D ->
  plain_corpus (columns x) (em_rows x) -> (Z.of_nat (length (columns x)) <= 2 ^ 28)%Z -> labels_below C y -> 1 <= K <= 139 -> storable K (em_rows x) -> storable K C ->
  usual_mu mu -> corresponding_bound mu (all_words (columns x)) C ->
  let run := root_train_main double_bytes double_of 7 ofuel args stol stof document_draws hw jk good_device d in
  (forall r d', run r d' -> r = Ok tt /\ exists m, (forall jk', model_at double_of jk' d' path = Ok m) /\ has_size K (em_rows x) C m /\ p_alpha m = vtab K (fun _ => inverse K) /\ double_corresponding mu D m /\
    (0 < n -> double_topics (p_beta m) /\ double_topics (p_eta m))) /\
  (0 < w -> exists d', run (Ok tt) d').
Proof.
  intros O R1 R2 R3 R4 SO F1 F2 MU DX LY LD PC SZ LB HK S1 S2 UM CB run. assert (HC : (Z.of_nat C < 2 ^ 31)%Z) by (pose proof (classes_few (em_rows x) C (columns x) PC mu UM CB); lia).
  destruct (scratch_built lg ex lga sum R4 args stol stof document_draws hw jk d x y path n w K C mu SO ltac:(lia) PC LB HC MU) as (q & SE & X1 & _). destruct (X1 F1 F2) as (h & cf & AS & B).
  pose proof (first_corresponding lg ex lga sum R4 K (em_rows x) C (columns x) y (document_draws 0%Z) empty_params q D PC SE LB LD mu HK SZ UM CB) as DC.
  assert (HD : D <> []) by exact (dc_some _ _ (dk_corpus _ _ _ DC)).
  destruct (scratch_listener lg ex lga sum args stol stof path K n w SO) as (l & El & Ul).
  pose proof (fun st p F => C86_partial lg ex lga sum cf mu D w n 0 (with_classes lg ex lga sum K C q) st p R1 R2 R3 R4 DC F) as G.
  destruct (root_ends double_bytes double_of double_round double_bytes_length 7 ofuel args stol stof document_draws hw jk d path x y0 y K (em_rows x) C h _ D l _ _ _ (so_model _ _ _ _ _ _ _ SO) DX LY AS S1 S2 B LD HD
    (correspondence_maximizes ofuel mu) El Ul (fun st p F => proj1 (G st p F))) as [X Y]. split.
  - intros r d' H. destruct (X r d' H) as (-> & s & m' & ep & F & HM & MA'). split; [reflexivity|]. exists m'. split; [exact MA'|]. split; [exact HM|].
    destruct (G _ _ F) as (_ & _ & QA & _ & _ & _ & Q1 & Q2).
    split; [exact (eq_trans QA (proj1 (first_q lg ex lga sum R4 K (em_rows x) (columns x) (document_draws 0%Z) empty_params q PC SE)))|]. split; [exact Q1|exact Q2].
  - intros HW. apply Y. exact (@fit_returns double O 7 K (em_rows x) C _ _ _ _ _ _ (Correspondence cf mu) w D n (@step_correspondence double O K (em_rows x) C mu) HW (Ok new_stats) (_, 0)).
Qed.
Print Assumptions C102_correspondence.
(** train --multinomial, likewise: at most 100 topics (the default) and 2^29 classes. *)
Theorem C102_multinomial lg ex lga sum ofuel args stol (stof : string -> outcome double) document_draws hw jk d path n w x y0 y D K C mu weight : let O := double_ops lg ex lga sum in
  rough_log lg -> rough_log_below lg -> rough_exp ex -> (forall l, summed l (sum l)) ->
  scratch_options args stol stof path K n w -> on args "--multinomial" -> float_arg args stof "--mu" = Ok mu -> float_arg args stof "--eta_weight" = Ok weight ->
  data_xy args jk d = Ok (x, y0) -> labels y0 = Ok y -> labelled_docs (columns x) y = Ok D ->
  plain_corpus (columns x) (em_rows x) -> labels_below C y -> (Z.of_nat C <= 2 ^ 29)%Z -> 1 <= K <= 100 -> storable K (em_rows x) -> storable K C ->
  usual_mu mu -> multinomial_bound mu weight (all_words (columns x)) C ->
  let run := root_train_main double_bytes double_of 7 ofuel args stol stof document_draws hw jk good_device d in
  (forall r d', run r d' -> r = Ok tt /\ exists m, (forall jk', model_at double_of jk' d' path = Ok m) /\ has_size K (em_rows x) C m /\ p_alpha m = vtab K (fun _ => inverse K) /\ double_labelled mu weight D m /\
    (0 < n -> double_topics (p_beta m) /\ double_topics (p_eta m))) /\
  (0 < w -> exists d', run (Ok tt) d').
Proof.
  intros O R1 R2 R3 R4 SO F1 MU WE DX LY LD PC LB HC HK S1 S2 UM CB run.
  destruct (scratch_built lg ex lga sum R4 args stol stof document_draws hw jk d x y path n w K C mu SO ltac:(lia) PC LB ltac:(lia) MU) as (q & SE & _ & X1). destruct (X1 weight F1 WE) as (h & cf & AS & B).
  pose proof (first_labelled lg ex lga sum R4 K (em_rows x) C (columns x) y (document_draws 0%Z) empty_params q D PC SE LB LD mu weight HK HC UM CB) as DC.
  assert (HD : D <> []) by exact (dc_some _ _ (dl_corpus _ _ _ _ DC)).
  destruct (scratch_listener lg ex lga sum args stol stof path K n w SO) as (l & El & Ul).
  pose proof (fun st p F => C85_partial lg ex lga sum cf mu weight D w n 0 (with_classes lg ex lga sum K C q) st p R1 R2 R3 R4 DC F) as G.
  destruct (root_ends double_bytes double_of double_round double_bytes_length 7 ofuel args stol stof document_draws hw jk d path x y0 y K (em_rows x) C h _ D l _ _ _ (so_model _ _ _ _ _ _ _ SO) DX LY AS S1 S2 B LD HD
    (multinomial_maximizes ofuel mu) El Ul (fun st p F => proj1 (G st p F))) as [X Y]. split.
  - intros r d' H. destruct (X r d' H) as (-> & s & m' & ep & F & HM & MA'). split; [reflexivity|]. exists m'. split; [exact MA'|]. split; [exact HM|].
    destruct (G _ _ F) as (_ & _ & QA & _ & _ & _ & Q1 & Q2).
    split; [exact (eq_trans QA (proj1 (first_q lg ex lga sum R4 K (em_rows x) (columns x) (document_draws 0%Z) empty_params q PC SE)))|]. split; [exact Q1|exact Q2].
  - intros HW. apply Y. exact (@fit_returns double O 7 K (em_rows x) C _ _ _ _ _ _ (Multinomial cf mu weight) w D n (@step_multinomial double O K (em_rows x) C mu) HW (Ok new_stats) (_, 0)).
Qed.
Print Assumptions C102_multinomial.

(** Two topics from two labelled documents, with each of the variants: the training ends, and leaves distributions. *)
Example C102_case lg ex lga sum ofuel picks multinomial : let O := double_ops lg ex lga sum in rough_log lg -> rough_log_below lg -> rough_exp ex -> (forall l, summed l (sum l)) ->
  exists d d' m, root_disk lg ex lga sum d /\ root_train_main double_bytes double_of 7 ofuel (scratch_args multinomial) root_stol (snap_stof lg ex lga sum) picks 1 root_junk good_device d (Ok tt) d' /\
    model_at double_of root_junk d' "model.npy" = Ok m /\ has_size 2 3 2 m /\ double_topics (p_beta m) /\ double_topics (p_eta m).
Proof.
  intros O R1 R2 R3 R4. destruct (root_disk_exists lg ex lga sum) as (d & HD). destruct (scratch_documents lg ex lga sum) as (D & LD). pose proof (scratch_reads lg ex lga sum multinomial d HD) as RD.
  destruct root_storable as [S1 S2]. pose proof (scratch_case lg ex lga sum multinomial) as SC.
  assert (SZ : (Z.of_nat (length (columns root_x)) <= 2 ^ 28)%Z) by (rewrite root_columns; cbn; lia).
  assert (K1 : 1 <= 2 <= 139) by lia. assert (K2 : 1 <= 2 <= 100) by lia. assert (W : 0 < 2) by lia.
  destruct multinomial.
  - destruct (C102_multinomial lg ex lga sum ofuel (scratch_args true) root_stol (snap_stof lg ex lga sum) picks 1 root_junk d "model.npy" 2 2 root_x root_y [0; 1]%Z D 2 2 (ofZ 2) (ofZ 2) R1 R2 R3 R4 SC eq_refl eq_refl eq_refl RD root_labels LD
      scratch_plain scratch_labels ltac:(lia) K2 S1 S2 (proj1 (two_mu lg ex lga sum)) (scratch_multinomial lg ex lga sum)) as [X Y]. destruct (Y W) as (d' & R). destruct (X _ _ R) as (_ & m & M & HS & _ & _ & T). destruct (T W) as [T1 T2].
    exists d, d', m. exact (conj HD (conj R (conj (M root_junk) (conj HS (conj T1 T2))))).
  - destruct (C102_correspondence lg ex lga sum ofuel (scratch_args false) root_stol (snap_stof lg ex lga sum) picks 1 root_junk d "model.npy" 2 2 root_x root_y [0; 1]%Z D 2 2 (ofZ 2) R1 R2 R3 R4 SC eq_refl eq_refl eq_refl RD root_labels LD
      scratch_plain SZ scratch_labels K1 S1 S2 (proj1 (two_mu lg ex lga sum)) (scratch_corresponding lg ex lga sum)) as [X Y]. destruct (Y W) as (d' & R). destruct (X _ _ R) as (_ & m & M & HS & _ & _ & T). destruct (T W) as [T1 T2].
    exists d, d', m. exact (conj HD (conj R (conj (M root_junk) (conj HS (conj T1 T2))))).
Qed.
