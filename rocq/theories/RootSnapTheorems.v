(** Properties C98 (its snapshots) and C101: train in the root directory's application. *)
Require Import Reals ZArith List Bool Arith Lia Ascii String.
From Flocq Require Import Core.Core IEEE754.BinarySingleNaN.
Require Import Verif.Base Verif.Scalar Verif.Mat Verif.NumpyModel Verif.NumpySpec Verif.HostModel Verif.HostProofs Verif.DiskModel Verif.BuilderModel Verif.EStepModel Verif.OptModel
  Verif.MStepModel Verif.MStepSpec Verif.PoolModel Verif.LdaModel Verif.TrainFit Verif.SettingsModel Verif.AppsModel Verif.ShapeSpec Verif.CommandModel Verif.CommandSpec Verif.CommandFiles Verif.FreshTrain
  Verif.DoubleSpec Verif.DoubleTrainSpec Verif.DoubleClassSpec Verif.DoubleMultiTrainSpec Verif.DoubleCorrTrainSpec Verif.DoubleMultiTrainTheorems Verif.DoubleCorrTrainTheorems
  Verif.RootModel Verif.RootSpec Verif.RootSnapSpec Verif.RootCases Verif.RootSnapProofs Verif.DoubleCorrTrainRefute Verif.RootSnapCases.
Import ListNotations.
Local Open Scope nat_scope.
Local Open Scope list_scope.
Local Notation length := List.length.

(** C98, with snapshots: as C95 for the commands of src/applications.  A train with --snapshot_every N that ended normally on a good device has fitted the object that its
    options describe; for every multiple e of N up to the number of epochs n there is a file named MODEL, an underscore and e, which reads back as the model after the first e epochs of
    that run, from which the remaining n - e lead to the model at MODEL.  No other file has changed. *)
Theorem C98_snapshots lg ex lga sum dfuel ofuel args stol (stof : string -> outcome double) document_draws hw jk d d' path x y0 y K V C h N : let O := double_ops lg ex lga sum in
  args "MODEL"%string = VString path -> data_xy args jk d = Ok (x, y0) -> labels y0 = Ok y -> 1 <= em_cols x ->
  root_asks double_of args stol stof document_draws jk d x y K V C h -> storable K V -> storable K C ->
  long_arg args stol "--snapshot_every" = Ok (Z.of_nat N) -> 0 < N -> (Z.of_nat N < 2 ^ 31)%Z ->
  root_train_main double_bytes double_of dfuel ofuel args stol stof document_draws hw jk good_device d (Ok tt) d' ->
  exists o docs St (M : maximizer double St) new, SettingsModel.built hw h = Ok o /\ labelled_docs (columns x) y = Ok docs /\ maximizes ofuel (ob_m o) St M new /\
    let n := ob_iterations o in let fit := fit_call dfuel M (ob_e o) (ob_workers o) docs in
    ((Z.of_nat n < 2 ^ 31)%Z ->
     exists st m ep, fit n (Ok new) (ob_params o, 0) (Ok st) (m, ep) /\ (forall jk', model_at double_of jk' d' path = Ok m) /\
      (forall e, 1 <= e <= n -> e mod N = 0 -> exists file digits st_e m_e ep_e,
        bytes file = bytes path ++ text "_" ++ digits /\ is_numeral digits (Z.of_nat e) /\ (forall jk', model_at double_of jk' d' file = Ok m_e) /\
        fit e (Ok new) (ob_params o, 0) st_e (m_e, ep_e) /\ fit (n - e) st_e (m_e, ep_e) (Ok st) (m, ep)) /\
      (forall name, d' name <> d name -> name = bytes path \/
        exists e digits, 1 <= e <= n /\ e mod N = 0 /\ is_numeral digits (Z.of_nat e) /\ name = bytes path ++ text "_" ++ digits)).
Proof.
  intros O. exact (root_snapshots double_bytes double_of double_round double_bytes_length dfuel ofuel args stol stof document_draws hw jk d d' path x y0 y K V C h N).
Qed.
Print Assumptions C98_snapshots.

(** C101.  train --continue --correspondence in double precision, from a model file and for labelled documents as C86 asks for them: every run ends normally, and leaves in MODEL
    a model of the same sizes and with the same alpha with which it can be continued in the same way; with at least one iteration its topics and classes are distributions up to rounding. *)
Theorem C101_correspondence lg ex lga sum ofuel args stol (stof : string -> outcome double) document_draws hw jk d f path n w x y0 y D K V C m mu : let O := double_ops lg ex lga sum in
  rough_log lg -> rough_log_below lg -> rough_exp ex -> (forall l, summed l (sum l)) ->
  class_options args stol stof f path n w -> off args "--multinomial" -> on args "--correspondence" -> float_arg args stof "--mu" = Ok mu ->
  data_xy args jk d = Ok (x, y0) -> labels y0 = Ok y -> labelled_docs (columns x) y = Ok D ->
  model_at double_of jk d f = Ok m -> has_size K V C m -> storable K V -> storable K C -> double_corresponding mu D m ->
  let run := root_train_main double_bytes double_of 7 ofuel args stol stof document_draws hw jk good_device d in
  (forall r d', run r d' -> r = Ok tt /\ exists m', (forall jk', model_at double_of jk' d' path = Ok m') /\ has_size K V C m' /\ p_alpha m' = p_alpha m /\ double_corresponding mu D m' /\
    (0 < n -> double_topics (p_beta m') /\ double_topics (p_eta m'))) /\
  (0 < w -> exists d', run (Ok tt) d').
Proof.
  intros O R1 R2 R3 R4 CO F1 F2 MU DX LY LD MA HS S1 S2 DC run.
  assert (HD : D <> []) by exact (dc_some _ _ (dk_corpus _ _ _ DC)).
  assert (HK : 0 < K). { destruct D as [|d0 D]; [congruence|]. pose proof (di_topics _ _ _ (DoubleTrainSpec.dc_input _ _ (dk_corpus _ _ _ DC) d0 (or_introl eq_refl))) as X. destruct HS as (_ & (E & _) & _). rewrite E in X. lia. }
  destruct (proj1 (class_built double_of args stol stof document_draws hw jk d x y f path n w K V C m mu CO MA HS HK MU) F1 F2) as (h & cf & AS & B).
  destruct (class_listener args stol stof f path n w CO) as (l & El & Ul).
  pose proof (fun st p F => C86_partial lg ex lga sum cf mu D w n 0 m st p R1 R2 R3 R4 DC F) as G.
  destruct (root_ends double_bytes double_of double_round double_bytes_length 7 ofuel args stol stof document_draws hw jk d path x y0 y K V C h _ D l _ _ _ (co_model _ _ _ _ _ _ _ CO) DX LY AS S1 S2 B LD HD
    (correspondence_maximizes ofuel mu) El Ul (fun st p F => proj1 (G st p F))) as [X Y]. split.
  - intros r d' H. destruct (X r d' H) as (-> & s & m' & ep & F & HM & MA'). split; [reflexivity|]. exists m'. split; [exact MA'|]. split; [exact HM|].
    destruct (G _ _ F) as (_ & _ & QA & _ & _ & _ & Q1 & Q2). split; [exact QA|]. split; [exact Q1|exact Q2].
  - intros HW. apply Y. exact (@fit_returns double O 7 K V C _ _ _ _ _ _ (Correspondence cf mu) w D n (@step_correspondence double O K V C mu) HW (Ok new_stats) (m, 0)).
Qed.
Print Assumptions C101_correspondence.
(** train --continue --multinomial, likewise, as C85 asks. *)
Theorem C101_multinomial lg ex lga sum ofuel args stol (stof : string -> outcome double) document_draws hw jk d f path n w x y0 y D K V C m mu weight : let O := double_ops lg ex lga sum in
  rough_log lg -> rough_log_below lg -> rough_exp ex -> (forall l, summed l (sum l)) ->
  class_options args stol stof f path n w -> on args "--multinomial" -> float_arg args stof "--mu" = Ok mu -> float_arg args stof "--eta_weight" = Ok weight ->
  data_xy args jk d = Ok (x, y0) -> labels y0 = Ok y -> labelled_docs (columns x) y = Ok D ->
  model_at double_of jk d f = Ok m -> has_size K V C m -> storable K V -> storable K C -> double_labelled mu weight D m ->
  let run := root_train_main double_bytes double_of 7 ofuel args stol stof document_draws hw jk good_device d in
  (forall r d', run r d' -> r = Ok tt /\ exists m', (forall jk', model_at double_of jk' d' path = Ok m') /\ has_size K V C m' /\ p_alpha m' = p_alpha m /\ double_labelled mu weight D m' /\
    (0 < n -> double_topics (p_beta m') /\ double_topics (p_eta m'))) /\
  (0 < w -> exists d', run (Ok tt) d').
Proof.
  intros O R1 R2 R3 R4 CO F1 MU WE DX LY LD MA HS S1 S2 DC run.
  assert (HD : D <> []) by exact (dc_some _ _ (dl_corpus _ _ _ _ DC)).
  assert (HK : 0 < K). { destruct D as [|d0 D]; [congruence|]. pose proof (di_topics _ _ _ (DoubleTrainSpec.dc_input _ _ (dl_corpus _ _ _ _ DC) d0 (or_introl eq_refl))) as X. destruct HS as (_ & (E & _) & _). rewrite E in X. lia. }
  destruct (proj2 (class_built double_of args stol stof document_draws hw jk d x y f path n w K V C m mu CO MA HS HK MU) weight F1 WE) as (h & cf & AS & B).
  destruct (class_listener args stol stof f path n w CO) as (l & El & Ul).
  pose proof (fun st p F => C85_partial lg ex lga sum cf mu weight D w n 0 m st p R1 R2 R3 R4 DC F) as G.
  destruct (root_ends double_bytes double_of double_round double_bytes_length 7 ofuel args stol stof document_draws hw jk d path x y0 y K V C h _ D l _ _ _ (co_model _ _ _ _ _ _ _ CO) DX LY AS S1 S2 B LD HD
    (multinomial_maximizes ofuel mu) El Ul (fun st p F => proj1 (G st p F))) as [X Y]. split.
  - intros r d' H. destruct (X r d' H) as (-> & s & m' & ep & F & HM & MA'). split; [reflexivity|]. exists m'. split; [exact MA'|]. split; [exact HM|].
    destruct (G _ _ F) as (_ & _ & QA & _ & _ & _ & Q1 & Q2). split; [exact QA|]. split; [exact Q1|exact Q2].
  - intros HW. apply Y. exact (@fit_returns double O 7 K V C _ _ _ _ _ _ (Multinomial cf mu weight) w D n (@step_multinomial double O K V C mu) HW (Ok new_stats) (m, 0)).
Qed.
Print Assumptions C101_multinomial.

(** A case of C98_snapshots and C101_correspondence: two documents of different classes, two epochs with a snapshot after each.  The command ends, and the snapshot of the first
    epoch can be read. *)
Example C101_case lg ex lga sum ofuel picks : let O := double_ops lg ex lga sum in rough_log lg -> rough_log_below lg -> rough_exp ex -> (forall l, summed l (sum l)) ->
  exists d d' D file m1, snap_disk lg ex lga sum d /\ labelled_docs (columns snap_x) [0; 1]%Z = Ok D /\ double_corresponding (ofZ 2) D (open_classes lg ex lga sum) /\
    root_train_main double_bytes double_of 7 ofuel snap_args root_stol (snap_stof lg ex lga sum) picks 1 root_junk good_device d (Ok tt) d' /\
    (exists digits, bytes file = bytes "model.npy" ++ text "_" ++ digits /\ is_numeral digits 1) /\ model_at double_of root_junk d' file = Ok m1.
Proof.
  intros O R1 R2 R3 R4. destruct (snap_disk_exists lg ex lga sum) as (d & HD). destruct (snap_documents lg ex lga sum) as (D & LD & DC).
  pose proof (snap_reads lg ex lga sum d HD) as RD. pose proof (snap_loads lg ex lga sum d HD) as ML. pose proof (snap_options lg ex lga sum) as SO. pose proof (snap_size lg ex lga sum) as SZ. pose proof snap_storable as ST.
  destruct (proj2 (C101_correspondence lg ex lga sum ofuel snap_args root_stol (snap_stof lg ex lga sum) picks 1 root_junk d "old.npy" "model.npy" 2 2 snap_x root_y [0; 1]%Z D 2 2 2 (open_classes lg ex lga sum) (ofZ 2)
    R1 R2 R3 R4 SO eq_refl eq_refl eq_refl RD root_labels LD ML SZ ST ST DC) ltac:(lia)) as (d' & R).
  destruct (proj1 (class_built double_of snap_args root_stol (snap_stof lg ex lga sum) picks 1 root_junk d snap_x [0; 1]%Z "old.npy" "model.npy" 2 2 2 2 2 (open_classes lg ex lga sum) (ofZ 2) SO ML SZ ltac:(lia) eq_refl) eq_refl eq_refl) as (h & cf & AS & B).
  assert (NE : 1 <= em_cols snap_x) by (change (1 <= 2); lia).
  destruct (C98_snapshots lg ex lga sum 7 ofuel snap_args root_stol (snap_stof lg ex lga sum) picks 1 root_junk d d' "model.npy" snap_x root_y [0; 1]%Z 2 2 2 h 1 eq_refl RD root_labels NE AS ST ST eq_refl ltac:(lia) ltac:(lia) R)
    as (o & docs & St & M & new & B' & _ & _ & X). rewrite B in B'. injection B' as <-. cbn [ob_iterations] in X. destruct (X ltac:(lia)) as (st & m & ep & _ & _ & Y & _).
  destruct (Y 1 ltac:(lia) eq_refl) as (file & digits & st_e & m_e & ep_e & N1 & N2 & N3 & _). exists d, d', D, file, m_e.
  split; [exact HD|]. split; [exact LD|]. split; [exact DC|]. split; [exact R|]. split; [exists digits; split; [exact N1|exact N2]|exact (N3 root_junk)].
Qed.
