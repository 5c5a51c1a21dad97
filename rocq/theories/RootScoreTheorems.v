(** Property C103: evaluate after train, in the root directory's application. *)
Require Import Reals ZArith List Bool Arith Lia Ascii String.
From Flocq Require Import Core.Core IEEE754.BinarySingleNaN.
Require Import Verif.Base Verif.Scalar Verif.Mat Verif.NumpyModel Verif.NumpySpec Verif.HostModel Verif.HostProofs Verif.DiskModel Verif.BuilderModel Verif.EStepModel Verif.OptModel
  Verif.LdaModel Verif.SettingsModel Verif.AppsModel Verif.ShapeSpec Verif.CommandModel Verif.CommandSpec Verif.CommandFiles Verif.FreshSpec
  Verif.DoubleSpec Verif.DoubleTrainSpec Verif.DoubleClassSpec Verif.DoubleMultiTrainSpec Verif.DoubleCorrTrainSpec Verif.DoubleInferSpec
  Verif.RootModel Verif.RootSpec Verif.RootCases Verif.RootTheorems Verif.RootSnapCases Verif.RootFreshSpec Verif.RootFreshProofs Verif.RootFreshCases Verif.RootFreshTheorems Verif.DoubleInferTheorems Verif.RootScoreProofs.
Import ListNotations.
Local Open Scope nat_scope.
Local Open Scope list_scope.
Local Notation length := List.length.

(** C103.  After a training from scratch as in C102, of at least one iteration, evaluate with the model file on labelled documents with at least one word each, all of whose words occurred
    in training, ends normally; whatever the schedule it prints the same finite number, which is the fraction of right predictions up to n 2^-50 for n documents.  The documents and the
    model are as C81 asks for them (with coefficients of at most 1): the predictions are the classes with the best scores up to rounding. *)
Theorem C103_evaluate lg ex lga sum ofuel args stol (stof : string -> outcome double) document_draws hw jk d path n w x y0 y D K C mu r d'
  args2 stol2 (stof2 : string -> outcome double) hw2 jk2 d2 x2 y2 l2 n2 e t q : let O := double_ops lg ex lga sum in
  rough_log lg -> rough_log_below lg -> rough_exp ex -> (forall l, summed l (sum l)) ->
  scratch_options args stol stof path K n w -> float_arg args stof "--mu" = Ok mu -> class_variant args stof K C (columns x) mu ->
  data_xy args jk d = Ok (x, y0) -> labels y0 = Ok y -> labelled_docs (columns x) y = Ok D ->
  plain_corpus (columns x) (em_rows x) -> labels_below C y -> 1 <= K -> storable K (em_rows x) -> storable K C -> usual_mu mu -> 0 < n ->
  root_train_main double_bytes double_of 7 ofuel args stol stof document_draws hw jk good_device d r d' ->
  d2 (bytes path) = d' (bytes path) -> data_xy args2 jk2 d2 = Ok (x2, y2) -> labels y2 = Ok l2 -> args2 "MODEL"%string = VString path ->
  long_arg args2 stol2 "--workers" = Ok n2 -> long_arg args2 stol2 "--e_step_iterations" = Ok e -> float_arg args2 stof2 "--e_step_tolerance" = Ok t -> args2 "--quiet"%string = VBool q ->
  0 < size n2 -> 1 <= em_cols x2 -> (Z.of_nat (em_cols x2) < 2 ^ 31)%Z -> em_cols x2 <= length l2 ->
  Forall (fun words => known_document (columns x) (em_rows x) words /\ (0 < fold_right Z.add 0 words)%Z) (columns x2) ->
  exists m p a, model_at double_of jk2 d2 path = Ok m /\ Forall (fun words => double_query 1 words m) (columns x2) /\
    predict_call 7 (Classic (mk_econf (size e) t one)) 0 (size n2) m (columns x2) (Ok p) /\
    (forall r2, evaluate_main double_of 7 args2 stol2 stof2 hw2 jk2 d2 r2 <-> r2 = Ok a) /\ is_finite a = true /\
    (Rabs (B2R a - INR (right l2 p) / INR (em_cols x2)) <= INR (em_cols x2) * / 2 ^ 50)%R.
Proof.
  intros O R1 R2 R3 R4 SO MU CV DX LY LD PC LB HK S1 S2 UM HN RUN ED DX2 LY2 A E1 E2 E3 E4 HW N1 N2 N3 KD.
  destruct (scratch_model lg ex lga sum ofuel args stol stof document_draws hw jk d path n w x y0 y D K C mu r d' jk2 d2 (columns x2) R1 R2 R3 R4 SO MU CV DX LY LD PC LB HK S1 S2 UM HN RUN ED KD) as (m & MD & EB & HQ).
  assert (NZ : 1 <= mrows (p_beta m)) by (rewrite EB; exact HK).
  destruct (C97_classified lg ex lga sum 1 args2 stol2 stof2 hw2 jk2 d2 x2 y2 path m n2 e t q l2 R1 R3 R4 DX2 LY2 A MD NZ E1 E2 E3 E4 HW N1 N2 N3 HQ) as (p & P & a & X & F & B).
  exists m, p, a. exact (conj MD (conj HQ (conj P (conj X (conj F B))))).
Qed.
Print Assumptions C103_evaluate.

(** transform afterwards, on a good device: it ends normally and prints that fraction; the file OUTPUT reads back as the topics of the documents, valid posteriors up to rounding; no other
    file changes. *)
Theorem C103_transform lg ex lga sum ofuel args stol (stof : string -> outcome double) document_draws hw jk d path n w x y0 y D K C mu r d'
  args2 stol2 (stof2 : string -> outcome double) hw2 jk2 d2 x2 y2 l2 n2 e t q out : let O := double_ops lg ex lga sum in
  rough_log lg -> rough_log_below lg -> rough_exp ex -> (forall l, summed l (sum l)) ->
  scratch_options args stol stof path K n w -> float_arg args stof "--mu" = Ok mu -> class_variant args stof K C (columns x) mu ->
  data_xy args jk d = Ok (x, y0) -> labels y0 = Ok y -> labelled_docs (columns x) y = Ok D ->
  plain_corpus (columns x) (em_rows x) -> labels_below C y -> 1 <= K -> storable K (em_rows x) -> storable K C -> usual_mu mu -> 0 < n ->
  root_train_main double_bytes double_of 7 ofuel args stol stof document_draws hw jk good_device d r d' ->
  d2 (bytes path) = d' (bytes path) -> data_xy args2 jk2 d2 = Ok (x2, y2) -> labels y2 = Ok l2 -> args2 "MODEL"%string = VString path ->
  long_arg args2 stol2 "--workers" = Ok n2 -> long_arg args2 stol2 "--e_step_iterations" = Ok e -> float_arg args2 stof2 "--e_step_tolerance" = Ok t -> args2 "--quiet"%string = VBool q ->
  0 < size n2 -> 1 <= em_cols x2 -> (Z.of_nat (em_cols x2) < 2 ^ 31)%Z -> em_cols x2 <= length l2 ->
  Forall (fun words => known_document (columns x) (em_rows x) words /\ (0 < fold_right Z.add 0 words)%Z) (columns x2) ->
  args2 "OUTPUT"%string = VString out -> storable K (em_cols x2) ->
  exists m p g, model_at double_of jk2 d2 path = Ok m /\ predict_call 7 (Classic (mk_econf (size e) t one)) 0 (size n2) m (columns x2) (Ok p) /\
    (forall i, i < em_cols x2 -> exists phi, double_posterior (nth i (columns x2) []) m (mcol g i) phi) /\
    (exists r2 d3, root_transform_main double_bytes double_of 7 args2 stol2 stof2 hw2 jk2 good_device d2 r2 d3) /\
    forall r2 d3, root_transform_main double_bytes double_of 7 args2 stol2 stof2 hw2 jk2 good_device d2 r2 d3 ->
      (exists a, r2 = Ok a /\ is_finite a = true /\ (Rabs (B2R a - INR (right l2 p) / INR (em_cols x2)) <= INR (em_cols x2) * / 2 ^ 50)%R) /\
      (forall name, name <> bytes out -> d3 name = d2 name) /\
      exists b a, d3 (bytes out) = Some b /\ mat_of double_of a = g /\ forall j, NumpyModel.load false F8 false false j (mk_stream b true) = Ok (a, mk_stream [] true).
Proof.
  intros O R1 R2 R3 R4 SO MU CV DX LY LD PC LB HK S1 S2 UM HN RUN ED DX2 LY2 A E1 E2 E3 E4 HW N1 N2 N3 KD OUT ST.
  destruct (scratch_model lg ex lga sum ofuel args stol stof document_draws hw jk d path n w x y0 y D K C mu r d' jk2 d2 (columns x2) R1 R2 R3 R4 SO MU CV DX LY LD PC LB HK S1 S2 UM HN RUN ED KD) as (m & MD & EB & HQ).
  assert (NZ : 1 <= mrows (p_beta m)) by (rewrite EB; exact HK).
  destruct (C97_classified lg ex lga sum 1 args2 stol2 stof2 hw2 jk2 d2 x2 y2 path m n2 e t q l2 R1 R3 R4 DX2 LY2 A MD NZ E1 E2 E3 E4 HW N1 N2 N3 HQ) as (p & P & _).
  assert (NE : columns x2 <> []) by (intros E; pose proof (columns_length x2) as L; rewrite E in L; cbn in L; lia).
  destruct (C81_partial lg ex lga sum 1 _ _ _ _ _ _ R1 R3 R4 HQ NE P) as (g & s & p' & G & _ & _ & _ & DP).
  exists m, p, g. split; [exact MD|]. split; [exact P|]. split.
  - intros i Hi. rewrite <- (columns_length x2) in Hi. destruct (DP i Hi) as (phi & _ & B & _). exists phi. exact B.
  - rewrite <- EB in ST. exact (C97_transform lg ex lga sum 7 args2 stol2 stof2 hw2 jk2 d2 x2 y2 path m n2 e t q l2 (size n2) p g out DX2 LY2 A MD NZ E1 E2 E3 E4 HW N1 N2 N3 P G OUT ST).
Qed.
Print Assumptions C103_transform.

(** The training of C102_case, and then evaluate and transform on the same documents with the model it left *)
Example C103_case lg ex lga sum ofuel picks multinomial : let O := double_ops lg ex lga sum in rough_log lg -> rough_log_below lg -> rough_exp ex -> (forall l, summed l (sum l)) ->
  exists d d' d2 p a, root_disk lg ex lga sum d /\ root_train_main double_bytes double_of 7 ofuel (scratch_args multinomial) root_stol (snap_stof lg ex lga sum) picks 1 root_junk good_device d (Ok tt) d' /\
    d2 (bytes "model.npy") = d' (bytes "model.npy") /\ evaluate_main double_of 7 (scratch_args multinomial) root_stol (snap_stof lg ex lga sum) 1 root_junk d2 (Ok a) /\ is_finite a = true /\
    (Rabs (B2R a - INR (right [0; 1]%Z p) / INR 2) <= INR 2 * / 2 ^ 50)%R /\
    exists a d3, root_transform_main double_bytes double_of 7 (scratch_args multinomial) root_stol (snap_stof lg ex lga sum) 1 root_junk good_device d2 (Ok a) d3.
Proof.
  intros O R1 R2 R3 R4. destruct (scratch_documents lg ex lga sum) as (D & LD). destruct (C102_case lg ex lga sum ofuel picks multinomial R1 R2 R3 R4) as (d & d' & m & HD & R & _).
  destruct root_storable as [S1 S2]. pose proof (scratch_case lg ex lga sum multinomial) as SC. pose proof (scratch_reads lg ex lga sum multinomial d HD) as RD.
  assert (CV : class_variant (scratch_args multinomial) (snap_stof lg ex lga sum) 2 2 (columns root_x) (ofZ 2)).
  { destruct multinomial; [apply (variant_multinomial _ _ _ _ _ _ (ofZ 2)); try reflexivity; [lia|lia|apply scratch_multinomial]|apply variant_correspondence; try reflexivity; [lia|rewrite root_columns; cbn; lia|apply scratch_corresponding]]. }
  set (d2 := fun name => if list_eq_dec ascii_dec name (bytes "data.npy") then d name else d' name).
  assert (ED : d2 (bytes "model.npy") = d' (bytes "model.npy")) by (unfold d2; destruct (list_eq_dec _ _ _) as [X|_]; [discriminate X|reflexivity]).
  assert (RD2 : data_xy (scratch_args multinomial) root_junk d2 = Ok (root_x, root_y)).
  { rewrite <- RD. unfold data_xy. change (scratch_args multinomial "DATA"%string) with (VString "data.npy"). cbn [asString bind]. unfold open_in, d2. destruct (list_eq_dec _ _ _) as [_|X]; [reflexivity|congruence]. }
  assert (KD : Forall (fun words => known_document (columns root_x) (em_rows root_x) words /\ (0 < fold_right Z.add 0 words)%Z) (columns root_x)).
  { apply Forall_forall. intros words I. pose proof (pc_counts _ _ scratch_plain words I) as (L & CN & SW). split; [split; [exact L|split; [exact CN|split; [exact SW|]]]|].
    - intros i Ni. exists words. split; [exact I|exact Ni].
    - rewrite root_columns in I. destruct I as [<-|[<-|[]]]; cbn; lia. }
  assert (W : 0 < 2) by lia. assert (W1 : 1 <= 2) by lia. assert (N2 : (Z.of_nat 2 < 2 ^ 31)%Z) by lia.
  destruct (C103_evaluate lg ex lga sum ofuel (scratch_args multinomial) root_stol (snap_stof lg ex lga sum) picks 1 root_junk d "model.npy" 2 2 root_x root_y [0; 1]%Z D 2 2 (ofZ 2) (Ok tt) d'
    (scratch_args multinomial) root_stol (snap_stof lg ex lga sum) 1 root_junk d2 root_x root_y [0; 1]%Z 2%Z 2%Z (ofZ 2) true R1 R2 R3 R4 SC eq_refl CV RD root_labels LD scratch_plain scratch_labels W1 S1 S2
    (proj1 (two_mu lg ex lga sum)) W R ED RD2 root_labels eq_refl eq_refl eq_refl eq_refl eq_refl W W1 N2 (le_n 2) KD) as (m2 & p & a & _ & _ & _ & X & F & B).
  destruct (C103_transform lg ex lga sum ofuel (scratch_args multinomial) root_stol (snap_stof lg ex lga sum) picks 1 root_junk d "model.npy" 2 2 root_x root_y [0; 1]%Z D 2 2 (ofZ 2) (Ok tt) d'
    (scratch_args multinomial) root_stol (snap_stof lg ex lga sum) 1 root_junk d2 root_x root_y [0; 1]%Z 2%Z 2%Z (ofZ 2) true "2" R1 R2 R3 R4 SC eq_refl CV RD root_labels LD scratch_plain scratch_labels W1 S1 S2
    (proj1 (two_mu lg ex lga sum)) W R ED RD2 root_labels eq_refl eq_refl eq_refl eq_refl eq_refl W W1 N2 (le_n 2) KD eq_refl S2) as (_ & p3 & g & _ & _ & _ & (r3 & d3 & T) & Y).
  destruct (Y r3 d3 T) as ((a3 & -> & _) & _).
  exists d, d', d2, p, a. exact (conj HD (conj R (conj ED (conj (proj2 (X (Ok a)) eq_refl) (conj F (conj B (ex_intro _ a3 (ex_intro _ d3 T)))))))).
Qed.
