(** Properties C102 and C103, the snapshots. *)
Require Import Reals ZArith List Bool Arith Lia Ascii String.
From Flocq Require Import Core.Core IEEE754.BinarySingleNaN.
Require Import Verif.Base Verif.Scalar Verif.Mat Verif.NumpyModel Verif.NumpySpec Verif.HostModel Verif.HostProofs Verif.DiskModel Verif.BuilderModel Verif.EStepModel Verif.OptModel
  Verif.MStepModel Verif.MStepSpec Verif.PoolModel Verif.LdaModel Verif.TrainFit Verif.SettingsModel Verif.AppsModel Verif.ShapeSpec Verif.CommandModel Verif.CommandSpec Verif.CommandFiles Verif.FreshSpec Verif.FreshTrain
  Verif.DoubleSpec Verif.DoubleTrainSpec Verif.DoubleClassSpec Verif.DoubleMultiTrainSpec Verif.DoubleCorrTrainSpec Verif.RootModel Verif.RootSpec Verif.RootSnapSpec Verif.RootCases Verif.RootSnapCases
  Verif.RootFreshSpec Verif.RootFreshCases Verif.RootFreshTheorems Verif.DoubleInferSpec Verif.RootTheorems Verif.RootSaveProofs.
Import ListNotations.
Local Open Scope nat_scope.
Local Open Scope list_scope.
Local Notation length := List.length.

(** C102, with snapshots.  A training from scratch as in C102 with --snapshot_every N: for every multiple e of N up to the number of iterations there is a file named MODEL, an underscore and e
    after every run, which reads back as topics and classes that are distributions up to rounding, with which training can be continued. *)
Theorem C102_snapshots_correspondence lg ex lga sum ofuel args stol (stof : string -> outcome double) document_draws hw jk d path n w x y0 y D K C mu N e r d' : let O := double_ops lg ex lga sum in
  rough_log lg -> rough_log_below lg -> rough_exp ex -> (forall l, summed l (sum l)) ->
  scratch_options args stol stof path K n w -> off args "--multinomial" -> on args "--correspondence" -> float_arg args stof "--mu" = Ok mu ->
  data_xy args jk d = Ok (x, y0) -> labels y0 = Ok y -> labelled_docs (columns x) y = Ok D ->
  plain_corpus (columns x) (em_rows x) -> (Z.of_nat (length (columns x)) <= 2 ^ 28)%Z -> labels_below C y -> 1 <= K <= 139 -> storable K (em_rows x) -> storable K C ->
  usual_mu mu -> corresponding_bound mu (all_words (columns x)) C ->
  long_arg args stol "--snapshot_every" = Ok (Z.of_nat N) -> 0 < N -> 1 <= e <= n -> e mod N = 0 ->
  root_train_main double_bytes double_of 7 ofuel args stol stof document_draws hw jk good_device d r d' ->
  exists file digits m, bytes file = bytes path ++ text "_" ++ digits /\ is_numeral digits (Z.of_nat e) /\ (forall jk', model_at double_of jk' d' file = Ok m) /\
    has_size K (em_rows x) C m /\ p_alpha m = vtab K (fun _ => inverse K) /\ double_corresponding mu D m /\ double_topics (p_beta m) /\ double_topics (p_eta m).
Proof.
  intros O R1 R2 R3 R4. exact (saved_correspondence lg ex lga sum R1 R2 R3 R4 ofuel args stol stof document_draws hw jk d path n w x y0 y D K C mu N e r d').
Qed.
Print Assumptions C102_snapshots_correspondence.
Theorem C102_snapshots_multinomial lg ex lga sum ofuel args stol (stof : string -> outcome double) document_draws hw jk d path n w x y0 y D K C mu weight N e r d' : let O := double_ops lg ex lga sum in
  rough_log lg -> rough_log_below lg -> rough_exp ex -> (forall l, summed l (sum l)) ->
  scratch_options args stol stof path K n w -> on args "--multinomial" -> float_arg args stof "--mu" = Ok mu -> float_arg args stof "--eta_weight" = Ok weight ->
  data_xy args jk d = Ok (x, y0) -> labels y0 = Ok y -> labelled_docs (columns x) y = Ok D ->
  plain_corpus (columns x) (em_rows x) -> labels_below C y -> (Z.of_nat C <= 2 ^ 29)%Z -> 1 <= K <= 100 -> storable K (em_rows x) -> storable K C ->
  usual_mu mu -> multinomial_bound mu weight (all_words (columns x)) C ->
  long_arg args stol "--snapshot_every" = Ok (Z.of_nat N) -> 0 < N -> 1 <= e <= n -> e mod N = 0 ->
  root_train_main double_bytes double_of 7 ofuel args stol stof document_draws hw jk good_device d r d' ->
  exists file digits m, bytes file = bytes path ++ text "_" ++ digits /\ is_numeral digits (Z.of_nat e) /\ (forall jk', model_at double_of jk' d' file = Ok m) /\
    has_size K (em_rows x) C m /\ p_alpha m = vtab K (fun _ => inverse K) /\ double_labelled mu weight D m /\ double_topics (p_beta m) /\ double_topics (p_eta m).
Proof.
  intros O R1 R2 R3 R4. exact (saved_multinomial lg ex lga sum R1 R2 R3 R4 ofuel args stol stof document_draws hw jk d path n w x y0 y D K C mu weight N e r d').
Qed.
Print Assumptions C102_snapshots_multinomial.

(** The training of C102_case makes a snapshot after each of its two iterations. *)
Example C102_snapshots_case lg ex lga sum ofuel picks multinomial : let O := double_ops lg ex lga sum in rough_log lg -> rough_log_below lg -> rough_exp ex -> (forall l, summed l (sum l)) ->
  exists d d' file digits m, root_disk lg ex lga sum d /\ root_train_main double_bytes double_of 7 ofuel (scratch_args multinomial) root_stol (snap_stof lg ex lga sum) picks 1 root_junk good_device d (Ok tt) d' /\
    bytes file = bytes "model.npy" ++ text "_" ++ digits /\ is_numeral digits 1 /\ model_at double_of root_junk d' file = Ok m /\ double_topics (p_eta m).
Proof.
  intros O R1 R2 R3 R4. destruct (scratch_documents lg ex lga sum) as (D & LD). destruct (C102_case lg ex lga sum ofuel picks multinomial R1 R2 R3 R4) as (d & d' & m & HD & R & _).
  destruct root_storable as [S1 S2]. pose proof (scratch_case lg ex lga sum multinomial) as SC. pose proof (scratch_reads lg ex lga sum multinomial d HD) as RD.
  assert (SZ : (Z.of_nat (length (columns root_x)) <= 2 ^ 28)%Z) by (rewrite root_columns; cbn; lia).
  assert (K1 : 1 <= 2 <= 139) by lia. assert (K2 : 1 <= 2 <= 100) by lia. assert (E1 : 1 <= 1 <= 2) by lia. assert (N1 : 0 < 1) by lia.
  destruct multinomial.
  - destruct (C102_snapshots_multinomial lg ex lga sum ofuel (scratch_args true) root_stol (snap_stof lg ex lga sum) picks 1 root_junk d "model.npy" 2 2 root_x root_y [0; 1]%Z D 2 2 (ofZ 2) (ofZ 2) 1 1 (Ok tt) d' R1 R2 R3 R4 SC
      eq_refl eq_refl eq_refl RD root_labels LD scratch_plain scratch_labels ltac:(lia) K2 S1 S2 (proj1 (two_mu lg ex lga sum)) (scratch_multinomial lg ex lga sum) eq_refl N1 E1 eq_refl R)
      as (file & digits & m1 & B1 & B2 & B3 & _ & _ & _ & _ & B4). exists d, d', file, digits, m1. exact (conj HD (conj R (conj B1 (conj B2 (conj (B3 root_junk) B4))))).
  - destruct (C102_snapshots_correspondence lg ex lga sum ofuel (scratch_args false) root_stol (snap_stof lg ex lga sum) picks 1 root_junk d "model.npy" 2 2 root_x root_y [0; 1]%Z D 2 2 (ofZ 2) 1 1 (Ok tt) d' R1 R2 R3 R4 SC
      eq_refl eq_refl eq_refl RD root_labels LD scratch_plain SZ scratch_labels K1 S1 S2 (proj1 (two_mu lg ex lga sum)) (scratch_corresponding lg ex lga sum) eq_refl N1 E1 eq_refl R)
      as (file & digits & m1 & B1 & B2 & B3 & _ & _ & _ & _ & B4). exists d, d', file, digits, m1. exact (conj HD (conj R (conj B1 (conj B2 (conj (B3 root_junk) B4))))).
Qed.

(** C103, with snapshots.  evaluate with one of these files in place of MODEL: as C103_evaluate. *)
Theorem C103_snapshots lg ex lga sum ofuel args stol (stof : string -> outcome double) document_draws hw jk d path n w x y0 y D K C mu N ep r d' : let O := double_ops lg ex lga sum in
  rough_log lg -> rough_log_below lg -> rough_exp ex -> (forall l, summed l (sum l)) ->
  scratch_options args stol stof path K n w -> float_arg args stof "--mu" = Ok mu -> class_variant args stof K C (columns x) mu ->
  data_xy args jk d = Ok (x, y0) -> labels y0 = Ok y -> labelled_docs (columns x) y = Ok D ->
  plain_corpus (columns x) (em_rows x) -> labels_below C y -> 1 <= K -> storable K (em_rows x) -> storable K C -> usual_mu mu ->
  long_arg args stol "--snapshot_every" = Ok (Z.of_nat N) -> 0 < N -> 1 <= ep <= n -> ep mod N = 0 ->
  root_train_main double_bytes double_of 7 ofuel args stol stof document_draws hw jk good_device d r d' ->
  exists file digits m, bytes file = bytes path ++ text "_" ++ digits /\ is_numeral digits (Z.of_nat ep) /\ (forall jk', model_at double_of jk' d' file = Ok m) /\
    forall args2 stol2 (stof2 : string -> outcome double) hw2 jk2 d2 x2 y2 l2 n2 e t q,
      d2 (bytes file) = d' (bytes file) -> data_xy args2 jk2 d2 = Ok (x2, y2) -> labels y2 = Ok l2 -> args2 "MODEL"%string = VString file ->
      long_arg args2 stol2 "--workers" = Ok n2 -> long_arg args2 stol2 "--e_step_iterations" = Ok e -> float_arg args2 stof2 "--e_step_tolerance" = Ok t -> args2 "--quiet"%string = VBool q ->
      0 < size n2 -> 1 <= em_cols x2 -> (Z.of_nat (em_cols x2) < 2 ^ 31)%Z -> em_cols x2 <= length l2 ->
      Forall (fun words => known_document (columns x) (em_rows x) words /\ (0 < fold_right Z.add 0 words)%Z) (columns x2) ->
      exists p a, predict_call 7 (Classic (mk_econf (size e) t one)) 0 (size n2) m (columns x2) (Ok p) /\
        (forall r2, evaluate_main double_of 7 args2 stol2 stof2 hw2 jk2 d2 r2 <-> r2 = Ok a) /\ is_finite a = true /\
        (Rabs (B2R a - INR (right l2 p) / INR (em_cols x2)) <= INR (em_cols x2) * / 2 ^ 50)%R.
Proof.
  intros O R1 R2 R3 R4 SO MU CV DX LY LD PC LB HK S1 S2 UM SE HN HE EM RUN.
  destruct (saved_model lg ex lga sum R1 R2 R3 R4 ofuel args stol stof document_draws hw jk d path n w x y0 y D K C mu N ep r d' SO MU CV DX LY LD PC LB HK S1 S2 UM SE HN HE EM RUN)
    as (file & digits & m & B1 & B2 & MA & EB & HQ).
  exists file, digits, m. split; [exact B1|]. split; [exact B2|]. split; [exact MA|]. intros args2 stol2 stof2 hw2 jk2 d2 x2 y2 l2 n2 e t q ED DX2 LY2 A E1 E2 E3 E4 HW N1 N2 N3 KD.
  assert (MD : model_at double_of jk2 d2 file = Ok m) by (rewrite <- (MA jk2); unfold model_at, open_in; now rewrite ED).
  assert (NZ : 1 <= mrows (p_beta m)) by (rewrite EB; exact HK).
  assert (FQ : Forall (fun words => double_query 1 words m) (columns x2)) by (eapply Forall_impl; [|exact KD]; intros words [KW W0]; exact (HQ words KW W0)).
  destruct (C97_classified lg ex lga sum 1 args2 stol2 stof2 hw2 jk2 d2 x2 y2 file m n2 e t q l2 R1 R3 R4 DX2 LY2 A MD NZ E1 E2 E3 E4 HW N1 N2 N3 FQ) as (p & P & a & X & F & B).
  exists p, a. exact (conj P (conj X (conj F B))).
Qed.
Print Assumptions C103_snapshots.

(** The training of C102_case, and then evaluate on the same documents with the snapshot of its first iteration *)
Example C103_snapshots_case lg ex lga sum ofuel picks multinomial : let O := double_ops lg ex lga sum in rough_log lg -> rough_log_below lg -> rough_exp ex -> (forall l, summed l (sum l)) ->
  exists d d' d2 file digits args2 a, root_disk lg ex lga sum d /\ root_train_main double_bytes double_of 7 ofuel (scratch_args multinomial) root_stol (snap_stof lg ex lga sum) picks 1 root_junk good_device d (Ok tt) d' /\
    bytes file = bytes "model.npy" ++ text "_" ++ digits /\ is_numeral digits 1 /\ d2 (bytes file) = d' (bytes file) /\ args2 "MODEL"%string = VString file /\
    evaluate_main double_of 7 args2 root_stol (snap_stof lg ex lga sum) 1 root_junk d2 (Ok a) /\ is_finite a = true.
Proof.
  intros O R1 R2 R3 R4. destruct (scratch_documents lg ex lga sum) as (D & LD). destruct (C102_case lg ex lga sum ofuel picks multinomial R1 R2 R3 R4) as (d & d' & m & HD & R & _).
  destruct root_storable as [S1 S2]. pose proof (scratch_case lg ex lga sum multinomial) as SC. pose proof (scratch_reads lg ex lga sum multinomial d HD) as RD.
  assert (CV : class_variant (scratch_args multinomial) (snap_stof lg ex lga sum) 2 2 (columns root_x) (ofZ 2)).
  { destruct multinomial; [apply (variant_multinomial _ _ _ _ _ _ (ofZ 2)); try reflexivity; [lia|lia|apply scratch_multinomial]|apply variant_correspondence; try reflexivity; [lia|rewrite root_columns; cbn; lia|apply scratch_corresponding]]. }
  assert (W : 0 < 2) by lia. assert (W1 : 1 <= 2) by lia. assert (N2 : (Z.of_nat 2 < 2 ^ 31)%Z) by lia. assert (E1 : 1 <= 1 <= 2) by lia. assert (N1 : 0 < 1) by lia.
  assert (SE : long_arg (scratch_args multinomial) root_stol "--snapshot_every" = Ok (Z.of_nat 1)) by reflexivity.
  destruct (C103_snapshots lg ex lga sum ofuel (scratch_args multinomial) root_stol (snap_stof lg ex lga sum) picks 1 root_junk d "model.npy" 2 2 root_x root_y [0; 1]%Z D 2 2 (ofZ 2) 1 1 (Ok tt) d'
    R1 R2 R3 R4 SC eq_refl CV RD root_labels LD scratch_plain scratch_labels W1 S1 S2 (proj1 (two_mu lg ex lga sum)) SE N1 E1 eq_refl R) as (file & digits & m1 & B1 & B2 & _ & X).
  set (d2 := fun name => if list_eq_dec ascii_dec name (bytes "data.npy") then d name else d' name).
  assert (ED : d2 (bytes file) = d' (bytes file)) by (unfold d2; destruct (list_eq_dec _ _ _) as [E|_]; [rewrite B1 in E; discriminate E|reflexivity]).
  set (args2 := fun key => if String.eqb key "MODEL" then VString file else scratch_args multinomial key).
  assert (RD2 : data_xy args2 root_junk d2 = Ok (root_x, root_y)).
  { rewrite <- RD. unfold data_xy. change (scratch_args multinomial "DATA"%string) with (VString "data.npy"). change (args2 "DATA"%string) with (VString "data.npy"). cbn [asString bind]. unfold open_in, d2. destruct (list_eq_dec _ _ _) as [_|E]; [reflexivity|congruence]. }
  assert (KD : Forall (fun words => known_document (columns root_x) (em_rows root_x) words /\ (0 < fold_right Z.add 0 words)%Z) (columns root_x)).
  { apply Forall_forall. intros words I. pose proof (pc_counts _ _ scratch_plain words I) as (L & CN & SW). split; [split; [exact L|split; [exact CN|split; [exact SW|]]]|].
    - intros i Ni. exists words. split; [exact I|exact Ni].
    - rewrite root_columns in I. destruct I as [<-|[<-|[]]]; cbn; lia. }
  destruct (X args2 root_stol (snap_stof lg ex lga sum) 1 root_junk d2 root_x root_y [0; 1]%Z 2%Z 2%Z (ofZ 2) true ED RD2 root_labels eq_refl eq_refl eq_refl eq_refl eq_refl W W1 N2 (le_n 2) KD) as (p & a & _ & Y & F & _).
  exists d, d', d2, file, digits, args2, a. exact (conj HD (conj R (conj B1 (conj B2 (conj ED (conj eq_refl (conj (proj2 (Y (Ok a)) eq_refl) F))))))).
Qed.
