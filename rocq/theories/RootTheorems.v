(** Properties C97-C100: the application in the root directory. *)
Require Import Reals ZArith List Bool Arith Lia Lra Ascii String.
From Flocq Require Import Core.Core IEEE754.BinarySingleNaN.
Require Import Verif.Base Verif.Scalar Verif.Mat Verif.NumpyModel Verif.HostModel Verif.HostProofs Verif.DiskModel Verif.UtilsModel Verif.BuilderModel Verif.EStepModel Verif.OptModel
  Verif.MStepModel Verif.MStepSpec Verif.PoolModel Verif.LdaModel Verif.InferSpec Verif.InferProofs Verif.TrainFit Verif.SettingsModel Verif.AppsModel Verif.AppsSpec Verif.AppsProofs Verif.PrintSpec
  Verif.ShapeSpec Verif.CommandModel Verif.CommandSpec Verif.CommandProofs Verif.CommandFiles Verif.ProgramSpec Verif.DoubleSpec Verif.DoubleInferSpec Verif.DoubleInfer Verif.DoubleInferCases Verif.DoubleClassSpec Verif.DoubleMultiTrainSpec Verif.DoubleCorrTrainSpec Verif.DoubleCorrTrainCases Verif.DoubleCorrTrainTheorems
  Verif.RootModel Verif.RootSpec Verif.RootProofs Verif.RootScore Verif.RootQuery Verif.RootListen Verif.RootProgress Verif.RootCases.
Import ListNotations.
Local Open Scope nat_scope.
Local Open Scope list_scope.
Local Notation length := List.length.

(** ** C97: the score *)

(** In exact arithmetic the score is the fraction of the documents whose label is the class predicted for them; labels beyond the documents
    are not looked at; with fewer labels than documents the call is undefined. *)
Theorem C97_exact lg y p : 1 <= length p ->
  (length p <= length y -> accuracy_score (O := Rops lg) y (map Z.of_nat p) = Ok (INR (right y p) / INR (length p))%R) /\
  (length y < length p -> accuracy_score (O := Rops lg) y (map Z.of_nat p) = UB).
Proof.
  intros H. pose proof (score_is (O := Rops lg) y p) as E. split; intros L.
  - rewrite E. apply Nat.leb_le in L. rewrite L. f_equal. cbn [zero div one ofZ Rops]. rewrite iter_R, <- INR_IZR_INZ. unfold Rdiv. lra.
  - rewrite E. apply Nat.leb_gt in L. rewrite L. reflexivity.
Qed.
Print Assumptions C97_exact.
(** [right] counts the documents whose label is their prediction. *)
Theorem C97_right y p : right y p = length (filter (fun i => (nth i y (-1) =? Z.of_nat (nth i p 0%nat))%Z) (seq 0 (length p))).
Proof.
  revert y. induction p as [|q p IH]; intros [|c y]; try reflexivity.
  - cbn [right]. cbn [length]. symmetry. replace (filter _ _) with (@nil nat); [reflexivity|].
    symmetry. induction (seq 0 (S (length p))) as [|i l IHl]; [reflexivity|]. cbn [filter]. replace (nth i [] (-1)%Z) with (-1)%Z by (destruct i; reflexivity).
    destruct (Z.eqb_spec (-1) (Z.of_nat (nth i (q :: p) 0))); [lia|exact IHl].
  - cbn [right length seq filter]. change (nth 0 (c :: y) (-1)%Z) with c. change (nth 0 (q :: p) 0) with q. rewrite IH, <- seq_shift.
    assert (E : forall l, length (filter (fun i => (nth i (c :: y) (-1) =? Z.of_nat (nth i (q :: p) 0%nat))%Z) (map S l)) = length (filter (fun i => (nth i y (-1) =? Z.of_nat (nth i p 0%nat))%Z) l)).
    { induction l as [|i l IHl]; [reflexivity|]. cbn [map filter]. change (nth (S i) (c :: y) (-1)%Z) with (nth i y (-1)%Z). change (nth (S i) (q :: p) 0) with (nth i p 0). destruct (nth i y (-1) =? Z.of_nat (nth i p 0%nat))%Z; cbn [length]; now rewrite IHl. }
    destruct (c =? Z.of_nat q)%Z; cbn [length]; now rewrite E.
Qed.
Print Assumptions C97_right.

(** In double precision: evaluate, for every model, every data file and every number of workers and schedule.  When the documents can be
    classified ([p]), evaluate ends, and whatever the schedule the score it prints is within n 2^-50 of that fraction, n the number of
    documents (and 0 if no prediction is right). *)
Theorem C97_evaluate (lg ex lga : double -> double) (sum : list double -> double) dfuel args stol (stof : string -> outcome double) hw jk d x y0 f m n e t q y W p :
  let O := double_ops lg ex lga sum in
  data_xy args jk d = Ok (x, y0) -> labels y0 = Ok y -> args "MODEL"%string = VString f -> model_at double_of jk d f = Ok m -> 1 <= mrows (p_beta m) ->
  long_arg args stol "--workers" = Ok n -> long_arg args stol "--e_step_iterations" = Ok e -> float_arg args stof "--e_step_tolerance" = Ok t -> args "--quiet"%string = VBool q ->
  0 < size n -> 1 <= em_cols x -> (Z.of_nat (em_cols x) < 2 ^ 31)%Z -> em_cols x <= length y ->
  predict_call dfuel (Classic (mk_econf (size e) t one)) 0 W m (columns x) (Ok p) ->
  (exists r, evaluate_main double_of dfuel args stol stof hw jk d r) /\
  forall r, evaluate_main double_of dfuel args stol stof hw jk d r ->
    exists a, r = Ok a /\ is_finite a = true /\ (Rabs (B2R a - INR (right y p) / INR (em_cols x)) <= INR (em_cols x) * / 2 ^ 50)%R /\ (right y p = 0 -> a = zero).
Proof.
  intros O D LY A B NZ E1 E2 E3 E4 HW N1 N2 N3 P. split; [exact (evaluate_ends double_of dfuel args stol stof hw jk d x y0 f m n e t q D A B NZ E1 E2 E3 E4 HW)|].
  intros r R. apply (evaluate_is double_of dfuel args stol stof hw jk d x y0 f m n e t q D A B NZ E1 E2 E3 E4 y W p LY P) in R.
  pose proof (predict_length _ _ _ _ _ _ _ P) as L. rewrite columns_length in L.
  destruct (score_d lg ex lga sum y p) as (a & Ea & F & S & Z); try (rewrite L; assumption). exists a. rewrite R. split; [exact Ea|]. split; [exact F|]. rewrite L in S. split; [|exact Z].
  replace (/ 2 ^ 50)%R with (bpow radix2 (-50)); [exact S|]. change (-50)%Z with (- (50))%Z. rewrite bpow_opp. f_equal. rewrite <- IZR_Zpower by lia. now rewrite pow_IZR.
Qed.
Print Assumptions C97_evaluate.
(** When the documents and the model are such that classification in double precision works (C81), there are such predictions. *)
Theorem C97_classified (lg ex lga : double -> double) (sum : list double -> double) H args stol (stof : string -> outcome double) hw jk d x y0 f m n e t q y :
  let O := double_ops lg ex lga sum in rough_log lg -> rough_exp ex -> (forall l, summed l (sum l)) ->
  data_xy args jk d = Ok (x, y0) -> labels y0 = Ok y -> args "MODEL"%string = VString f -> model_at double_of jk d f = Ok m -> 1 <= mrows (p_beta m) ->
  long_arg args stol "--workers" = Ok n -> long_arg args stol "--e_step_iterations" = Ok e -> float_arg args stof "--e_step_tolerance" = Ok t -> args "--quiet"%string = VBool q ->
  0 < size n -> 1 <= em_cols x -> (Z.of_nat (em_cols x) < 2 ^ 31)%Z -> em_cols x <= length y ->
  Forall (fun w => double_query H w m) (columns x) ->
  exists p, predict_call 7 (Classic (mk_econf (size e) t one)) 0 (size n) m (columns x) (Ok p) /\
  exists a, (forall r, evaluate_main double_of 7 args stol stof hw jk d r <-> r = Ok a) /\ is_finite a = true /\
    (Rabs (B2R a - INR (right y p) / INR (em_cols x)) <= INR (em_cols x) * / 2 ^ 50)%R.
Proof.
  intros O R1 R2 R3 D LY A B NZ E1 E2 E3 E4 HW N1 N2 N3 HQ.
  assert (HP : exists r, predict_call 7 (Classic (mk_econf (size e) t one)) 0 (size n) m (columns x) r) by (eexists; eexists; split; [apply transform_exists, HW|reflexivity]).
  destruct HP as (r & P).
  assert (NE : columns x <> []) by (intros E; pose proof (columns_length x) as L; rewrite E in L; cbn in L; lia).
  destruct (predict_double lg ex lga sum R1 R2 R3 H _ _ _ _ _ _ HQ NE P) as (g & s & p & _ & _ & -> & _). exists p. split; [exact P|].
  destruct (C97_evaluate lg ex lga sum 7 args stol stof hw jk d x y0 f m n e t q y (size n) p D LY A B NZ E1 E2 E3 E4 HW N1 N2 N3 P) as ((r & X) & Y).
  destruct (Y r X) as (a & -> & F & S & _). exists a. split; [|split; [exact F|exact S]]. intros r. split; [|intros ->; exact X]. intros X'.
  pose proof (evaluate_is double_of 7 args stol stof hw jk d x y0 f m n e t q D A B NZ E1 E2 E3 E4 y (size n) p LY P) as U. rewrite (U _ X'), <- (U _ X). reflexivity.
Qed.
Print Assumptions C97_classified.

(** transform, on a good device: the same score, and the topics of the documents in the file OUTPUT; no other file changes. *)
Theorem C97_transform (lg ex lga : double -> double) (sum : list double -> double) dfuel args stol (stof : string -> outcome double) hw jk d x y0 f m n e t q y W p g out :
  let O := double_ops lg ex lga sum in
  data_xy args jk d = Ok (x, y0) -> labels y0 = Ok y -> args "MODEL"%string = VString f -> model_at double_of jk d f = Ok m -> 1 <= mrows (p_beta m) ->
  long_arg args stol "--workers" = Ok n -> long_arg args stol "--e_step_iterations" = Ok e -> float_arg args stof "--e_step_tolerance" = Ok t -> args "--quiet"%string = VBool q ->
  0 < size n -> 1 <= em_cols x -> (Z.of_nat (em_cols x) < 2 ^ 31)%Z -> em_cols x <= length y ->
  predict_call dfuel (Classic (mk_econf (size e) t one)) 0 W m (columns x) (Ok p) -> transform_call dfuel (Classic (mk_econf (size e) t one)) 0 W m (columns x) (Ok g) ->
  args "OUTPUT"%string = VString out -> storable (mrows (p_beta m)) (em_cols x) ->
  (exists r d', root_transform_main double_bytes double_of dfuel args stol stof hw jk good_device d r d') /\
  forall r d', root_transform_main double_bytes double_of dfuel args stol stof hw jk good_device d r d' ->
    (exists a, r = Ok a /\ is_finite a = true /\ (Rabs (B2R a - INR (right y p) / INR (em_cols x)) <= INR (em_cols x) * / 2 ^ 50)%R) /\
    (forall name, name <> bytes out -> d' name = d name) /\
    exists w a, d' (bytes out) = Some w /\ mat_of double_of a = g /\ forall j, NumpyModel.load false F8 false false j (mk_stream w true) = Ok (a, mk_stream [] true).
Proof.
  intros O D LY A B NZ E1 E2 E3 E4 HW N1 N2 N3 P G OUT ST.
  split; [exact (transform_ends double_bytes double_of double_round double_bytes_length dfuel args stol stof hw jk d x y0 f m n e t q D A B NZ E1 E2 E3 E4 y W p LY P g out G OUT ST HW)|].
  intros r d' R.
  destruct (transform_is double_bytes double_of double_round double_bytes_length dfuel args stol stof hw jk d x y0 f m n e t q D A B NZ E1 E2 E3 E4 y W p LY P g out G OUT ST r d' R) as (R1 & R2 & R3).
  split; [|split; [exact R2|exact R3]].
  destruct (C97_evaluate lg ex lga sum dfuel args stol stof hw jk d x y0 f m n e t q y W p D LY A B NZ E1 E2 E3 E4 HW N1 N2 N3 P) as ((r' & X) & Y).
  destruct (Y r' X) as (a & E & F & S & _). pose proof (evaluate_is double_of dfuel args stol stof hw jk d x y0 f m n e t q D A B NZ E1 E2 E3 E4 y W p LY P r' X) as U.
  exists a. split; [rewrite R1, <- U; exact E|]. split; [exact F|exact S].
Qed.
Print Assumptions C97_transform.

(** The files and options of RootCases.v meet the hypotheses: three of the words of two labelled documents, two topics, two classes. *)
Example C97_case (lg ex lga : double -> double) (sum : list double -> double) : let O := double_ops lg ex lga sum in rough_log lg -> rough_exp ex -> (forall l, summed l (sum l)) ->
  exists d p a, root_disk lg ex lga sum d /\ predict_call 7 (Classic (mk_econf 2 zero one)) 0 2 (ok_classes lg ex lga sum) [[3; 0; 1]; [0; 2; 0]]%Z (Ok p) /\
    evaluate_main double_of 7 root_args root_stol (root_stof lg ex lga sum) 1 root_junk d (Ok a) /\ (Rabs (B2R a - INR (right [0; 1]%Z p) / 2) <= 2 * / 2 ^ 50)%R.
Proof.
  intros O R1 R2 R3. destruct (root_disk_exists lg ex lga sum) as (d & HD). exists d.
  assert (H1 : 0 < size 2) by (vm_compute; lia). assert (H2 : 1 <= em_cols root_x) by (change (1 <= 2); lia). assert (H3 : (Z.of_nat (em_cols root_x) < 2 ^ 31)%Z) by (change (2 < 2 ^ 31)%Z; lia).
  assert (H4 : em_cols root_x <= length [0; 1]%Z) by (change (2 <= 2); lia). assert (H5 : 1 <= mrows (p_beta (ok_classes lg ex lga sum))) by (change (1 <= 2); lia).
  assert (H6 : Forall (fun w => double_query 1 w (ok_classes lg ex lga sum)) (columns root_x)) by (rewrite root_columns; apply Forall_forall; exact (ok_classes_query lg ex lga sum)).
  destruct (C97_classified lg ex lga sum 1 root_args root_stol (root_stof lg ex lga sum) 1 root_junk d root_x root_y "model.npy" (ok_classes lg ex lga sum) 2%Z 2%Z zero true [0; 1]%Z R1 R2 R3
    (root_reads lg ex lga sum d HD) root_labels eq_refl (root_loads lg ex lga sum d HD) H5 eq_refl eq_refl eq_refl eq_refl H1 H2 H3 H4 H6) as (p & P & a & E & _ & S).
  exists p, a. split; [exact HD|]. rewrite root_columns in P. change (size 2) with 2 in P. split; [exact P|]. split; [apply E; reflexivity|]. exact S.
Qed.
(** The bound is needed: when ten predictions out of ten are right, the score printed in double precision is not 1. *)
Theorem C97_ten lg ex lga sum : let O := double_ops lg ex lga sum in exists a : double,
  accuracy_score (repeat 0%Z 10) (map Z.of_nat (repeat 0 10)) = Ok a /\ ltb a one = true.
Proof.
  intros O. assert (E : match accuracy_score (repeat 0%Z 10) (map Z.of_nat (repeat 0 10)) with Ok a => ltb a one | _ => false end = true) by (vm_compute; reflexivity).
  destruct (accuracy_score (repeat 0%Z 10) (map Z.of_nat (repeat 0 10))) as [a| |]; try discriminate E. exists a. split; [reflexivity|exact E].
Qed.
Print Assumptions C97_ten.

(** ** C98: train is the program its options describe *)

(** On a good device, without snapshots, the ways train can end (with a model in the file MODEL, with an exception, with undefined behaviour;
    [root_trained]) are those of the program that makes the builder calls the options stand for ([root_asks]), fits the object to the corpus
    in DATA and takes its model ([program]).  [K], [V], [C]: the sizes of the model, which a file must be able to hold. *)
Theorem C98_train (lg ex lga : double -> double) (sum : list double -> double) dfuel ofuel args stol (stof : string -> outcome double) document_draws hw jk d path x y0 y K V C h q n r :
  let O := double_ops lg ex lga sum in
  args "MODEL"%string = VString path -> data_xy args jk d = Ok (x, y0) -> labels y0 = Ok y -> 1 <= em_cols x ->
  root_asks double_of args stol stof document_draws jk d x y K V C h -> storable K V -> storable K C ->
  args "--quiet"%string = VBool q -> long_arg args stol "--snapshot_every" = Ok n -> (n <= 0)%Z ->
  root_trained double_bytes double_of dfuel ofuel args stol stof document_draws hw jk d path r <-> program dfuel ofuel hw h (labelled_docs (columns x) y) r.
Proof.
  exact (@root_trained_is_program double (double_ops lg ex lga sum) double_bytes double_of double_round double_bytes_length dfuel ofuel args stol stof document_draws hw jk d path x y0 y K V C h q n r).
Qed.
Print Assumptions C98_train.
(** A case: the fast E and M steps on the files of RootCases.v; the command ends in one of these ways. *)
Example C98_case (lg ex lga : double -> double) (sum : list double -> double) picks d : let O := double_ops lg ex lga sum in root_disk lg ex lga sum d ->
  root_asks double_of root_args root_stol (root_stof lg ex lga sum) picks root_junk d root_x [0; 1]%Z 2 3 2 (root_calls lg ex lga sum picks) /\ storable 2 3 /\ storable 2 2 /\
  exists r, root_trained double_bytes double_of 7 0 root_args root_stol (root_stof lg ex lga sum) picks 1 root_junk d "model.npy" r.
Proof.
  intros O HD. pose proof (root_case_asks lg ex lga sum picks d) as A. destruct root_storable as [S1 S2]. split; [exact A|]. split; [exact S1|]. split; [exact S2|].
  assert (P : exists r, program 7 0 1 (root_calls lg ex lga sum picks) (labelled_docs (columns root_x) [0; 1]%Z) r).
  { unfold program. destruct (SettingsModel.built 1 (root_calls lg ex lga sum picks)) as [o|e|] eqn:B; cbn [bind]; try (eexists; reflexivity).
    destruct (labelled_docs (columns root_x) [0; 1]%Z) as [docs|e|]; cbn [bind]; try (eexists; reflexivity).
    assert (OW : ob_m o = FastM 2 zero zero /\ ob_workers o = 2).
    { clear - B. unfold root_calls, SettingsModel.built, configure in B. cbn [fold_left] in B. unfold scall_caught in B. cbn [scall_step bind] in B.
      match type of B with context [topics_seeded ?a ?b ?c ?d ?e] => destruct (topics_seeded a b c d e) as [q|x|] end; cbn [scall_step bind] in B; try discriminate B;
        (match type of B with context [eta_zeros ?a ?b] => destruct (eta_zeros a b) as [q'|x'|] end; cbn [bind] in B; try discriminate B;
         (match type of B with context [Nat.eqb ?a ?b] => destruct (Nat.eqb a b) end; try discriminate B);
         (match type of B with context [andb ?a ?b] => destruct (andb a b) end; try discriminate B); injection B as <-; split; reflexivity). }
    destruct OW as [OM OW]. unfold object_fit. rewrite OM.
    destruct (fit_returns 7 2 3 2 _ _ _ _ _ _ (ob_e o) (ob_workers o) docs (ob_iterations o) (step_fast 2 3 2 0 2 zero zero) ltac:(rewrite OW; lia) (Ok new_fast) (ob_params o, 0)) as (st' & p' & F).
    eexists. exists st', p'. split; [exact F|reflexivity]. }
  destruct P as (r & P). exists r.
  apply (C98_train lg ex lga sum 7 0 root_args root_stol (root_stof lg ex lga sum) picks 1 root_junk d "model.npy" root_x root_y [0; 1]%Z 2 3 2 (root_calls lg ex lga sum picks) true 0%Z r); try reflexivity; try assumption; try (cbn; lia).
  exact (root_reads lg ex lga sum d HD).
Qed.

(** ** C99: the progress printed during training *)

(** What TrainingProgress prints for an epoch, its likelihood aside: its number, if it has a document; the number of documents seen so far, at every
    hundredth; and the values the M step reports *)
Definition progress_lines {T} (n : Z) (es : list (notice T)) (out : list (tline T)) : Prop :=
  iteration_lines out = (if expectations es =? 0 then [] else [n]) /\ document_lines out = multiples 100 (expectations es) /\ logistic_lines out = told es.

(** In exact arithmetic, for every M step, E step, corpus, number of workers and schedule: the events of a training are those of its epochs in turn, one
    event for each document in each; what is printed is, for each epoch in turn, the lines above, and the average of its negative likelihoods, if it has any.
    No epoch has 2^31 documents or reports, nor are there so many epochs. *)
Theorem C99_exact lg dfuel {St} (M : maximizer R St) k W docs st p tr ms st' p' : let O := Rops lg in
  fit_heard dfuel M k W docs st p tr ms st' p' -> (Z.of_nat (length docs) < 2 ^ 31)%Z -> (Z.of_nat (length (told tr)) < 2 ^ 31)%Z -> (Z.of_nat (length ms) + 1 < 2 ^ 31)%Z ->
  exists eps l outs, tr = in_turn eps /\ length eps = length ms /\ length outs = length ms /\
    hear (tprogress_event (fun _ => true)) new_tprogress tr = Ok (l, List.concat outs) /\
    forall j e out, nth_error eps j = Some e -> nth_error outs j = Some out ->
      expectations (fst e) = length docs /\ progress_lines (1 + Z.of_nat j) (fst e) out /\
      likelihood_lines out = match reported (fst e) with [] => [] | _ => [mean (reported (fst e))] end.
Proof.
  intros O H HD HT HM. destruct (progress_heard (fun _ => true) dfuel M k W docs st p tr ms st' p' H HD HT HM) as (eps & l & outs & E1 & E2 & E3 & E4 & E5).
  exists eps, l, outs. split; [exact E1|]. split; [exact E2|]. split; [exact E3|]. split; [exact E4|]. intros j e out N1 N2. destruct (E5 j e out N1 N2) as (X & A & B & C & D).
  split; [exact X|]. split; [exact (conj A (conj B C))|]. rewrite D. apply line_R.
Qed.
Print Assumptions C99_exact.

(** The finite negative likelihoods of an epoch *)
Definition negative (x : double) : bool := (is_finite x && Rlt_bool (B2R x) 0)%bool.
(** In double precision: the same lines, and the average is printed up to rounding errors: with n negative likelihoods, a relative error of at most
    (n + 1) 2^-52, when none of them is below -2^900. *)
Theorem C99_double lg ex lga sum dfuel {St} (M : maximizer double St) k W docs st p tr ms st' p' : let O := double_ops lg ex lga sum in
  fit_heard dfuel M k W docs st p tr ms st' p' -> (Z.of_nat (length docs) < 2 ^ 31)%Z -> (Z.of_nat (length (told tr)) < 2 ^ 31)%Z -> (Z.of_nat (length ms) + 1 < 2 ^ 31)%Z ->
  (forall x, In (Expectation (Some x)) tr -> is_finite x = true -> - bpow radix2 900 <= B2R x)%R ->
  exists eps l outs, tr = in_turn eps /\ length eps = length ms /\ length outs = length ms /\
    hear (tprogress_event is_finite) new_tprogress tr = Ok (l, List.concat outs) /\
    forall j e out, nth_error eps j = Some e -> nth_error outs j = Some out ->
      expectations (fst e) = length docs /\ progress_lines (1 + Z.of_nat j) (fst e) out /\
      match kept negative (fst e) with
      | [] => likelihood_lines out = []
      | xs => exists x, likelihood_lines out = [x] /\ is_finite x = true /\
          (Rabs (B2R x - mean (map B2R xs)) <= INR (S (length xs)) * bpow radix2 (-52) * Rabs (mean (map B2R xs)) + bpow radix2 (-1075))%R
      end.
Proof.
  intros O H HD HT HM HB. destruct (progress_heard is_finite dfuel M k W docs st p tr ms st' p' H HD HT HM) as (eps & l & outs & E1 & E2 & E3 & E4 & E5).
  exists eps, l, outs. split; [exact E1|]. split; [exact E2|]. split; [exact E3|]. split; [exact E4|]. intros j e out N1 N2. destruct (E5 j e out N1 N2) as (X & A & B & C & D).
  split; [exact X|]. split; [exact (conj A (conj B C))|].
  assert (K : kept negative (fst e) = kept (fun x => is_finite x && ltb x zero)%bool (fst e)) by (symmetry; apply kept_negative).
  pose proof (nth_error_In _ _ N1) as I. subst tr.
  assert (F : Forall (below) (kept negative (fst e))).
  { rewrite K. apply kept_below. apply Forall_forall. intros [[x|]| |] Hx; auto. apply HB. apply in_concat. exists (fst e ++ [snd e]). split; [now apply in_map with (f := fun e => fst e ++ [snd e])|apply in_or_app; auto]. }
  assert (L : (Z.of_nat (length (kept negative (fst e))) < 2 ^ 31)%Z) by (rewrite K; pose proof (kept_length is_finite (fst e)); lia).
  cbv zeta in D. rewrite <- K in D. rewrite D. pose proof (line_d lg ex lga sum (kept negative (fst e)) F) as LD.
  destruct (kept negative (fst e)) as [|x0 xs]; [reflexivity|]. destruct (LD ltac:(discriminate) L) as (L1 & L2 & L3).
  refine (ex_intro _ _ (conj _ (conj L2 L3))). match goal with |- (if ?b then _ else _) = _ => replace b with true by (symmetry; exact L1) end. reflexivity.
Qed.
Print Assumptions C99_double.
(** A training of three epochs with an M step that reports a value at the end of each, on a document whose E step does not report a likelihood: the
    hypotheses hold, and the document is not counted. *)
Example C99_case lg k m : let O := Rops lg in let M := mk_maximizer (fun (st : unit) m _ _ => Ok (m, st, [])) (fun (st : unit) m => Ok (m, tt, [one])) in
  exists tr ms st' p', fit_heard 7 M k 2 [mk_doc [1%Z] None 0 []] (Ok tt) (m, 0) tr ms st' p' /\ length ms = 3 /\ length (told tr) <= 3.
Proof.
  intros O M. destruct (heard_returns 7 M k 2 2 [mk_doc [1%Z] None 0 []] ltac:(lia)) with (n := 3) (st := Ok tt : outcome unit) (p := (m, 0)) as (tr & ms & st' & p' & F & L).
  - intros s q d v m' s' x H. injection H as <- <- <-. cbn. lia.
  - intros s q m' s' x H. injection H as <- <- <-. cbn. lia.
  - exists tr, ms, st', p'. split; [exact F|]. split; [exact L|]. destruct (heard_split _ _ _ _ _ _ _ _ _ _ _ F) as (eps & -> & A & B). rewrite (told_turn eps (epochs_end _ _ _ A)). assert (LE : length eps = 3) by (rewrite <- L; clear - A; induction A as [|? ? ? ? _ _ IH]; [reflexivity|cbn; now rewrite IH]).
    assert (G : forall n (eps : list (list (notice R) * notice R)) st q st' p', length eps = n -> fit_reports M 7 k [mk_doc [1%Z] None 0 []] st q (map (fun e => told (fst e)) eps) st' p' ->
      length (List.concat (map (fun e => told (fst e)) eps)) <= n).
    { induction n as [|n IH]; intros [|e eps'] st0 q st1 p1 E H; try discriminate E; [cbn; lia|]. cbn [map] in *. inversion H as [|? ? ? ? ? ? ? ? H1 H2]; subst. cbn [List.concat]. rewrite app_length.
      injection E as E. specialize (IH eps' _ _ _ _ E H2). destruct H1 as (docs' & l & s & q1 & ys & zs & _ & _ & _ & C & E2 & ->). rewrite app_length.
      assert (Y : ys = []).
      { clear - C. revert st0 q s q1 ys C. induction l as [|[i v] l IHl]; intros st0 q s q1 ys C; cbn [consumed] in C; [now injection C as _ _ <-|].
        destruct (train_feed M docs' st0 q i v) as [[s1 p3] x1] eqn:F1. destruct (consumed (train_feed M docs') l s1 p3) as [[s2 p2] x2] eqn:F2. injection C as _ _ <-.
        rewrite (IHl _ _ _ _ _ F2), app_nil_r. unfold train_feed in F1. destruct st0 as [u| |]; cbn in F1; [destruct v; cbn in F1|..]; now injection F1 as _ _ <-. }
      assert (Z : length zs <= 1) by (unfold train_m_end in E2; destruct s as [u| |]; cbn in E2; injection E2 as _ _ <-; cbn; lia).
      rewrite Y. cbn [length]. lia. }
    exact (G 3 eps _ _ _ _ LE B).
Qed.

(** ** C100: the durations printed during training *)

(** What LdaStopwatch prints for an epoch when it times the two steps: from the first document of the epoch to the first value the M step reports, over
    the number of documents; and from there to the end of the epoch, over the number of values.  An epoch: its events and their times, and its end. *)
Definition timed_right {T} (D : nat) (e : list (Z * notice T) * (Z * notice T)) (o : took) : Prop :=
  exists a b, first_time is_expectation (fst e) = Some a /\ first_time is_maximization (fst e) = Some b /\
    t_expectation o = (b - a)%Z /\ t_documents o = D /\ t_maximization o = (fst (snd e) - b)%Z /\ t_iterations o = length (told (map snd (fst e))) /\ 0 < t_iterations o.

(** For every M step that reports a value in every epoch, every corpus that is not empty, every number of workers, schedule and clock: a training that does not
    fail prints one such line for each epoch.  The full property would have this of every M step that train can use. *)
Theorem C100_partial {T} {O : ops T} dfuel {St} (M : maximizer T St) k W docs st p tr ms st' p' s' (timed : list (Z * notice T)) :
  fit_heard dfuel M k W docs st p tr ms st' p' -> speaks M -> st' = Ok s' -> docs <> [] -> map snd timed = tr ->
  exists epochs l outs, timed = in_turn epochs /\ length epochs = length ms /\ hear watch_event new_watch timed = Ok (l, outs) /\ Forall2 (timed_right (length docs)) epochs outs.
Proof.
  intros H S E D T'. destruct (stopwatch_run dfuel M k W docs st p tr ms st' p' s' timed H S E D T') as (teps & l & outs & E1 & A & E2 & F). exists teps, l, outs. split; [exact E1|].
  split; [clear - A; induction A as [|? ? ? ? _ _ IH]; [reflexivity|cbn; now rewrite IH]|]. split; [exact E2|]. clear - A F. revert ms A.
  induction F as [|e o teps outs (a & b & F1 & F2 & ->) _ IH]; intros ms A; [constructor|]. inversion A as [|? m ? ms' (_ & X & _) A']; subst. constructor; [|exact (IH _ A')].
  exists a, b. cbn [t_expectation t_documents t_maximization t_iterations fst] in *. split; [exact F1|]. split; [exact F2|]. split; [reflexivity|]. split; [exact X|]. split; [reflexivity|]. split; [reflexivity|].
  destruct (told (map snd (fst e))) eqn:N; [|cbn; lia]. rewrite (no_maximization _ N) in F2. discriminate F2.
Qed.
Print Assumptions C100_partial.
(** These are such M steps: every one but the online one. *)
Theorem C100_speaks {T} {O : ops T} fuel i t L mu : speaks (fast_maximizer fuel i t L) /\ speaks (semi_maximizer fuel i t L) /\ speaks (sup_maximizer fuel i t L) /\
  speaks (multinomial_maximizer mu) /\ speaks (correspondence_maximizer mu).
Proof. exact (conj (fast_speaks fuel i t L) (conj (semi_speaks fuel i t L) (conj (sup_speaks fuel i t L) (conj (multinomial_speaks mu) (correspondence_speaks mu))))). Qed.
Print Assumptions C100_speaks.
(** Refuted for the online M step: with fewer documents than --batch_size, in the first epoch, the duration printed for the E step is negative, minus
    the time of the first document, and that of the M step is divided by 0. *)
Theorem C100_refuted {T} {O : ops T} dfuel cf k W docs p tr m st' p' (timed : list (Z * notice T)) :
  fit_heard dfuel (online_maximizer cf) k W docs (Ok new_online) p tr [m] st' p' -> docs <> [] -> length docs < o_minibatch cf -> map snd timed = tr ->
  Forall (fun te => 0 < fst te)%Z timed ->
  exists l o, hear watch_event new_watch timed = Ok (l, [o]) /\ (t_expectation o < 0)%Z /\ t_iterations o = 0.
Proof.
  intros H D N T' C. destruct (stopwatch_silent dfuel k cf W docs p tr m st' p' timed H D N T') as (l & o & a & E1 & E2 & E3 & E4 & _). exists l, o. split; [exact E1|]. split; [|exact E4].
  assert (P : (0 < a)%Z); [|lia]. clear - E2 C. induction C as [|[t e] es P _ IH]; [discriminate E2|]. cbn [first_time] in E2. destruct (is_expectation e); [now injection E2 as <-|exact (IH E2)].
Qed.
Print Assumptions C100_refuted.
(** There are such trainings: for the correspondence M step, three epochs on the corpus of C86 that do not fail, timed by any clock; *)
Example C100_case lg ex lga sum (cf : econf double) (clock : nat -> Z) : let O := double_ops lg ex lga sum in
  let half := div one (ofZ 2) : double in
  let two := ofZ 2 : double in
  let m := mk_params [half; half] (mk_mat 2 [[one; zero]; [zero; one]]) (mk_mat 2 [[half; half]; [half; half]]) in
  let D := [mk_doc [1; 0]%Z (Some 0%Z) 1 []; mk_doc [0; 1]%Z (Some 1%Z) 1 []] : list (doc double) in
  rough_log lg -> rough_log_below lg -> rough_exp ex -> (forall l, summed l (sum l)) ->
  exists tr ms s' p' timed, fit_heard 7 (correspondence_maximizer two) (Correspondence cf two) 3 D (Ok new_stats) (m, 0) tr ms (Ok s') p' /\
    map snd timed = tr /\ map fst timed = map clock (seq 0 (length timed)) /\ length ms = 3.
Proof.
  intros O half two m D R1 R2 R3 R4.
  destruct (batch_events 2 2 2 _ _ _ _ _ _ (@step_correspondence double O 2 2 2 two)) as (e & B1 & B2).
  destruct (heard_returns 7 (correspondence_maximizer two) (Correspondence cf two) e 3 D ltac:(lia) B1 B2 3 (Ok new_stats) (m, 0)) as (tr & ms & st' & p' & F & L).
  pose proof (fit_heard_fit _ _ _ _ _ _ _ _ _ _ _ F) as G. rewrite L in G.
  destruct (C86_partial lg ex lga sum cf two D 3 3 0 m st' p' R1 R2 R3 R4 (open_corresponding lg ex lga sum) G) as ((s' & ->) & _).
  exists tr, ms, s', p', (combine (map clock (seq 0 (length tr))) tr). split; [exact F|].
  assert (LC : length (map clock (seq 0 (length tr))) = length tr) by now rewrite map_length, seq_length.
  split; [|split; [|exact L]].
  - clear - LC. revert LC. generalize (map clock (seq 0 (length tr))). clear. induction tr as [|x tr IH]; intros [|c l] E; try discriminate E; [reflexivity|]. cbn. rewrite IH by (now injection E). reflexivity.
  - rewrite combine_length, LC, Nat.min_id. revert LC. generalize (map clock (seq 0 (length tr))). clear. induction tr as [|x tr IH]; intros [|c l] E; try discriminate E; [reflexivity|]. cbn. rewrite IH by (now injection E). reflexivity.
Qed.
(** for the online M step, one epoch on one document, with batches of two. *)
Example C100_online_case {T} {O : ops T} w k (m : params T) :
  exists tr m' st' p', fit_heard 7 (online_maximizer (mk_oconf w one 2 zero one one)) k 2 [mk_doc [1%Z] (Some 0%Z) 1 []] (Ok new_online) (m, 0) tr [m'] st' p'.
Proof.
  destruct (heard_returns 7 (online_maximizer (mk_oconf w one 2 zero one one)) k 1 2 [mk_doc [1%Z] (Some 0%Z) 1 []] ltac:(lia)) with (n := 1) (st := Ok new_online : outcome (online T)) (p := (m, 0)) as (tr & ms & st' & p' & F & L).
  - exact (online_doc_events _).
  - exact (online_end_events _).
  - destruct ms as [|m' [|? ?]]; try discriminate L. exists tr, m', st', p'. exact F.
Qed.
