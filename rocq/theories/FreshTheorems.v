(** C94: lda train from scratch, and lda transform afterwards, in double precision. *)
Require Import Reals ZArith List Bool Arith Lia String.
From Flocq Require Import Core.Core IEEE754.BinarySingleNaN.
Require Import Verif.Base Verif.Scalar Verif.Mat Verif.NumpyModel Verif.HostModel Verif.HostProofs Verif.DiskModel Verif.BuilderModel Verif.EStepModel Verif.LdaModel Verif.AppsModel Verif.CommandModel
  Verif.CommandSpec Verif.CommandCases Verif.DoubleSpec Verif.DoubleTrainSpec Verif.DoubleCases Verif.FreshSpec Verif.FreshProofs Verif.FreshTrain Verif.FreshCases.
Import ListNotations.
Local Open Scope nat_scope.
Local Open Scope list_scope.

(** The topics made from documents of a usable corpus are distributions over its words, and no word is impossible under any topic ... *)
Theorem C94_seeded lg ex lga sum (X : list (list Z)) V K N draw (p : params double) : let O := double_ops lg ex lga sum in
  (forall l, summed l (sum l)) -> plain_corpus X V -> (Z.of_nat N <= 2 ^ 20)%Z ->
  exists p', topics_seeded X K N draw p = Ok p' /\ sound_model K V p' /\ (forall i n, i < K -> n < V -> (/ 2 ^ 250 <= B2R (mget (p_beta p') i n))%R).
Proof. intros O Hsum. exact (seeded_sound lg ex lga sum Hsum X V K N draw p). Qed.
Print Assumptions C94_seeded.
(** ... and so are random ones. *)
Theorem C94_random lg ex lga sum V K draw (p : params double) : let O := double_ops lg ex lga sum in
  (forall l, summed l (sum l)) -> (1 <= Z.of_nat V <= 2 ^ 30)%Z -> usable_draws V K draw ->
  sound_model K V (topics_random V K draw p) /\ (forall i n, i < K -> n < V -> (/ 2 ^ 250 <= B2R (mget (p_beta (topics_random V K draw p)) i n))%R).
Proof. intros O Hsum. exact (random_sound lg ex lga sum Hsum V K draw p). Qed.
Print Assumptions C94_random.

(** lda train from scratch: every run ends normally, and the file it leaves is read back, whatever the memory held, as topics that are distributions up to
    rounding; further training can start from them (double_corpus).  With a worker there is such a run. *)
Theorem C94_train lg ex lga sum ofuel args stol stof uniform_draws document_draws hw jk d path x K iterations workers : let O := double_ops lg ex lga sum in
  rough_log lg -> rough_exp ex -> (forall l, summed l (sum l)) ->
  data_x args jk d = Ok x -> plain_corpus (columns x) (em_rows x) -> fresh_options args stol stof uniform_draws path K (em_rows x) iterations workers -> storable K (em_rows x) ->
  let run := command_main double_bytes double_of 7 ofuel args stol stof uniform_draws document_draws hw jk good_device LdaTrain d in
  (forall r d', run r d' -> r = Ok tt /\ exists m, (forall jk', model_at double_of jk' d' path = Ok m) /\ sound_model K (em_rows x) m /\ double_corpus (map unlabelled (columns x)) m) /\
  (0 < workers -> exists d', run (Ok tt) d').
Proof. intros O Hlg Hex Hsum. exact (fresh_train lg ex lga sum Hlg Hex Hsum ofuel args stol stof uniform_draws document_draws hw jk d path x K iterations workers). Qed.
Print Assumptions C94_train.

(** lda transform with that file, on any documents all of whose words occur in the training documents: every run ends normally, and the columns of OUTPUT
    are posterior parameters of the documents. *)
Theorem C94_transform lg ex lga sum ofuel args stol stof uniform_draws document_draws hw jk d r d' path x K iterations workers
  args2 stol2 stof2 hw2 jk2 d2 x2 out n e t q : let O := double_ops lg ex lga sum in
  rough_log lg -> rough_exp ex -> (forall l, summed l (sum l)) ->
  data_x args jk d = Ok x -> plain_corpus (columns x) (em_rows x) -> fresh_options args stol stof uniform_draws path K (em_rows x) iterations workers -> storable K (em_rows x) ->
  command_main double_bytes double_of 7 ofuel args stol stof uniform_draws document_draws hw jk good_device LdaTrain d r d' ->
  d2 (bytes path) = d' (bytes path) -> data_x args2 jk2 d2 = Ok x2 -> Forall (known_document (columns x) (em_rows x)) (columns x2) -> storable K (em_cols x2) ->
  args2 "MODEL"%string = VString path -> args2 "OUTPUT"%string = VString out ->
  long_arg args2 stol2 "--workers" = Ok n -> long_arg args2 stol2 "--e_step_iterations" = Ok e -> float_arg args2 stof2 "--e_step_tolerance" = Ok t -> asBool (args2 "--quiet"%string) = Ok q ->
  exists m, model_at double_of jk2 d' path = Ok m /\
  let run := command_main double_bytes double_of 7 ofuel args2 stol2 stof2 uniform_draws document_draws hw2 jk2 good_device LdaTransform d2 in
  (forall r2 d3, run r2 d3 -> r2 = Ok tt /\ exists w a gs, d3 (bytes out) = Some w /\ (forall j, NumpyModel.load false F8 false false j (mk_stream w true) = Ok (a, mk_stream [] true)) /\
    mat_of double_of a = mk_mat K gs /\ Forall2 (fun words g => exists phi, double_posterior words m g phi) (columns x2) gs) /\
  (0 < size n -> exists d3, run (Ok tt) d3).
Proof.
  intros O Hlg Hex Hsum. exact (fresh_then_transform lg ex lga sum Hlg Hex Hsum ofuel args stol stof uniform_draws document_draws hw jk d r d' path x K iterations workers
    args2 stol2 stof2 hw2 jk2 d2 x2 out n e t q).
Qed.
Print Assumptions C94_transform.

(** Two documents of three words, two topics and two workers, with either initialisation: the demands are met, and both commands have runs that end normally. *)
Example C94_case random lga : let O := double_ops lib_log lib_exp lga lib_sum in
  plain_corpus (columns case_x) (em_rows case_x) /\ fresh_options (fresh_args random) case_stol case_stof fresh_draws "model.npy" 2 (em_rows case_x) 1 2 /\ storable 2 (em_rows case_x) /\
  Forall (known_document (columns case_x) (em_rows case_x)) (columns case_x) /\
  exists d' d3, command_main double_bytes double_of 7 0 (fresh_args random) case_stol case_stof fresh_draws case_picks 1 case_junk good_device LdaTrain case_disk (Ok tt) d' /\
    let d2 := fun name => if list_eq_dec Ascii.ascii_dec name (bytes "model.npy") then d' name else case_disk name in
    command_main double_bytes double_of 7 0 (fresh_args random) case_stol case_stof fresh_draws case_picks 1 case_junk good_device LdaTransform d2 (Ok tt) d3.
Proof.
  intros O. assert (S : storable 2 (em_rows case_x)) by (repeat split; cbn; lia). assert (S2 : storable 2 (em_cols case_x)) by (repeat split; cbn; lia).
  split; [exact case_plain|]. split; [exact (case_options random)|]. split; [exact S|]. assert (KD : Forall (known_document (columns case_x) (em_rows case_x)) (columns case_x)) by exact case_known. split; [exact KD|].
  pose proof (C94_train lib_log lib_exp lga lib_sum 0 (fresh_args random) case_stol case_stof fresh_draws case_picks 1 case_junk case_disk "model.npy" case_x 2 1 2
    lib_log_rough lib_exp_rough lib_sum_summed (case_read random) case_plain (case_options random) S) as [_ T].
  destruct T as (d' & R); [lia|]. exists d'. set (d2 := fun name => if list_eq_dec Ascii.ascii_dec name (bytes "model.npy") then d' name else case_disk name).
  destruct (C94_transform lib_log lib_exp lga lib_sum 0 (fresh_args random) case_stol case_stof fresh_draws case_picks 1 case_junk case_disk (Ok tt) d' "model.npy" case_x 2 1 2
    (fresh_args random) case_stol case_stof 1 case_junk d2 case_x "topics.npy" 2%Z 2%Z _ true lib_log_rough lib_exp_rough lib_sum_summed (case_read random) case_plain (case_options random) S R
    eq_refl (case_read random) KD S2 eq_refl eq_refl eq_refl eq_refl eq_refl eq_refl) as (m & _ & _ & U).
  destruct U as (d3 & U); [vm_compute; lia|]. exists d3. split; [exact R|exact U].
Qed.
