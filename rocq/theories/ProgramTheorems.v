(** C91: the commands are the programs of the library that their options describe. *)
Require Import ZArith List Bool Arith Lia Ascii String.
From Flocq Require Import Core IEEE754.BinarySingleNaN.
Require Import Verif.Base Verif.Scalar Verif.Mat Verif.NumpyModel Verif.HostModel Verif.HostProofs Verif.DiskModel Verif.UtilsModel Verif.BuilderModel Verif.EStepModel Verif.OptModel Verif.MStepModel
  Verif.PoolModel Verif.PoolSpec Verif.PoolProofs Verif.PoolDone Verif.LdaModel Verif.SettingsModel Verif.AppsModel Verif.AppsProofs Verif.ShapeSpec Verif.CommandModel Verif.CommandSpec Verif.CommandCases
  Verif.ProgramSpec Verif.ProgramProofs.
Import ListNotations.
Local Open Scope nat_scope.
Local Open Scope list_scope.

(** Training: on a good device, without snapshots, the ways lda train, slda train, fslda train and fslda online_train can end (with a model in the
    file MODEL, with an exception, with undefined behaviour; [trained]) are those of the program that makes the builder calls the
    options stand for ([asks]), fits the object to the corpus in DATA and takes its model ([program]).  [K], [V], [C]: the sizes of the model,
    which a file must be able to hold. *)
Theorem C91_train (lg ex lga : double -> double) (sum : list double -> double) dfuel ofuel args stol (stof : string -> outcome double) uniform_draws document_draws hw jk
    c d path x y K V C h q n r : let O := double_ops lg ex lga sum in
  trains c -> args "MODEL"%string = VString path -> reads args jk c d x y -> 1 <= em_cols x ->
  starts double_of args stol jk c d x y K V C -> storable K V -> storable K C ->
  asks double_of args stol stof uniform_draws document_draws jk c d x y h ->
  args "--quiet"%string = VBool q -> long_arg args stol "--snapshot_every" = Ok n -> (n <= 0)%Z ->
  trained double_bytes double_of dfuel ofuel args stol stof uniform_draws document_draws hw jk c d path r <->
  program dfuel ofuel hw h (corpus_of c x y) r.
Proof. exact (@trained_is_program double (double_ops lg ex lga sum) double_bytes double_of double_round double_bytes_length dfuel ofuel args stol stof uniform_draws document_draws hw jk c d path x y K V C h q n r). Qed.
Print Assumptions C91_train.

(** Transforming: the same for lda transform ([supervised] = false), and slda transform and fslda transform. *)
Theorem C91_transform (lg ex lga : double -> double) (sum : list double -> double) dfuel args stol (stof : string -> outcome double) hw jk
    (supervised : bool) d x f out m n e t q r : let O := double_ops lg ex lga sum in
  (if supervised then exists y, data_xy args jk d = Ok (x, y) else data_x args jk d = Ok x) ->
  args "MODEL"%string = VString f -> model_at double_of jk d f = Ok m -> args "OUTPUT"%string = VString out ->
  long_arg args stol "--workers" = Ok n -> long_arg args stol "--e_step_iterations" = Ok e -> float_arg args stof "--e_step_tolerance" = Ok t ->
  args "--quiet"%string = VBool q -> storable (mrows (p_beta m)) (em_cols x) ->
  transformed double_bytes double_of dfuel args stol stof hw jk supervised d out r <->
  transform_program dfuel hw (transform_calls supervised n e t m) (columns x) r.
Proof. exact (@transformed_is_program double (double_ops lg ex lga sum) double_bytes double_of double_round double_bytes_length dfuel args stol stof hw jk supervised d x f out m n e t q r). Qed.
Print Assumptions C91_transform.

#[local] Hint Extern 0 (ops _) => exact case_ops : typeclass_instances.
(** A case: lda train on the documents of CommandCases.v without snapshots. *)
Definition plain_args (key : string) : value := if String.eqb key "--snapshot_every" then VLong 0 else case_args key.
Definition plain_calls : list (scall double) :=
  [Iterations 1; Workers 2; SetClassicE (Some 2) (Some zero) (Some zero); Random 3 2 (case_draws 0); Zeros 1].
Definition plain_first_model : params double :=
  let q := topics_random 3 2 (case_draws 0) empty_params in mk_params (p_alpha q) (p_beta q) (mtab (mrows (p_beta q)) 1 (fun _ _ => zero)).
Lemma plain_first : case_first = plain_first_model.
Proof. reflexivity. Qed.
Example C91_case :
  reads plain_args case_junk LdaTrain case_disk case_x [] /\ 1 <= em_cols case_x /\
  starts double_of plain_args case_stol case_junk LdaTrain case_disk case_x [] 2 3 1 /\ storable 2 3 /\ storable 2 1 /\
  asks double_of plain_args case_stol case_stof case_draws case_picks case_junk LdaTrain case_disk case_x [] plain_calls /\
  program 7 0 1 plain_calls (corpus_of LdaTrain case_x []) (Ok (fst (param case_end))) /\
  trained double_bytes double_of 7 0 plain_args case_stol case_stof case_draws case_picks 1 case_junk LdaTrain case_disk "model.npy" (Ok (fst (param case_end))).
Proof.
  assert (R : reads plain_args case_junk LdaTrain case_disk case_x []) by (split; [vm_compute; reflexivity|reflexivity]).
  assert (S : starts double_of plain_args case_stol case_junk LdaTrain case_disk case_x [] 2 3 1).
  { right. split; [reflexivity|]. split; [exists 2%Z; split; vm_compute; reflexivity|]. split; reflexivity. }
  assert (S1 : storable 2 3) by (repeat split; lia). assert (S2 : storable 2 1) by (repeat split; lia).
  assert (A : asks double_of plain_args case_stol case_stof case_draws case_picks case_junk LdaTrain case_disk case_x [] plain_calls).
  { exists 1%Z, 2%Z, 0%Z, [SetClassicE (Some 2) (Some zero) (Some zero)], [Random 3 2 (case_draws 0); Zeros 1].
    split; [reflexivity|]. split; [reflexivity|]. split; [reflexivity|]. split; [|split; [|reflexivity]].
    - apply (chosen_lda plain_args case_stol case_stof [] 2 zero zero); reflexivity.
    - apply (random double_of plain_args case_stol case_draws case_picks case_junk LdaTrain case_disk case_x [] 2 0 1); reflexivity. }
  assert (P : program 7 0 1 plain_calls (corpus_of LdaTrain case_x []) (Ok (fst (param case_end)))).
  { unfold program. cbn [corpus_of].
    assert (B : SettingsModel.built 1 plain_calls = Ok (mk_object case_first (Classic (mk_econf 2 zero zero)) ClassicM 1 2)) by (rewrite plain_first; reflexivity).
    rewrite B. cbn [bind]. unfold object_fit. cbn [ob_m ob_e ob_workers ob_iterations ob_params].
    exists (priv case_end), (param case_end). split.
    - apply fit_epoch with (st1 := priv case_end) (p1 := param case_end); [|constructor]. exists case_docs, true, case_end. split; [apply Permutation.Permutation_refl|].
      split; [unfold case_end; apply play_reach, reach_init|]. split; [vm_compute; reflexivity|]. split; reflexivity.
    - assert (X : match priv case_end with Ok _ => true | _ => false end = true) by (vm_compute; reflexivity). destruct (priv case_end); [reflexivity|discriminate X|discriminate X]. }
  split; [exact R|]. split; [vm_compute; lia|]. split; [exact S|]. split; [exact S1|]. split; [exact S2|]. split; [exact A|]. split; [exact P|].
  apply (C91_train a_log a_exp a_log case_sum 7 0 plain_args case_stol case_stof case_draws case_picks 1 case_junk LdaTrain case_disk "model.npy" case_x [] 2 3 1 plain_calls true 0%Z); try assumption; try exact I; try reflexivity.
  vm_compute. lia.
Qed.
