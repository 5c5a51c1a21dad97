(** Properties C75 to C78: what the commands do to the files.  The numbers are IEEE doubles, for any logarithm, exponential, lgamma
    and order of summation. *)
Require Import ZArith List Bool Arith Lia Ascii String.
From Flocq Require Import Core IEEE754.BinarySingleNaN.
Require Import Verif.Base Verif.Scalar Verif.Mat Verif.NumpyModel Verif.NumpySpec Verif.HostModel Verif.HostProofs Verif.DiskModel Verif.UtilsModel Verif.BuilderModel Verif.EStepModel
  Verif.OptModel Verif.MStepModel Verif.PoolModel Verif.PoolSpec Verif.PoolProofs Verif.PoolDone Verif.LdaModel Verif.AppsModel Verif.ShapeSpec Verif.ShapeProofs Verif.CommandModel Verif.CommandSpec Verif.CommandMeaning
  Verif.CommandProofs Verif.CommandFiles Verif.CommandCases.
Import ListNotations.
Local Open Scope nat_scope.
Local Open Scope list_scope.

(** C75.  lda transform, slda transform and fslda transform on a device without errors: DATA holds the documents [x] (for slda and fslda
    followed by anything readable as labels), MODEL the model [m], and the options can be read.  [gs]: what the E step infers, document by document.
    Then every run, whatever the number of workers and the schedule, ends normally, leaves a file at OUTPUT that reads back as the matrix
    whose columns are [gs], and changes no other file.  With a worker there is such a run. *)
Theorem C75_transform_command lg ex lga sum dfuel args stol stof hw jk (supervised : bool) d x f out m n e t q gs : let O := double_ops lg ex lga sum in
  (if supervised then exists y, data_xy args jk d = Ok (x, y) else data_x args jk d = Ok x) ->
  args "MODEL"%string = VString f -> model_at double_of jk d f = Ok m -> args "OUTPUT"%string = VString out ->
  long_arg args stol "--workers" = Ok n -> long_arg args stol "--e_step_iterations" = Ok e -> float_arg args stof "--e_step_tolerance" = Ok t ->
  asBool (args "--quiet"%string) = Ok q ->
  storable (mrows (p_beta m)) (em_cols x) ->
  Forall2 (inferred dfuel (size e) t m) (columns x) gs ->
  (forall r d', transform_main double_bytes double_of dfuel args stol stof hw jk good_device supervised d r d' ->
     r = Ok tt /\ (forall name, name <> bytes out -> d' name = d name) /\
     exists w a, d' (bytes out) = Some w /\ mat_of double_of a = mk_mat (mrows (p_beta m)) gs /\
       forall j, NumpyModel.load false F8 false false j (mk_stream w true) = Ok (a, mk_stream [] true)) /\
  (0 < size n -> exists d', transform_main double_bytes double_of dfuel args stol stof hw jk good_device supervised d (Ok tt) d').
Proof. intros O. exact (transform_writes double_bytes double_of double_round double_bytes_length dfuel args stol stof hw jk supervised d x f out m n e t q gs). Qed.
Print Assumptions C75_transform_command.

(** C76 is false: no command looks whether its output could be opened or written.  Whatever a command computed, it can
    end normally and leave no output at all. *)
Theorem C76_refuted lg ex lga sum dfuel ofuel args stol stof uniform_draws document_draws hw jk c d d' : let O := double_ops lg ex lga sum in
  command_main double_bytes double_of dfuel ofuel args stol stof uniform_draws document_draws hw jk good_device c d (Ok tt) d' ->
  command_main double_bytes double_of dfuel ofuel args stol stof uniform_draws document_draws hw jk some_device c d (Ok tt) d.
Proof. intros O. exact (command_lost double_bytes double_of dfuel ofuel args stol stof uniform_draws document_draws hw jk c d d'). Qed.
Print Assumptions C76_refuted.
(** What holds: it does not happen on a device without errors. *)
Theorem C76_partial lg ex lga sum dfuel ofuel args stol stof uniform_draws document_draws hw jk c d d' : let O := double_ops lg ex lga sum in
  command_main double_bytes double_of dfuel ofuel args stol stof uniform_draws document_draws hw jk good_device c d (Ok tt) d' ->
  exists f w, args (output_of c) = VString f /\ d' (bytes f) = Some w /\ firstn 8 w = npy_magic "001" "000".
Proof. intros O. exact (command_written double_bytes double_of dfuel ofuel args stol stof uniform_draws document_draws hw jk c d d'). Qed.
Print Assumptions C76_partial.

(** C77.  On any device, whatever a run does (short of undefined behaviour): a file that is not as before is the output, and then the command
    ended normally, or, for a training, a snapshot; a snapshot's name is never the output's. *)
Theorem C77_only_outputs_change lg ex lga sum dfuel ofuel args stol stof uniform_draws document_draws hw jk c d r d' name : let O := double_ops lg ex lga sum in
  command_main double_bytes double_of dfuel ofuel args stol stof uniform_draws document_draws hw jk some_device c d r d' ->
  r <> UB -> d' name <> d name ->
  (r = Ok tt /\ exists f, args (output_of c) = VString f /\ name = bytes f) \/
  (trains c /\ exists f n, args "MODEL"%string = VString f /\ name = snapshot_name (bytes f) n /\ name <> bytes f).
Proof.
  intros O H NU N. destruct (command_touches double_bytes double_of dfuel ofuel args stol stof uniform_draws document_draws hw jk c d r d' name H NU N) as [X|(HC & f & n & A & ->)]; [now left|].
  right. split; [exact HC|]. exists f, n. split; [exact A|]. split; [reflexivity|]. apply snapshot_name_longer.
Qed.
Print Assumptions C77_only_outputs_change.
(** Runs on a device without errors are among these. *)
Theorem C77_good_device d ws d' : good_device d ws d' -> some_device d ws d'.
Proof. exact (good_some d ws d'). Qed.
Print Assumptions C77_good_device.

(** C78.  A training that ended normally on a device without errors leaves at MODEL a file that reads back as exactly the model of fit: with the command's
    steps, the documents of DATA, from the builder's model, with as many epochs and workers as asked for ([built]'s settings).
    [reads], [built], [starts], [steps], [documents_of]: CommandSpec.v. *)
Theorem C78_training_is_saved lg ex lga sum dfuel ofuel args stol stof uniform_draws document_draws hw jk c d d' path x y K V C : let O := double_ops lg ex lga sum in
  trains c -> args "MODEL"%string = VString path -> reads args jk c d x y -> 1 <= em_cols x ->
  starts double_of args stol jk c d x y K V C -> storable K V -> storable K C ->
  command_main double_bytes double_of dfuel ofuel args stol stof uniform_draws document_draws hw jk good_device c d (Ok tt) d' ->
  exists b St (M : maximizer double St) new k docs st m ep,
    built double_of args stol stof uniform_draws document_draws hw jk c d x y = Ok b /\
    steps ofuel args stol stof c y St M new k /\ documents_of c x y docs /\
    fit_call dfuel M k (c_workers (fst b)) docs (c_iterations (fst b)) (Ok new) (snd b, 0) (Ok st) (m, ep) /\
    has_size K V C m /\ p_alpha m = p_alpha (snd b) /\
    forall jk', model_at double_of jk' d' path = Ok m.
Proof. intros O. exact (training_saved double_bytes double_of double_round double_bytes_length dfuel ofuel args stol stof uniform_draws document_draws hw jk c d d' path x y K V C). Qed.
Print Assumptions C78_training_is_saved.
(** So a transform afterwards, with options [args'] of its own, infers with the trained model. *)
Theorem C78_train_then_transform lg ex lga sum dfuel ofuel args stol stof uniform_draws document_draws hw jk c d d' path x y K V C
  args' stol' stof' hw' jk' (supervised : bool) x' out n e t q : let O := double_ops lg ex lga sum in
  trains c -> args "MODEL"%string = VString path -> reads args jk c d x y -> 1 <= em_cols x ->
  starts double_of args stol jk c d x y K V C -> storable K V -> storable K C ->
  command_main double_bytes double_of dfuel ofuel args stol stof uniform_draws document_draws hw jk good_device c d (Ok tt) d' ->
  (if supervised then exists y', data_xy args' jk' d' = Ok (x', y') else data_x args' jk' d' = Ok x') ->
  args' "MODEL"%string = VString path -> args' "OUTPUT"%string = VString out ->
  long_arg args' stol' "--workers" = Ok n -> long_arg args' stol' "--e_step_iterations" = Ok e -> float_arg args' stof' "--e_step_tolerance" = Ok t ->
  asBool (args' "--quiet"%string) = Ok q -> storable K (em_cols x') ->
  exists b St (M : maximizer double St) new k docs st m ep,
    built double_of args stol stof uniform_draws document_draws hw jk c d x y = Ok b /\
    steps ofuel args stol stof c y St M new k /\ documents_of c x y docs /\
    fit_call dfuel M k (c_workers (fst b)) docs (c_iterations (fst b)) (Ok new) (snd b, 0) (Ok st) (m, ep) /\
    forall gs r d'', Forall2 (inferred dfuel (size e) t m) (columns x') gs ->
      transform_main double_bytes double_of dfuel args' stol' stof' hw' jk' good_device supervised d' r d'' ->
      r = Ok tt /\ exists w a, d'' (bytes out) = Some w /\ mat_of double_of a = mk_mat K gs /\
        forall j, NumpyModel.load false F8 false false j (mk_stream w true) = Ok (a, mk_stream [] true).
Proof.
  intros O HC A R NE ST S1 S2 H D A1 A2 E1 E2 E3 E4 S3.
  destruct (C78_training_is_saved lg ex lga sum dfuel ofuel args stol stof uniform_draws document_draws hw jk c d d' path x y K V C HC A R NE ST S1 S2 H)
    as (b & St & M & new & k & docs & st & m & ep & B & SP & DC & F & HS & _ & L).
  exists b, St, M, new, k, docs, st, m, ep. split; [exact B|]. split; [exact SP|]. split; [exact DC|]. split; [exact F|]. intros gs r d'' I H2.
  assert (EK : mrows (p_beta m) = K) by apply HS.
  destruct (C75_transform_command lg ex lga sum dfuel args' stol' stof' hw' jk' supervised d' x' path out m n e t q gs D A1 (L jk') A2 E1 E2 E3 E4) as [X _]; [now rewrite EK|exact I|].
  rewrite EK in X. destruct (X r d'' H2) as (X1 & _ & X2). split; assumption.
Qed.
Print Assumptions C78_train_then_transform.

#[local] Hint Extern 0 (ops _) => exact case_ops : typeclass_instances.
(** lda train on two documents with three words, two topics, one epoch, two workers, a snapshot after each epoch (CommandCases.v): a run, and what it demands. *)
Lemma is_ok {A} (o : outcome A) : match o with Ok _ => true | _ => false end = true -> exists a, o = Ok a.
Proof. destruct o; [eauto|discriminate..]. Qed.
Definition case_listener : option snap := Some (new_snap (bytes "model.npy") 1).
Notation case_trained := (fst (param case_end)).
Example C78_case :
  reads case_args case_junk LdaTrain case_disk case_x [] /\ 1 <= em_cols case_x /\
  starts double_of case_args case_stol case_junk LdaTrain case_disk case_x [] 2 3 1 /\ storable 2 3 /\ storable 2 1 /\
  exists d', command_main (O := case_ops) double_bytes double_of 7 0 case_args case_stol case_stof case_draws case_picks 1 case_junk good_device LdaTrain case_disk (Ok tt) d' /\
    model_at double_of case_junk d' "model.npy" = Ok case_trained /\ d' (bytes "docs.npy") = Some case_data /\ d' (bytes "model.npy_001") <> None.
Proof.
  assert (R : data_x case_args case_junk case_disk = Ok case_x) by (vm_compute; reflexivity).
  split; [split; [exact R|reflexivity]|]. split; [vm_compute; lia|]. split; [right; split; [reflexivity|]; split; [exists 2%Z; split; vm_compute; reflexivity|]; split; reflexivity|].
  assert (S1 : storable 2 3) by (repeat split; lia). assert (S2 : storable 2 1) by (repeat split; lia). split; [exact S1|]. split; [exact S2|].
  destruct (is_ok case_start) as (b & EB); [vm_compute; reflexivity|].
  assert (B1 : snd b = case_first) by (unfold case_first; now rewrite EB).
  assert (B2 : c_workers (fst b) = 2) by (assert (X : match case_start with Ok b => c_workers (fst b) | _ => 0 end = 2) by (vm_compute; reflexivity); now rewrite EB in X).
  assert (B3 : c_iterations (fst b) = 1) by (assert (X : match case_start with Ok b => c_iterations (fst b) | _ => 0 end = 1) by (vm_compute; reflexivity); now rewrite EB in X).
  assert (B4 : has_size 2 3 1 case_first).
  { rewrite <- B1. apply (built_exact (O := case_ops) double_of case_args case_stol case_stof case_draws case_picks 1 case_junk LdaTrain case_disk case_x [] 2 3 1 b I); [|exact EB].
    right; split; [reflexivity|]; split; [exists 2%Z; split; vm_compute; reflexivity|]; split; reflexivity. }
  destruct (is_ok (priv case_end)) as (s & ES); [vm_compute; reflexivity|].
  set (tr := notices (log case_end) ++ []).
  destruct (is_ok (snapshots double_bytes case_listener tr)) as (ws & EW); [vm_compute; reflexivity|].
  destruct (is_ok (save_lda false (file_of double_bytes case_trained))) as (w & Ew); [vm_compute; reflexivity|].
  assert (F : fit_heard (O := case_ops) 7 unsupervised_maximizer case_e 2 case_docs (Ok empty_mat) (case_first, 0) tr [case_trained] (Ok s) (param case_end)).
  { rewrite <- ES. apply (heard_epoch (O := case_ops) 7 unsupervised_maximizer case_e 2 case_docs (Ok empty_mat) (case_first, 0) case_docs case_end [] [] (priv case_end) (param case_end)).
    - apply Permutation.Permutation_refl.
    - unfold case_end. apply play_reach, reach_init.
    - vm_compute. reflexivity.
    - constructor. }
  exists (saved_all case_disk (ws ++ [(bytes "model.npy", w)])). split; [|split; [|split]].
  - cbn [command_main]. unfold lda_train_main. rewrite R. cbn [bind]. change (em_rows case_x) with 3. fold case_start. rewrite EB. cbn [bind].
    replace (e_options case_args case_stol case_stof) with (Ok (mk_econf 2 (zero (ops := case_ops)) (zero (ops := case_ops)))) by (vm_compute; reflexivity). cbn [bind].
    replace (listeners case_args case_stol) with (Ok case_listener) by (vm_compute; reflexivity). cbn [bind after].
    exists tr, [case_trained], (Ok s), (param case_end). rewrite B1, B2, B3. split; [exact F|]. split; [reflexivity|].
    rewrite EW. cbn [bind]. change (case_args "MODEL"%string) with (VString "model.npy"). cbn [asString bind]. rewrite Ew. cbn [bind after]. split; reflexivity.
  - apply (model_found (O := case_ops) double_bytes double_of double_round double_bytes_length case_junk 2 3 1 case_trained w); try assumption; [|apply saved_last].
    apply AppsProofs.fit_heard_fit in F. assert (Hn : case_docs <> []) by discriminate. assert (HK : 0 < 2) by lia.
    exact (proj2 (fit_keeps_size 7 2 3 1 _ _ _ _ _ _ _ _ _ _ _ lib_unsupervised HK Hn B4 F)).
  - assert (N : map fst ws = [bytes "model.npy_001"]).
    { assert (X : match snapshots double_bytes case_listener tr with Ok ws => map fst ws | _ => [] end = [bytes "model.npy_001"]) by (vm_compute; reflexivity). now rewrite EW in X. }
    rewrite DiskProofs.saved_other; [vm_compute; reflexivity|]. rewrite map_app, N. cbn. intros [X|[X|[]]]; discriminate X.
  - assert (N : map fst ws = [bytes "model.npy_001"]).
    { assert (X : match snapshots double_bytes case_listener tr with Ok ws => map fst ws | _ => [] end = [bytes "model.npy_001"]) by (vm_compute; reflexivity). now rewrite EW in X. }
    destruct ws as [|[n1 w1] [|? ?]]; try discriminate N. injection N as ->.
    rewrite (DiskProofs.saved_in _ case_disk 0 (bytes "model.npy_001") w1); [discriminate| |reflexivity]. repeat constructor; cbn; intros X; [destruct X as [X|[]]; discriminate X|exact X].
Qed.
(** lda transform of the same documents with the model just trained: the demands of C75 are met. *)
Example C75_case d : d (bytes "docs.npy") = Some case_data -> model_at double_of case_junk d "model.npy" = Ok case_trained ->
  data_x case_args case_junk d = Ok case_x /\ storable (mrows (p_beta case_trained)) (em_cols case_x) /\
  exists gs, Forall2 (inferred (O := case_ops) 7 2 (zero (ops := case_ops)) case_trained) (columns case_x) gs /\
  exists d', transform_main (O := case_ops) double_bytes double_of 7 case_args case_stol case_stof 1 case_junk good_device false d (Ok tt) d'.
Proof.
  intros D M. assert (R : data_x case_args case_junk d = Ok case_x).
  { unfold data_x. change (case_args "DATA"%string) with (VString "docs.npy"). cbn [asString bind]. unfold open_in. rewrite D. vm_compute. reflexivity. }
  split; [exact R|]. assert (EK : mrows (p_beta case_trained) = 2) by (vm_compute; reflexivity).
  assert (S : storable (mrows (p_beta case_trained)) (em_cols case_x)) by (rewrite EK; repeat split; cbn; lia). split; [exact S|].
  destruct (is_ok (posterior (O := case_ops) 7 case_e 0 (unlabelled (nth 0 (columns case_x) [])) case_trained)) as (v1 & E1); [vm_compute; reflexivity|].
  destruct (is_ok (posterior (O := case_ops) 7 case_e 0 (unlabelled (nth 1 (columns case_x) [])) case_trained)) as (v2 & E2); [vm_compute; reflexivity|].
  assert (F : Forall2 (inferred (O := case_ops) 7 2 (zero (ops := case_ops)) case_trained) (columns case_x) [v_gamma v1; v_gamma v2]).
  { constructor; [exists v1; split; [exact E1|reflexivity]|]. constructor; [exists v2; split; [exact E2|reflexivity]|constructor]. }
  eexists. split; [exact F|].
  assert (HW : 0 < size 2) by (vm_compute; lia).
  refine (proj2 (C75_transform_command a_log a_exp a_log case_sum 7 case_args case_stol case_stof 1 case_junk false d case_x "model.npy" "topics.npy" case_trained 2 2 zero true _ R _ M _ _ _ _ _ S F) HW); reflexivity.
Qed.

(** What the vocabulary of C75-C78 means in terms of the files.  DATA names a file that begins with a readable array of ints, the documents ... *)
Theorem C75_documents_read args jk d x : data_x args jk d = Ok x <->
  exists f w rest, args "DATA"%string = VString f /\ d (bytes f) = Some w /\ NumpyModel.load false I4 false false (jk 0) (mk_stream w true) = Ok (x, rest).
Proof. exact (data_x_means args jk d x). Qed.
Print Assumptions C75_documents_read.
(** ... followed, for the supervised commands, by another one, the labels. *)
Theorem C75_labels_read args jk d x y : data_xy args jk d = Ok (x, y) <->
  exists f w s rest, args "DATA"%string = VString f /\ d (bytes f) = Some w /\ NumpyModel.load false I4 false false (jk 0) (mk_stream w true) = Ok (x, s) /\
    NumpyModel.load false I4 false false (jk 1) s = Ok (y, rest).
Proof. exact (data_xy_means args jk d x y). Qed.
Print Assumptions C75_labels_read.
(** A model file holds three arrays of doubles: alpha, beta and eta. *)
Theorem C78_model_read {T} (of_bytes : elem -> T) jk d name (m : params T) : model_at of_bytes jk d name = Ok m <->
  exists w a b e s1 s2 s3, d (bytes name) = Some w /\ NumpyModel.load false F8 false true (jk 2) (mk_stream w true) = Ok (a, s1) /\
    NumpyModel.load false F8 false false (jk 3) s1 = Ok (b, s2) /\ NumpyModel.load false F8 false false (jk 4) s2 = Ok (e, s3) /\
    p_alpha m = col_of of_bytes a /\ p_beta m = mat_of of_bytes b /\ p_eta m = mat_of of_bytes e.
Proof. exact (model_at_means of_bytes jk d name m). Qed.
Print Assumptions C78_model_read.
(** The number of classes of a training is one more than the largest label. *)
Theorem C78_classes (y : list Z) C : classes_of y = Ok C <-> exists a, In a y /\ Forall (fun b => (b <= a)%Z) y /\ C = size (a + 1).
Proof. exact (classes_of_means y C). Qed.
Print Assumptions C78_classes.
Example C78_classes_case : classes_of [0; 2; 1; 2]%Z = Ok 3.
Proof. vm_compute. reflexivity. Qed.
(** The documents of an array are its columns: the i-th document counts, for its j-th word, the int in row j and column i. *)
Theorem C75_documents x docs : columns x = docs <-> List.length docs = em_cols x /\
  forall i, i < em_cols x -> List.length (nth i docs []) = em_rows x /\ forall j, j < em_rows x -> holds_int (em_get x j i) (nth j (nth i docs []) 0%Z).
Proof. exact (columns_means x docs). Qed.
Print Assumptions C75_documents.
(** The labels of an array are the ints of its only column. *)
Theorem C78_labels y l : labels y = Ok l <-> em_cols y = 1 /\ List.length l = em_rows y /\ forall j, j < em_rows y -> holds_int (em_get y j 0) (nth j l 0%Z).
Proof. exact (labels_means y l). Qed.
Print Assumptions C78_labels.
Example C75_documents_case : columns case_x = [nth 0 (columns case_x) []; nth 1 (columns case_x) []] /\
  columns (mk_emat 2 1 false [int_bytes 3; int_bytes (-1)]) = [[3; -1]]%Z /\ labels (mk_emat 2 1 false [int_bytes 3; int_bytes (-1)]) = Ok [3; -1]%Z.
Proof. split; [|split]; vm_compute; reflexivity. Qed.
