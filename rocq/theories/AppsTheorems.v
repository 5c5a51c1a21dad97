(** Properties C52-C54, C56, C57: the applications. *)
Require Import ZArith List Bool Arith Lia Reals Lra Ascii String.
From Flocq Require Import Core.Core IEEE754.BinarySingleNaN.
Require Import Verif.Base Verif.Scalar Verif.Mat Verif.NumpyModel Verif.NumpySpec Verif.NumpyProofs Verif.UtilsModel Verif.BuilderModel Verif.EStepModel Verif.OptModel
  Verif.MStepModel Verif.MStepSpec Verif.PoolModel Verif.LdaModel Verif.TrainFit Verif.AppsModel Verif.AppsSpec Verif.AppsProofs Verif.AppsPrint Verif.AppsOptions.
Import ListNotations.
Local Open Scope nat_scope.
Local Open Scope list_scope.

(** C52.  For every M step, E step, number of workers, corpus and schedule: the listener that snapshots every [N] epochs writes exactly
    the files of the epochs N, 2N, ..., each holding the model partial_fit left in that epoch, and no two of these files, nor
    the final model file [path], have the same name.  [N] and the number of epochs are ints. *)
Theorem C52_snapshots {T} {O : ops T} dfuel {St} (M : maximizer T St) k W docs st p tr ms st' p' path N :
  fit_heard dfuel M k W docs st p tr ms st' p' ->
  0 < N -> (Z.of_nat N < 2 ^ 31)%Z -> (Z.of_nat (List.length ms) < 2 ^ 31)%Z ->
  exists l files, hear snap_event (new_snap path (Z.of_nat N)) tr = Ok (l, files)
    /\ snapshots_of path N ms files /\ NoDup (map fst files ++ [path]).
Proof. exact (snapshots_ok dfuel M k W docs st p tr ms st' p' path N). Qed.
Print Assumptions C52_snapshots.

(** The hypothesis describes training: such a run is a run of fit with that many epochs, and there is one for every number of epochs. *)
Theorem C52_is_fit {T} {O : ops T} dfuel {St} (M : maximizer T St) k W docs st p tr ms st' p' :
  fit_heard dfuel M k W docs st p tr ms st' p' -> fit_call dfuel M k W docs (List.length ms) st p st' p'.
Proof. exact (fit_heard_fit dfuel M k W docs st p tr ms st' p'). Qed.
Print Assumptions C52_is_fit.
Example C52_case {T} {O : ops T} K V C St (M : maximizer T St) new a P Q k W docs n st p :
  batch_step K V C St M new a P Q -> 0 < W ->
  exists tr ms st' p', fit_heard 7 M k W docs st p tr ms st' p' /\ List.length ms = n.
Proof.
  intros B HW. destruct (batch_events _ _ _ _ _ _ _ _ _ B) as (e & B1 & B2). exact (heard_returns 7 M k e W docs HW B1 B2 n st p).
Qed.
(** Epoch 10 of a model called "m" goes to "m_010", epoch 1234 to "m_1234". *)
Example C52_names : snapshot_name (bytes "m") 10 = bytes "m_010" /\ snapshot_name (bytes "m") 1234 = bytes "m_1234".
Proof. split; reflexivity. Qed.

(** The command line asks for that listener if the option is between 1 and 2^31 - 1, and for none if it is not positive. *)
Theorem C52_option (args : string -> value) stol path n :
  long_arg args stol "--snapshot_every" = Ok n -> args "MODEL"%string = VString path ->
  ((n <= 0)%Z -> snapshot_option args stol = Ok None) /\
  ((1 <= n < 2 ^ 31)%Z -> snapshot_option args stol = Ok (Some (new_snap (bytes path) n))).
Proof.
  intros A B. unfold snapshot_option. rewrite A. cbn [bind]. split; intros H.
  - destruct (Z.ltb_spec 0 n); [lia|reflexivity].
  - destruct (Z.ltb_spec 0 n); [|lia]. rewrite B. cbn [asString bind]. rewrite wrap32_small by lia. reflexivity.
Qed.
Print Assumptions C52_option.
Example C52_option_case : snapshot_option (fun key => if String.eqb key "MODEL" then VString "m" else VLong 10) (fun _ => Ok 0%Z) = Ok (Some (new_snap (bytes "m") 10)).
Proof. reflexivity. Qed.

(** C52 does not extend to the command line, which takes a long and hands it over as an int: 2^32 passes the test "greater
    than 0" and becomes 0, and the first epoch divides by zero. *)
Theorem C52_option_refuted {T} (args : string -> value) stol path (m : params T) :
  args "--snapshot_every"%string = VLong (2 ^ 32) -> args "MODEL"%string = VString path ->
  exists l, snapshot_option args stol = Ok (Some l) /\ snap_event l (EpochEnd m) = UB.
Proof. intros A B. unfold snapshot_option, long_arg. rewrite A. cbn. rewrite B. cbn. eexists. split; reflexivity. Qed.
Print Assumptions C52_option_refuted.

(** C53 is false: the sum is kept in an int.  In binary64, two documents of likelihood -3/2 are reported as -1, two of -1/2 are not
    reported at all, and a single one of -3*10^9 is undefined behaviour. *)
Theorem C53_refuted (lg ex lga : binary_float 53 1024 -> binary_float 53 1024) sum m :
  let O := Fops 53 1024 lg ex lga sum in
  let epoch l := map (fun x => Expectation (Some x)) l ++ [EpochEnd m] in
  let lines l := hear (eprogress_event (O := O) is_finite) new_eprogress (epoch l) in
  (exists s, lines [minus_three_halves; minus_three_halves] = Ok (s, [LIteration 1; LLikelihood (-1)]) /\ B2R minus_three_halves = (- (3 / 2))%R) /\
  (exists s, lines [minus_half; minus_half] = Ok (s, [LIteration 1]) /\ B2R minus_half = (- (1 / 2))%R) /\
  (lines [minus_3e9] = UB /\ B2R minus_3e9 = (- 3000000000)%R).
Proof.
  intros O epoch lines. split; [|split].
  - exists (mk_eprogress 1 0 0 true). split; [lazy; reflexivity|exact minus_three_halves_value].
  - exists (mk_eprogress 1 0 0 true). split; [lazy; reflexivity|exact minus_half_value].
  - split; [lazy; reflexivity|exact minus_3e9_value].
Qed.
Print Assumptions C53_refuted.

(** C53, what holds in exact arithmetic, for every sequence of epochs whose sums fit an int: what is printed for an epoch depends on
    that epoch alone; it is at least the average of its negative likelihoods and less than two above it (one if they are integers), and it
    is left out only if there were none or their average is above -1. *)
Theorem C53_within_two_partial lg (eps : list (list (notice R) * params R)) :
  Forall (fun e => Forall not_end (fst e)) eps ->
  Forall (fun e => (Z.of_nat (List.length (reported (fst e))) < 2 ^ 31)%Z /\ (- IZR (2 ^ 31) <= fold_right Rplus 0 (reported (fst e)))%R) eps ->
  (Z.of_nat (List.length eps) < 2 ^ 31)%Z ->
  exists l outs,
    hear (eprogress_event (O := Rops lg) (fun _ => true)) new_eprogress (List.concat (map (fun e => fst e ++ [EpochEnd (snd e)]) eps)) = Ok (l, List.concat outs) /\
    Forall2 (fun e out =>
      match printed out with
      | [] => reported (fst e) = [] \/ (- 1 < mean (reported (fst e)))%R
      | [z] => (mean (reported (fst e)) <= IZR z < mean (reported (fst e)) + 2)%R /\ (z <= 0)%Z
               /\ (Forall (fun x => exists z, x = IZR z) (reported (fst e)) -> (IZR z < mean (reported (fst e)) + 1)%R)
      | _ => False
      end) eps outs.
Proof. intros H1 H2 H3. exact (epochs_print lg eps H1 H2 0%Z (Z.le_refl 0) H3). Qed.
Print Assumptions C53_within_two_partial.
(** Two epochs, with a document whose likelihood is not computed. *)
Example C53_case (m : params R) : let eps := [([Expectation (Some (- 3 / 2)%R); Expectation None; Maximization 1%R; Expectation (Some (- 2)%R)], m); ([], m)] in
  Forall (fun e => Forall not_end (fst e)) eps /\
  Forall (fun e => (Z.of_nat (List.length (reported (fst e))) < 2 ^ 31)%Z /\ (- IZR (2 ^ 31) <= fold_right Rplus 0 (reported (fst e)))%R) eps.
Proof.
  cbn. split.
  - repeat constructor.
  - constructor; [|constructor; [|constructor]]; cbn [fst reported].
    + destruct (Rlt_dec (- 3 / 2) 0); [|lra]. destruct (Rlt_dec (- 2) 0); [|lra]. cbn. split; [lia|lra].
    + cbn. split; [lia|lra].
Qed.

(** C54 is false: with --continue_from_unsupervised (and not --continue) no supervised training starts, whatever the file holds. *)
Theorem C54_refuted {T} {O : ops T} args stol stof model_at udraws ddraws hw f words X y b :
  args "--continue"%string = VEmpty -> args "--continue_from_unsupervised"%string = VString f ->
  slda_train args stol stof model_at udraws ddraws hw words X y <> Ok b /\
  fslda_train args stol stof model_at udraws ddraws hw words X y <> Ok b /\
  fslda_online_train args stol stof model_at udraws ddraws hw words X y <> Ok b.
Proof.
  intros A B. split; [|split]; intros E.
  - apply slda_init in E. destruct E as (b0 & E). rewrite (unsupervised_throws args stol model_at udraws ddraws f words X y b0 A B) in E. discriminate.
  - apply fslda_init in E. destruct E as (b0 & E). rewrite (unsupervised_throws args stol model_at udraws ddraws f words X y b0 A B) in E. discriminate.
  - apply fslda_online_init in E. destruct E as (b0 & E). rewrite (unsupervised_throws args stol model_at udraws ddraws f words X y b0 A B) in E. discriminate.
Qed.
Print Assumptions C54_refuted.

(** C54, what holds: with --continue the supervised applications start from the topics, prior and eta of that file, and lda from its topics
    and prior, whatever the other options. *)
Theorem C54_continue_partial {T} {O : ops T} args stol stof model_at udraws ddraws hw f m words X y b :
  args "--continue"%string = VString f -> model_at f = Ok m ->
  (slda_train args stol stof model_at udraws ddraws hw words X y = Ok b -> snd b = m) /\
  (fslda_train args stol stof model_at udraws ddraws hw words X y = Ok b -> snd b = m) /\
  (fslda_online_train args stol stof model_at udraws ddraws hw words X y = Ok b -> snd b = m) /\
  (lda_train args stol stof model_at udraws ddraws hw words X = Ok b -> p_alpha (snd b) = p_alpha m /\ p_beta (snd b) = p_beta m).
Proof.
  intros A B. split; [|split; [|split]]; intros E.
  - apply slda_init in E. destruct E as (b0 & E). exact (continue_loads args stol model_at udraws ddraws f m words X y b0 b A B E).
  - apply fslda_init in E. destruct E as (b0 & E). exact (continue_loads args stol model_at udraws ddraws f m words X y b0 b A B E).
  - apply fslda_online_init in E. destruct E as (b0 & E). exact (continue_loads args stol model_at udraws ddraws f m words X y b0 b A B E).
  - exact (lda_continue args stol stof model_at udraws ddraws hw f m words X b A B E).
Qed.
Print Assumptions C54_continue_partial.

(** One command line, with every option set: with --continue the training starts, from the model in the file; with
    --continue_from_unsupervised it throws. *)
Definition some_args (key : string) (key' : string) : value :=
  if String.eqb key' key then VString "model.npy"
  else if existsb (String.eqb key') ["--continue"; "--continue_from_unsupervised"]%string then VEmpty
  else if String.eqb key' "--initialize_random" then VBool false
  else if existsb (String.eqb key') ["--e_step_tolerance"; "--compute_likelihood"; "--m_step_tolerance"; "--regularization_penalty"; "--supervised_weight"]%string
       then VString "0.1" else VLong 3.
Example C54_case {T} {O : ops T} udraws ddraws hw : let m := mk_params [one] (mk_mat 1 [[one]; [one]]) (mk_mat 1 [[zero]]) in
  let start key := slda_train (some_args key) (fun _ => Ok 3%Z) (fun _ => Ok one) (fun _ => Ok m) udraws ddraws hw 2 [[1; 0]%Z] [0%Z] in
  (exists c, start "--continue"%string = Ok (c, m)) /\ start "--continue_from_unsupervised"%string = Throw ERuntime.
Proof. split; [eexists|]; reflexivity. Qed.

(** C56.  For every schedule: during each epoch the document counter prints k, 2k, 3k, ... up to the number of documents. *)
Theorem C56_document_counter {T} {O : ops T} dfuel {St} (M : maximizer T St) k W docs st p tr ms st' p' N :
  fit_heard dfuel M k W docs st p tr ms st' p' ->
  0 < N -> (Z.of_nat N < 2 ^ 31)%Z -> (Z.of_nat (List.length docs) < 2 ^ 31)%Z ->
  hear xprogress_event (new_xprogress (Z.of_nat N)) tr
  = Ok (new_xprogress (Z.of_nat N), List.concat (repeat (multiples N (List.length docs)) (List.length ms))).
Proof. exact (documents_counted dfuel M k W docs st p tr ms st' p' N). Qed.
Print Assumptions C56_document_counter.
Example C56_case : multiples 3 10 = [3; 6; 9]%Z.
Proof. reflexivity. Qed.

(** C57.  The transform commands use the topics and prior of the model file, and slda and fslda its eta, with the unsupervised E step. *)
Theorem C57_transform_model {T} {O : ops T} args stol stof model_at hw supervised f m n e t :
  args "MODEL"%string = VString f -> model_at f = Ok m -> mrows (p_beta m) <> 0 ->
  long_arg args stol "--workers" = Ok n -> long_arg args stol "--e_step_iterations" = Ok e ->
  float_arg args stof "--e_step_tolerance" = Ok t ->
  exists c q, transform_command args stol stof model_at hw supervised = Ok (c, q) /\
    p_alpha q = p_alpha m /\ p_beta q = p_beta m /\ (supervised = true -> p_eta q = p_eta m) /\ c_e c = EClassic.
Proof.
  intros A B D E1 E2 E3. destruct (transform_ok args stol stof model_at hw supervised f m n e t A B D E1 E2 E3) as (c & E & H).
  eexists c, _. split; [exact E|]. cbn. repeat split; auto. now intros ->.
Qed.
Print Assumptions C57_transform_model.
Example C57_case {T} {O : ops T} hw : let m := mk_params [one] (mk_mat 1 [[one]; [one]]) (mk_mat 1 [[zero]]) in
  exists c, transform_command (some_args "MODEL") (fun _ => Ok 3%Z) (fun _ => Ok one) (fun _ => Ok m) hw true = Ok (c, m).
Proof. eexists. reflexivity. Qed.
