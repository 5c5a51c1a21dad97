(** Vocabulary for the property that the commands are programs of the library: which calls each of them makes. *)
Require Import ZArith List Bool Arith String.
Require Import Verif.Base Verif.Scalar Verif.Mat Verif.NumpyModel Verif.HostModel Verif.DiskModel Verif.UtilsModel Verif.BuilderModel
  Verif.EStepModel Verif.OptModel Verif.MStepModel Verif.LdaModel Verif.SettingsModel Verif.AppsModel Verif.CommandModel Verif.CommandSpec.
Import ListNotations.
Local Open Scope nat_scope.
Local Open Scope list_scope.

Section Spec.
  Context {T : Type} {O : ops T}.
  Variable to_bytes : T -> elem.
  Variable of_bytes : elem -> T.
  Variables dfuel ofuel : nat.
  Variable args : string -> value.
  Variable stol : string -> outcome Z.
  Variable stof : string -> outcome T.
  Variable uniform_draws : Z -> nat -> nat -> T.
  Variable document_draws : Z -> nat -> nat -> nat.
  Variable hw : nat.
  Variable jk : nat -> junk.
  Notation long_arg := (long_arg args stol).
  Notation float_arg := (float_arg args stof).
  Notation model_at := (model_at of_bytes jk).

  (** The number of columns of eta that a training starts with, unless it continues: one for lda, else one for each class. *)
  Definition columns_of_eta (c : command) (y : list Z) (C : nat) : Prop :=
    match c with LdaTrain => C = 1 | _ => classes_of y = Ok C end.
  (** The calls that give the model to start from: that of --continue (lda has no use for its eta), or new topics, with the generator
      seeded with --random_state, and an eta of zeros.  (--continue_from_unsupervised: C54.) *)
  Inductive beginning (c : command) (d : disk) (x : emat) (y : list Z) : list (scall T) -> Prop :=
  | continued f m : args "--continue"%string = VString f -> model_at d f = Ok m ->
      beginning c d x y (match c with LdaTrain => [FromModel m; Zeros 1] | _ => [FromModel m; EtaOf m] end)
  | random k seed C : args "--continue"%string = VEmpty -> args "--continue_from_unsupervised"%string = VEmpty ->
      args "--initialize_random"%string = VBool true -> long_arg "--topics" = Ok k -> long_arg "--random_state" = Ok seed ->
      columns_of_eta c y C ->
      beginning c d x y [Random (em_rows x) (size k) (uniform_draws seed); Zeros C]
  | seeded k seed C : args "--continue"%string = VEmpty -> args "--continue_from_unsupervised"%string = VEmpty ->
      args "--initialize_random"%string = VBool false -> long_arg "--topics" = Ok k -> long_arg "--random_state" = Ok seed ->
      columns_of_eta c y C ->
      beginning c d x y [Seeded (columns x) (size k) 30 (document_draws seed); Zeros C].

  (** The calls of the builder that choose the steps, with the values of the options. *)
  Inductive chosen : command -> list Z -> list (scall T) -> Prop :=
  | chosen_lda y ei et l :
      long_arg "--e_step_iterations" = Ok ei -> float_arg "--e_step_tolerance" = Ok et -> float_arg "--compute_likelihood" = Ok l ->
      chosen LdaTrain y [SetClassicE (Some (size ei)) (Some et) (Some l)]
  | chosen_slda y ei et l f mi mt L :
      long_arg "--e_step_iterations" = Ok ei -> float_arg "--e_step_tolerance" = Ok et -> float_arg "--compute_likelihood" = Ok l ->
      long_arg "--fixed_point_iterations" = Ok f ->
      long_arg "--m_step_iterations" = Ok mi -> float_arg "--m_step_tolerance" = Ok mt -> float_arg "--regularization_penalty" = Ok L ->
      chosen SldaTrain y [SetSupervisedE (Some (size ei)) (Some et) (Some (size f)) (Some l); SetSupervisedM (Some (size mi)) (Some mt) (Some L)]
  | chosen_fslda y ei et l w mi mt L :
      long_arg "--e_step_iterations" = Ok ei -> float_arg "--e_step_tolerance" = Ok et -> float_arg "--compute_likelihood" = Ok l ->
      float_arg "--supervised_weight" = Ok w ->
      long_arg "--m_step_iterations" = Ok mi -> float_arg "--m_step_tolerance" = Ok mt -> float_arg "--regularization_penalty" = Ok L ->
      chosen FsldaTrain y [SetFastE (Some (size ei)) (Some et) (Some w) (Some l); SetFastM (Some (size mi)) (Some mt) (Some L)]
  | chosen_online y ei et l w L b mo lr bw cw :
      long_arg "--e_step_iterations" = Ok ei -> float_arg "--e_step_tolerance" = Ok et -> float_arg "--compute_likelihood" = Ok l ->
      float_arg "--supervised_weight" = Ok w -> float_arg "--regularization_penalty" = Ok L -> long_arg "--batch_size" = Ok b ->
      float_arg "--momentum" = Ok mo -> float_arg "--learning_rate" = Ok lr -> float_arg "--beta_weight" = Ok bw -> class_weights y = Ok cw ->
      chosen FsldaOnlineTrain y [SetFastE (Some (size ei)) (Some et) (Some w) (Some l);
        SetOnlineM (Matrix cw) (Some L) (Some (size b)) (Some mo) (Some lr) (Some bw)].

  (** All calls of the builder in a training *)
  Definition asks (c : command) (d : disk) (x : emat) (y : list Z) (h : list (scall T)) : Prop :=
    exists n w seed steps start, long_arg "--iterations" = Ok n /\ long_arg "--workers" = Ok w /\ long_arg "--random_state" = Ok seed /\
      chosen c y steps /\ beginning c d x y start /\ h = [Iterations (size n); Workers (size w)] ++ steps ++ start.

  (** The corpus of a training: the documents, and their labels except for lda *)
  Definition corpus_of (c : command) (x : emat) (y : list Z) : outcome (list (doc T)) :=
    match c with LdaTrain => Ok (map unlabelled (columns x)) | _ => labelled_docs (columns x) y end.

  (** The program: build an object with these calls, fit it to the corpus, and take the model. *)
  Definition program (h : list (scall T)) (corpus : outcome (list (doc T))) (r : outcome (params T)) : Prop :=
    match (let* o := SettingsModel.built hw h in let* docs := corpus in Ok (o, docs)) with
    | Ok (o, docs) => object_fit dfuel ofuel o docs r
    | Throw e => r = Throw e
    | UB => r = UB
    end.

  (** A training command on a good device ends and leaves the model [m] in the file named by MODEL; or it is ended by an exception;
      or it has undefined behaviour. *)
  Definition trained (c : command) (d : disk) (path : string) (r : outcome (params T)) : Prop :=
    let run := command_main to_bytes of_bytes dfuel ofuel args stol stof uniform_draws document_draws hw jk good_device c d in
    match r with
    | Ok m => exists d', run (Ok tt) d' /\ model_at d' path = Ok m
    | Throw e => exists d', run (Throw e) d'
    | UB => exists d', run UB d'
    end.

  (** The calls of the builder in a transform command *)
  Definition transform_calls (supervised : bool) (w ei : Z) (et : T) (m : params T) : list (scall T) :=
    [Workers (size w); SetClassicE (Some (size ei)) (Some et) (Some zero); FromModel m] ++ (if supervised then [EtaOf m] else []).
  (** Build an object and transform the documents. *)
  Definition transform_program (h : list (scall T)) (X : list (list Z)) (r : outcome (mat T)) : Prop :=
    match SettingsModel.built hw h with
    | Ok o => object_transform dfuel o X r
    | Throw e => r = Throw e
    | UB => r = UB
    end.
  (** A transform command on a good device ends and leaves the matrix [g] in the file named by OUTPUT, which load reads; or ... *)
  Definition transformed (supervised : bool) (d : disk) (out : string) (r : outcome (mat T)) : Prop :=
    let run := transform_main to_bytes of_bytes dfuel args stol stof hw jk good_device supervised d in
    match r with
    | Ok g => exists d' w a, run (Ok tt) d' /\ d' (bytes out) = Some w /\ mat_of of_bytes a = g /\
        forall j, NumpyModel.load false F8 false false j (mk_stream w true) = Ok (a, mk_stream [] true)
    | Throw e => exists d', run (Throw e) d'
    | UB => exists d', run UB d'
    end.
End Spec.
