(** Vocabulary for what the commands do to the files. *)
Require Import ZArith List Bool Arith String.
Require Import Verif.Base Verif.Scalar Verif.Mat Verif.NumpyModel Verif.HostModel Verif.DiskModel Verif.UtilsModel Verif.BuilderModel
  Verif.EStepModel Verif.OptModel Verif.MStepModel Verif.LdaModel Verif.AppsModel Verif.ShapeSpec Verif.CommandModel.
Import ListNotations.
Local Open Scope nat_scope.

(** The argument that names the file a command is to write. *)
Definition output_of (c : command) : string :=
  match c with LdaTransform | SupervisedTransform => "OUTPUT" | _ => "MODEL" end%string.
Definition trains (c : command) : Prop := match c with LdaTransform | SupervisedTransform => False | _ => True end.

(** The sizes a .npy file of this library can hold. *)
Definition storable (rows cols : nat) : Prop := 1 <= rows /\ 1 <= cols /\ (Z.of_nat rows * Z.of_nat cols < 2 ^ 31)%Z.

Section Spec.
  Context {T : Type} {O : ops T}.
  Variable of_bytes : elem -> T.
  Variables dfuel ofuel : nat.
  Variable args : string -> value.
  Variable stol : string -> outcome Z.
  Variable stof : string -> outcome T.
  Variable uniform_draws : Z -> nat -> nat -> T.
  Variable document_draws : Z -> nat -> nat -> nat.
  Variable hw : nat.
  Variable jk : nat -> junk.
  Notation long_arg := (long_arg args stol).
  Notation float_arg := (float_arg args stof).
  Notation model_at := (model_at of_bytes jk).

  (** [g] is what the unsupervised E step infers for a document with the word counts [words] under the model [m]. *)
  Definition inferred (iterations : nat) (tolerance : T) (m : params T) (words : list Z) (g : list T) : Prop :=
    exists v, posterior dfuel (Classic (mk_econf iterations tolerance zero)) 0 (unlabelled words) m = Ok v /\ v_gamma v = g.

  (** What a training reads from DATA: the documents; the labels too, except for lda. *)
  Definition reads (c : command) (d : disk) (x : emat) (y : list Z) : Prop :=
    match c with
    | LdaTrain => data_x args jk d = Ok x /\ y = []
    | _ => exists y0, data_xy args jk d = Ok (x, y0) /\ labels y0 = Ok y
    end.
  (** The builder's LDA object: the settings and the model the training starts from. *)
  Definition built (c : command) (d : disk) (x : emat) (y : list Z) : outcome bstate :=
    match c with
    | LdaTrain => lda_train args stol stof (model_at d) uniform_draws document_draws hw (em_rows x) (columns x)
    | SldaTrain => slda_train args stol stof (model_at d) uniform_draws document_draws hw (em_rows x) (columns x) y
    | FsldaTrain => fslda_train args stol stof (model_at d) uniform_draws document_draws hw (em_rows x) (columns x) y
    | FsldaOnlineTrain => fslda_online_train args stol stof (model_at d) uniform_draws document_draws hw (em_rows x) (columns x) y
    | LdaTransform | SupervisedTransform => UB
    end.
  (** The starting model's sizes according to the arguments: those of the file of --continue (lda does not keep its eta), or the number of
      topics asked for, the number of words in DATA and the number of classes in its labels (one column for lda). *)
  Definition starts (c : command) (d : disk) (x : emat) (y : list Z) (K V C : nat) : Prop :=
    (exists f m, args "--continue"%string = VString f /\ model_at d f = Ok m /\ List.length (p_alpha m) = K /\ mrows (p_beta m) = K /\ ncols (p_beta m) = V /\
       match c with LdaTrain => C = 1 | _ => mrows (p_eta m) = K /\ ncols (p_eta m) = C end) \/
    (args "--continue"%string = VEmpty /\ (exists k, long_arg "--topics" = Ok k /\ K = size k) /\ V = em_rows x /\
       match c with LdaTrain => C = 1 | _ => classes_of y = Ok C end).

  (** The M step and E step of each training, with their settings. *)
  Inductive steps : command -> list Z -> forall St, maximizer T St -> St -> e_step T -> Prop :=
  | steps_lda y ei et l :
      long_arg "--e_step_iterations" = Ok ei -> float_arg "--e_step_tolerance" = Ok et -> float_arg "--compute_likelihood" = Ok l ->
      steps LdaTrain y _ unsupervised_maximizer empty_mat (Classic (mk_econf (size ei) et l))
  | steps_slda y ei et l f mi mt L :
      long_arg "--e_step_iterations" = Ok ei -> float_arg "--e_step_tolerance" = Ok et -> float_arg "--compute_likelihood" = Ok l ->
      long_arg "--fixed_point_iterations" = Ok f ->
      long_arg "--m_step_iterations" = Ok mi -> float_arg "--m_step_tolerance" = Ok mt -> float_arg "--regularization_penalty" = Ok L ->
      steps SldaTrain y _ (sup_maximizer ofuel (size mi) mt L) new_sup (Slda (mk_econf (size ei) et l) (size f))
  | steps_fslda y ei et l w mi mt L :
      long_arg "--e_step_iterations" = Ok ei -> float_arg "--e_step_tolerance" = Ok et -> float_arg "--compute_likelihood" = Ok l ->
      float_arg "--supervised_weight" = Ok w ->
      long_arg "--m_step_iterations" = Ok mi -> float_arg "--m_step_tolerance" = Ok mt -> float_arg "--regularization_penalty" = Ok L ->
      steps FsldaTrain y _ (fast_maximizer ofuel (size mi) mt L) new_fast (FastSupervised (mk_econf (size ei) et l) false w)
  | steps_online y ei et l w L b mo lr bw cw :
      long_arg "--e_step_iterations" = Ok ei -> float_arg "--e_step_tolerance" = Ok et -> float_arg "--compute_likelihood" = Ok l ->
      float_arg "--supervised_weight" = Ok w -> float_arg "--regularization_penalty" = Ok L -> long_arg "--batch_size" = Ok b ->
      float_arg "--momentum" = Ok mo -> float_arg "--learning_rate" = Ok lr -> float_arg "--beta_weight" = Ok bw -> class_weights y = Ok cw ->
      steps FsldaOnlineTrain y _ (online_maximizer (mk_oconf cw L (size b) mo lr bw)) new_online (FastSupervised (mk_econf (size ei) et l) false w).

  (** The documents of a training: the columns of [x] in order, the i-th with the i-th label (none for lda). *)
  Definition documents_of (c : command) (x : emat) (y : list Z) (docs : list (doc T)) : Prop :=
    map d_words docs = columns x /\
    forall i e, nth_error docs i = Some e -> d_class e = match c with LdaTrain => None | _ => nth_error y i end.
End Spec.
