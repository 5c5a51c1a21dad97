(** Vocabulary for the properties of the application in the root directory. *)
Require Import Reals ZArith List Bool Arith String.
Require Import Verif.Base Verif.Scalar Verif.Mat Verif.NumpyModel Verif.HostModel Verif.DiskModel Verif.UtilsModel Verif.BuilderModel
  Verif.EStepModel Verif.OptModel Verif.MStepModel Verif.LdaModel Verif.SettingsModel Verif.AppsModel Verif.CommandModel Verif.CommandSpec Verif.RootModel.
Import ListNotations.
Local Open Scope nat_scope.
Local Open Scope list_scope.
Local Notation length := List.length.

(** The number of documents whose label is the class predicted for them. *)
Fixpoint right (y : list Z) (p : list nat) : nat :=
  match y, p with
  | c :: y, q :: p => (if (c =? Z.of_nat q)%Z then 1 else 0) + right y p
  | _, _ => 0
  end.

(** The steps that the options of train name, as calls of the builder.  Of several flags the first in this order decides. *)
Section Options.
  Context {T : Type} {O : ops T}.
  Variable of_bytes : elem -> T.
  Variable args : string -> value.
  Variable stol : string -> outcome Z.
  Variable stof : string -> outcome T.
  Variable document_draws : Z -> nat -> nat -> nat.
  Variable jk : nat -> junk.
  Notation long_arg := (long_arg args stol).
  Notation float_arg := (float_arg args stof).
  Definition on (key : string) : Prop := args key = VBool true.
  Definition off (key : string) : Prop := args key = VBool false.
  (** The likelihood is computed for every document or for none. *)
  Definition likelihood_of (l : T) : Prop := (on "--show_likelihood" /\ l = one) \/ (off "--show_likelihood" /\ l = zero).

  Inductive e_named : scall T -> Prop :=
  | e_semi i t f : on "--semi_supervised" ->
      long_arg "--e_step_iterations" = Ok i -> float_arg "--e_step_tolerance" = Ok t -> long_arg "--fixed_point_iterations" = Ok f ->
      e_named (SetSemiE (Some (Slda (mk_econf (size i) t one) (size f))) (Some (Classic (mk_econf (size i) t one))))
  | e_classic i t l : off "--semi_supervised" -> on "--unsupervised_e_step" ->
      long_arg "--e_step_iterations" = Ok i -> float_arg "--e_step_tolerance" = Ok t -> likelihood_of l ->
      e_named (SetClassicE (Some (size i)) (Some t) (Some l))
  | e_fast i t w l : off "--semi_supervised" -> off "--unsupervised_e_step" -> on "--fast_e_step" ->
      long_arg "--e_step_iterations" = Ok i -> float_arg "--e_step_tolerance" = Ok t -> float_arg "--supervised_weight" = Ok w -> likelihood_of l ->
      e_named (SetFastE (Some (size i)) (Some t) (Some w) (Some l))
  | e_multinomial i t mu w l : off "--semi_supervised" -> off "--unsupervised_e_step" -> off "--fast_e_step" -> on "--multinomial" ->
      long_arg "--e_step_iterations" = Ok i -> float_arg "--e_step_tolerance" = Ok t -> float_arg "--mu" = Ok mu -> float_arg "--eta_weight" = Ok w -> likelihood_of l ->
      e_named (SetMultinomialE (Some (size i)) (Some t) (Some mu) (Some w) (Some l))
  | e_correspondence i t mu l : off "--semi_supervised" -> off "--unsupervised_e_step" -> off "--fast_e_step" -> off "--multinomial" -> on "--correspondence" ->
      long_arg "--e_step_iterations" = Ok i -> float_arg "--e_step_tolerance" = Ok t -> float_arg "--mu" = Ok mu -> likelihood_of l ->
      e_named (SetCorrespondenceE (Some (size i)) (Some t) (Some mu) (Some l))
  | e_supervised i t f l : off "--semi_supervised" -> off "--unsupervised_e_step" -> off "--fast_e_step" -> off "--multinomial" -> off "--correspondence" ->
      long_arg "--e_step_iterations" = Ok i -> float_arg "--e_step_tolerance" = Ok t -> long_arg "--fixed_point_iterations" = Ok f -> likelihood_of l ->
      e_named (SetSupervisedE (Some (size i)) (Some t) (Some (size f)) (Some l)).

  Inductive m_named (y : list Z) : scall T -> Prop :=
  | m_semi i t L : on "--semi_supervised" ->
      long_arg "--m_step_iterations" = Ok i -> float_arg "--m_step_tolerance" = Ok t -> float_arg "--regularization_penalty" = Ok L ->
      m_named y (SetSemiM (Some (size i)) (Some t) (Some L))
  | m_online w L b mo lr bw : off "--semi_supervised" -> on "--online_m_step" -> class_weights y = Ok w ->
      float_arg "--regularization_penalty" = Ok L -> long_arg "--batch_size" = Ok b -> float_arg "--momentum" = Ok mo ->
      float_arg "--learning_rate" = Ok lr -> float_arg "--beta_weight" = Ok bw ->
      m_named y (SetOnlineM (Matrix w) (Some L) (Some (size b)) (Some mo) (Some lr) (Some bw))
  | m_second i t L : off "--semi_supervised" -> off "--online_m_step" -> on "--second_order_m_step" ->
      long_arg "--m_step_iterations" = Ok i -> float_arg "--m_step_tolerance" = Ok t -> float_arg "--regularization_penalty" = Ok L ->
      m_named y (SetSupervisedM (Some (size i)) (Some t) (Some L))
  | m_multinomial mu : off "--semi_supervised" -> off "--online_m_step" -> off "--second_order_m_step" -> on "--multinomial" -> float_arg "--mu" = Ok mu ->
      m_named y (SetMultinomialM (Some mu))
  | m_correspondence mu : off "--semi_supervised" -> off "--online_m_step" -> off "--second_order_m_step" -> off "--multinomial" -> on "--correspondence" ->
      float_arg "--mu" = Ok mu -> m_named y (SetCorrespondenceM (Some mu))
  | m_fast i t L : off "--semi_supervised" -> off "--online_m_step" -> off "--second_order_m_step" -> off "--multinomial" -> off "--correspondence" ->
      long_arg "--m_step_iterations" = Ok i -> float_arg "--m_step_tolerance" = Ok t -> float_arg "--regularization_penalty" = Ok L ->
      m_named y (SetFastM (Some (size i)) (Some t) (Some L)).

  (** The model to start from, and its sizes: that of --continue, or seeded topics with an eta of equal numbers (the multinomial and
      correspondence variants) or zeros. *)
  Inductive start_named (d : disk) (x : emat) (y : list Z) : nat -> nat -> nat -> list (scall T) -> Prop :=
  | start_continue f m : args "--continue"%string = VString f -> model_at of_bytes jk d f = Ok m ->
      length (p_alpha m) = mrows (p_beta m) -> mrows (p_eta m) = mrows (p_beta m) ->
      start_named d x y (mrows (p_beta m)) (ncols (p_beta m)) (ncols (p_eta m)) [FromModel m; EtaOf m]
  | start_uniform k C : args "--continue"%string = VEmpty -> on "--multinomial" \/ (off "--multinomial" /\ on "--correspondence") ->
      long_arg "--topics" = Ok k -> classes_of y = Ok C ->
      start_named d x y (size k) (em_rows x) C [Seeded (columns x) (size k) 30 (document_draws 0); Uniform C]
  | start_zeros k C : args "--continue"%string = VEmpty -> off "--multinomial" -> off "--correspondence" ->
      long_arg "--topics" = Ok k -> classes_of y = Ok C ->
      start_named d x y (size k) (em_rows x) C [Seeded (columns x) (size k) 30 (document_draws 0); Zeros C].

  (** All calls of the builder in train; [K], [V], [C]: topics, words and classes of the model *)
  Definition root_asks (d : disk) (x : emat) (y : list Z) (K V C : nat) (h : list (scall T)) : Prop :=
    exists n w e m start, long_arg "--iterations" = Ok n /\ long_arg "--workers" = Ok w /\ e_named e /\ m_named y m /\ start_named d x y K V C start /\
      h = [Iterations (size n); Workers (size w); e; m] ++ start.
End Options.

(** train ends on a good device and leaves the model [m] in the file MODEL; or it is ended by an exception; or it is undefined. *)
Definition root_trained {T} {O : ops T} to_bytes (of_bytes : elem -> T) dfuel ofuel args stol stof document_draws hw jk (d : disk) (path : string)
    (r : outcome (params T)) : Prop :=
  let run := root_train_main to_bytes of_bytes dfuel ofuel args stol stof document_draws hw jk good_device d in
  match r with
  | Ok m => exists d', run (Ok tt) d' /\ model_at of_bytes jk d' path = Ok m
  | Throw e => exists d', run (Throw e) d'
  | UB => exists d', run UB d'
  end.

(** ** The listeners *)
(** The parts of what TrainingProgress prints, each in order *)
Fixpoint iteration_lines {T} (ls : list (tline T)) : list Z :=
  match ls with [] => [] | TIteration n :: ls => n :: iteration_lines ls | _ :: ls => iteration_lines ls end.
Fixpoint document_lines {T} (ls : list (tline T)) : list Z :=
  match ls with [] => [] | TDocuments n :: ls => n :: document_lines ls | _ :: ls => document_lines ls end.
Fixpoint logistic_lines {T} (ls : list (tline T)) : list T :=
  match ls with [] => [] | TLogistic x :: ls => x :: logistic_lines ls | _ :: ls => logistic_lines ls end.
Fixpoint likelihood_lines {T} (ls : list (tline T)) : list T :=
  match ls with [] => [] | TLikelihood x :: ls => x :: likelihood_lines ls | _ :: ls => likelihood_lines ls end.

(** The events of a training, each with the time it is heard: those of the epochs in turn, each ended by its last event *)
Definition in_turn {E} (eps : list (list E * E)) : list E := List.concat (map (fun e => fst e ++ [snd e]) eps).
Definition is_expectation {T} (e : notice T) : bool := match e with Expectation _ => true | _ => false end.
Definition is_maximization {T} (e : notice T) : bool := match e with Maximization _ => true | _ => false end.
(** The time of the first event of a kind *)
Fixpoint first_time {T} (kind : notice T -> bool) (es : list (Z * notice T)) : option Z :=
  match es with
  | [] => None
  | (t, e) :: es => if kind e then Some t else first_time kind es
  end.
(** An M step that reports at least one value at the end of every epoch. *)
Definition speaks {T St} (M : maximizer T St) : Prop := forall s m m' s' xs, ms_end M s m = Ok (m', s', xs) -> xs <> [].
(** The likelihoods of an epoch that are kept, in order *)
Fixpoint kept {T} (keep : T -> bool) (es : list (notice T)) : list T :=
  match es with
  | [] => []
  | Expectation (Some x) :: es => if keep x then x :: kept keep es else kept keep es
  | _ :: es => kept keep es
  end.
