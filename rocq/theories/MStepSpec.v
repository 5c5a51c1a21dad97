(** Vocabulary of the M-step properties. *)
Require Import Reals ZArith List Bool Arith.
Require Import Verif.Base Verif.Scalar Verif.Mat Verif.UtilsModel Verif.BuilderModel Verif.EStepModel Verif.OptModel Verif.MStepModel.
Import ListNotations.

(** The model and the dispatched values of a run; failures are kept. *)
Definition visible {T St} (r : outcome (params T * St * list T)) : outcome (params T * list T) :=
  match r with Ok (m, _, e) => Ok (m, e) | Throw e => Throw e | UB => UB end.
Definition topics {T St} (r : outcome (params T * St * list T)) : outcome (mat T) :=
  match r with Ok (m, _, _) => Ok (p_beta m) | Throw e => Throw e | UB => UB end.
Definition weights {T St} (r : outcome (params T * St * list T)) : outcome (mat T * list T) :=
  match r with Ok (m, _, e) => Ok (p_eta m, e) | Throw e => Throw e | UB => UB end.

(** A document with the variational parameters the E step found for it. *)
Definition item (T : Type) : Type := doc T * vparams T.
(** doc_m_step for each of them; with m_step at the end, an epoch. *)
Definition docs {T} (l : list (item T)) : list (mcall T) := map (fun x => MDoc (fst x) (snd x)) l.
Definition epoch {T} (l : list (item T)) : list (mcall T) := docs l ++ [MEnd].
(** The items of a sequence of calls. *)
Fixpoint items {T} (h : list (mcall T)) : list (item T) :=
  match h with [] => [] | MDoc d v :: h => (d, v) :: items h | MEnd :: h => items h end.

(** [x] belongs to a model with K topics and V words. *)
Definition sized {T} (K V : nat) (x : item T) : Prop :=
  length (d_words (fst x)) = V /\ mrows (v_phi (snd x)) = K /\ ncols (v_phi (snd x)) = V /\ length (v_gamma (snd x)) = K.
(** The label, if it has one that is not negative. *)
Definition labelled {T} (x : item T) : bool :=
  match d_class (fst x) with Some c => (0 <=? c)%Z | None => false end.
Definition class_of {T} (x : item T) : Z := match d_class (fst x) with Some c => c | None => 0%Z end.
Definition count {T} (x : item T) (n : nat) : Z := nth n (d_words (fst x)) 0%Z.

Section Spec.
  Context {T : Type} {O : ops T}.
  Open Scope sc_scope.
  (** Expected number of times topic i generates word n in the document; in the
      correspondence model weighted by tau, the probability that the class is due to word n. *)
  Definition assigned (x : item T) (i n : nat) : T := mget (v_phi (snd x)) i n * ofZ (count x n).
  Definition assigned_tau (x : item T) (i n : nat) : T := mget (v_phi (snd x)) i n * (ofZ (count x n) * vget (v_tau (snd x)) n).
  (** Their totals over the documents, summed in order ... *)
  Definition totals (K V : nat) (a : item T -> nat -> nat -> T) (l : list (item T)) : mat T :=
    fold_left (fun b x => mtab K V (fun i n => mget b i n + a x i n)) l (mtab K V (fun _ _ => zero)).
  Definition word_counts (K V : nat) : list (item T) -> mat T := totals K V assigned.
  (** ... by class ... *)
  Definition class_totals (K V C : nat) (a : item T -> nat -> nat -> T) (l : list (item T)) : mat T :=
    fold_left (fun h x => mtab K C (fun i c =>
      if Nat.eqb c (Z.to_nat (class_of x)) then mget h i c + redux (vtab V (fun n => a x i n)) else mget h i c)) l
      (mtab K C (fun _ _ => zero)).
  (** ... and the expected log probability of the classes. *)
  Definition class_log (K V : nat) (a : item T -> nat -> nat -> T) (eta : mat T) (l : list (item T)) : T :=
    fold_left (fun s x => s + redux (vtab K (fun i => redux (vtab V (fun n => a x i n)) * slog (mget eta i (Z.to_nat (class_of x))))))
      l zero.
  (** Each row divided by its sum. *)
  Definition over_row_sums (K V : nat) (c : mat T) : mat T :=
    mtab K V (fun i n => mget c i n / redux (vtab V (fun n => mget c i n))).

  (** The document's topic mixture: gamma - alpha, divided by its sum unless that is zero. *)
  Definition excess (K : nat) (alpha : list T) (x : item T) : list T :=
    vtab K (fun i => vget (v_gamma (snd x)) i - vget alpha i).
  Definition mixture (K : nat) (alpha : list T) (x : item T) : list T :=
    let e := excess K alpha x in if redux e =? zero then e else map (fun a => a / redux e) e.
  (** The same divided by the number of words in the document, for sLDA; and the second moment. *)
  Definition words_in (x : item T) : Z := Zsum (d_words (fst x)).
  Definition mean_topics (K : nat) (alpha : list T) (x : item T) : list T :=
    map (fun a => a / ofZ (words_in x)) (excess K alpha x).
  Definition second_moment (K V : nat) (x : item T) : mat T :=
    mtab K K (fun i j => redux (vtab V (fun n => assigned x i n * assigned x j n)) * (one / ofZ (words_in x * words_in x))).

  (** What the (fast, semi-) supervised M steps do with the training set of the items [l]: fit eta. *)
  Definition trained (fuel limit : nat) (tolerance L : T) (K : nat) (l : list (item T)) (m : params T) : outcome (mat T * list T) :=
    let* p := mlr (mk_mat K (map (mixture K (p_alpha m)) l)) (map class_of l) L in
    fit_eta fuel limit tolerance p (p_eta m).
  Definition trained_slda (fuel limit : nat) (tolerance L : T) (K V : nat) (l : list (item T)) (m : params T) : outcome (mat T * list T) :=
    let* p := so (mk_mat K (map (mean_topics K (p_alpha m)) l)) (map (second_moment K V) l) (map class_of l) L in
    fit_eta fuel limit tolerance p (p_eta m).

  (** ** What the M steps ask of documents *)
  Definition has_class (x : item T) : Prop := d_class (fst x) <> None.
  (** a class among C *)
  Definition classified (C : nat) (x : item T) : Prop := exists c, d_class (fst x) = Some c /\ (0 <= c < Z.of_nat C)%Z.
  Definition with_tau (V : nat) (x : item T) : Prop := length (v_tau (snd x)) = V.
  (** the square of the number of words is an int: at most 46340 words *)
  Definition short (x : item T) : Prop := (words_in x * words_in x < 2 ^ 31)%Z.

  (** The batch M steps, each with a new object, what it counts for a word of a topic, what it asks of the
      model and what it asks of documents. *)
  Inductive batch_step (K V C : nat) : forall St, maximizer T St -> St -> (item T -> nat -> nat -> T) ->
      (params T -> Prop) -> (item T -> Prop) -> Prop :=
  | step_unsupervised : batch_step K V C _ unsupervised_maximizer empty_mat assigned (fun _ => True) (fun _ => True)
  | step_fast fuel limit tolerance L :
      batch_step K V C _ (fast_maximizer fuel limit tolerance L) new_fast assigned (fun m => length (p_alpha m) = K) has_class
  | step_semi fuel limit tolerance L :
      batch_step K V C _ (semi_maximizer fuel limit tolerance L) new_fast assigned (fun m => length (p_alpha m) = K) has_class
  | step_slda fuel limit tolerance L :
      batch_step K V C _ (sup_maximizer fuel limit tolerance L) new_sup assigned (fun m => length (p_alpha m) = K)
        (fun x => has_class x /\ short x)
  | step_multinomial mu :
      batch_step K V C _ (multinomial_maximizer mu) new_stats assigned
        (fun m => mrows (p_eta m) = K /\ ncols (p_eta m) = C) (fun x => classified C x)
  | step_correspondence mu :
      batch_step K V C _ (correspondence_maximizer mu) new_stats assigned_tau
        (fun m => mrows (p_eta m) = K /\ ncols (p_eta m) = C) (fun x => classified C x /\ with_tau V x).

  (** ** The online M step *)
  (** The topic mixture it uses: gamma - alpha divided by its sum, even if that is zero. *)
  Definition proportions (K : nat) (alpha : list T) (x : item T) : list T :=
    let e := excess K alpha x in map (fun a => a / redux e) e.
  (** A model with K topics, V words and the classes of the weights. *)
  Definition model_sized (K V : nat) (cf : oconf T) (m : params T) : Prop :=
    length (p_alpha m) = K /\ mrows (p_beta m) = K /\ ncols (p_beta m) = V /\
    mrows (p_eta m) = K /\ ncols (p_eta m) = length (o_class_weights cf).
  (** Its updates, one per mini-batch, after the documents [seen] before them: a gradient step with momentum
      for eta on the documents of the mini-batch; the topics move towards those of all documents since the start. *)
  Fixpoint online_updates (cf : oconf T) (K V : nat) (batches : list (list (item T))) (seen : list (item T))
    (m : params T) (velocity : mat T) : outcome (params T * list T) :=
    match batches with
    | [] => Ok (m, [])
    | b :: batches =>
        let C := length (o_class_weights cf) in
        let w := o_beta_weight cf in
        let topics := over_row_sums K V (word_counts K V (seen ++ b)) in
        let* p := mlr (mk_mat K (map (proportions K (p_alpha m)) b)) (map class_of b) (o_L cf) in
        let* g := gradient p (p_eta m) in
        let velocity := mtab K C (fun i c => o_momentum cf * mget velocity i c - o_rate cf * mget g i c) in
        let eta := mtab K C (fun i c => mget (p_eta m) i c + mget velocity i c) in
        let beta := mtab K V (fun i n => w * mget (p_beta m) i n + (one - w) * mget topics i n) in
        let* v := value p eta in
        let* (m, e) := online_updates cf K V batches (seen ++ b) (mk_params (p_alpha m) beta eta) velocity in
        Ok (m, - v :: e)
    end.
End Spec.

(** A history of complete epochs. *)
Definition between_epochs {T} (h : list (mcall T)) : Prop := h = [] \/ exists h', h = h' ++ [MEnd].
(** A history without its unlabelled documents. *)
Fixpoint labelled_only {T} (h : list (mcall T)) : list (mcall T) :=
  match h with
  | [] => []
  | MDoc d v :: h => if labelled (d, v) then MDoc d v :: labelled_only h else labelled_only h
  | MEnd :: h => MEnd :: labelled_only h
  end.

(** ** Exact arithmetic *)
Section Exact.
  Context {O : ops R}.
  Local Open Scope R_scope.
  (** Non-negative counts and variational parameters. *)
  Definition nonneg_item (K V : nat) (x : item R) : Prop :=
    (forall n, (n < V)%nat -> (0 <= count x n)%Z /\ 0 <= vget (v_tau (snd x)) n) /\
    forall i n, (i < K)%nat -> (n < V)%nat -> 0 <= mget (v_phi (snd x)) i n.
  (** The total of [a] over documents. *)
  Definition expected (a : item R -> nat -> nat -> R) (l : list (item R)) (i n : nat) : R := lsum (map (fun x => a x i n) l).
  (** Each row of the matrix is a probability distribution. *)
  Definition distribution (V : nat) (p : nat -> R) : Prop := (forall n, (n < V)%nat -> 0 <= p n) /\ rsum V p = 1.
  Definition stochastic (K V : nat) (b : mat R) : Prop :=
    mrows b = K /\ ncols b = V /\ forall i, (i < K)%nat -> distribution V (mget b i).
  (** Log likelihood of topics [b] for expected counts [c]; it is minus infinity unless [b] is positive wherever [c] is. *)
  Definition log_likelihood (K V : nat) (c : nat -> nat -> R) (b : mat R) : R :=
    rsum K (fun i => rsum V (fun n => c i n * ln (mget b i n))).
  Definition explains (K V : nat) (c : nat -> nat -> R) (b : mat R) : Prop :=
    forall i n, (i < K)%nat -> (n < V)%nat -> 0 < c i n -> 0 < mget b i n.
  (** every topic has mass *)
  Definition mass (K V : nat) (c : nat -> nat -> R) : Prop := forall i, (i < K)%nat -> 0 < rsum V (c i).
End Exact.

(** The full mini-batches of a sequence of documents. *)
Definition batches {A} (B : nat) (l : list A) : list (list A) :=
  map (fun k => firstn B (skipn (k * B) l)) (seq 0 (length l / B)).

(** Expected number of words due to topic i in documents of class c. *)
Definition class_expected {O : ops R} (V : nat) (a : item R -> nat -> nat -> R) (l : list (item R)) (i c : nat) : R :=
  lsum (map (fun x => if Nat.eqb c (Z.to_nat (class_of x)) then rsum V (fun n => a x i n) else 0%R) l).
(** The eta of the multinomial and correspondence M steps: expected class counts smoothed by mu - 1, normalised. *)
Definition smoothed_classes {O : ops R} (K V C : nat) (mu : R) (a : item R -> nat -> nat -> R) (l : list (item R)) (eta : mat R) : Prop :=
  (mrows eta = K /\ ncols eta = C /\
  forall i, (i < K)%nat -> 1 < mu \/ (1 <= mu /\ 0 < rsum V (expected a l i)) ->
    distribution C (mget eta i) /\
    (forall c, (c < C)%nat -> mget eta i c = (class_expected V a l i c + (mu - 1)) / (rsum V (expected a l i) + INR C * (mu - 1))) /\
    (1 < mu -> forall c, (c < C)%nat -> 0 < mget eta i c))%R.
