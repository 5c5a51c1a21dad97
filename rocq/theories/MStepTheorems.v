(** Properties C37-C43: the M steps, for every history of documents and epochs. *)
Require Import Reals ZArith List Bool Arith Lia Lra.
Require Import Verif.Base Verif.Scalar Verif.Mat Verif.UtilsModel Verif.BuilderModel Verif.EStepModel Verif.OptModel Verif.OptSpec Verif.OptProofs
  Verif.MStepModel Verif.MStepSpec Verif.MStepAny Verif.MStepBatch Verif.MStepOnline Verif.MStepReal.
Import ListNotations.
Open Scope R_scope.

(** A document with words [2; 1] of class 0 and the variational parameters an E step could have found, for two topics. *)
Definition some_item : item R :=
  (mk_doc [2; 1]%Z (Some 0%Z) 1 [], mk_vparams [2; 2] (mk_mat 2 [[1 / 2; 1 / 2]; [0; 1]]) [1; 1]).
Lemma some_item_good lg : let O := Rops lg in
  sized 2 2 some_item /\ has_class some_item /\ short some_item /\ classified 1 some_item /\ with_tau 2 some_item /\ nonneg_item 2 2 some_item.
Proof.
  intros O. split; [repeat split|]. split; [discriminate|]. split; [reflexivity|]. split; [exists 0%Z; repeat split; lia|]. split; [reflexivity|].
  split.
  - intros [|[|n]] Hn; try lia; cbn; split; (lia || lra).
  - intros [|[|i]] [|[|n]] Hi Hn; try lia; cbn; lra.
Qed.

(** C37: over the reals, for every batch M step, every history of complete epochs and every further
    epoch in which each topic gets mass: the topics are the expected counts of this epoch's documents, each row
    divided by its sum; they are distributions; and no other distributions have a larger likelihood. *)
Theorem C37_maximum_likelihood lg (K V C : nat) : let O := Rops lg in
  (0 < K)%nat ->
  forall St M new a P Q, batch_step K V C St M new a P Q ->
  forall h m0 m s e, P m0 -> between_epochs h -> Forall (fun x => sized K V x /\ Q x) (items h) -> mrun M h m0 new = Ok (m, s, e) ->
  forall l m' s' e', Forall (fun x => sized K V x /\ Q x /\ nonneg_item K V x) l -> mass K V (expected a l) ->
  mrun M (epoch l) m s = Ok (m', s', e') ->
    stochastic K V (p_beta m') /\
    (forall i n, (i < K)%nat -> (n < V)%nat -> mget (p_beta m') i n = expected a l i n / rsum V (expected a l i)) /\
    forall b, stochastic K V b -> explains K V (expected a l) b ->
      log_likelihood K V (expected a l) b <= log_likelihood K V (expected a l) (p_beta m').
Proof.
  intros O HK St M new a P Q B h m0 m s e HP Hh Hi E l m' s' e' Hl Hm E'.
  destruct (batch_between K V C HK St M new a P Q B h m0 m s e HP Hh Hi E) as [_ X].
  assert (Hl1 : Forall (fun x => sized K V x /\ Q x) l) by (revert Hl; apply Forall_impl; tauto).
  assert (Hl2 : Forall (nonneg_item K V) l) by (revert Hl; apply Forall_impl; tauto).
  assert (Hn : l <> []).
  { intros ->. specialize (Hm 0%nat HK). rewrite rsum_zero in Hm; [lra|]. reflexivity. }
  destruct (X l Hl1 Hn) as [_ Y]. destruct (Y m' s' e' E') as [_ T]. destruct (topics_R lg K V a l _ T Hm) as (T1 & T2 & T3).
  assert (Ha : nonneg_counts lg K V a) by (destruct B; try apply assigned_nonneg; apply assigned_tau_nonneg).
  assert (Hc : forall i n, (i < K)%nat -> (n < V)%nat -> 0 <= expected a l i n) by (intros i n; now apply (expected_nonneg lg K V a l i n Ha Hl2)).
  split; [|split].
  - split; [exact T1|]. split; [exact T2|]. intros i Hi'.
    apply (distribution_ext_n V (fun n => expected a l i n / rsum V (expected a l i))); [intros n Hn'; symmetry; now apply T3|].
    apply ratio_distribution; [intros n Hn'; now apply Hc|now apply Hm].
  - exact T3.
  - intros b. exact (likelihood_optimal lg K V (expected a l) (p_beta m') b Hc Hm T3).
Qed.
(** the document above satisfies the hypotheses, for all M steps; the topics of the unsupervised one are (1, 0) and (1/2, 1/2) *)
Example C37_case lg : let O := Rops lg in
  mass 2 2 (expected assigned [some_item]) /\ mass 2 2 (expected assigned_tau [some_item]) /\
  exists m s, mrun unsupervised_maximizer (epoch [some_item]) empty_params empty_mat = Ok (m, s, []) /\
    mget (p_beta m) 0 0 = 1 /\ mget (p_beta m) 0 1 = 0 /\ mget (p_beta m) 1 0 = 1 / 2 /\ mget (p_beta m) 1 1 = 1 / 2.
Proof.
  intros O. split; [|split].
  - intros [|[|i]] Hi; try lia; cbn; lra.
  - intros [|[|i]] Hi; try lia; cbn; lra.
  - eexists _, _. split; [apply (unsupervised_epoch 2 2 (Nat.lt_0_succ 1)); [now left| |discriminate]|].
    + constructor; [apply (some_item_good lg)|constructor].
    + cbn. repeat split; field.
Qed.

(** C38: over any scalar type: after any two histories of complete epochs, an epoch with at least one
    document computes the same as with a new object: same outcome, model and dispatched values ... *)
Theorem C38_memoryless {T} {O : ops T} (K V C : nat) : (0 < K)%nat ->
  forall St M new a P Q, batch_step K V C St M new a P Q ->
  forall h m0 m s e, P m0 -> between_epochs h -> Forall (fun x => sized K V x /\ Q x) (items h) -> mrun M h m0 new = Ok (m, s, e) ->
  forall l, Forall (fun x => sized K V x /\ Q x) l -> l <> [] ->
    visible (mrun M (epoch l) m s) = visible (mrun M (epoch l) m new).
Proof.
  intros HK St M new a P Q B h m0 m s e HP Hh Hi E l Hl Hn.
  destruct (batch_between K V C HK St M new a P Q B h m0 m s e HP Hh Hi E) as [_ X]. now apply X.
Qed.
(** ... and the topics do not even depend on the model. *)
Theorem C38_topics {T} {O : ops T} (K V C : nat) : (0 < K)%nat ->
  forall St M new a P Q, batch_step K V C St M new a P Q ->
  forall h m0 m s e, P m0 -> between_epochs h -> Forall (fun x => sized K V x /\ Q x) (items h) -> mrun M h m0 new = Ok (m, s, e) ->
  forall g n0 n t f, P n0 -> between_epochs g -> Forall (fun x => sized K V x /\ Q x) (items g) -> mrun M g n0 new = Ok (n, t, f) ->
  forall l m' s' e' n' t' f', Forall (fun x => sized K V x /\ Q x) l -> l <> [] ->
    mrun M (epoch l) m s = Ok (m', s', e') -> mrun M (epoch l) n t = Ok (n', t', f') -> p_beta m' = p_beta n'.
Proof.
  intros HK St M new a P Q B h m0 m s e HP Hh Hi E g n0 n t f HP' Hg Hi' E' l m' s' e' n' t' f' Hl Hn R1 R2.
  exact (batch_topics K V C HK St M new a P Q B h m0 m s e HP Hh Hi E g n0 n t f HP' Hg Hi' E' l m' s' e' n' t' f' Hl Hn R1 R2).
Qed.
(** two histories, one of them with two epochs *)
Example C38_case lg : let O := Rops lg in
  batch_step 2 2 1 _ unsupervised_maximizer empty_mat assigned (fun _ => True) (fun _ => True) /\
  between_epochs (epoch [some_item; some_item] ++ epoch [some_item]) /\ Forall (fun x => sized 2 2 x /\ True) [some_item; some_item; some_item] /\
  exists m s, mrun unsupervised_maximizer (epoch [some_item; some_item] ++ epoch [some_item]) empty_params empty_mat = Ok (m, s, []).
Proof.
  intros O. split; [constructor|]. assert (S := proj1 (some_item_good lg)). split; [|split].
  - right. exists (epoch [some_item; some_item] ++ docs [some_item]). reflexivity.
  - repeat constructor; apply S.
  - rewrite mrun_app, (unsupervised_epoch 2 2 (Nat.lt_0_succ 1)); try discriminate; [|now left|repeat constructor; apply S]. cbn [bind].
    rewrite (unsupervised_epoch 2 2 (Nat.lt_0_succ 1)); try discriminate; [|now right|repeat constructor; apply S]. cbn [bind app]. eauto.
Qed.

(** C39: over any scalar type: after any history of complete epochs, the fast supervised M step fits eta, from its
    present value, to the topic mixtures and labels of exactly the documents of the epoch, in order
    (see [trained]); the semi-supervised one to those with a label; and sLDA's to the documents' mean
    topics, second moments and labels (see [trained_slda]). *)
Theorem C39_fast {T} {O : ops T} (K V : nat) fuel limit tolerance L : (0 < K)%nat ->
  forall h m0 m s e, length (p_alpha m0) = K -> between_epochs h -> Forall (fun x => sized K V x /\ has_class x) (items h) ->
    mrun (fast_maximizer fuel limit tolerance L) h m0 new_fast = Ok (m, s, e) ->
  forall l, Forall (fun x => sized K V x /\ has_class x) l -> l <> [] ->
    weights (mrun (fast_maximizer fuel limit tolerance L) (epoch l) m s) = trained fuel limit tolerance L K l m.
Proof. exact (fast_weights K V fuel limit tolerance L). Qed.
Theorem C39_semi {T} {O : ops T} (K V : nat) fuel limit tolerance L : (0 < K)%nat ->
  forall h m0 m s e, length (p_alpha m0) = K -> between_epochs h -> Forall (fun x => sized K V x /\ has_class x) (items h) ->
    mrun (semi_maximizer fuel limit tolerance L) h m0 new_fast = Ok (m, s, e) ->
  forall l, Forall (fun x => sized K V x /\ has_class x) l -> l <> [] ->
    weights (mrun (semi_maximizer fuel limit tolerance L) (epoch l) m s) = trained fuel limit tolerance L K (filter labelled l) m.
Proof. exact (semi_weights K V fuel limit tolerance L). Qed.
Theorem C39_slda {T} {O : ops T} (K V : nat) fuel limit tolerance L : (0 < K)%nat ->
  forall h m0 m s e, length (p_alpha m0) = K -> between_epochs h -> Forall (fun x => sized K V x /\ has_class x /\ short x) (items h) ->
    mrun (sup_maximizer fuel limit tolerance L) h m0 new_sup = Ok (m, s, e) ->
  forall l, Forall (fun x => sized K V x /\ has_class x /\ short x) l -> l <> [] ->
    weights (mrun (sup_maximizer fuel limit tolerance L) (epoch l) m s) = trained_slda fuel limit tolerance L K V l m.
Proof. exact (sup_weights K V fuel limit tolerance L). Qed.
(** Over the reals the fit succeeds if enough time is given, when the labels are among eta's C columns,
    and its result is not worse than the eta before on that training set. *)
Theorem C39_fast_improves lg (K V C : nat) limit tolerance L (m : params R) eta (l : list (item R)) : let O := Rops lg in
  p_eta m = mtab K C eta -> l <> [] -> Forall (classified C) l -> (Z.of_nat C < 2 ^ 31)%Z ->
  let objective := mlr_objective K C (fun d i => vget (nth d (map (mixture K (p_alpha m)) l) []) i) (map class_of l) L in
  exists fuel0, forall fuel, (fuel0 <= fuel)%nat ->
    exists eta' reported, trained fuel limit tolerance L K l m = Ok (mtab K C eta', reported) /\ objective eta' <= objective eta.
Proof. exact (trained_R lg K C limit tolerance L m eta l). Qed.
Theorem C39_slda_improves lg (K V C : nat) limit tolerance L (m : params R) eta (l : list (item R)) : let O := Rops lg in
  p_eta m = mtab K C eta -> l <> [] -> Forall (classified C) l -> (Z.of_nat C < 2 ^ 31)%Z ->
  let objective := so_objective K C (fun d i => vget (nth d (map (mean_topics K (p_alpha m)) l) []) i)
                     (fun d => mget (nth d (map (second_moment K V) l) (mk_mat 0 []))) (map class_of l) L in
  exists fuel0, forall fuel, (fuel0 <= fuel)%nat ->
    exists eta' reported, trained_slda fuel limit tolerance L K V l m = Ok (mtab K C eta', reported) /\ objective eta' <= objective eta.
Proof. exact (trained_slda_R lg K V C limit tolerance L m eta l). Qed.
(** a training set of one document: (1/2, 1/2), label 0 *)
Example C39_case lg : let O := Rops lg in
  map (mixture 2 [1; 1]) [some_item] = [[1 / 2; 1 / 2]] /\
  map class_of [some_item] = [0%Z] /\ map (mean_topics 2 [1; 1]) [some_item] = [[1 / 3; 1 / 3]].
Proof.
  intros O. split; [|split; [reflexivity|]].
  - unfold mixture. cbn. match goal with |- context [Req_EM_T ?a 0] => destruct (Req_EM_T a 0) as [E|] end; [lra|]. repeat f_equal; field.
  - unfold mean_topics. cbn. repeat f_equal; field.
Qed.

(** C40: over the reals, after any history of complete epochs, the multinomial and the correspondence M steps succeed on an
    epoch with at least one document, and every row of eta is a distribution, positive if mu > 1, proportional
    to the expected class counts plus mu - 1; and every topic with mass is a distribution. *)
Theorem C40_multinomial lg (K V C : nat) mu : let O := Rops lg in (0 < K)%nat ->
  forall h m0 m s e, mrows (p_eta m0) = K -> ncols (p_eta m0) = C -> between_epochs h ->
    Forall (fun x => sized K V x /\ classified C x) (items h) -> mrun (multinomial_maximizer mu) h m0 new_stats = Ok (m, s, e) ->
  forall l, Forall (fun x => sized K V x /\ classified C x /\ nonneg_item K V x) l -> l <> [] ->
  exists m' s' e', mrun (multinomial_maximizer mu) (epoch l) m s = Ok (m', s', e') /\
    smoothed_classes K V C mu assigned l (p_eta m') /\
    forall i, (i < K)%nat -> 0 < rsum V (expected assigned l i) -> distribution V (mget (p_beta m') i).
Proof. exact (multinomial_R lg K V C mu). Qed.
Theorem C40_correspondence lg (K V C : nat) mu : let O := Rops lg in (0 < K)%nat ->
  forall h m0 m s e, mrows (p_eta m0) = K -> ncols (p_eta m0) = C -> between_epochs h ->
    Forall (fun x => sized K V x /\ classified C x /\ with_tau V x) (items h) ->
    mrun (correspondence_maximizer mu) h m0 new_stats = Ok (m, s, e) ->
  forall l, Forall (fun x => sized K V x /\ classified C x /\ with_tau V x /\ nonneg_item K V x) l -> l <> [] ->
  exists m' s' e', mrun (correspondence_maximizer mu) (epoch l) m s = Ok (m', s', e') /\
    smoothed_classes K V C mu assigned_tau l (p_eta m') /\
    forall i, (i < K)%nat -> 0 < rsum V (expected assigned_tau l i) -> distribution V (mget (p_beta m') i).
Proof. exact (correspondence_R lg K V C mu). Qed.
(** the document above, two classes, mu = 2: the first topic has expected counts 1 and 0 for the classes *)
Example C40_case lg : let O := Rops lg in
  exists m' s' e', mrun (multinomial_maximizer 2) (epoch [some_item]) (mk_params [1; 1] (mk_mat 2 [[1; 1]; [0; 0]]) (mk_mat 2 [[1; 1]; [1; 1]])) new_stats
    = Ok (m', s', e') /\ mget (p_eta m') 0 0 = 2 / 3 /\ mget (p_eta m') 0 1 = 1 / 3.
Proof.
  intros O. destruct (C40_multinomial lg 2 2 2 2 (Nat.lt_0_succ 1) [] (mk_params [1; 1] (mk_mat 2 [[1; 1]; [0; 0]]) (mk_mat 2 [[1; 1]; [1; 1]])) _ _ _ eq_refl eq_refl
    (or_introl eq_refl) (Forall_nil _) eq_refl [some_item]) as (m' & s' & e' & E & (_ & _ & S) & _).
  - constructor; [|constructor]. split; [apply (some_item_good lg)|]. split; [|apply (some_item_good lg)]. exists 0%Z. split; [reflexivity|lia].
  - discriminate.
  - exists m', s', e'. split; [exact E|]. destruct (S 0%nat) as (_ & G & _); [lia|left; lra|].
    split; (etransitivity; [apply G; lia|]); cbn; field.
Qed.

(** C41: over any scalar type, for every history: eta (and the dispatched values) of the semi-supervised M step
    are those of the fast supervised one without the unlabelled documents (also when they fail) ... *)
Theorem C41_eta {T} {O : ops T} (K V : nat) fuel limit tolerance L : (0 < K)%nat ->
  forall h m, Forall (fun x => sized K V x /\ has_class x) (items h) ->
    weights (mrun (semi_maximizer fuel limit tolerance L) h m new_fast) =
    weights (mrun (fast_maximizer fuel limit tolerance L) (labelled_only h) m new_fast).
Proof. intros HK h m. exact (semi_fast K V HK fuel limit tolerance L h m). Qed.
(** ... and its topics are those of the unsupervised one. *)
Theorem C41_topics {T} {O : ops T} fuel limit tolerance L : forall h m m' s e,
  mrun (semi_maximizer fuel limit tolerance L) h m new_fast = Ok (m', s, e) ->
  topics (mrun unsupervised_maximizer h m empty_mat) = Ok (p_beta m').
Proof. intros h m m' s e E. exact (semi_topics_run fuel limit tolerance L h m m new_fast m' s e eq_refl E). Qed.
(** But an epoch without any labelled document is undefined: the regression asks for the largest of no labels. *)
Theorem C41_no_labels_undefined {T} {O : ops T} (K V : nat) fuel limit tolerance L : (0 < K)%nat ->
  forall m l, length (p_alpha m) = K -> Forall (fun x => sized K V x /\ has_class x) l -> l <> [] -> filter labelled l = [] ->
    mrun (semi_maximizer fuel limit tolerance L) (epoch l) m new_fast = UB.
Proof. exact (semi_no_labels K V fuel limit tolerance L). Qed.
Definition unlabelled_item : item R :=
  (mk_doc [0; 5]%Z (Some (-1)%Z) 1 [], mk_vparams [2; 2] (mk_mat 2 [[1 / 2; 1 / 2]; [0; 1]]) [1; 1]).
Example C41_case lg : let O := Rops lg in
  Forall (fun x => sized 2 2 x /\ has_class x) (items (epoch [some_item; unlabelled_item])) /\
  labelled_only (epoch [some_item; unlabelled_item]) = epoch [some_item] /\
  filter labelled [unlabelled_item] = [].
Proof. intros O. split; [repeat constructor; discriminate|]. split; reflexivity. Qed.

(** C42: over any scalar type, for every history of documents and ends of epochs: the model and the dispatched values
    depend only on the full mini-batches of the documents, and one update happens for each of them
    (see [online_updates] for what it computes).  In particular ends of epochs change nothing. *)
Theorem C42_updates {T} {O : ops T} (K V : nat) (cf : oconf T) : (0 < K)%nat -> (0 < o_minibatch cf)%nat ->
  forall h m, model_sized K V cf m -> Forall (sized K V) (items h) -> Forall has_class (items h) ->
    visible (mrun (online_maximizer cf) h m new_online) =
    online_updates cf K V (batches (o_minibatch cf) (items h)) [] m (mtab K (length (o_class_weights cf)) (fun _ _ => zero)).
Proof. intros HK HB h m Hm Hs Hc. exact (online_explicit K V HK cf HB h m Hm Hs Hc). Qed.
(** One value is dispatched per update: as many as full mini-batches. *)
Theorem C42_number {T} {O : ops T} (K V : nat) (cf : oconf T) : (0 < K)%nat -> (0 < o_minibatch cf)%nat ->
  forall h m m' s e, model_sized K V cf m -> Forall (sized K V) (items h) -> Forall has_class (items h) ->
    mrun (online_maximizer cf) h m new_online = Ok (m', s, e) -> length e = (length (items h) / o_minibatch cf)%nat.
Proof. exact (online_number K V cf). Qed.
(** Histories with the same documents have the same effect; further documents that do not fill a mini-batch have none. *)
Theorem C42_epochs {T} {O : ops T} (K V : nat) (cf : oconf T) : (0 < K)%nat -> (0 < o_minibatch cf)%nat ->
  forall h h' m, model_sized K V cf m -> Forall (sized K V) (items h) -> Forall has_class (items h) ->
    items h' = firstn (length (items h) / o_minibatch cf * o_minibatch cf) (items h) ->
    visible (mrun (online_maximizer cf) h m new_online) = visible (mrun (online_maximizer cf) h' m new_online).
Proof. exact (online_epochs K V cf). Qed.
(** Over the reals the rows of the topics stay distributions, if the first mini-batch gives every topic mass. *)
Theorem C42_stochastic lg (K V : nat) (cf : oconf R) : let O := Rops lg in (0 < K)%nat -> (0 < o_minibatch cf)%nat ->
  0 <= o_beta_weight cf <= 1 ->
  forall h m m' s e, model_sized K V cf m -> Forall (sized K V) (items h) -> Forall has_class (items h) -> Forall (nonneg_item K V) (items h) ->
    mass K V (expected assigned (firstn (o_minibatch cf) (items h))) -> stochastic K V (p_beta m) ->
    mrun (online_maximizer cf) h m new_online = Ok (m', s, e) -> stochastic K V (p_beta m').
Proof. exact (online_stochastic_run lg K V cf). Qed.

(** C43 is false: whatever the class weights, the run is the same, over any scalar type; only
    their number matters. *)
Theorem C43_refuted {T} {O : ops T} (w w' : list T) L minibatch momentum rate beta_weight : length w = length w' ->
  forall h m s, mrun (online_maximizer (mk_oconf w L minibatch momentum rate beta_weight)) h m s =
                mrun (online_maximizer (mk_oconf w' L minibatch momentum rate beta_weight)) h m s.
Proof. exact (online_weights w w' L minibatch momentum rate beta_weight). Qed.
(** A real update: one topic, one word, two classes, mini-batches of one document.  With weights (5, 7) or (1, 1) for
    the classes, eta goes from (0, 0) to (1/2, -1/2): the step for weight 1. *)
Definition one_item : item R := (mk_doc [1]%Z (Some 0%Z) 1 [], mk_vparams [2] (mk_mat 1 [[1]]) []).
Example C43_case lg : let O := Rops lg in forall w1 w2,
  exists m s e, mrun (online_maximizer (mk_oconf [w1; w2] 0 1 0 1 0)) (epoch [one_item]) (mk_params [1] (mk_mat 1 [[1]]) (mk_mat 1 [[0]; [0]])) new_online =
    Ok (m, s, e) /\ mget (p_eta m) 0 0 = 1 / 2 /\ mget (p_eta m) 0 1 = - (1 / 2).
Proof.
  intros O w1 w2.
  assert (V : exists m e, visible (mrun (online_maximizer (mk_oconf [w1; w2] 0 1 0 1 0)) (epoch [one_item]) (mk_params [1] (mk_mat 1 [[1]]) (mk_mat 1 [[0]; [0]])) new_online)
    = Ok (m, e) /\ mget (p_eta m) 0 0 = 1 / 2 /\ mget (p_eta m) 0 1 = - (1 / 2)).
  { rewrite (C42_updates 1 1 (mk_oconf [w1; w2] 0 1 0 1 0) Nat.lt_0_1 Nat.lt_0_1).
    - cbn -[mlr_value mlr_gradient]. change (Pos.to_nat 1) with 1%nat. unfold mlr_gradient. cbn -[mlr_value]. unfold mlr_value. cbn.
      eexists _, _. split; [reflexivity|]. cbn. replace (0 * ((2 - 1) / (2 - 1 + 0)) + 0) with 0 by field. rewrite exp_0. split; field.
    - repeat split.
    - repeat constructor.
    - repeat constructor. discriminate. }
  destruct V as (m & e & V & V'). apply mrun_visible in V. destruct V as (s & V). exists m, s, e. now split.
Qed.

Print Assumptions C37_maximum_likelihood. Print Assumptions C38_memoryless. Print Assumptions C38_topics.
Print Assumptions C39_fast. Print Assumptions C39_semi. Print Assumptions C39_slda. Print Assumptions C39_fast_improves. Print Assumptions C39_slda_improves.
Print Assumptions C40_multinomial. Print Assumptions C40_correspondence.
Print Assumptions C41_eta. Print Assumptions C41_topics. Print Assumptions C41_no_labels_undefined.
Print Assumptions C42_updates. Print Assumptions C42_number. Print Assumptions C42_epochs. Print Assumptions C42_stochastic.
Print Assumptions C43_refuted.
