(** Property theorems C72 and C73: the M steps maximise the bounds of the epoch's documents, except the correspondence one. *)
Require Import Reals ZArith List Lia Lra.
Require Import Verif.Base Verif.Scalar Verif.Mat Verif.RealLemmas Verif.UtilsModel Verif.BuilderModel Verif.EStepModel Verif.EStepSpec Verif.LgammaSpec.
Require Import Verif.OptModel Verif.OptSpec Verif.MStepModel Verif.MStepSpec Verif.MStepTheorems Verif.BoundSpec Verif.BoundProofs Verif.BoundRefute.
Import ListNotations.
Open Scope R_scope.

(** ** C72: over the reals, for every batch M step that counts each word fully (all but the correspondence one), every history of complete
    epochs and every further epoch in which each topic gets mass: no topics [b] that are distributions and explain the words give the
    epoch's documents, with the posteriors their E steps found, a larger evidence lower bound.
    [lg] and [psi] may be any functions: the log gamma and the digamma function of the definition of the bound. *)
Theorem C72_topics : forall (lg psi : R -> R) (K V C : nat), let O := Rops lg in (0 < K)%nat ->
  forall St M new P Q, batch_step K V C St M new assigned P Q ->
  forall h m0 m s e, P m0 -> between_epochs h -> Forall (fun x => sized K V x /\ Q x) (items h) -> mrun M h m0 new = Ok (m, s, e) ->
  forall l m' s' e', Forall (fun x => sized K V x /\ Q x /\ nonneg_item K V x) l -> mass K V (expected assigned l) ->
  mrun M (epoch l) m s = Ok (m', s', e') ->
  forall b eta, stochastic K V b -> explains K V (expected assigned l) b ->
    corpus_bound lg psi l (mk_params (p_alpha m) b eta) <= corpus_bound lg psi l m'.
Proof. exact (fun lg psi K V C HK St M new P Q B => batch_corpus lg psi K V C HK St M new P Q B). Qed.

(** ... so the bound never falls: if each posterior only uses topics that have the word, as after an E step with the model
    (C69), and the model's topics are distributions, the bound of the new model is at least that of the old one. *)
Theorem C72_climbs : forall (lg psi : R -> R) (K V C : nat), let O := Rops lg in (0 < K)%nat ->
  forall St M new P Q, batch_step K V C St M new assigned P Q ->
  forall h m0 m s e, P m0 -> between_epochs h -> Forall (fun x => sized K V x /\ Q x) (items h) -> mrun M h m0 new = Ok (m, s, e) ->
  forall l m' s' e', Forall (fun x => sized K V x /\ Q x /\ nonneg_item K V x) l -> mass K V (expected assigned l) ->
  stochastic K V (p_beta m) -> Forall (fun x => competitor (d_words (fst x)) (p_beta m) (v_phi (snd x))) l ->
  mrun M (epoch l) m s = Ok (m', s', e') ->
    corpus_bound lg psi l m <= corpus_bound lg psi l m'.
Proof.
  intros lg psi K V C O HK St M new P Q B h m0 m s e HP Hh Hi E l m' s' e' Hl Hm S Hc E'.
  assert (Hn : Forall (nonneg_item K V) l) by (revert Hl; apply Forall_impl; tauto).
  assert (X : explains K V (expected assigned l) (p_beta m)).
  { apply (own_explains lg K V m l); try apply S; auto. intros i n Hi' Hn'. now apply S. }
  pose proof (C72_topics lg psi K V C HK St M new P Q B h m0 m s e HP Hh Hi E l m' s' e' Hl Hm E' (p_beta m) (p_eta m) S X) as L.
  destruct m. exact L.
Qed.

(** ... and the multinomial M step, with mu at least 1, maximises the bound of its own model and the Dirichlet prior of the class
    probabilities: no topics and class probabilities give a larger one. *)
Theorem C72_multinomial : forall (lg psi : R -> R) (K V C : nat) (mu : R), let O := Rops lg in (0 < K)%nat ->
  forall h m0 m s e, mrows (p_eta m0) = K -> ncols (p_eta m0) = C -> between_epochs h ->
    Forall (fun x => sized K V x /\ classified C x) (items h) -> mrun (multinomial_maximizer mu) h m0 new_stats = Ok (m, s, e) ->
  forall l, Forall (fun x => sized K V x /\ classified C x /\ nonneg_item K V x) l -> mass K V (expected assigned l) -> 1 <= mu ->
  exists m' s' e', mrun (multinomial_maximizer mu) (epoch l) m s = Ok (m', s', e') /\
    forall b eta, stochastic K V b -> explains K V (expected assigned l) b -> stochastic K C eta -> allows K V C mu assigned l eta ->
      multinomial_corpus_bound lg psi mu l (mk_params (p_alpha m) b eta) <= multinomial_corpus_bound lg psi mu l m'.
Proof. exact (fun lg psi K V C mu HK => multinomial_corpus lg psi K V C mu HK). Qed.

(** A document and its posterior (MStepTheorems.v) meet the hypotheses, with a model of two uniform topics and classes, for the
    unsupervised M step and the multinomial one. *)
Definition uniform : mat R := mk_mat 2 [[1 / 2; 1 / 2]; [1 / 2; 1 / 2]].
Lemma uniform_stochastic lg : let O := Rops lg in stochastic 2 2 uniform.
Proof.
  intros O.
  split; [reflexivity|]. split; [reflexivity|]. intros i Hi. split.
  - intros n Hn. destruct i as [|[|i]], n as [|[|n]]; try lia; unfold mget, vget; cbn; lra.
  - destruct i as [|[|i]]; try lia; cbn; lra.
Qed.
Example C72_case : forall (lg psi : R -> R), let O := Rops lg in
  exists m s e, mrun unsupervised_maximizer (epoch [some_item]) (mk_params [1; 1] uniform uniform) empty_mat = Ok (m, s, e) /\
    corpus_bound lg psi [some_item] (mk_params [1; 1] uniform uniform) <= corpus_bound lg psi [some_item] m.
Proof.
  intros lg psi O. assert (M : mass 2 2 (expected assigned [some_item])) by (intros [|[|i]] Hi; try lia; cbn; lra).
  assert (E' : exists m s, mrun unsupervised_maximizer (epoch [some_item]) (mk_params [1; 1] uniform uniform) empty_mat = Ok (m, s, [])).
  { eexists _, _. apply (MStepAny.unsupervised_epoch 2 2 (Nat.lt_0_succ 1)); [now left| |discriminate]. constructor; [apply (some_item_good lg)|constructor]. }
  destruct E' as (m' & s' & E'). exists m', s', []. split; [exact E'|].
  apply (C72_climbs lg psi 2 2 0 (Nat.lt_0_succ 1) _ _ _ _ _ (step_unsupervised 2 2 0) [] (mk_params [1; 1] uniform uniform) (mk_params [1; 1] uniform uniform) empty_mat []
    I (or_introl eq_refl) (Forall_nil _) eq_refl [some_item] m' s' []); auto.
  - constructor; [|constructor]. split; [apply (some_item_good lg)|]. split; [exact I|]. apply (some_item_good lg).
  - apply (uniform_stochastic lg).
  - constructor; [|constructor]. intros [|[|n]] Hn; try (cbn in Hn; lia); intros _; (split; [cbn; lra|]);
      intros [|[|i]] Hi; try (cbn in Hi; lia); unfold mget, vget; cbn; (split; [lra|intros A; exfalso; lra]).
Qed.
Example C72_multinomial_case : forall (lg psi : R -> R), let O := Rops lg in
  exists m s e, mrun (multinomial_maximizer 2) (epoch [some_item]) (mk_params [1; 1] uniform uniform) new_stats = Ok (m, s, e) /\
    multinomial_corpus_bound lg psi 2 [some_item] (mk_params [1; 1] uniform uniform) <= multinomial_corpus_bound lg psi 2 [some_item] m.
Proof.
  intros lg psi O. assert (M : mass 2 2 (expected assigned [some_item])) by (intros [|[|i]] Hi; try lia; cbn; lra).
  destruct (C72_multinomial lg psi 2 2 2 2 (Nat.lt_0_succ 1) [] (mk_params [1; 1] uniform uniform) (mk_params [1; 1] uniform uniform) new_stats [] eq_refl eq_refl
    (or_introl eq_refl) (Forall_nil _) eq_refl [some_item]) as (m & s & e & E & B); [|exact M|lra|].
  - constructor; [|constructor]. split; [apply (some_item_good lg)|]. split; [|apply (some_item_good lg)]. exists 0%Z. split; [reflexivity|lia].
  - exists m, s, e. split; [exact E|]. apply (B uniform uniform (uniform_stochastic lg)); [|exact (uniform_stochastic lg)|];
      intros [|[|i]] [|[|c]] Hi Hc _; try lia; unfold mget, vget; cbn; lra.
Qed.

(** ** C73: the correspondence M step is documented to maximise its bound with respect to the topics and the class probabilities.
    It weighs the words of a topic by their share tau in the class; the bound does not: after one iteration of the E step, the topics
    of the M step give a smaller bound than the old ones (which are not optimal either). *)
Theorem C73_refuted : forall (lg psi : R -> R) (mu : R), let O := Rops lg in
  exists cf (d : doc R) (m : params R) v m' s' e',
    proper_input (d_words d) m /\ d_class d = Some 0%Z /\ class_in_range 0 m /\ stochastic 2 2 (p_beta m) /\ stochastic 2 2 (p_eta m) /\
    correspondence_doc_e_step 7 cf mu false d m = Ok (v, None) /\
    mrun (correspondence_maximizer mu) (epoch [(d, v)]) m new_stats = Ok (m', s', e') /\
    correspondence_corpus_bound lg psi mu [(d, v)] m' <
    correspondence_corpus_bound lg psi mu [(d, v)] (mk_params (p_alpha m') (p_beta m) (p_eta m')).
Proof.
  intros lg psi mu O. destruct (share_lowers lg psi (1 / 100) 0 mu) as (v & m' & s' & e' & E1 & E2 & L); [lra|].
  exists (mk_econf 1 (1 / 100) 0), share_doc, share_model, v, m', s', e'. split; [exact (share_input lg)|]. split; [reflexivity|]. split; [exact share_class|].
  split; [apply (share_stochastic lg)|]. split; [apply (share_stochastic lg)|]. auto.
Qed.
(** Proved: the class probabilities do maximise it, whatever the topics are.  Missing: the topics. *)
Theorem C73_classes_partial : forall (lg psi : R -> R) (K V C : nat) (mu : R), let O := Rops lg in (0 < K)%nat ->
  forall h m0 m s e, mrows (p_eta m0) = K -> ncols (p_eta m0) = C -> between_epochs h ->
    Forall (fun x => sized K V x /\ classified C x /\ with_tau V x) (items h) -> mrun (correspondence_maximizer mu) h m0 new_stats = Ok (m, s, e) ->
  forall l, Forall (fun x => sized K V x /\ classified C x /\ with_tau V x /\ nonneg_item K V x) l -> l <> [] ->
    1 < mu \/ (1 <= mu /\ mass K V (expected assigned_tau l)) ->
  exists m' s' e', mrun (correspondence_maximizer mu) (epoch l) m s = Ok (m', s', e') /\ p_alpha m' = p_alpha m /\
    forall b eta, mrows b = K -> ncols b = V -> stochastic K C eta -> allows K V C mu assigned_tau l eta ->
      correspondence_corpus_bound lg psi mu l (mk_params (p_alpha m) b eta) <= correspondence_corpus_bound lg psi mu l (mk_params (p_alpha m) b (p_eta m')).
Proof. exact (fun lg psi K V C mu HK => correspondence_classes lg psi K V C mu HK). Qed.
Example C73_case : forall (lg psi : R -> R), let O := Rops lg in
  exists m s e, mrun (correspondence_maximizer 2) (epoch [some_item]) (mk_params [1; 1] uniform uniform) new_stats = Ok (m, s, e) /\
    correspondence_corpus_bound lg psi 2 [some_item] (mk_params [1; 1] uniform uniform) <= correspondence_corpus_bound lg psi 2 [some_item] (mk_params [1; 1] uniform (p_eta m)).
Proof.
  intros lg psi O.
  destruct (C73_classes_partial lg psi 2 2 2 2 (Nat.lt_0_succ 1) [] (mk_params [1; 1] uniform uniform) (mk_params [1; 1] uniform uniform) new_stats [] eq_refl eq_refl
    (or_introl eq_refl) (Forall_nil _) eq_refl [some_item]) as (m & s & e & E & _ & B); [|discriminate|left; lra|].
  - constructor; [|constructor]. split; [apply (some_item_good lg)|]. split; [exists 0%Z; split; [reflexivity|lia]|]. split; apply (some_item_good lg).
  - exists m, s, e. split; [exact E|]. apply (B uniform uniform eq_refl eq_refl (uniform_stochastic lg)).
    intros [|[|i]] [|[|c]] Hi Hc _; try lia; unfold mget, vget; cbn; lra.
Qed.

Print Assumptions C72_topics.
Print Assumptions C72_climbs.
Print Assumptions C72_multinomial.
Print Assumptions C73_refuted.
Print Assumptions C73_classes_partial.
