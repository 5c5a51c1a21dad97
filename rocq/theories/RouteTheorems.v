(** C89: the listeners of an LDA object hear its training, and nothing else. *)
Require Import List.
Require Import Verif.RouteModel Verif.RouteSpec Verif.RouteProofs Verif.RouteCases.
Import ListNotations.

(** Whatever builders, steps and LDA objects were made, and whenever: as long as no step object is used twice (by two LDA objects, by
    two semi-supervised E steps, by one of each or as both parts of one), every event that the training of an LDA object causes, by
    its E step for a document with or without label, however deeply the semi-supervised E steps are nested, by its M step, or at the
    end of an epoch, is heard by the listeners added to that object, by each once for every time it was added, in that order, and
    by no other listener. *)
Theorem C89_partial (h : list raction) (w : rworld) (l : nat) (o : rlda) :
  history h = Some w -> unshared w -> nth_error (r_ldas w) l = Some o ->
  (forall labelled heard_by, expectation_event w l labelled heard_by <-> heard_by = added l h) /\
  (forall heard_by, maximization_event w l heard_by <-> heard_by = added l h) /\
  (forall heard_by, epoch_event w l heard_by <-> heard_by = added l h).
Proof. exact (events_heard h w l o). Qed.
Print Assumptions C89_partial.

(** The E step and the M step that cause these events are the ones handed to the builder last. *)
Theorem C89_steps_partial (h : list raction) (b s : nat) (h2 : list raction) (w : rworld) :
  ((forall s', ~ In (UseE b s') h2) -> history (h ++ UseE b s :: h2 ++ [Convert b]) = Some w ->
   exists o, nth_error (r_ldas w) (length (r_ldas w) - 1) = Some o /\ rl_e o = s) /\
  ((forall s', ~ In (UseM b s') h2) -> history (h ++ UseM b s :: h2 ++ [Convert b]) = Some w ->
   exists o, nth_error (r_ldas w) (length (r_ldas w) - 1) = Some o /\ rl_m o = s).
Proof. exact (conj (last_e h b s h2 w) (last_m h b s h2 w)). Qed.
Print Assumptions C89_steps_partial.

(** With a step used twice it is false: of two LDA objects made from one builder, the listeners of the second hear the E steps and the M steps of the
    first, whose own listener hears only that an epoch has ended. *)
Theorem C89_refuted : exists w, history two_objects = Some w /\ added 0 two_objects = [7] /\ added 1 two_objects = [8] /\
  (forall labelled heard_by, expectation_event w 0 labelled heard_by <-> heard_by = [8]) /\
  (forall heard_by, maximization_event w 0 heard_by <-> heard_by = [8]) /\
  (forall heard_by, epoch_event w 0 heard_by <-> heard_by = [7]).
Proof. exact (match two_objects_case with ex_intro _ w (conj E H) => ex_intro _ w (conj E (conj eq_refl (conj eq_refl H))) end). Qed.
Print Assumptions C89_refuted.

(** And with one step as both parts of a semi-supervised E step every event of the E step is heard twice. *)
Theorem C89_twice_refuted : exists w, history one_for_both = Some w /\ added 0 one_for_both = [7] /\
  forall labelled heard_by, expectation_event w 0 labelled heard_by <-> heard_by = [7; 7].
Proof. exact (match one_for_both_case with ex_intro _ w (conj E H) => ex_intro _ w (conj E (conj eq_refl H)) end). Qed.
Print Assumptions C89_twice_refuted.

(** A case: nested semi-supervised E steps (step 6 has parts 4 and 5, step 4 has parts 2 and 3), two LDA objects. *)
Example C89_case : exists w, history nested = Some w /\ unshared w /\ length (r_ldas w) = 2 /\
  (exists t, works w true 6 t /\ t = 2) /\ (exists t, works w false 6 t /\ t = 5) /\
  expectation_event w 0 true [7; 9; 7] /\ expectation_event w 1 true [8].
Proof. exact nested_case. Qed.
