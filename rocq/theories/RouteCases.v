(** Histories for the property about who hears the events of a training. *)
Require Import List Arith.
Require Import Verif.RouteModel Verif.RouteSpec Verif.RouteProofs.
Import ListNotations.

(** One builder, two LDA objects; listener 7 of the first, 8 of the second *)
Definition two_objects : list raction := [NewBuilder; Convert 0; Convert 0; Listen 0 7; Listen 1 8].
(** A semi-supervised E step with one step for both parts, and an LDA object with it; listener 7 *)
Definition one_for_both : list raction := [NewStep; NewSemi (Some 0) (Some 0); NewBuilder; UseE 0 1; Convert 0; Listen 0 7].
(** A nested semi-supervised E step in one LDA object, two listeners, one of them added twice; another LDA object *)
Definition nested : list raction :=
  [NewBuilder; NewSemi None None; NewStep; NewSemi (Some 4) (Some 5); UseE 0 6; Convert 0; NewBuilder; Listen 0 7; Convert 1; Listen 1 8;
   Listen 0 9; Listen 0 7].

Lemma nested_case : exists w, history nested = Some w /\ unshared w /\ length (r_ldas w) = 2 /\
  (exists t, works w true 6 t /\ t = 2) /\ (exists t, works w false 6 t /\ t = 5) /\
  expectation_event w 0 true [7; 9; 7] /\ expectation_event w 1 true [8].
Proof.
  eexists. split; [reflexivity|].
  match goal with |- unshared ?w /\ _ => set (w0 := w) end.
  assert (E : history nested = Some w0) by reflexivity.
  assert (U : unshared w0) by (unfold unshared; cbn; repeat constructor; cbn; intuition discriminate).
  split; [exact U|]. split; [reflexivity|]. split.
  { exists 2. split; [|reflexivity]. eapply works_part; [reflexivity|reflexivity|]. eapply works_part; [reflexivity|reflexivity|].
    eapply works_itself; reflexivity. }
  split.
  { exists 5. split; [|reflexivity]. eapply works_part; [reflexivity|reflexivity|]. eapply works_itself; reflexivity. }
  split.
  - apply (proj1 (events_heard nested w0 0 _ E U eq_refl)). reflexivity.
  - apply (proj1 (events_heard nested w0 1 _ E U eq_refl)). reflexivity.
Qed.

Lemma two_objects_case : exists w, history two_objects = Some w /\
  (forall labelled r, expectation_event w 0 labelled r <-> r = [8]) /\ (forall r, maximization_event w 0 r <-> r = [8]) /\
  (forall r, epoch_event w 0 r <-> r = [7]).
Proof.
  eexists. split; [reflexivity|].
  match goal with |- (forall _ _, expectation_event ?w _ _ _ <-> _) /\ _ => set (w0 := w) end.
  assert (R : delivered w0 (OfLda 1) [8]) by (eapply dispatch; [reflexivity|apply (heard_users w0 [8])]).
  assert (R0 : delivered w0 (OfLda 0) [7]) by (eapply dispatch; [reflexivity|apply (heard_users w0 [7])]).
  assert (W : forall labelled, works w0 labelled 0 0) by (intros; eapply works_itself; reflexivity).
  split; [|split].
  - intros labelled r. split.
    + intros (o & t & d & H & W' & D & R'). injection H as <-. rewrite <- (works_fun _ _ _ _ (W labelled) _ W') in D. injection D as <-.
      exact (delivered_fun _ _ _ R' _ R).
    + intros ->. exists (mk_rlda [User 7] 0 1), 0, (OfLda 1). auto.
  - intros r. split.
    + intros (o & d & H & D & R'). injection H as <-. injection D as <-. exact (delivered_fun _ _ _ R' _ R).
    + intros ->. exists (mk_rlda [User 7] 0 1), (OfLda 1). auto.
  - intros r. split; [intros R'; exact (delivered_fun _ _ _ R' _ R0)|intros ->; exact R0].
Qed.

Lemma one_for_both_case : exists w, history one_for_both = Some w /\
  (forall labelled r, expectation_event w 0 labelled r <-> r = [7; 7]).
Proof.
  eexists. split; [reflexivity|].
  match goal with |- forall _ _, expectation_event ?w _ _ _ <-> _ => set (w0 := w) end.
  assert (R : delivered w0 (OfLda 0) [7]) by (eapply dispatch; [reflexivity|apply (heard_users w0 [7])]).
  assert (R2 : delivered w0 (OfStep 0) [7; 7]).
  { eapply dispatch; [reflexivity|]. apply (heard_again w0 1 (OfLda 0) [Forward 1] [7] [7]); [reflexivity|exact R|].
    apply (heard_again w0 1 (OfLda 0) [] [7] []); [reflexivity|exact R|constructor]. }
  assert (W : forall labelled, works w0 labelled 1 0).
  { intros labelled. eapply works_part; [reflexivity|reflexivity|]. destruct labelled; eapply works_itself; reflexivity. }
  intros labelled r. split.
  - intros (o & t & d & H & W' & D & R'). injection H as <-. rewrite <- (works_fun _ _ _ _ (W labelled) _ W') in D. injection D as <-.
    exact (delivered_fun _ _ _ R' _ R2).
  - intros ->. exists (mk_rlda [User 7] 1 3), 0, (OfStep 0). auto.
Qed.
