(** Whether a likelihood is reported, and that it makes no difference to the posterior. *)
Require Import Reals ZArith List Bool.
Require Import Verif.Base Verif.Scalar Verif.Mat Verif.UtilsModel Verif.BuilderModel Verif.EStepModel Verif.PrngModel.
Import ListNotations.

Section Any.
  Context {T : Type} {O : ops T}.
  (** [step emit] reports iff [emit], and its posterior is the one of [step false]. *)
  Definition reports_if (step : bool -> outcome (vparams T * option T)) : Prop :=
    forall emit v ev, step emit = Ok (v, ev) -> (if emit then exists l, ev = Some l else ev = None) /\ step false = Ok (v, None).
  Lemma report_tail (emit : bool) (l : outcome T) (w v : vparams T) ev :
    (let* e := report emit l in Ok (w, e)) = Ok (v, ev) -> (if emit then exists l, ev = Some l else ev = None) /\ Ok (w, None) = Ok (v, @None T).
  Proof.
    unfold report. destruct emit; cbn [bind].
    - destruct l; cbn [bind]; try discriminate. intros E. split; [exists a; congruence|congruence].
    - intros E. split; congruence.
  Qed.
  Lemma unsupervised_reports dfuel cf (d : doc T) m : reports_if (fun emit => unsupervised_doc_e_step dfuel cf emit d m).
  Proof.
    intros emit v ev. unfold unsupervised_doc_e_step. destruct (int_sum _); cbn [bind]; try discriminate. destruct (negb _); try discriminate.
    destruct (em_loop _ _ _ _ _ _) as [[g p]| |]; cbn [bind]; try discriminate. apply report_tail.
  Qed.
  Lemma fast_reports dfuel cf w (d : doc T) m : reports_if (fun emit => fast_supervised_doc_e_step dfuel cf w emit d m).
  Proof.
    intros emit v ev. unfold fast_supervised_doc_e_step. destruct (int_sum _); cbn [bind]; try discriminate. destruct (d_class d); try discriminate. destruct (negb _); try discriminate.
    destruct (em_loop _ _ _ _ _ _) as [[g p]| |]; cbn [bind]; try discriminate. apply report_tail.
  Qed.
  Lemma multinomial_reports dfuel cf mu w (d : doc T) m : reports_if (fun emit => multinomial_doc_e_step dfuel cf mu w emit d m).
  Proof.
    intros emit v ev. unfold multinomial_doc_e_step. destruct (int_sum _); cbn [bind]; try discriminate. destruct (d_class d); try discriminate. destruct (negb _); try discriminate.
    destruct (em_loop _ _ _ _ _ _) as [[g p]| |]; cbn [bind]; try discriminate. apply report_tail.
  Qed.
  Lemma correspondence_reports dfuel cf mu (d : doc T) m : reports_if (fun emit => correspondence_doc_e_step dfuel cf mu emit d m).
  Proof.
    intros emit v ev. unfold correspondence_doc_e_step. destruct (int_sum _); cbn [bind]; try discriminate. destruct (d_class d); try discriminate. destruct (negb _); try discriminate.
    destruct (em_loop _ _ _ _ _ _) as [[[g p] t]| |]; cbn [bind]; try discriminate. apply report_tail.
  Qed.
  Lemma slda_reports dfuel cf fpi (d : doc T) m : reports_if (fun emit => supervised_doc_e_step dfuel cf fpi emit d m).
  Proof.
    intros emit v ev. unfold supervised_doc_e_step. destruct (int_sum _); cbn [bind]; try discriminate. destruct (d_class d); try discriminate. destruct (negb _); try discriminate.
    destruct (em_loop _ _ _ _ _ _) as [[[g p] h]| |]; cbn [bind]; try discriminate. apply report_tail.
  Qed.
End Any.

Section Reals.
  Variable lg : R -> R.
  Local Hint Extern 0 (ops _) => exact (Rops lg) : typeclass_instances.
  Local Open Scope R_scope.
  Lemma coin_sides (p u : R) : 0 <= u < 1 -> (p = 0 -> coin p u = false) /\ (p = 1 -> coin p u = true).
  Proof.
    intros [U0 U1]. unfold coin. cbn [ltb Rops]. split; intros ->; destruct (Rlt_dec _ _) as [H|H]; try reflexivity; [|contradiction].
    now apply Rlt_not_le in H.
  Qed.
  Definition sampled (p : R) (step : bool -> outcome (vparams R * option R)) : Prop :=
    forall u v ev, 0 <= u < 1 -> step (coin p u) = Ok (v, ev) ->
      (p = 0 -> ev = None) /\ (p = 1 -> exists l, ev = Some l) /\ step false = Ok (v, None).
  Lemma reports_sampled p step : reports_if step -> sampled p step.
  Proof.
    intros H u v ev U E. destruct (H _ _ _ E) as [A B]. destruct (coin_sides p u U) as [C0 C1].
    split; [intros P; rewrite (C0 P) in A; exact A|]. split; [intros P; rewrite (C1 P) in A; exact A|exact B].
  Qed.
End Reals.
