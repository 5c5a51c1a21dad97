(** Properties C59 and C60: training in several calls and in several sessions. *)
Require Import Reals ZArith List Bool Arith Lia Lra Permutation.
Require Import Verif.Base Verif.Scalar Verif.Mat Verif.UtilsModel Verif.BuilderModel Verif.EStepModel Verif.EStepSpec Verif.EStepTheorems Verif.OptModel Verif.MStepModel Verif.MStepSpec
  Verif.LdaModel Verif.InferTheorems Verif.TrainSpec Verif.TrainProofs Verif.TrainTheorems Verif.ResumeSpec Verif.ResumeProofs.
Import ListNotations.
Local Open Scope nat_scope.

(** C59.  In exact arithmetic, with every batch M step and every E step: calls of fit and partial_fit on one object, in any sequence, if they succeed,
    end with the model that one call of fit with the total number of epochs ends with, whatever the workers and schedules, and that call succeeds. *)
Theorem C59_calls lg K V C St M new a P Q k D W W' ns m ep s p st' p' : let O := Rops lg in
  0 < K -> batch_step K V C St M new a P Q -> D <> [] -> delivers K V k Q D ->
  mrows (p_beta m) = K -> ncols (p_beta m) = V -> P m ->
  calls 7 M k W D ns (Ok new) (m, ep) (Ok s) p ->
  fit_call 7 M k W' D (list_sum ns) (Ok new) (m, ep) st' p' ->
  p' = p /\ exists t, st' = Ok t.
Proof.
  intros O HK B HD HQ H1 H2 HP F1 F2. apply calls_fit in F1.
  exact (C19_fit_independent lg K V C St M new a P Q k D W W' (list_sum ns) m ep s p st' p' HK B HD HQ H1 H2 HP F1 F2).
Qed.
(** For every scalar type and M step, also the online one: the possible results are the same. *)
Theorem C59_any {T} {O : ops T} dfuel {St} (M : maximizer T St) k W D ns st p st' p' :
  calls dfuel M k W D ns st p st' p' <-> fit_call dfuel M k W D (list_sum ns) st p st' p'.
Proof. exact (calls_fit dfuel M k W D ns st p st' p'). Qed.

(** C60.  In exact arithmetic, with every batch M step and every E step with constant weight: training interrupted after any epochs and continued from the
    model by new processes, with any numbers of workers, succeeds if and only if uninterrupted training does, and ends with the same model.
    ([sessions D l m r], ResumeSpec.v: sessions with the workers and epochs in [l] from model [m] can end with [r].) *)
Theorem C60_resume lg K V C St M new a P Q k D W l m st p r : let O := Rops lg in
  0 < K -> batch_step K V C St M new a P Q -> D <> [] -> delivers K V k Q D -> constant_weight k ->
  mrows (p_beta m) = K -> ncols (p_beta m) = V -> P m ->
  fit_call 7 M k W D (list_sum (map snd l)) (Ok new) (m, 0) st p ->
  sessions 7 M k new D l m r ->
  (forall s, st = Ok s -> r = Ok (fst p)) /\ (forall m', r = Ok m' -> fst p = m' /\ exists s, st = Ok s).
Proof.
  intros O HK B HD HQ Hk H1 H2 HP F S.
  assert (T0 : trained_by K V St M new Q m m new) by (exists [], []; split; [now left|split; [constructor|reflexivity]]).
  refine (sessions_same lg K V C HK St M new a P Q B k D HD _ Hk m l HP m r new 0 W st p (conj H1 H2) HP T0 F S).
  intros epochs m1 d v Hd [S1 S2] E. exact (HQ epochs m1 d v Hd S1 S2 E).
Qed.
(** An exponential weight starts again: each session's first epoch has weight 1, as the first of all, and so on. *)
Theorem C60_exponential lg cf w n n' emit d m : let O := Rops lg in
  doc_e_step 7 (FastSupervised cf true w) n emit d m = fast_supervised_doc_e_step 7 cf (w ^ n)%R emit d m /\
  ((0 < w < 1)%R -> n < n' -> (w ^ n' < w ^ n)%R).
Proof.
  intros O. split.
  - cbn [doc_e_step]. unfold get_weight. f_equal. clear. induction n as [|n IH]; [reflexivity|]. change (Nat.iter (S n) (fun x => x * w) 1 = w * w ^ n)%R. rewrite <- IH. cbn [Nat.iter]. apply Rmult_comm.
  - intros Hw Hn. replace n' with (n + (n' - n)) by lia. rewrite pow_add. rewrite <- (Rmult_1_r (w ^ n)) at 2. apply Rmult_lt_compat_l.
    + apply pow_lt. tauto.
    + apply pow_lt_1_compat; [lra|lia].
Qed.

(** Two documents: three epochs in one session and in three with different numbers of workers. *)
Example C60_case lg cf : let O := Rops lg in
  exists s p r, fit_call 7 unsupervised_maximizer (Classic cf) 2 two_docs 3 (Ok empty_mat) (ok_model, 0) (Ok s) p /\
    sessions 7 unsupervised_maximizer (Classic cf) empty_mat two_docs [(1, 2); (4, 1)] ok_model (Ok r) /\ r = fst p.
Proof.
  intros O. assert (HP : Forall (fun d => proper_input (d_words d) ok_model) two_docs).
  { destruct (C49_case lg) as (H & _). pose proof (Forall_inv H). pose proof (Forall_inv (Forall_inv_tail H)). constructor; [assumption|]. constructor; [assumption|]. constructor. }
  assert (Hn : two_docs <> []) by discriminate.
  pose proof (step_unsupervised 2 2 0) as B.
  destruct (C19_returns 2 2 0 _ _ _ _ _ _ (Classic cf) 2 two_docs 3 (Ok empty_mat) (ok_model, 0) B) as (st & p & F); [lia|].
  destruct (C19_unsupervised lg cf two_docs 2 3 ok_model 0 st p Hn HP F) as ((s & ->) & _).
  destruct (C19_returns 2 2 0 _ _ _ _ _ _ (Classic cf) 1 two_docs 2 (Ok empty_mat) (ok_model, 0) B) as (st1 & p1 & F1); [lia|].
  destruct (C19_unsupervised lg cf two_docs 1 2 ok_model 0 st1 p1 Hn HP F1) as ((s1 & ->) & _ & _ & _ & HP1).
  destruct (C19_returns 2 2 0 _ _ _ _ _ _ (Classic cf) 4 two_docs 1 (Ok empty_mat) (fst p1, 0) B) as (st2 & p2 & F2); [lia|].
  destruct (C19_unsupervised lg cf two_docs 4 1 (fst p1) 0 st2 p2 Hn HP1 F2) as ((s2 & ->) & _).
  assert (S : sessions 7 unsupervised_maximizer (Classic cf) empty_mat two_docs [(1, 2); (4, 1)] ok_model (Ok (fst p2))) by (econstructor; [exact F1|econstructor; [exact F2|constructor]]).
  exists s, p, (fst p2). split; [exact F|]. split; [exact S|].
  destruct (C60_resume lg 2 2 0 (mat R) unsupervised_maximizer empty_mat assigned (fun _ => True) (fun _ => True) (Classic cf) two_docs 2 [(1, 2); (4, 1)] ok_model (Ok s) p (Ok (fst p2))
    (Nat.lt_0_succ 1) B Hn (proj1 (C19_demands lg 2 2 0 two_docs) (Classic cf)) I eq_refl eq_refl I F S) as (_ & H). destruct (H _ eq_refl) as (<- & _). reflexivity.
Qed.
Print Assumptions C59_calls. Print Assumptions C59_any. Print Assumptions C60_resume. Print Assumptions C60_exponential.
