(** Property C19: training in exact arithmetic does not depend on the schedule, the number of workers or the shuffling. *)
Require Import Reals ZArith List Bool Arith Lia Lra Permutation.
Require Import Verif.Base Verif.Scalar Verif.Mat Verif.UtilsModel Verif.BuilderModel Verif.EStepModel Verif.EStepSpec Verif.EStepTheorems Verif.OptModel Verif.MStepModel Verif.MStepSpec
  Verif.LdaModel Verif.InferTheorems Verif.TrainSpec Verif.TrainSizes Verif.TrainPerm Verif.TrainProofs Verif.TrainFit.
Import ListNotations.
Local Open Scope nat_scope.

(** C19.  Every batch M step ([batch_step], MStepSpec.v) with every E step, n epochs, from a new M step object: if one
    execution succeeds, every other execution, with any number of workers, any schedules, shuffles and draws,
    succeeds and ends with the same model.  ([fit_call W D n st p st' p'], LdaModel.v: some execution of n epochs of fit with W workers
    leads from M step object [st] and model and epoch count [p] to [st'] and [p'].) *)
Theorem C19_fit_independent lg K V C St M new a P Q k D W W' n m ep s p st' p' : let O := Rops lg in
  0 < K -> batch_step K V C St M new a P Q -> D <> [] -> delivers K V k Q D ->
  mrows (p_beta m) = K -> ncols (p_beta m) = V -> P m ->
  fit_call 7 M k W D n (Ok new) (m, ep) (Ok s) p ->
  fit_call 7 M k W' D n (Ok new) (m, ep) st' p' ->
  p' = p /\ exists t, st' = Ok t.
Proof.
  intros O HK B HD HQ H1 H2 HP F1 F2.
  assert (T0 : trained_by K V St M new Q m m new) by (exists [], []; split; [now left|split; [constructor|reflexivity]]).
  refine (fit_independent lg K V C HK St M new a P Q B k D HD _ m HP W W' n m ep new new s p st' p' _ T0 T0 F1 F2).
  - intros epochs m1 d v Hd [S1 S2] E. exact (HQ epochs m1 d v Hd S1 S2 E).
  - split; assumption.
Qed.
(** The demands are met: by all documents with the unsupervised M step; by labelled documents with the (semi-) supervised
    ones; by labelled documents that are not too long with sLDA's; by documents of the C classes with the multinomial one; by the same
    with the correspondence one, if the E step is the correspondence E step. *)
Theorem C19_demands lg K V C (D : list (doc R)) : let O := Rops lg in
  (forall k, delivers K V k (fun _ => True) D) /\
  (forall k, (forall d, In d D -> d_class d <> None) -> delivers K V k has_class D) /\
  (forall k, (forall d, In d D -> d_class d <> None /\ (Zsum (d_words d) * Zsum (d_words d) < 2 ^ 31)%Z) -> delivers K V k (fun x => has_class x /\ short x) D) /\
  (forall k, (forall d, In d D -> exists c, d_class d = Some c /\ (0 <= c < Z.of_nat C)%Z) -> delivers K V k (classified C) D) /\
  (forall cf mu, (forall d, In d D -> exists c, d_class d = Some c /\ (0 <= c < Z.of_nat C)%Z) ->
     delivers K V (Correspondence cf mu) (fun x => classified C x /\ with_tau V x) D).
Proof.
  intros O. split; [|split; [|split; [|split]]].
  - intros k epochs m d v _ _ _ _. exact I.
  - intros k H epochs m d v Hd _ _ _. exact (H d Hd).
  - intros k H epochs m d v Hd _ _ _. exact (H d Hd).
  - intros k H epochs m d v Hd _ _ _. exact (H d Hd).
  - intros cf mu H epochs m d v Hd _ H2 E. split; [exact (H d Hd)|]. unfold with_tau. cbn [snd]. rewrite <- H2. exact (posterior_tau 7 cf mu epochs d m v E).
Qed.
(** With at least one worker, for any scalar type, executions exist from every state. *)
Theorem C19_returns {T} {O : ops T} K V C St (M : maximizer T St) new a P Q k W D n st p :
  batch_step K V C St M new a P Q -> 0 < W -> exists st' p', fit_call 7 M k W D n st p st' p'.
Proof. intros B HW. exact (fit_returns 7 K V C St M new a P Q k W D n B HW st p). Qed.
(** The classic E step with the unsupervised M step: for documents and models of the right form no execution fails, and the model keeps its form. *)
Theorem C19_unsupervised lg cf D W n m ep st p : let O := Rops lg in
  D <> [] -> Forall (fun d => proper_input (d_words d) m) D ->
  fit_call 7 unsupervised_maximizer (Classic cf) W D n (Ok empty_mat) (m, ep) st p ->
  (exists s, st = Ok s) /\ snd p = ep + n /\ p_alpha (fst p) = p_alpha m /\ p_eta (fst p) = p_eta m /\
  Forall (fun d => proper_input (d_words d) (fst p)) D.
Proof.
  intros O HD HP F. destruct (classic_fit lg cf D W n HD m ep empty_mat st p HP (or_introl eq_refl) F) as (A & B & A1 & A2 & _ & _ & A3). tauto.
Qed.

(** Two documents, two topics: three epochs with one and with five workers both succeed. *)
Definition two_docs : list (doc R) := [mk_doc [2; 0]%Z None 2 []; mk_doc [0; 3]%Z None 2 []].
Example C19_case lg cf : let O := Rops lg in
  exists s s' p p', fit_call 7 unsupervised_maximizer (Classic cf) 1 two_docs 3 (Ok empty_mat) (ok_model, 0) (Ok s) p /\
    fit_call 7 unsupervised_maximizer (Classic cf) 5 two_docs 3 (Ok empty_mat) (ok_model, 0) (Ok s') p' /\ p = p' /\ snd p = 3.
Proof.
  intros O. assert (HP : Forall (fun d => proper_input (d_words d) ok_model) two_docs).
  { destruct (C49_case lg) as (H & _). pose proof (Forall_inv H). pose proof (Forall_inv (Forall_inv_tail H)). constructor; [assumption|]. constructor; [assumption|]. constructor. }
  assert (Hn : two_docs <> []) by discriminate.
  destruct (C19_returns 2 2 0 _ _ _ _ _ _ (Classic cf) 1 two_docs 3 (Ok empty_mat) (ok_model, 0) (step_unsupervised 2 2 0)) as (st & p & F); [lia|].
  destruct (C19_returns 2 2 0 _ _ _ _ _ _ (Classic cf) 5 two_docs 3 (Ok empty_mat) (ok_model, 0) (step_unsupervised 2 2 0)) as (st' & p' & F'); [lia|].
  destruct (C19_unsupervised lg cf two_docs 1 3 ok_model 0 st p Hn HP F) as ((s & ->) & Hp & _).
  destruct (C19_fit_independent lg 2 2 0 (mat R) unsupervised_maximizer empty_mat assigned (fun _ => True) (fun _ => True) (Classic cf) two_docs 1 5 3 ok_model 0 s p st' p'
    (Nat.lt_0_succ 1) (step_unsupervised 2 2 0) Hn (proj1 (C19_demands lg 2 2 0 two_docs) (Classic cf)) eq_refl eq_refl I F F') as (-> & t & ->).
  exists s, t, p, p. tauto.
Qed.
Print Assumptions C19_fit_independent. Print Assumptions C19_demands. Print Assumptions C19_returns. Print Assumptions C19_unsupervised.
