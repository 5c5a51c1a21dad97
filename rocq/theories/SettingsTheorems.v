(** C88: the settings of a builder take effect. *)
Require Import Reals ZArith List.
Require Import Verif.Base Verif.Scalar Verif.Mat Verif.BuilderModel Verif.EStepModel Verif.MStepModel Verif.LdaModel Verif.SettingsModel
  Verif.SettingsSpec Verif.SettingsProofs Verif.SettingsCases.
Import ListNotations.

(** Whatever calls were made on a builder, the object built from it works with what was asked for last: with a document its E step does
    what the last E step setter stands for, with the arguments given there and the documented values for those left out
    ([e_asked], SettingsSpec.v; [epochs]: the epochs finished before, [emit]: whether a likelihood is computed), fit is the training
    of the last M step setter ([m_asked]) with the number of epochs and of workers set last, and so is transform. *)
Theorem C88_settings_partial (T : Type) (O : ops T) (dfuel fuel hw : nat) (h : list (scall T)) (o : object T) : built hw h = Ok o ->
  (forall epochs emit d m, doc_e_step dfuel (ob_e o) epochs emit d m = e_asked dfuel (rev h) epochs emit d m) /\
  (forall docs r, object_fit dfuel fuel o docs r <->
     m_asked dfuel fuel (rev h) (ob_e o) (workers_asked hw (rev h)) docs (iterations_asked (rev h)) (ob_params o) r) /\
  (forall X r, object_transform dfuel o X r <-> transform_call dfuel (ob_e o) 0 (workers_asked hw (rev h)) (ob_params o) X r).
Proof. exact (settings_used dfuel fuel hw h o). Qed.
Print Assumptions C88_settings_partial.

(** The arguments of the steps change nothing about whether an object is built and with which model: the builder does what it does for
    the calls without these arguments, which C20 to C22 are about. *)
Theorem C88_same_model_partial (T : Type) (O : ops T) (hw : nat) (h : list (scall T)) :
  match built hw h with
  | Ok o => exists c, build hw (map plain h) = Ok (c, ob_params o)
  | Throw e => build hw (map plain h) = Throw e
  | UB => build hw (map plain h) = UB
  end.
Proof. exact (built_same hw h). Qed.
Print Assumptions C88_same_model_partial.

(** But not every setting takes effect.  The tolerance of the multinomial E step is not used: whatever is set before and after, with
    two different tolerances either no object is built, or both objects are and start with the same model, train alike and infer
    alike. *)
Theorem C88_tolerance_refuted (T : Type) (O : ops T) (dfuel fuel hw : nat) h iterations (tolerance tolerance' : T) mu eta_weight likelihood h2 :
  let x := built hw (h ++ SetMultinomialE iterations (Some tolerance) mu eta_weight likelihood :: h2) in
  let y := built hw (h ++ SetMultinomialE iterations (Some tolerance') mu eta_weight likelihood :: h2) in
  (exists e, x = Throw e /\ y = Throw e) \/ (x = UB /\ y = UB) \/
  (exists o o', x = Ok o /\ y = Ok o' /\ ob_params o = ob_params o' /\
     (forall docs r, object_fit dfuel fuel o docs r <-> object_fit dfuel fuel o' docs r) /\
     (forall X r, object_transform dfuel o X r <-> object_transform dfuel o' X r)).
Proof. exact (alike_cases dfuel fuel _ _ (tolerance_unused dfuel fuel hw h iterations _ _ mu eta_weight likelihood h2)). Qed.
Print Assumptions C88_tolerance_refuted.

(** And the class weights of the online M step, which are "to account for class imbalance", are not used either, beyond their
    number. *)
Theorem C88_class_weights_refuted (T : Type) (O : ops T) (dfuel fuel hw : nat) h (w w' : list T) penalty minibatch momentum rate beta_weight h2 :
  length w = length w' ->
  let x := built hw (h ++ SetOnlineM (Vector w) penalty minibatch momentum rate beta_weight :: h2) in
  let y := built hw (h ++ SetOnlineM (Vector w') penalty minibatch momentum rate beta_weight :: h2) in
  (exists e, x = Throw e /\ y = Throw e) \/ (x = UB /\ y = UB) \/
  (exists o o', x = Ok o /\ y = Ok o' /\ ob_params o = ob_params o' /\
     (forall docs r, object_fit dfuel fuel o docs r <-> object_fit dfuel fuel o' docs r) /\
     (forall X r, object_transform dfuel o X r <-> object_transform dfuel o' X r)).
Proof. exact (fun E => alike_cases dfuel fuel _ _ (weights_unused dfuel fuel hw h (Vector w) (Vector w') penalty minibatch momentum rate beta_weight h2 E)). Qed.
Print Assumptions C88_class_weights_refuted.

(** A case: an object is built, and the last setters are the ones that count; with other class weights too. *)
Example C88_case (lg : R -> R) (w : list R) : let O := Rops lg in
  exists o, built 8 (choice w) = Ok o /\ ob_params o = choice_model lg /\
    (forall epochs emit d m, doc_e_step 7 (ob_e o) epochs emit d m = fast_supervised_doc_e_step 7 (mk_econf 30 4%R 1%R) 9%R emit d m) /\
    (forall docs r, object_fit 7 50 o docs r <->
       fit_with 7 (online_maximizer (mk_oconf w 6%R 2 (1 / 2)%R (1 / 100)%R (1 / 4)%R)) new_online (ob_e o) 5 docs 7 (choice_model lg) r).
Proof. exact (choice_case lg w). Qed.
