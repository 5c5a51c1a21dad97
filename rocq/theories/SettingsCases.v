(** A history of calls for the property about settings. *)
Require Import Reals ZArith List.
Require Import Verif.Base Verif.Scalar Verif.Mat Verif.BuilderModel Verif.EStepModel Verif.MStepModel Verif.LdaModel Verif.SettingsModel Verif.SettingsProofs.
Import ListNotations.

(** A first choice of steps, the topics, the steps that count, one argument left to its default value in each. *)
Definition choice (w : list R) : list (scall R) :=
  [SetClassicE (Some 3) None None; SetSupervisedM None None (Some 5%R); Random 2 2 (fun k v => INR (S (k + v)));
   Iterations 7; SetFastE (Some 30) (Some 4%R) (Some 9%R) None; Zeros 3;
   SetOnlineM (Vector w) (Some 6%R) (Some 2) (Some (1 / 2)%R) None (Some (1 / 4)%R); Workers 5].
Definition choice_model (lg : R -> R) : params R :=
  let O := Rops lg in
  mk_params [inverse 2; inverse 2] (topics_random 2 2 (fun k v => INR (S (k + v))) empty_params).(p_beta) (mk_mat 2 [[0; 0]; [0; 0]; [0; 0]])%R.

Lemma choice_case (lg : R -> R) (w : list R) : let O := Rops lg in
  exists o, built 8 (choice w) = Ok o /\ ob_params o = choice_model lg /\
    (forall epochs emit d m, doc_e_step 7 (ob_e o) epochs emit d m = fast_supervised_doc_e_step 7 (mk_econf 30 4%R 1%R) 9%R emit d m) /\
    (forall docs r, object_fit 7 50 o docs r <->
       fit_with 7 (online_maximizer (mk_oconf w 6%R 2 (1 / 2)%R (1 / 100)%R (1 / 4)%R)) new_online (ob_e o) 5 docs 7 (choice_model lg) r).
Proof.
  intros O. eexists. split; [reflexivity|]. split; [reflexivity|]. split; [reflexivity|]. intros docs r.
  unfold object_fit. cbn [ob_m ob_e ob_workers ob_iterations ob_params]. cbn -[fit_with vtab]. rewrite (vtab_copy (O := O) w). reflexivity.
Qed.
