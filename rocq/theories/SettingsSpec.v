(** Vocabulary of the property about settings: what the history of calls (most recent call first) asks for, read off without running
    the builder, with the default values that LDABuilder.hpp documents. *)
Require Import ZArith List Arith.
Require Import Verif.Base Verif.Scalar Verif.Mat Verif.BuilderModel Verif.EStepModel Verif.OptModel Verif.MStepModel Verif.LdaModel Verif.SettingsModel.
Import ListNotations.

Section Settings.
  Context {T : Type} {O : ops T}.
  Variables dfuel fuel : nat.
  Implicit Types h : list (scall T).

  Fixpoint iterations_asked h : nat :=
    match h with [] => 20 | Iterations n :: _ => n | _ :: r => iterations_asked r end.
  Fixpoint workers_asked (hw : nat) h : nat :=
    match h with [] => hw | Workers n :: _ => n | _ :: r => workers_asked hw r end.

  (** What an E step does with a document, in a given epoch and with a given draw. *)
  Definition e_behaviour := nat -> bool -> doc T -> params T -> outcome (vparams T * option T).
  Definition classic_e (iterations : nat) (tolerance likelihood : T) : e_behaviour := fun _ =>
    unsupervised_doc_e_step dfuel (mk_econf iterations tolerance likelihood).
  Definition fast_e (iterations : nat) (tolerance C likelihood : T) : e_behaviour := fun _ =>
    fast_supervised_doc_e_step dfuel (mk_econf iterations tolerance likelihood) C.
  (** The E step a call asks for, if it asks for one. *)
  Definition e_of (x : scall T) : option e_behaviour :=
    match x with
    | SetClassicE i t l => Some (classic_e (or_ i 10) (or_ t (div one (ofZ 100))) (or_ l one))
    | SetSupervisedE i t f l => Some (fun _ =>
        supervised_doc_e_step dfuel (mk_econf (or_ i 10) (or_ t (div one (ofZ 100))) (or_ l one)) (or_ f 10))
    | SetFastE i t C l => Some (fast_e (or_ i 10) (or_ t (div one (ofZ 100))) (or_ C one) (or_ l one))
    | SetSemiE s u => Some (fun epochs emit => semi_supervised_doc_e_step
        (match s with Some s => doc_e_step dfuel s epochs emit | None => fast_e 10 (div one (ofZ 100)) one one epochs emit end)
        (match u with Some u => doc_e_step dfuel u epochs emit | None => classic_e 10 (div one (ofZ 100)) one epochs emit end))
    | SetMultinomialE i t mu w l => Some (fun _ =>
        multinomial_doc_e_step dfuel (mk_econf (or_ i 10) (or_ t (div one (ofZ 100))) (or_ l one)) (or_ mu (ofZ 2)) (or_ w one))
    | SetCorrespondenceE i t mu l => Some (fun _ =>
        correspondence_doc_e_step dfuel (mk_econf (or_ i 10) (or_ t (div one (ofZ 100))) (or_ l one)) (or_ mu (ofZ 2)))
    | SetAnyE e => Some (doc_e_step dfuel e)
    | _ => None
    end.
  Fixpoint e_asked h : e_behaviour :=
    match h with
    | [] => classic_e 10 (div one (ofZ 100)) one
    | x :: r => match e_of x with Some b => b | None => e_asked r end
    end.

  (** A training: the E step, the number of workers, the documents, the number of epochs, the model before and after. *)
  Definition training := e_step T -> nat -> list (doc T) -> nat -> params T -> outcome (params T) -> Prop.
  (** The weights of the classes *)
  Definition weights (c : classes T) : list T := match c with Number n => repeat one n | Vector w | Matrix w => w end.
  (** The training that an M step object gives *)
  Definition m_meant (m : m_step T) : training :=
    match m with
    | ClassicM => fit_with dfuel unsupervised_maximizer empty_mat
    | SldaM i t L => fit_with dfuel (sup_maximizer fuel i t L) new_sup
    | FastM i t L => fit_with dfuel (fast_maximizer fuel i t L) new_fast
    | OnlineM cf => fit_with dfuel (online_maximizer cf) new_online
    | SemiM i t L => fit_with dfuel (semi_maximizer fuel i t L) new_fast
    | MultinomialM mu => fit_with dfuel (multinomial_maximizer mu) new_stats
    | CorrespondenceM mu => fit_with dfuel (correspondence_maximizer mu) new_stats
    end.
  (** The M step a call asks for, if it asks for one. *)
  Definition m_of (x : scall T) : option training :=
    match x with
    | SetClassicM => Some (fit_with dfuel unsupervised_maximizer empty_mat)
    | SetSupervisedM i t L => Some
        (fit_with dfuel (sup_maximizer fuel (or_ i 10) (or_ t (div one (ofZ 100))) (or_ L (div one (ofZ 100)))) new_sup)
    | SetFastM i t L => Some
        (fit_with dfuel (fast_maximizer fuel (or_ i 10) (or_ t (div one (ofZ 100))) (or_ L (div one (ofZ 100)))) new_fast)
    | SetOnlineM c L b m r w => Some
        (fit_with dfuel (online_maximizer {| o_class_weights := weights c; o_L := or_ L (div one (ofZ 100)); o_minibatch := or_ b 128;
           o_momentum := or_ m (div (ofZ 9) (ofZ 10)); o_rate := or_ r (div one (ofZ 100)); o_beta_weight := or_ w (div (ofZ 9) (ofZ 10)) |})
           new_online)
    | SetSemiM i t L => Some
        (fit_with dfuel (semi_maximizer fuel (or_ i 10) (or_ t (div one (ofZ 100))) (or_ L (div one (ofZ 100)))) new_fast)
    | SetMultinomialM mu => Some (fit_with dfuel (multinomial_maximizer (or_ mu (ofZ 2))) new_stats)
    | SetCorrespondenceM mu => Some (fit_with dfuel (correspondence_maximizer (or_ mu (ofZ 2))) new_stats)
    | SetAnyM m => Some (m_meant m)
    | _ => None
    end.
  Fixpoint m_asked h : training :=
    match h with
    | [] => fit_with dfuel unsupervised_maximizer empty_mat
    | x :: r => match m_of x with Some b => b | None => m_asked r end
    end.

  (** The calls without the arguments of the steps (BuilderModel.v), to which the properties C20 to C22 apply. *)
  Definition e_kind (e : e_step T) : estep :=
    match e with
    | Classic _ => EClassic | Slda _ _ => ESupervised | FastSupervised _ _ _ => EFastSupervised
    | SemiSupervised _ _ => ESemiSupervised | Multinomial _ _ _ => EMultinomial | Correspondence _ _ => ECorrespondence
    end.
  Definition m_kind (m : m_step T) : mstep :=
    match m with
    | ClassicM => MClassic | SldaM _ _ _ => MSupervised | FastM _ _ _ => MFastSupervised | OnlineM _ => MFastOnline
    | SemiM _ _ _ => MSemiSupervised | MultinomialM _ => MMultinomial | CorrespondenceM _ => MCorrespondence
    end.
  Definition plain (x : scall T) : bcall T :=
    match x with
    | Iterations n => SetIterations n | Workers n => SetWorkers n
    | SetClassicE _ _ _ => SetEStep EClassic | SetSupervisedE _ _ _ _ => SetEStep ESupervised | SetFastE _ _ _ _ => SetEStep EFastSupervised
    | SetSemiE _ _ => SetEStep ESemiSupervised | SetMultinomialE _ _ _ _ _ => SetEStep EMultinomial
    | SetCorrespondenceE _ _ _ _ => SetEStep ECorrespondence | SetAnyE e => SetE (e_kind e)
    | SetClassicM => SetMStep MClassic | SetSupervisedM _ _ _ => SetMStep MSupervised | SetFastM _ _ _ => SetMStep MFastSupervised
    | SetOnlineM _ _ _ _ _ _ => SetMStep MFastOnline | SetSemiM _ _ _ => SetMStep MSemiSupervised
    | SetMultinomialM _ => SetMStep MMultinomial | SetCorrespondenceM _ => SetMStep MCorrespondence | SetAnyM m => SetM (m_kind m)
    | Seeded X k N draw => TopicsSeeded X k N draw | Random w k draw => TopicsRandom w k draw | FromModel m => TopicsFromModel m
    | Zeros n => EtaZeros n | Uniform n => EtaUniform n | EtaOf m => EtaFromModel m
    end.
End Settings.
