(** Model of the settings of a builder (include/ldaplusplus/LDABuilder.hpp 81-684, src/ldaplusplus/LDABuilder.cpp 32-262): what
    becomes of the arguments of the setters.  BuilderModel.v has the checks, the flags and the model parameters; here the E and M
    steps are objects with their constructor arguments.

    Simplifications: random_state only seeds the draws that decide when a likelihood is computed (LdaModel.v), and is left out.  The
    step objects are values: what sharing one object between builders does is left out.  An argument with a default value is an
    option; in C++ only the last ones can be left out. *)
Require Import ZArith List Bool Arith.
Require Import Verif.Base Verif.Scalar Verif.Mat Verif.UtilsModel Verif.BuilderModel Verif.EStepModel Verif.OptModel Verif.MStepModel
  Verif.PoolModel Verif.LdaModel.
Import ListNotations.

Definition or_ {A} (o : option A) (default : A) : A := match o with Some a => a | None => default end.

(** The M steps LDABuilder offers, with their constructor arguments: UnsupervisedMStep.hpp 48, SupervisedMStep.hpp 53-61,
    FastSupervisedMStep.hpp 58-66, FastOnlineSupervisedMStep.hpp 49-80, SemiSupervisedMStep.hpp 31-40, MultinomialSupervisedMStep.hpp 17,
    CorrespondenceSupervisedMStep.hpp 36. *)
Inductive m_step (T : Type) :=
| ClassicM
| SldaM (limit : nat) (tolerance penalty : T)
| FastM (limit : nat) (tolerance penalty : T)
| OnlineM (cf : oconf T)
| SemiM (limit : nat) (tolerance penalty : T)
| MultinomialM (mu : T)
| CorrespondenceM (mu : T).
Arguments ClassicM {T}. Arguments SldaM {T}. Arguments FastM {T}. Arguments OnlineM {T}. Arguments SemiM {T}.
Arguments MultinomialM {T}. Arguments CorrespondenceM {T}.

(** The classes of the online M step: their number, a std::vector of weights, or an Eigen vector of weights (LDABuilder.hpp
    471, 518, 565). *)
Inductive classes (T : Type) := Number (n : nat) | Vector (w : list T) | Matrix (w : list T).
Arguments Number {T}. Arguments Vector {T}. Arguments Matrix {T}.

(** The calls that configure a builder, with their arguments. *)
Inductive scall (T : Type) :=
| Iterations (n : nat)                                                              (* set_iterations *)
| Workers (n : nat)                                                                 (* set_workers *)
| SetClassicE (iterations : option nat) (tolerance likelihood : option T)           (* set_classic_e_step *)
| SetSupervisedE (iterations : option nat) (tolerance : option T) (fixed_points : option nat) (likelihood : option T)
| SetFastE (iterations : option nat) (tolerance C likelihood : option T)            (* set_fast_supervised_e_step *)
| SetSemiE (supervised unsupervised : option (e_step T))                            (* None: nullptr *)
| SetMultinomialE (iterations : option nat) (tolerance mu eta_weight likelihood : option T)
| SetCorrespondenceE (iterations : option nat) (tolerance mu likelihood : option T)
| SetAnyE (e : e_step T)                                                            (* set_e *)
| SetClassicM
| SetSupervisedM (iterations : option nat) (tolerance penalty : option T)
| SetFastM (iterations : option nat) (tolerance penalty : option T)
| SetOnlineM (c : classes T) (penalty : option T) (minibatch : option nat) (momentum rate beta_weight : option T)
| SetSemiM (iterations : option nat) (tolerance penalty : option T)
| SetMultinomialM (mu : option T)
| SetCorrespondenceM (mu : option T)
| SetAnyM (m : m_step T)                                                            (* set_m *)
| Seeded (X : list (list Z)) (topics N : nat) (draw : nat -> nat -> nat)            (* initialize_topics_seeded *)
| Random (words topics : nat) (draw : nat -> nat -> T)
| FromModel (m : params T)
| Zeros (n : nat)                                                                   (* initialize_eta_zeros *)
| Uniform (n : nat)
| EtaOf (m : params T).
Arguments Iterations {T}. Arguments Workers {T}. Arguments SetClassicE {T}. Arguments SetSupervisedE {T}. Arguments SetFastE {T}.
Arguments SetSemiE {T}. Arguments SetMultinomialE {T}. Arguments SetCorrespondenceE {T}. Arguments SetAnyE {T}. Arguments SetClassicM {T}.
Arguments SetSupervisedM {T}. Arguments SetFastM {T}. Arguments SetOnlineM {T}. Arguments SetSemiM {T}. Arguments SetMultinomialM {T}.
Arguments SetCorrespondenceM {T}. Arguments SetAnyM {T}. Arguments Seeded {T}. Arguments Random {T}. Arguments FromModel {T}.
Arguments Zeros {T}. Arguments Uniform {T}. Arguments EtaOf {T}.

(** LDABuilder.hpp 812-827: the data members, except the model parameters *)
Record settings (T : Type) := mk_settings {
  s_iterations : nat; s_workers : nat; s_e : e_step T; s_m : m_step T; s_e_requires_eta : bool; s_m_requires_eta : bool
}.
Arguments mk_settings {T}. Arguments s_iterations {T}. Arguments s_workers {T}. Arguments s_e {T}. Arguments s_m {T}.
Arguments s_e_requires_eta {T}. Arguments s_m_requires_eta {T}.

(** LDA.hpp, the data members set by the constructor, LDA.cpp 13-27 *)
Record object (T : Type) := mk_object {
  ob_params : params T; ob_e : e_step T; ob_m : m_step T; ob_iterations : nat; ob_workers : nat
}.
Arguments mk_object {T}. Arguments ob_params {T}. Arguments ob_e {T}. Arguments ob_m {T}. Arguments ob_iterations {T}. Arguments ob_workers {T}.

Section Settings.
  Context {T : Type} {O : ops T}.
  Open Scope sc_scope.

  (** The literals 1e-2 (and 0.01), 0.9 and 2 (and 2.) *)
  Definition hundredth : T := one / ofZ 100.
  Definition nine_tenths : T := ofZ 9 / ofZ 10.
  Definition two_ : T := ofZ 2.

  (** LDABuilder.cpp 44-57 with UnsupervisedEStep.cpp 13-23 *)
  Definition get_classic_e_step (iterations : nat) (tolerance likelihood : T) : e_step T :=
    Classic (mk_econf iterations tolerance likelihood).
  (** LDABuilder.cpp 59-74 with SupervisedEStep.cpp 10-22 *)
  Definition get_supervised_e_step (iterations : nat) (tolerance : T) (fixed_points : nat) (likelihood : T) : e_step T :=
    Slda (mk_econf iterations tolerance likelihood) fixed_points.
  (** LDABuilder.cpp 76-92 with FastSupervisedEStep.cpp 11-27: always CWeightType::Constant *)
  Definition get_fast_supervised_e_step (iterations : nat) (tolerance C likelihood : T) : e_step T :=
    FastSupervised (mk_econf iterations tolerance likelihood) false C.
  (** LDABuilder.cpp 94-110 *)
  Definition get_semi_supervised_e_step (supervised unsupervised : option (e_step T)) : e_step T :=
    let supervised := match supervised with None => get_fast_supervised_e_step 10 hundredth one one | Some s => s end in
    let unsupervised := match unsupervised with None => get_classic_e_step 10 hundredth one | Some u => u end in
    SemiSupervised supervised unsupervised.
  (** LDABuilder.cpp 112-129 with MultinomialSupervisedEStep.cpp 10-24 *)
  Definition get_multinomial_supervised_e_step (iterations : nat) (tolerance mu eta_weight likelihood : T) : e_step T :=
    Multinomial (mk_econf iterations tolerance likelihood) mu eta_weight.
  (** LDABuilder.cpp 131-146 with CorrespondenceSupervisedEStep.cpp 10-22 *)
  Definition get_correspondence_supervised_e_step (iterations : nat) (tolerance mu likelihood : T) : e_step T :=
    Correspondence (mk_econf iterations tolerance likelihood) mu.

  (** LDABuilder.cpp 180-237 with FastOnlineSupervisedMStep.cpp 12-45: a number of classes gives each the weight 1; a std::vector is
      copied entry by entry. *)
  Definition get_fast_supervised_online_m_step (c : classes T) (penalty : T) (minibatch : nat) (momentum rate beta_weight : T) : m_step T :=
    let w := match c with Number n => vtab n (fun _ => one) | Vector w => vtab (length w) (vget w) | Matrix w => w end in
    OnlineM (mk_oconf w penalty minibatch momentum rate beta_weight).

  (** LDABuilder.cpp 19-29 with the default arguments of UnsupervisedEStep.hpp 44-49 *)
  Definition new_settings (hw : nat) : settings T :=
    mk_settings 20 hw (Classic (mk_econf 10 hundredth one)) ClassicM false false.

  (** LDABuilder.hpp 355-360 *)
  Definition store_e (e : e_step T) (s : settings T) : settings T :=
    mk_settings (s_iterations s) (s_workers s) e (s_m s) false (s_m_requires_eta s).
  Definition raise_e (s : settings T) : settings T :=
    mk_settings (s_iterations s) (s_workers s) (s_e s) (s_m s) true (s_m_requires_eta s).
  (** LDABuilder.hpp 669-674 *)
  Definition store_m (m : m_step T) (s : settings T) : settings T :=
    mk_settings (s_iterations s) (s_workers s) (s_e s) m (s_e_requires_eta s) false.
  Definition raise_m (s : settings T) : settings T :=
    mk_settings (s_iterations s) (s_workers s) (s_e s) (s_m s) (s_e_requires_eta s) true.

  (** One call that configures the builder: LDABuilder.cpp 32-42, LDABuilder.hpp 103-662 and the default arguments there;
      [topics_seeded] and the others are in BuilderModel.v. *)
  Definition scall_step (sp : settings T * params T) (x : scall T) : outcome (settings T * params T) :=
    let (s, p) := sp in
    match x with
    | Iterations n => Ok (mk_settings n (s_workers s) (s_e s) (s_m s) (s_e_requires_eta s) (s_m_requires_eta s), p)
    | Workers n => Ok (mk_settings (s_iterations s) n (s_e s) (s_m s) (s_e_requires_eta s) (s_m_requires_eta s), p)
    (* 112-124 *)
    | SetClassicE i t l => Ok (store_e (get_classic_e_step (or_ i 10) (or_ t hundredth) (or_ l one)) s, p)
    (* 151-167 *)
    | SetSupervisedE i t f l => Ok (raise_e (store_e (get_supervised_e_step (or_ i 10) (or_ t hundredth) (or_ f 10) (or_ l one)) s), p)
    (* 198-214 *)
    | SetFastE i t C l => Ok (raise_e (store_e (get_fast_supervised_e_step (or_ i 10) (or_ t hundredth) (or_ C one) (or_ l one)) s), p)
    (* 238-248 *)
    | SetSemiE a b => Ok (raise_e (store_e (get_semi_supervised_e_step a b) s), p)
    (* 284-302 *)
    | SetMultinomialE i t mu w l =>
        Ok (raise_e (store_e (get_multinomial_supervised_e_step (or_ i 10) (or_ t hundredth) (or_ mu two_) (or_ w one) (or_ l one)) s), p)
    (* 328-344 *)
    | SetCorrespondenceE i t mu l =>
        Ok (raise_e (store_e (get_correspondence_supervised_e_step (or_ i 10) (or_ t hundredth) (or_ mu two_) (or_ l one)) s), p)
    | SetAnyE e => Ok (store_e e s, p)
    (* 369-373 with LDABuilder.cpp 148-151 *)
    | SetClassicM => Ok (store_m ClassicM s, p)
    (* 431-443 with LDABuilder.cpp 166-177 *)
    | SetSupervisedM i t L => Ok (raise_m (store_m (SldaM (or_ i 10) (or_ t hundredth) (or_ L hundredth)) s), p)
    (* 396-408 with LDABuilder.cpp 153-164 *)
    | SetFastM i t L => Ok (raise_m (store_m (FastM (or_ i 10) (or_ t hundredth) (or_ L hundredth)) s), p)
    (* 471-489, 518-536, 565-583 *)
    | SetOnlineM c L b m r w =>
        Ok (raise_m (store_m (get_fast_supervised_online_m_step c (or_ L hundredth) (or_ b 128) (or_ m nine_tenths) (or_ r hundredth)
                                (or_ w nine_tenths)) s), p)
    (* 606-618 with LDABuilder.cpp 239-250 *)
    | SetSemiM i t L => Ok (raise_m (store_m (SemiM (or_ i 10) (or_ t hundredth) (or_ L hundredth)) s), p)
    (* 634-640, 656-662 with LDABuilder.cpp 252-262 *)
    | SetMultinomialM mu => Ok (raise_m (store_m (MultinomialM (or_ mu two_)) s), p)
    | SetCorrespondenceM mu => Ok (raise_m (store_m (CorrespondenceM (or_ mu two_)) s), p)
    | SetAnyM m => Ok (store_m m s, p)
    | Seeded X topics N draw => let* q := topics_seeded X topics N draw p in Ok (s, q)
    | Random words topics draw => Ok (s, topics_random words topics draw p)
    | FromModel m => Ok (s, topics_from_model m p)
    | Zeros n => let* q := eta_zeros n p in Ok (s, q)
    | Uniform n => let* q := eta_uniform n p in Ok (s, q)
    | EtaOf m => Ok (s, eta_from_model m p)
    end.
  (** A call whose exception is caught by the user *)
  Definition scall_caught (sp : settings T * params T) (x : scall T) : outcome (settings T * params T) :=
    match scall_step sp x with
    | Throw _ => Ok sp
    | o => o
    end.
  Definition configure (hw : nat) (h : list (scall T)) : outcome (settings T * params T) :=
    fold_left (fun o x => let* sp := o in scall_caught sp x) h (Ok (new_settings hw, empty_params)).
  (** LDABuilder.hpp 788-810: operator LDA() *)
  Definition built (hw : nat) (h : list (scall T)) : outcome (object T) :=
    let* (s, p) := configure hw h in
    if Nat.eqb (mrows (p_beta p)) 0 then Throw ERuntime
    else if (Nat.eqb (mrows (p_eta p)) 0 && (s_e_requires_eta s || s_m_requires_eta s))%bool then Throw ERuntime
    else Ok (mk_object p (s_e s) (s_m s) (s_iterations s) (s_workers s)).

  (** bounds on the digamma recurrence and on the line search *)
  Variables dfuel fuel : nat.

  (** fit of a new object, LDA.cpp 64-81, with a given M step object: the model afterwards *)
  Definition fit_with {St} (M : maximizer T St) (new : St) (k : e_step T) (W : nat) (docs : list (doc T)) (n : nat) (p : params T)
    (r : outcome (params T)) : Prop :=
    exists st q, fit_call dfuel M k W docs n (Ok new) (p, 0) st q /\ r = let* _ := st in Ok (fst q).
  (** The virtual calls of the M step, LDA.cpp 118, 129 *)
  Definition object_fit (o : object T) (docs : list (doc T)) (r : outcome (params T)) : Prop :=
    let k := ob_e o in let W := ob_workers o in let n := ob_iterations o in let p := ob_params o in
    match ob_m o with
    | ClassicM => fit_with unsupervised_maximizer empty_mat k W docs n p r
    | SldaM i t L => fit_with (sup_maximizer fuel i t L) new_sup k W docs n p r
    | FastM i t L => fit_with (fast_maximizer fuel i t L) new_fast k W docs n p r
    | OnlineM cf => fit_with (online_maximizer cf) new_online k W docs n p r
    | SemiM i t L => fit_with (semi_maximizer fuel i t L) new_fast k W docs n p r
    | MultinomialM mu => fit_with (multinomial_maximizer mu) new_stats k W docs n p r
    | CorrespondenceM mu => fit_with (correspondence_maximizer mu) new_stats k W docs n p r
    end.
  (** transform of a new object, LDA.cpp 138-176 *)
  Definition object_transform (o : object T) (X : list (list Z)) (r : outcome (mat T)) : Prop :=
    transform_call dfuel (ob_e o) 0 (ob_workers o) (ob_params o) X r.
End Settings.
