(** Model of LDABuilder (src/ldaplusplus/LDABuilder.cpp, include/ldaplusplus/LDABuilder.hpp).

    Simplifications: the hyper-parameters of the E and M steps (iteration limits, tolerances,
    weights) are handed through unchanged by the builder and are left out (SettingsModel.v has them); sizes too large
    to allocate are not distinguished; random draws are arbitrary arguments. *)
Require Import ZArith List Bool Arith.
Require Import Verif.Base Verif.Scalar Verif.Mat Verif.UtilsModel.
Import ListNotations.

(** Parameters.hpp 21-59: SupervisedModelParameters: alpha, beta (topics x words) and eta
    (topics x classes).  A default-constructed Eigen object is empty. *)
Record params (T : Type) := mk_params { p_alpha : list T; p_beta : mat T; p_eta : mat T }.
Arguments mk_params {T}. Arguments p_alpha {T}. Arguments p_beta {T}. Arguments p_eta {T}.

(** The E and M steps a builder can make (LDABuilder.hpp 86-344 and 362-662). *)
Inductive estep := EClassic | ESupervised | EFastSupervised | ESemiSupervised | EMultinomial | ECorrespondence.
Inductive mstep := MClassic | MSupervised | MFastSupervised | MFastOnline | MSemiSupervised | MMultinomial | MCorrespondence.

(** The public calls that configure a builder. *)
Inductive bcall (T : Type) :=
| SetIterations (n : nat)
| SetWorkers (n : nat)
| SetEStep (e : estep)               (* set_*_e_step(...) *)
| SetE (e : estep)                   (* set_e(some step) *)
| SetMStep (m : mstep)               (* set_*_m_step(...) *)
| SetM (m : mstep)                   (* set_m(some step) *)
| TopicsSeeded (X : list (list Z)) (topics N : nat) (draw : nat -> nat -> nat)
| TopicsRandom (words topics : nat) (draw : nat -> nat -> T)
| TopicsFromModel (m : params T)
| EtaZeros (classes : nat)
| EtaUniform (classes : nat)
| EtaFromModel (m : params T).
Arguments SetIterations {T}. Arguments SetWorkers {T}. Arguments SetEStep {T}. Arguments SetE {T}.
Arguments SetMStep {T}. Arguments SetM {T}. Arguments TopicsSeeded {T}. Arguments TopicsRandom {T}.
Arguments TopicsFromModel {T}. Arguments EtaZeros {T}. Arguments EtaUniform {T}. Arguments EtaFromModel {T}.

(** LDABuilder.hpp 812-827: the data members, except the model parameters. *)
Record config := mk_config {
  c_iterations : nat; c_workers : nat; c_e : estep; c_m : mstep;
  c_e_requires_eta : bool; c_m_requires_eta : bool
}.

(** LDABuilder.cpp 19-29: the constructor; [hw] is hardware_concurrency(). *)
Definition new_config (hw : nat) : config := mk_config 20 hw EClassic MClassic false false.

(** LDABuilder.hpp 355-360 *)
Definition set_e (e : estep) (c : config) : config :=
  mk_config (c_iterations c) (c_workers c) e (c_m c) false (c_m_requires_eta c).
(** LDABuilder.hpp 112-344: each setter calls set_e; all but set_classic_e_step then raise the flag
    (165, 212, 246, 300, 342). *)
Definition set_e_step (e : estep) (c : config) : config :=
  let c := set_e e c in
  match e with
  | EClassic => c
  | _ => mk_config (c_iterations c) (c_workers c) (c_e c) (c_m c) true (c_m_requires_eta c)
  end.
(** LDABuilder.hpp 669-674 *)
Definition set_m (m : mstep) (c : config) : config :=
  mk_config (c_iterations c) (c_workers c) (c_e c) m (c_e_requires_eta c) false.
(** LDABuilder.hpp 369-662 *)
Definition set_m_step (m : mstep) (c : config) : config :=
  let c := set_m m c in
  match m with
  | MClassic => c
  | _ => mk_config (c_iterations c) (c_workers c) (c_e c) (c_m c) (c_e_requires_eta c) true
  end.

Section Params.
  Context {T : Type} {O : ops T}.
  Definition empty_mat : mat T := mk_mat 0 [].
  Definition empty_params : params T := mk_params [] empty_mat empty_mat.

  (** 1.0 / n for a size_t n *)
  Definition inverse (n : nat) : T := div one (ofZ (Z.of_nat n)).

  (** LDABuilder.cpp 307-309: the row of a topic: one for every word, then the words of N randomly
      chosen documents added one after the other.  [document(rng)] is in 0..size-1.
      Adding a row of another length is undefined. *)
  Definition seeded_row (X : list (list Z)) (N : nat) (draw : nat -> nat) (V : nat) : outcome (list T) :=
    fold_left (fun acc r =>
      let* row := acc in
      let doc := nth (draw r mod length X) X [] in
      if length doc =? V then Ok (vtab V (fun w => add (vget row w) (ofZ (nth w doc 0%Z)))) else UB)
      (seq 0 N) (Ok (vtab V (fun _ => one))).

  (** LDABuilder.cpp 285-314: initialize_topics_seeded; [corpus->at(0)] of an empty corpus is
      undefined. *)
  Definition topics_seeded (X : list (list Z)) (topics N : nat) (draw : nat -> nat -> nat) (p : params T)
    : outcome (params T) :=
    match X with
    | [] => UB
    | d0 :: _ =>
        let V := length d0 in
        let* rows := seqM (map (fun k => seeded_row X N (draw k) V) (seq 0 topics)) in
        Ok (mk_params (vtab topics (fun _ => inverse topics))
                      (mtab topics V (fun k w => let row := nth k rows [] in div (vget row w) (redux row)))
                      (p_eta p))
    end.

  (** LDABuilder.cpp 317-340: initialize_topics_random *)
  Definition topics_random (words topics : nat) (draw : nat -> nat -> T) (p : params T) : params T :=
    mk_params (vtab topics (fun _ => inverse topics))
              (normalize_rows (mtab topics words (fun k w => draw k w)))
              (p_eta p).

  (** LDABuilder.hpp 742-749 *)
  Definition topics_from_model (m p : params T) : params T := mk_params (p_alpha m) (p_beta m) (p_eta p).

  (** LDABuilder.cpp 343-360 *)
  Definition eta_zeros (classes : nat) (p : params T) : outcome (params T) :=
    if mrows (p_beta p) =? 0 then Throw ERuntime
    else Ok (mk_params (p_alpha p) (p_beta p) (mtab (mrows (p_beta p)) classes (fun _ _ => zero))).
  (** LDABuilder.cpp 363-381 *)
  Definition eta_uniform (classes : nat) (p : params T) : outcome (params T) :=
    if mrows (p_beta p) =? 0 then Throw ERuntime
    else Ok (mk_params (p_alpha p) (p_beta p) (mtab (mrows (p_beta p)) classes (fun _ _ => inverse classes))).
  (** LDABuilder.hpp 773-779 *)
  Definition eta_from_model (m p : params T) : params T := mk_params (p_alpha p) (p_beta p) (p_eta m).

  (** One configuring call. *)
  Definition call (cp : config * params T) (x : bcall T) : outcome (config * params T) :=
    let (c, p) := cp in
    match x with
    | SetIterations n => Ok (mk_config n (c_workers c) (c_e c) (c_m c) (c_e_requires_eta c) (c_m_requires_eta c), p)
    | SetWorkers n => Ok (mk_config (c_iterations c) n (c_e c) (c_m c) (c_e_requires_eta c) (c_m_requires_eta c), p)
    | SetEStep e => Ok (set_e_step e c, p)
    | SetE e => Ok (set_e e c, p)
    | SetMStep m => Ok (set_m_step m c, p)
    | SetM m => Ok (set_m m c, p)
    | TopicsSeeded X topics N draw => let* q := topics_seeded X topics N draw p in Ok (c, q)
    | TopicsRandom words topics draw => Ok (c, topics_random words topics draw p)
    | TopicsFromModel m => Ok (c, topics_from_model m p)
    | EtaZeros n => let* q := eta_zeros n p in Ok (c, q)
    | EtaUniform n => let* q := eta_uniform n p in Ok (c, q)
    | EtaFromModel m => Ok (c, eta_from_model m p)
    end.

  (** A call whose exception is caught by the user; the throwing calls change nothing before they
      throw. *)
  Definition call_caught (cp : config * params T) (x : bcall T) : outcome (config * params T) :=
    match call cp x with
    | Throw _ => Ok cp
    | o => o
    end.

  (** A history of calls on a fresh builder. *)
  Definition run (hw : nat) (h : list (bcall T)) : outcome (config * params T) :=
    fold_left (fun o x => let* cp := o in call_caught cp x) h (Ok (new_config hw, empty_params)).

  (** LDABuilder.hpp 788-810: the checks of operator LDA() *)
  Definition check_build (c : config) (p : params T) : outcome unit :=
    if mrows (p_beta p) =? 0 then Throw ERuntime
    else if (mrows (p_eta p) =? 0) && (c_e_requires_eta c || c_m_requires_eta c) then Throw ERuntime
    else Ok tt.

  (** The conversion to LDA after a history of calls. *)
  Definition build (hw : nat) (h : list (bcall T)) : outcome (config * params T) :=
    let* (c, p) := run hw h in
    let* _ := check_build c p in
    Ok (c, p).

  (** ** Several builders and LDA objects

      The builder holds its parameters, and an LDA object the parameters it was built with,
      through a shared_ptr (LDABuilder.hpp 803-809, 822; LDA.hpp model_parameters_).  A
      pointer is a position in [w_heap]. *)
  (** [l_builder] is only bookkeeping: the builder the object came from. *)
  Record lda := mk_lda { l_params : nat; l_config : config; l_builder : nat }.
  Record world := mk_world {
    w_heap : list (params T);
    w_builders : list (nat * config);
    w_ldas : list lda
  }.
  Definition empty_world : world := mk_world [] [] [].

  Definition set_nth {A} (l : list A) (i : nat) (x : A) : list A :=
    firstn i l ++ match skipn i l with [] => [] | _ :: r => x :: r end.

  Inductive action :=
  | New (hw : nat)                          (* LDABuilder<Scalar>() *)
  | Call (b : nat) (x : bcall T)            (* a configuring call on builder b *)
  | Build (b : nat)                         (* conversion to LDA *)
  | Train (l : nat) (f : params T -> params T). (* fit or partial_fit: the M step writes to the
                                               parameters in place (LDA.cpp 118-134); f is arbitrary *)

  Definition act (w : world) (a : action) : outcome world :=
    match a with
    | New hw =>
        Ok (mk_world (w_heap w ++ [empty_params]) (w_builders w ++ [(length (w_heap w), new_config hw)]) (w_ldas w))
    | Call b x =>
        match nth_error (w_builders w) b with
        | None => UB
        | Some (a, c) =>
            match nth_error (w_heap w) a with
            | None => UB
            | Some p =>
                let* (c', p') := call_caught (c, p) x in
                Ok (mk_world (set_nth (w_heap w) a p') (set_nth (w_builders w) b (a, c')) (w_ldas w))
            end
        end
    | Build b =>
        match nth_error (w_builders w) b with
        | None => UB
        | Some (a, c) =>
            match nth_error (w_heap w) a with
            | None => UB
            | Some p =>
                match check_build c p with
                | Ok _ => Ok (mk_world (w_heap w) (w_builders w) (w_ldas w ++ [mk_lda a c b]))
                | Throw _ => Ok w
                | UB => UB
                end
            end
        end
    | Train l f =>
        match nth_error (w_ldas w) l with
        | None => UB
        | Some o =>
            match nth_error (w_heap w) (l_params o) with
            | None => UB
            | Some p => Ok (mk_world (set_nth (w_heap w) (l_params o) (f p)) (w_builders w) (w_ldas w))
            end
        end
    end.
  Definition acts (h : list action) : outcome world :=
    fold_left (fun o a => let* w := o in act w a) h (Ok empty_world).

  (** LDA::model_parameters() of the l-th LDA object *)
  Definition lda_params (w : world) (l : nat) : option (params T) :=
    match nth_error (w_ldas w) l with
    | None => None
    | Some o => nth_error (w_heap w) (l_params o)
    end.
End Params.
