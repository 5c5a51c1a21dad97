(** Model of the LDA class (src/ldaplusplus/LDA.cpp 57-229): training and inference calls, made of the worker
    pool (PoolModel.v), the E steps (EStepModel.v) and the M steps (MStepModel.v). *)
Require Import ZArith List Bool Arith Permutation.
Require Import Verif.Base Verif.Scalar Verif.Mat Verif.UtilsModel Verif.BuilderModel Verif.EStepModel Verif.OptModel Verif.MStepModel Verif.PoolModel.
Import ListNotations.

(** The E steps LDABuilder offers (include/ldaplusplus/LDABuilder.hpp 103-345), with their constructor arguments. *)
Inductive e_step (T : Type) :=
| Classic (cf : econf T)
| Slda (cf : econf T) (fixed_points : nat)
| FastSupervised (cf : econf T) (exponential : bool) (C : T)
| SemiSupervised (supervised unsupervised : e_step T)
| Multinomial (cf : econf T) (mu eta_weight : T)
| Correspondence (cf : econf T) (mu : T).
Arguments Classic {T}. Arguments Slda {T}. Arguments FastSupervised {T}. Arguments SemiSupervised {T}.
Arguments Multinomial {T}. Arguments Correspondence {T}.

Section Lda.
  Context {T : Type} {O : ops T}.
  Open Scope sc_scope.
  (** bound on the digamma recurrence (UtilsModel.v) *)
  Variable dfuel : nat.

  (** doc_e_step of the object after [epochs] calls of e_step() (FastSupervisedEStep.cpp 100-116 counts
      them; SemiSupervisedEStep.cpp 42-46 passes them on; the other E steps ignore them, AbstractEStep.hpp 39).  [emit] is
      the random draw that decides whether the likelihood is computed. *)
  Fixpoint doc_e_step (k : e_step T) (epochs : nat) (emit : bool) (d : doc T) (m : params T) : outcome (vparams T * option T) :=
    match k with
    | Classic cf => unsupervised_doc_e_step dfuel cf emit d m
    | Slda cf fpi => supervised_doc_e_step dfuel cf fpi emit d m
    | FastSupervised cf ex C => fast_supervised_doc_e_step dfuel cf (get_weight ex C epochs) emit d m
    | SemiSupervised s u => semi_supervised_doc_e_step (doc_e_step s epochs emit) (doc_e_step u epochs emit) d m
    | Multinomial cf mu w => multinomial_doc_e_step dfuel cf mu w emit d m
    | Correspondence cf mu => correspondence_doc_e_step dfuel cf mu emit d m
    end.
  (** The variational parameters.  Undefined if they are with one of the draws (the draws come from
      one generator shared by the workers, so a document's draw depends on the schedule). *)
  Definition posterior (k : e_step T) (epochs : nat) (d : doc T) (m : params T) : outcome (vparams T) :=
    let* _ := doc_e_step k epochs true d m in
    let* (v, _) := doc_e_step k epochs false d m in
    Ok v.

  (** ** Inference *)
  (** get_corpus(X), 59-61: the columns as documents without label (EigenCorpus, Document.cpp) *)
  Definition unlabelled (X : list Z) : doc T := mk_doc X None 1 [].
  (** gammas.col(index) = ..., 148, 165: the columns must have beta.rows() entries *)
  Definition gather (K : nat) (l : list (outcome (list T))) : outcome (mat T) :=
    let* cols := seqM l in
    if forallb (fun c => Nat.eqb (length c) K) cols then Ok (mk_mat K cols) else UB.
  (** transform, 138-176, called on an object with [W] workers: one of its possible results. *)
  Definition transform_call (k : e_step T) (epochs W : nat) (m : params T) (X : list (list Z)) (r : outcome (mat T)) : Prop :=
    exists owner s0 (s : state (outcome (list T)) (params T) (list (outcome (list T))) (option T) T),
      length s0 = length X /\
      reachable (fun p i => let* v := posterior k epochs (unlabelled (nth i X [])) p in Ok (v_gamma v))
        (fun g p i c => (replace i c g, p, [])) (fun p => p) (fun g p => (g, p, [])) Transform owner (length X) W s0 m s /\
      main s = MDone /\ r = gather (mrows (p_beta m)) (priv s).

  (** decision_function, 185-200; Eigen's product and differences need matching sizes *)
  Definition decision_function (m : params T) (X : mat T) : outcome (mat T) :=
    let K := mrows X in
    if negb (Nat.eqb (length (p_alpha m)) K && Nat.eqb (mrows (p_eta m)) K) then UB else
    let z := mtab K (ncols X) (fun i d => mget X i d - vget (p_alpha m) i) in
    let z := mtab K (ncols X) (fun i d => mget z i d / redux (mcol z d)) in
    Ok (mtab (ncols (p_eta m)) (ncols X) (fun c d => redux (vtab K (fun i => mget (p_eta m) i c * mget z i d)))).
  (** maxCoeff(&index): Eigen's visitor starts with coefficient 0 and moves on when a coefficient is larger
      than the best so far; without coefficients it is undefined. *)
  Fixpoint max_from (best : T) (at_best at_next : nat) (l : list T) : nat :=
    match l with
    | [] => at_best
    | x :: l => if best <? x then max_from x at_next (S at_next) l else max_from best at_best (S at_next) l
    end.
  Definition max_index (l : list T) : outcome nat :=
    match l with [] => UB | x :: l => Ok (max_from x 0 1 l) end.
  (** predict(scores), 209-218 *)
  Definition predict_scores (scores : mat T) : outcome (list nat) :=
    seqM (vtab (ncols scores) (fun d => max_index (mcol scores d))).
  (** predict(X), 203-206 with 179-182 *)
  Definition predict_call (k : e_step T) (epochs W : nat) (m : params T) (X : list (list Z)) (r : outcome (list nat)) : Prop :=
    exists g, transform_call k epochs W m X g /\
      r = let* g := g in let* scores := decision_function m g in predict_scores scores.
  (** decision_function(X), 179-182 *)
  Definition decision_call (k : e_step T) (epochs W : nat) (m : params T) (X : list (list Z)) (r : outcome (mat T)) : Prop :=
    exists g, transform_call k epochs W m X g /\ r = let* g := g in decision_function m g.
  (** transform_predict, 221-229 *)
  Definition transform_predict_call (k : e_step T) (epochs W : nat) (m : params T) (X : list (list Z))
    (r : outcome (mat T * list nat)) : Prop :=
    exists g, transform_call k epochs W m X g /\
      r = let* g := g in let* scores := decision_function m g in let* p := predict_scores scores in Ok (g, p).

  (** ** Training *)
  Section Training.
    Context {St : Type}.
    Variable M : maximizer T St.
    Variable k : e_step T.
    (** The parameters the pool shares: the model and the number of e_step() calls; its private state: the M step object, or
        the failure that ended the program. *)
    Definition shared : Type := params T * nat.
    Definition settle (p : shared) (r : outcome (params T * St * list T)) : outcome St * shared * list T :=
      match r with
      | Ok (m, st, e) => (Ok st, (m, snd p), e)
      | Throw e => (Throw e, p, [])
      | UB => (UB, p, [])
      end.
    Definition nodoc : doc T := mk_doc [] None 0 [].
    Definition train_estep (docs : list (doc T)) (p : shared) (i : nat) : outcome (vparams T) :=
      posterior k (snd p) (nth i docs nodoc) (fst p).
    (** doc_m_step, 115-119 *)
    Definition train_feed (docs : list (doc T)) (s : outcome St) (p : shared) (i : nat) (v : outcome (vparams T))
      : outcome St * shared * list T :=
      settle p (let* st := s in let* v := v in ms_doc M st (fst p) (nth i docs nodoc) v).
    (** e_step(), 126 *)
    Definition train_e_end (p : shared) : shared := (fst p, S (snd p)).
    (** m_step, 129-131 *)
    Definition train_m_end (s : outcome St) (p : shared) : outcome St * shared * list T :=
      settle p (let* st := s in ms_end M st (fst p)).
    (** partial_fit(corpus), 90-135, by an object with [W] workers: shuffle, 92, then the pool.  Relates the M-step object and the
        shared parameters before and after. *)
    Definition partial_fit_call (W : nat) (docs : list (doc T)) (st : outcome St) (p : shared) (st' : outcome St) (p' : shared) : Prop :=
      exists docs' owner (s : state (outcome (vparams T)) shared (outcome St) (option T) T),
        Permutation docs docs' /\
        reachable (train_estep docs') (train_feed docs') train_e_end train_m_end Fit owner (length docs') W st p s /\
        main s = MDone /\ st' = priv s /\ p' = param s.
    (** fit, 64-81 *)
    Inductive fit_call (W : nat) (docs : list (doc T)) : nat -> outcome St -> shared -> outcome St -> shared -> Prop :=
    | fit_done st p : fit_call W docs 0 st p st p
    | fit_epoch n st p st1 p1 st2 p2 : partial_fit_call W docs st p st1 p1 -> fit_call W docs n st1 p1 st2 p2 ->
        fit_call W docs (S n) st p st2 p2.
  End Training.
End Lda.
