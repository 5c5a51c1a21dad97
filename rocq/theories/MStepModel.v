(** Model of the M steps (src/ldaplusplus/em/*MStep.cpp).

    Each M step is a state machine: doc_m_step accumulates, m_step updates the model.
    Arithmetic is that of the scalar type [T].  Operations on matrices of different
    sizes and reads of memory that was never written are undefined. *)
Require Import ZArith List Bool Arith.
Require Import Verif.Base Verif.Scalar Verif.Mat Verif.UtilsModel Verif.BuilderModel Verif.EStepModel Verif.OptModel.
Import ListNotations.

(** ** M steps as state machines (em/MStepInterface.hpp) *)

(** An M step with members [St]: doc_m_step and m_step, which may change the model and dispatch
    values (MaximizationProgressEvent). *)
Record maximizer (T St : Type) := mk_maximizer {
  ms_doc : St -> params T -> doc T -> vparams T -> outcome (params T * St * list T);
  ms_end : St -> params T -> outcome (params T * St * list T)
}.
Arguments mk_maximizer {T St}. Arguments ms_doc {T St}. Arguments ms_end {T St}.

(** The calls an M step receives: doc_m_step for a document with its variational parameters, and m_step. *)
Inductive mcall (T : Type) := MDoc (d : doc T) (v : vparams T) | MEnd.
Arguments MDoc {T}. Arguments MEnd {T}.

(** A sequence of calls on one object and one model, as made by LDA::partial_fit (LDA.cpp
    90-135): the model, the object and the values dispatched, in order. *)
Fixpoint mrun {T St} (M : maximizer T St) (calls : list (mcall T)) (m : params T) (s : St) : outcome (params T * St * list T) :=
  match calls with
  | [] => Ok (m, s, [])
  | c :: calls =>
      let* (m, s, e) := match c with MDoc d v => ms_doc M s m d v | MEnd => ms_end M s m end in
      let* (m, s, e') := mrun M calls m s in
      Ok (m, s, e ++ e')
  end.

Section MStep.
  Context {T : Type} {O : ops T}.
  Open Scope sc_scope.

  Definition mzero (r c : nat) : mat T := mtab r c (fun _ _ => zero).
  Definition same_size (a b : mat T) : bool := Nat.eqb (mrows a) (mrows b) && Nat.eqb (ncols a) (ncols b).
  Definition madd (a b : mat T) : mat T := mtab (mrows a) (ncols a) (fun i j => mget a i j + mget b i j).
  Definition row_sums (m : mat T) : list T := vtab (mrows m) (fun i => redux (mrow m i)).
  (** phi.array().rowwise() * X.cast<Scalar>().transpose().array() *)
  Definition weigh (phi : mat T) (X : list Z) : mat T := mtab (mrows phi) (ncols phi) (fun i n => mget phi i n * ofZ (Xget X n)).
  Definition set_beta (m : params T) (beta : mat T) : params T := mk_params (p_alpha m) beta (p_eta m).
  Definition set_eta (m : params T) (eta : mat T) : params T := mk_params (p_alpha m) (p_beta m) eta.

  (** ** UnsupervisedMStep: the state is b_ *)

  (** UnsupervisedMStep.cpp 19-37 (doc_m_step) *)
  Definition unsupervised_doc (b : mat T) (d : doc T) (v : vparams T) : outcome (mat T) :=
    let phi := v_phi v in
    if negb (Nat.eqb (length (d_words d)) (ncols phi)) then UB else
    let t2 := weigh phi (d_words d) in
    let b := if Nat.eqb (mrows b) 0 then mzero (mrows phi) (ncols phi) else b in
    if negb (same_size b t2) then UB else Ok (madd b t2).
  (** UnsupervisedMStep.cpp 8-16 (m_step): the new beta and the new b_ *)
  Definition unsupervised_beta (b : mat T) : mat T :=
    mtab (mrows b) (ncols b) (fun i n => mget b i n / vget (row_sums b) i).
  Definition unsupervised_m (b : mat T) (m : params T) : params T * mat T :=
    (set_beta m (unsupervised_beta b), mzero (mrows b) (ncols b)).

  Definition unsupervised_maximizer : maximizer T (mat T) :=
    mk_maximizer (fun b m d v => let* b := unsupervised_doc b d v in Ok (m, b, []))
                 (fun b m => let (m, b) := unsupervised_m b m in Ok (m, b, [])).

  (** ** Vectors that grow: [None] is memory not yet written *)

  (** conservativeResize(n) *)
  Definition resize {A} (n : nat) (l : list (option A)) : list (option A) :=
    firstn n l ++ repeat None (n - length l).
  (** l(i) = a; undefined outside *)
  Definition store {A} (i : nat) (a : A) (l : list (option A)) : outcome (list (option A)) :=
    if Nat.ltb i (length l) then Ok (firstn i l ++ Some a :: skipn (S i) l) else UB.
  (** reading everything *)
  Definition load {A} (l : list (option A)) : outcome (list A) :=
    seqM (map (fun x => match x with Some a => Ok a | None => UB end) l).

  (** ** FastSupervisedMStep *)

  (** expected_z_bar_ is kept as its number of rows and its columns *)
  Record fast := mk_fast { f_b : mat T; f_rows : nat; f_z : list (option (list T)); f_y : list (option Z); f_docs : nat }.
  (** FastSupervisedMStep.hpp 58-66: the members after construction (docs_ = 0, empty matrices) *)
  Definition new_fast : fast := mk_fast empty_mat 0 [] [] 0.

  (** gamma - alpha, divided by its sum unless that is zero (FastSupervisedMStep.cpp 44-50) *)
  Definition z_bar (m : params T) (v : vparams T) : list T :=
    normalize_vec (vtab (length (p_alpha m)) (fun i => vget (v_gamma v) i - vget (p_alpha m) i)).

  (** FastSupervisedMStep.cpp 15-53 (doc_m_step).  Simplification: a change of the number of topics
      between documents is undefined (Eigen would cut or extend the stored columns). *)
  Definition fast_doc (s : fast) (m : params T) (d : doc T) (v : vparams T) : outcome fast :=
    let* b := unsupervised_doc (f_b s) d v in
    let K := length (p_alpha m) in
    let grow := Nat.leb (length (f_z s)) (f_docs s) in
    let y := if grow then resize (S (f_docs s)) (f_y s) else f_y s in
    let z := if grow then resize (S (f_docs s)) (f_z s) else f_z s in
    let rows := if Nat.eqb (length (f_z s)) 0 then K else f_rows s in
    match d_class d with
    | None => UB
    | Some c =>
        let* y := store (f_docs s) c y in
        if negb (Nat.eqb (length (v_gamma v)) K && Nat.eqb rows K) then UB else
        let* z := store (f_docs s) (z_bar m v) z in
        Ok (mk_fast b rows z y (S (f_docs s)))
    end.
  (** FastSupervisedMStep.cpp 56-69: before eta is fitted: the model with the new topics, the next state, and the
      training set *)
  Definition fast_prepare (s : fast) (m : params T) : outcome (params T * fast * mat T * list Z) :=
    let (m, b) := unsupervised_m (f_b s) m in
    let y := resize (f_docs s) (f_y s) in
    let z := resize (f_docs s) (f_z s) in
    let* ys := load y in
    let* zs := load z in
    Ok (m, mk_fast b (f_rows s) z y 0, mk_mat (f_rows s) zs, ys).
  (** FastSupervisedMStep.cpp 56-95 (m_step); also the dispatched values *)
  Definition fast_m (fuel limit : nat) (tolerance L : T) (s : fast) (m : params T)
    : outcome (params T * fast * list T) :=
    let* (m, s, X, y) := fast_prepare s m in
    let* p := mlr X y L in
    let* (eta, events) := fit_eta fuel limit tolerance p (p_eta m) in
    Ok (set_eta m eta, s, events).

  Definition fast_maximizer (fuel limit : nat) (tolerance L : T) : maximizer T fast :=
    mk_maximizer (fun s m d v => let* s := fast_doc s m d v in Ok (m, s, [])) (fast_m fuel limit tolerance L).

  (** SemiSupervisedMStep.cpp 8-18 (doc_m_step); m_step is inherited *)
  Definition semi_doc (s : fast) (m : params T) (d : doc T) (v : vparams T) : outcome fast :=
    match d_class d with
    | None => UB
    | Some c =>
        if (c <? 0)%Z then
          let* b := unsupervised_doc (f_b s) d v in Ok (mk_fast b (f_rows s) (f_z s) (f_y s) (f_docs s))
        else fast_doc s m d v
    end.

  Definition semi_maximizer (fuel limit : nat) (tolerance L : T) : maximizer T fast :=
    mk_maximizer (fun s m d v => let* s := semi_doc s m d v in Ok (m, s, [])) (fast_m fuel limit tolerance L).

  (** ** SupervisedMStep (sLDA) *)

  Record sup := mk_sup { su_fast : fast; su_var : list (option (mat T)) }.
  Definition new_sup : sup := mk_sup new_fast [].

  (** SupervisedMStep.cpp 54-55: (gamma - alpha) / N *)
  Definition z_bar_n (m : params T) (v : vparams T) (N : Z) : list T :=
    vtab (length (p_alpha m)) (fun i => (vget (v_gamma v) i - vget (p_alpha m) i) / ofZ N).
  (** SupervisedMStep.cpp 58-60; [inv] is 1.0/(N * N) *)
  Definition z_var (v : vparams T) (X : list Z) (inv : T) : mat T :=
    let s := weigh (v_phi v) X in
    mtab (mrows s) (mrows s) (fun i j => dot (mrow s i) (mrow s j) * inv).
  (** N * N in int: overflow is undefined *)
  Definition int_square (N : Z) : outcome Z := if (N * N <? 2 ^ 31)%Z then Ok (N * N)%Z else UB.

  (** SupervisedMStep.cpp 14-63 (doc_m_step) *)
  Definition sup_doc (s : sup) (m : params T) (d : doc T) (v : vparams T) : outcome sup :=
    let f := su_fast s in
    let* b := unsupervised_doc (f_b f) d v in
    let* N := int_sum (d_words d) in
    let K := length (p_alpha m) in
    let grow := Nat.leb (length (f_z f)) (f_docs f) in
    let y := if grow then resize (S (f_docs f)) (f_y f) else f_y f in
    let z := if grow then resize (S (f_docs f)) (f_z f) else f_z f in
    let var := if grow then resize (S (f_docs f)) (su_var s) else su_var s in
    let rows := if Nat.eqb (length (f_z f)) 0 then K else f_rows f in
    match d_class d with
    | None => UB
    | Some c =>
        let* y := store (f_docs f) c y in
        if negb (Nat.eqb (length (v_gamma v)) K && Nat.eqb rows K) then UB else
        let* z := store (f_docs f) (z_bar_n m v N) z in
        let* sq := int_square N in
        let* var := store (f_docs f) (z_var v (d_words d) (one / ofZ sq)) var in
        Ok (mk_sup (mk_fast b rows z y (S (f_docs f))) var)
    end.
  (** SupervisedMStep.cpp 67-81 *)
  Definition sup_prepare (s : sup) (m : params T) : outcome (params T * sup * mat T * list (mat T) * list Z) :=
    let f := su_fast s in
    let var := resize (f_docs f) (su_var s) in
    let* (m, f, X, y) := fast_prepare f m in
    let* vs := load var in
    Ok (m, mk_sup f var, X, vs, y).
  (** SupervisedMStep.cpp 67-112 (m_step) *)
  Definition sup_m (fuel limit : nat) (tolerance L : T) (s : sup) (m : params T)
    : outcome (params T * sup * list T) :=
    let* (m, s, X, V, y) := sup_prepare s m in
    let* p := so X V y L in
    let* (eta, events) := fit_eta fuel limit tolerance p (p_eta m) in
    Ok (set_eta m eta, s, events).

  Definition sup_maximizer (fuel limit : nat) (tolerance L : T) : maximizer T sup :=
    mk_maximizer (fun s m d v => let* s := sup_doc s m d v in Ok (m, s, [])) (sup_m fuel limit tolerance L).

  (** ** MultinomialSupervisedMStep and CorrespondenceSupervisedMStep *)

  (** b_, h_ and log_py_ (the buffers phi_scaled_ and phi_scaled_sum_ are overwritten before every use).
      log_py_ is uninitialised until the first document: [None]. *)
  Record stats := mk_stats { st_b : mat T; st_h : mat T; st_log : option T }.
  Definition new_stats : stats := mk_stats empty_mat empty_mat None.

  (** the common part of the two doc_m_steps, from line 58 (multinomial) and 61 (correspondence) on *)
  Definition stats_doc (scaled : mat T) (s : stats) (m : params T) (c : Z) : outcome stats :=
    let s := if Nat.eqb (mrows (st_b s)) 0
             then mk_stats (mzero (mrows scaled) (ncols scaled)) (mzero (mrows (p_eta m)) (ncols (p_eta m))) (Some zero)
             else s in
    let sums := row_sums scaled in
    if negb (same_size (st_b s) scaled && Nat.eqb (mrows (st_h s)) (mrows scaled) &&
             Nat.eqb (mrows (p_eta m)) (mrows scaled) &&
             (0 <=? c)%Z && (c <? Z.of_nat (ncols (st_h s)))%Z && (c <? Z.of_nat (ncols (p_eta m)))%Z) then UB else
    let y := Z.to_nat c in
    match st_log s with
    | None => UB
    | Some l =>
        Ok (mk_stats (madd (st_b s) scaled)
             (mtab (mrows (st_h s)) (ncols (st_h s)) (fun i j =>
                if Nat.eqb j y then mget (st_h s) i j + vget sums i else mget (st_h s) i j))
             (Some (l + dot sums (map slog (mcol (p_eta m) y)))))
    end.
  (** MultinomialSupervisedMStep.cpp 32-71 (doc_m_step) *)
  Definition multinomial_doc (s : stats) (m : params T) (d : doc T) (v : vparams T) : outcome stats :=
    match d_class d with
    | None => UB
    | Some c =>
        if negb (Nat.eqb (length (d_words d)) (ncols (v_phi v))) then UB else
        stats_doc (weigh (v_phi v) (d_words d)) s m c
    end.
  (** CorrespondenceSupervisedMStep.cpp 32-78 (doc_m_step) *)
  Definition correspondence_doc (s : stats) (m : params T) (d : doc T) (v : vparams T) : outcome stats :=
    match d_class d with
    | None => UB
    | Some c =>
        if negb (Nat.eqb (length (d_words d)) (ncols (v_phi v)) && Nat.eqb (length (v_tau v)) (ncols (v_phi v))) then UB else
        stats_doc (mtab (mrows (v_phi v)) (ncols (v_phi v)) (fun i n =>
                     mget (v_phi v) i n * (ofZ (Xget (d_words d) n) * vget (v_tau v) n))) s m c
    end.
  (** MultinomialSupervisedMStep.cpp 10-29, CorrespondenceSupervisedMStep.cpp 10-29 (m_step); log_py_ is
      dispatched *)
  Definition stats_m (mu : T) (s : stats) (m : params T) : outcome (params T * stats * list T) :=
    let eta := mtab (mrows (st_h s)) (ncols (st_h s)) (fun i c => mget (st_h s) i c + mu - one) in
    match st_log s with
    | None => UB
    | Some l =>
        Ok (mk_params (p_alpha m) (normalize_rows (st_b s)) (normalize_rows eta),
            mk_stats (mzero (mrows (st_b s)) (ncols (st_b s))) (mzero (mrows (st_h s)) (ncols (st_h s))) (Some zero),
            [l])
    end.
  Definition multinomial_maximizer (mu : T) : maximizer T stats :=
    mk_maximizer (fun s m d v => let* s := multinomial_doc s m d v in Ok (m, s, [])) (stats_m mu).
  Definition correspondence_maximizer (mu : T) : maximizer T stats :=
    mk_maximizer (fun s m d v => let* s := correspondence_doc s m d v in Ok (m, s, [])) (stats_m mu).

  (** ** FastOnlineSupervisedMStep *)

  (** Constructor arguments (FastOnlineSupervisedMStep.cpp 12-27). *)
  Record oconf := mk_oconf {
    o_class_weights : list T; o_L : T; o_minibatch : nat; o_momentum : T; o_rate : T; o_beta_weight : T
  }.
  Record online := mk_online {
    on_b : mat T; on_z : mat T; on_y : list Z; on_velocity : mat T; on_seen : nat
  }.
  Definition new_online : online := mk_online empty_mat empty_mat [] empty_mat 0.

  (** FastOnlineSupervisedMStep.cpp 89-124 (m_step) *)
  Definition online_m (cf : oconf) (s : online) (m : params T) : outcome (params T * online * list T) :=
    if Nat.ltb (on_seen s) (o_minibatch cf) then Ok (m, s, []) else
    if negb (same_size (p_beta m) (on_b s) && same_size (p_eta m) (on_velocity s)) then UB else
    let w := o_beta_weight cf in
    let beta := mtab (mrows (p_beta m)) (ncols (p_beta m)) (fun i n =>
                  w * mget (p_beta m) i n + (one - w) * (mget (on_b s) i n / vget (row_sums (on_b s)) i)) in
    let* p := mlr (on_z s) (on_y s) (o_L cf) in
    let* g := gradient p (p_eta m) in
    let velocity := mtab (mrows (on_velocity s)) (ncols (on_velocity s)) (fun i c =>
                      o_momentum cf * mget (on_velocity s) i c - o_rate cf * mget g i c) in
    let eta := madd (p_eta m) velocity in
    let* v := value p eta in
    Ok (mk_params (p_alpha m) beta eta, mk_online (on_b s) (on_z s) (on_y s) velocity 0, [- v]).

  (** FastOnlineSupervisedMStep.cpp 48-86 (doc_m_step) *)
  Definition online_doc (cf : oconf) (s : online) (m : params T) (d : doc T) (v : vparams T)
    : outcome (params T * online * list T) :=
    let phi := v_phi v in
    let K := mrows phi in
    match d_class d with
    | None => UB
    | Some c =>
        let s := if Nat.eqb (mrows (on_b s)) 0
                 then mk_online (mzero K (ncols phi)) (mzero K (o_minibatch cf)) (repeat 0%Z (o_minibatch cf))
                        (mzero K (length (o_class_weights cf))) (on_seen s)
                 else s in
        if negb (Nat.eqb (length (d_words d)) (ncols phi) && same_size (on_b s) phi &&
                 Nat.eqb (length (v_gamma v)) (mrows (on_z s)) && Nat.eqb (length (p_alpha m)) (mrows (on_z s)) &&
                 Nat.ltb (on_seen s) (ncols (on_z s)))
        then UB else
        let diff := vtab (length (p_alpha m)) (fun i => vget (v_gamma v) i - vget (p_alpha m) i) in
        let col := map (fun x => x / redux diff) diff in
        let s := mk_online (madd (on_b s) (weigh phi (d_words d))) (set_col (on_z s) (on_seen s) col)
                   (firstn (on_seen s) (on_y s) ++ c :: skipn (S (on_seen s)) (on_y s))
                   (on_velocity s) (S (on_seen s)) in
        if Nat.leb (o_minibatch cf) (on_seen s) then online_m cf s m else Ok (m, s, [])
    end.
  Definition online_maximizer (cf : oconf) : maximizer T online := mk_maximizer (online_doc cf) (online_m cf).
End MStep.
Arguments fast : clear implicits. Arguments sup : clear implicits. Arguments stats : clear implicits.
Arguments online : clear implicits. Arguments oconf : clear implicits.
