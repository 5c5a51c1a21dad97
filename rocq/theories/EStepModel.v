(** Model of src/ldaplusplus/e_step_utils.cpp and of the E steps in src/ldaplusplus/em.

    Arithmetic is that of the scalar type [T].  Eigen expressions are written with the
    value of each coefficient; lazily evaluated coefficient-wise functions are
    evaluated once.  Matrices of the wrong size (an assertion in debug builds, out-of-bounds accesses
    otherwise) are undefined and tested at the start of each doc_e_step. *)
Require Import ZArith List Bool Arith.
Require Import Verif.Base Verif.Scalar Verif.Mat Verif.UtilsModel Verif.BuilderModel.
Import ListNotations.

(** Document.hpp: what an E step reads from a document: its words, its class ([None]: the object
    is no ClassificationDocument, so the static_pointer_cast to one is undefined), the size
    of its corpus and the corpus's class priors.  The priors are stored as float in the code
    (VectorXf) and as [T] here. *)
Record doc (T : Type) := mk_doc {
  d_words : list Z; d_class : option Z; d_corpus_size : Z; d_priors : list T
}.
Arguments mk_doc {T}. Arguments d_words {T}. Arguments d_class {T}.
Arguments d_corpus_size {T}. Arguments d_priors {T}.

(** Parameters.hpp 62-99: VariationalParameters, with tau for the correspondence model (empty
    otherwise). *)
Record vparams (T : Type) := mk_vparams { v_gamma : list T; v_phi : mat T; v_tau : list T }.
Arguments mk_vparams {T}. Arguments v_gamma {T}. Arguments v_phi {T}. Arguments v_tau {T}.

(** X.sum() of a VectorXi: an int; overflow is undefined. *)
Definition Zsum (X : list Z) : Z := fold_right Z.add 0%Z X.
Definition int_sum (X : list Z) : outcome Z :=
  let s := Zsum X in
  if ((- 2 ^ 31 <=? s) && (s <? 2 ^ 31))%Z then Ok s else UB.

Section EStep.
  Context {T : Type} {O : ops T}.
  (** fuel of the loop of digamma *)
  Variable dfuel : nat.
  Open Scope sc_scope.

  Definition Xget (X : list Z) (n : nat) : Z := nth n X 0%Z.
  (** X.cast<Scalar>() *)
  Definition cast (X : list Z) : list T := map ofZ X.
  (** X.cast<Scalar>() / num_words *)
  Definition ratio (X : list Z) (num_words : Z) : list T := map (fun x => ofZ x / ofZ num_words) X.
  (** the constant 1e-44 *)
  Definition tiny : T := one / ofZ (10 ^ 22)%Z / ofZ (10 ^ 22)%Z.

  Definition psi_of (gamma : list T) : outcome (list T) := vmapM (digamma dfuel) gamma.

  (** ** Updates *)

  (** e_step_utils.cpp 277-289 (compute_gamma) *)
  Definition compute_gamma (X : list Z) (alpha : list T) (phi : mat T) : list T :=
    sum_cols_scaled_int phi X alpha.

  (** [beta.array().colwise() * e], then normalize_cols: the common last lines of the phi updates *)
  Definition scale_normalize (beta : mat T) (e : list T) : mat T :=
    normalize_cols (mtab (mrows beta) (ncols beta) (fun i j => mget beta i j * vget e i)).

  (** e_step_utils.cpp 292-304 (compute_unsupervised_phi) *)
  Definition compute_unsupervised_phi (beta : mat T) (gamma : list T) : outcome (mat T) :=
    let* psi := psi_of gamma in
    let* e := vmapM fast_exp psi in
    Ok (scale_normalize beta e).

  (** e_step_utils.cpp 307-341 (compute_supervised_approximate_phi); maxCoeff() of an empty
      matrix is undefined *)
  Definition compute_supervised_approximate_phi (X_ratio : list T) (num_words : Z) (y : nat)
    (beta eta : mat T) (gamma : list T) (C : T) (phi : mat T) : outcome (mat T) :=
    if (num_words =? 0)%Z then Ok phi
    else
      let* psi := psi_of gamma in
      let z_bar := sum_cols_scaled phi X_ratio (vtab (mrows phi) (fun _ => zero)) in
      let* ex := vmapM fast_exp (matT_vec eta z_bar) in
      let total := redux ex in
      let softmax := map (fun x => x / total) ex in
      match max_coeff (mall eta) with
      | None => UB
      | Some (max_eta, _) =>
          let eta_scaled :=
            if zero <? max_eta then mtab (mrows eta) (ncols eta) (fun i j => mget eta i j / max_eta) else eta in
          let mean := mat_vec eta_scaled softmax in
          let* e := vmapM fast_exp (vtab (mrows beta) (fun i =>
                      vget psi i + C * (mget eta_scaled i y - vget mean i))) in
          Ok (scale_normalize beta e)
      end.

  (** e_step_utils.cpp 344-364 (compute_supervised_multinomial_phi) *)
  Definition compute_supervised_multinomial_phi (y : nat) (beta eta : mat T) (gamma : list T) (eta_weight : T)
    : outcome (mat T) :=
    let* t1 := psi_of gamma in
    let* dg := digamma dfuel (redux gamma) in
    let t2 := dg + one in
    let* e := vmapM fast_exp (vtab (mrows beta) (fun i =>
                eta_weight * slog (mget eta i y) + vget t1 i - t2)) in
    Ok (scale_normalize beta e).

  (** e_step_utils.cpp 367-385 (compute_supervised_correspondence_phi) *)
  Definition compute_supervised_correspondence_phi (y : nat) (beta eta : mat T) (gamma tau : list T)
    : outcome (mat T) :=
    let* t1 := psi_of gamma in
    let* e := vmapM fast_exp t1 in
    let* f := mmapM fast_exp (mtab (mrows beta) (ncols beta) (fun i j => slog (mget eta i y) * vget tau j)) in
    Ok (normalize_cols (mtab (mrows beta) (ncols beta) (fun i j => mget beta i j * vget e i * mget f i j))).

  (** e_step_utils.cpp 388-402 (compute_supervised_correspondence_tau) *)
  Definition compute_supervised_correspondence_tau (y : nat) (eta phi : mat T) : outcome (list T) :=
    let log_eta := vtab (mrows eta) (fun i => slog (mget eta i y)) in
    let* e := vmapM fast_exp (matT_vec phi log_eta) in
    Ok (normalize_vec e).

  (** (eta * X_ratio[n]).unaryExpr(cwise_fast_exp) *)
  Definition exp_eta_scaled (eta : mat T) (r : T) : outcome (mat T) :=
    mmapM fast_exp (mtab (mrows eta) (ncols eta) (fun i j => mget eta i j * r)).
  Definition vzip (f : T -> T -> T) (a b : list T) : list T := vtab (length a) (fun i => f (vget a i) (vget b i)).
  (** m with column n replaced *)
  Definition set_col (m : mat T) (n : nat) (c : list T) : mat T :=
    mtab (mrows m) (ncols m) (fun i j => if Nat.eqb j n then vget c i else mget m i j).

  (** e_step_utils.cpp 183-190 and 232-236: multiply [products] by the words' factors; compute_h skips
      absent words, compute_supervised_phi_gamma does not *)
  Definition all_products (skip_absent : bool) (X : list Z) (X_ratio : list T) (eta phi : mat T) : outcome (list T) :=
    fold_left (fun acc n =>
      let* products := acc in
      if skip_absent && (Xget X n =? 0)%Z then Ok products
      else
        let* ee := exp_eta_scaled eta (vget X_ratio n) in
        Ok (vzip mul products (matT_vec ee (mcol phi n))))
      (seq 0 (length X)) (Ok (vtab (ncols eta) (fun _ => one))).

  (** e_step_utils.cpp 194-208: the last n with X[n] != 0 *)
  Fixpoint last_word (p : Z -> bool) (X : list Z) (n : nat) : option nat :=
    match n with
    | 0 => None
    | S k => if p (Xget X k) then Some k else last_word p X k
    end.

  (** e_step_utils.cpp 170-209 (compute_h); [None]: h not written *)
  Definition compute_h (X : list Z) (X_ratio : list T) (eta phi : mat T) : outcome (option (list T)) :=
    let* products := all_products true X X_ratio eta phi in
    match last_word (fun x => negb (x =? 0)%Z) X (length X) with
    | None => Ok None
    | Some n =>
        let* ee := exp_eta_scaled eta (vget X_ratio n) in
        let products' := vzip div products (matT_vec ee (mcol phi n)) in
        Ok (Some (mat_vec ee products'))
    end.

  (** The variables of the loop of compute_supervised_phi_gamma. *)
  Record slda := mk_slda {
    s_phi : mat T; s_gamma : list T; s_products : list T; s_psi : list T; s_h : option (list T)
  }.

  (** e_step_utils.cpp 254-265: one fixed-point iteration for word n *)
  Definition fixed_point (x : Z) (r : T) (y : nat) (beta_n : list T) (eta : mat T) (psi h : list T) (phi_n : list T)
    : outcome (list T) :=
    let t := one / dot h phi_n / ofZ x in
    let* e := vmapM fast_exp (vtab (length phi_n) (fun i => vget psi i + r * mget eta i y - vget h i * t)) in
    let p := vzip mul beta_n e in
    let s := redux p in
    Ok (map (fun x => x / s) p).
  Fixpoint fixed_points (k : nat) (x : Z) (r : T) (y : nat) (beta_n : list T) (eta : mat T) (psi h : list T)
    (phi_n : list T) : outcome (list T) :=
    match k with
    | 0 => Ok phi_n
    | S k => let* p := fixed_point x r y beta_n eta psi h phi_n in fixed_points k x r y beta_n eta psi h p
    end.

  (** e_step_utils.cpp 238-273: the body of the loop over the words *)
  Definition slda_word (X : list Z) (X_ratio : list T) (y : nat) (beta eta : mat T) (fpi : nat) (s : slda) (n : nat)
    : outcome slda :=
    if (Xget X n =? 0)%Z then Ok s
    else
      let* ee := exp_eta_scaled eta (vget X_ratio n) in
      let old := mcol (s_phi s) n in
      let products := vzip div (s_products s) (matT_vec ee old) in
      let h := mat_vec ee products in
      let* new := fixed_points fpi (Xget X n) (vget X_ratio n) y (mcol beta n) eta (s_psi s) h old in
      let products' := vzip mul products (matT_vec ee new) in
      let gamma := vtab (length (s_gamma s)) (fun i =>
                     vget (s_gamma s) i + ofZ (Xget X n) * (vget new i - vget old i)) in
      let* psi := psi_of gamma in
      Ok (mk_slda (set_col (s_phi s) n new) gamma products' psi (Some h)).

  (** e_step_utils.cpp 212-274 (compute_supervised_phi_gamma) *)
  Definition compute_supervised_phi_gamma (X : list Z) (X_ratio : list T) (y : nat) (beta eta : mat T) (fpi : nat)
    (phi : mat T) (gamma : list T) (h : option (list T)) : outcome slda :=
    let* psi := psi_of gamma in
    let* products := all_products false X X_ratio eta phi in
    fold_left (fun acc n => let* s := acc in slda_word X X_ratio y beta eta fpi s n)
      (seq 0 (length X)) (Ok (mk_slda phi gamma products psi h)).

  (** ** Likelihoods *)

  (** e_step_utils.cpp 10-45 (compute_unsupervised_likelihood) *)
  Definition compute_unsupervised_likelihood (X : list Z) (alpha : list T) (beta phi : mat T) (gamma : list T)
    : outcome T :=
    let K := mrows phi in
    let V := ncols phi in
    let phi2 := mtab K V (fun i n => mget phi i n * (if (Xget X n =? 0)%Z then zero else one)) in
    let* dg := digamma dfuel (redux gamma) in
    let* psi := psi_of gamma in
    let t1 := map (fun x => x - dg) psi in
    let* lga := vmapM (fun x => Ok (slgamma x)) alpha in
    let* lgg := vmapM (fun x => Ok (slgamma x)) gamma in
    let l := zero + dot (map (fun x => x - one) alpha) t1 in
    let l := l + (slgamma (redux alpha) - redux lga) in
    let l := l + redux (matT_vec phi2 t1) in
    let l := l + redux (mall (mtab K V (fun i n => mget phi i n * ofZ (Xget X n) * slog (mget beta i n + tiny)))) in
    let l := l + - dot (map (fun x => x - one) gamma) t1 in
    let l := l + (- slgamma (redux gamma) + redux lgg) in
    Ok (l + - redux (mall (mtab K V (fun i n => mget phi2 i n * slog (mget phi2 i n + tiny))))).

  (** e_step_utils.cpp 66-94 (compute_supervised_likelihood, h given); phi.col(-1) and
      an h that was never written are undefined *)
  Definition compute_supervised_likelihood_h (X : list Z) (y : nat) (alpha : list T) (beta eta phi : mat T)
    (gamma : list T) (h : option (list T)) : outcome T :=
    let* l := compute_unsupervised_likelihood X alpha beta phi gamma in
    let* N := int_sum X in
    match last_word (fun x => (0 <? x)%Z) X (length X), h with
    | Some n, Some h =>
        let l := l + dot (matT_vec phi (mcol eta y)) (cast X) / ofZ N in
        Ok (l + - slog (dot h (mcol phi n)))
    | _, _ => UB
    end.
  (** e_step_utils.cpp 49-64 *)
  Definition compute_supervised_likelihood (X : list Z) (y : nat) (alpha : list T) (beta eta phi : mat T)
    (gamma : list T) : outcome T :=
    let* N := int_sum X in
    let* h := compute_h X (ratio X N) eta phi in
    compute_supervised_likelihood_h X y alpha beta eta phi gamma h.

  (** e_step_utils.cpp 97-128 *)
  Definition compute_supervised_multinomial_likelihood (X : list Z) (y : nat) (alpha : list T) (beta eta phi : mat T)
    (gamma : list T) (prior_y mu portion : T) : outcome T :=
    let* l := compute_unsupervised_likelihood X alpha beta phi gamma in
    let* N := int_sum X in
    let C := ofZ (Z.of_nat (ncols eta)) in
    let l := l + redux (mall (mtab (mrows phi) (ncols phi) (fun i n =>
                   mget phi i n * ofZ (Xget X n) * slog (mget eta i y)))) in
    let l := l - ofZ (N - 1) * slog prior_y in
    let l := l + portion * (mu - one) * redux (map slog (mall eta)) in
    Ok (l + portion * (slgamma (C * mu) - C * slgamma mu)).

  (** e_step_utils.cpp 131-167 *)
  Definition compute_supervised_correspondence_likelihood (X : list Z) (y : nat) (alpha : list T) (beta eta phi : mat T)
    (gamma tau : list T) (mu portion : T) : outcome T :=
    let* l := compute_unsupervised_likelihood X alpha beta phi gamma in
    let* N := int_sum X in
    let C := ofZ (Z.of_nat (ncols eta)) in
    let l := l + - redux (vtab (length tau) (fun n => vget tau n * ofZ (Xget X n) * slog (vget tau n + tiny))) in
    let l := l + redux (mall (mtab (mrows phi) (ncols phi) (fun i n =>
                   mget phi i n * (ofZ (Xget X n) * vget tau n) * slog (mget eta i y)))) in
    let l := l + - slog (ofZ N) in
    let l := l + portion * (mu - one) * redux (map slog (mall eta)) in
    Ok (l + portion * (slgamma (C * mu) - C * slgamma mu)).

  (** ** E steps *)

  (** AbstractEStep.cpp 13-21 *)
  Definition converged (gamma_old gamma : list T) (tolerance : T) : bool :=
    redux (vtab (length gamma) (fun i => sabs (vget gamma_old i - vget gamma i))) / ofZ (Z.of_nat (length gamma))
      <? tolerance.

  (** The loop of the doc_e_step functions (UnsupervisedEStep.cpp 47-73, FastSupervisedEStep.cpp 57-77,
      MultinomialSupervisedEStep.cpp 56-75, CorrespondenceSupervisedEStep.cpp 54-83,
      SupervisedEStep.cpp 55-73): test, remember gamma, update. *)
  Fixpoint em_loop {S} (limit : nat) (tolerance : T) (gamma_of : S -> list T) (update : S -> outcome S)
    (gamma_old : list T) (s : S) : outcome S :=
    match limit with
    | 0 => Ok s
    | Datatypes.S l =>
        if converged gamma_old (gamma_of s) tolerance then Ok s
        else let* s' := update s in em_loop l tolerance gamma_of update (gamma_of s) s'
    end.

  (** The sizes a document and a model must have. *)
  Definition sizes_ok (d : doc T) (m : params T) : bool :=
    (length (p_alpha m) =? mrows (p_beta m))%nat && (length (d_words d) =? ncols (p_beta m))%nat.
  Definition class_ok (y : Z) (m : params T) : bool :=
    (mrows (p_eta m) =? mrows (p_beta m))%nat && (0 <=? y)%Z && (y <? Z.of_nat (ncols (p_eta m)))%Z.

  (** phi = 1/K, gamma = alpha + N/K (UnsupervisedEStep.cpp 41-42 and the same lines elsewhere) *)
  Definition init_phi (K V : nat) : mat T := mtab K V (fun _ _ => one / ofZ (Z.of_nat K)).
  Definition init_gamma (alpha : list T) (N : Z) (K : nat) : list T :=
    map (fun a => a + ofZ N / ofZ (Z.of_nat K)) alpha.
  Definition zeros (n : nat) : list T := vtab n (fun _ => zero).

  (** Configuration common to the E steps. *)
  Record econf := mk_econf { e_iterations : nat; e_tolerance : T; e_compute_likelihood : T }.

  (** The event: [Some] likelihood, or [None] for NAN; [emit] is the Bernoulli draw. *)
  Definition report (emit : bool) (likelihood : outcome T) : outcome (option T) :=
    if emit then let* l := likelihood in Ok (Some l) else Ok None.

  (** UnsupervisedEStep.cpp 26-91 *)
  Definition unsupervised_doc_e_step (cf : econf) (emit : bool) (d : doc T) (m : params T)
    : outcome (vparams T * option T) :=
    let X := d_words d in
    let* N := int_sum X in
    if negb (sizes_ok d m) then UB else
    let K := mrows (p_beta m) in
    let* (gamma, phi) :=
      em_loop (e_iterations cf) (e_tolerance cf) fst
        (fun s => let* phi := compute_unsupervised_phi (p_beta m) (fst s) in
                  Ok (compute_gamma X (p_alpha m) phi, phi))
        (zeros K) (init_gamma (p_alpha m) N K, init_phi K (length X)) in
    let* ev := report emit (compute_unsupervised_likelihood X (p_alpha m) (p_beta m) phi gamma) in
    Ok (mk_vparams gamma phi [], ev).

  (** FastSupervisedEStep.cpp 107-116 (get_weight); std::pow as repeated multiplication *)
  Definition get_weight (exponential : bool) (C : T) (epochs : nat) : T :=
    if exponential then Nat.iter epochs (fun x => x * C) one else C.

  (** FastSupervisedEStep.cpp 30-98; [weight] is the value of get_weight() *)
  Definition fast_supervised_doc_e_step (cf : econf) (weight : T) (emit : bool) (d : doc T) (m : params T)
    : outcome (vparams T * option T) :=
    let X := d_words d in
    let* N := int_sum X in
    match d_class d with
    | None => UB
    | Some yz =>
        if negb (sizes_ok d m && class_ok yz m) then UB else
        let y := Z.to_nat yz in
        let K := mrows (p_beta m) in
        let* (gamma, phi) :=
          em_loop (e_iterations cf) (e_tolerance cf) fst
            (fun s => let* phi := compute_supervised_approximate_phi (ratio X N) N y (p_beta m) (p_eta m) (fst s)
                                    weight (snd s) in
                      Ok (compute_gamma X (p_alpha m) phi, phi))
            (zeros K) (init_gamma (p_alpha m) N K, init_phi K (length X)) in
        let* ev := report emit
                     (compute_supervised_likelihood X y (p_alpha m) (p_beta m) (p_eta m) phi gamma) in
        Ok (mk_vparams gamma phi [], ev)
    end.

  (** MultinomialSupervisedEStep.cpp 27-102.  Line 58 passes compute_likelihood_ as the
      tolerance. *)
  Definition multinomial_doc_e_step (cf : econf) (mu eta_weight : T) (emit : bool) (d : doc T) (m : params T)
    : outcome (vparams T * option T) :=
    let X := d_words d in
    let* N := int_sum X in
    match d_class d with
    | None => UB
    | Some yz =>
        if negb (sizes_ok d m && class_ok yz m && (yz <? Z.of_nat (length (d_priors d)))%Z) then UB else
        let y := Z.to_nat yz in
        let K := mrows (p_beta m) in
        let* (gamma, phi) :=
          em_loop (e_iterations cf) (e_compute_likelihood cf) fst
            (fun s => let* phi := compute_supervised_multinomial_phi y (p_beta m) (p_eta m) (fst s) eta_weight in
                      Ok (compute_gamma X (p_alpha m) phi, phi))
            (zeros K) (init_gamma (p_alpha m) N K, init_phi K (length X)) in
        let* ev := report emit
                     (compute_supervised_multinomial_likelihood X y (p_alpha m) (p_beta m) (p_eta m) phi gamma
                        (vget (d_priors d) y) mu (one / ofZ (d_corpus_size d))) in
        Ok (mk_vparams gamma phi [], ev)
    end.

  (** CorrespondenceSupervisedEStep.cpp 25-114 *)
  Definition correspondence_doc_e_step (cf : econf) (mu : T) (emit : bool) (d : doc T) (m : params T)
    : outcome (vparams T * option T) :=
    let X := d_words d in
    let* N := int_sum X in
    match d_class d with
    | None => UB
    | Some yz =>
        if negb (sizes_ok d m && class_ok yz m) then UB else
        let y := Z.to_nat yz in
        let K := mrows (p_beta m) in
        let V := length X in
        let* (gamma, phi, tau) :=
          em_loop (e_iterations cf) (e_tolerance cf) (fun s => fst (fst s))
            (fun s => let* phi := compute_supervised_correspondence_phi y (p_beta m) (p_eta m) (fst (fst s)) (snd s) in
                      let* tau := compute_supervised_correspondence_tau y (p_eta m) phi in
                      Ok (compute_gamma X (p_alpha m) phi, phi, tau))
            (zeros K) (init_gamma (p_alpha m) N K, init_phi K V, vtab V (fun _ => one / ofZ (Z.of_nat V))) in
        let* ev := report emit
                     (compute_supervised_correspondence_likelihood X y (p_alpha m) (p_beta m) (p_eta m) phi gamma tau
                        mu (one / ofZ (d_corpus_size d))) in
        Ok (mk_vparams gamma phi tau, ev)
    end.

  (** SupervisedEStep.cpp 25-91 *)
  Definition supervised_doc_e_step (cf : econf) (fpi : nat) (emit : bool) (d : doc T) (m : params T)
    : outcome (vparams T * option T) :=
    let X := d_words d in
    let* N := int_sum X in
    match d_class d with
    | None => UB
    | Some yz =>
        if negb (sizes_ok d m && class_ok yz m) then UB else
        let y := Z.to_nat yz in
        let K := mrows (p_beta m) in
        let* (gamma, phi, h) :=
          em_loop (e_iterations cf) (e_tolerance cf) (fun s => fst (fst s))
            (fun s => let* r := compute_supervised_phi_gamma X (ratio X N) y (p_beta m) (p_eta m) fpi
                                  (snd (fst s)) (fst (fst s)) (snd s) in
                      Ok (s_gamma r, s_phi r, s_h r))
            (zeros K) (init_gamma (p_alpha m) N K, init_phi K (length X), None) in
        let* ev := report emit
                     (compute_supervised_likelihood_h X y (p_alpha m) (p_beta m) (p_eta m) phi gamma h) in
        Ok (mk_vparams gamma phi [], ev)
    end.

  (** SemiSupervisedEStep.cpp 30-39 *)
  Definition semi_supervised_doc_e_step (supervised unsupervised : doc T -> params T -> outcome (vparams T * option T))
    (d : doc T) (m : params T) : outcome (vparams T * option T) :=
    match d_class d with
    | None => UB
    | Some y => if (y <? 0)%Z then unsupervised d m else supervised d m
    end.
End EStep.
Arguments slda : clear implicits.
Arguments econf : clear implicits.
Arguments mk_econf {T}. Arguments e_iterations {T}. Arguments e_tolerance {T}. Arguments e_compute_likelihood {T}.
Arguments mk_slda {T}. Arguments s_phi {T}. Arguments s_gamma {T}. Arguments s_products {T}. Arguments s_psi {T}. Arguments s_h {T}.
