(** Model of src/ldaplusplus/optimization and include/ldaplusplus/optimization/GradientDescent.hpp.

    Arithmetic is that of the scalar type [T]; double literals (0.5, 1.) are taken in [T].
    Accesses outside a vector or matrix and operations on matrices of different sizes are
    undefined and tested at the start of each function. *)
Require Import ZArith List Bool Arith.
Require Import Verif.Base Verif.Scalar Verif.Mat Verif.UtilsModel.
Import ListNotations.

(** What GradientDescent and LineSearch ask of their ProblemType. *)
Record problem (T : Type) := mk_problem { value : mat T -> outcome T; gradient : mat T -> outcome (mat T) }.
Arguments mk_problem {T}. Arguments value {T}. Arguments gradient {T}.

Section Opt.
  Context {T : Type} {O : ops T}.
  Open Scope sc_scope.
  Definition half : T := one / ofZ 2.

  (** ** Training sets *)

  (** y.maxCoeff(); undefined for an empty vector *)
  Definition max_label (y : list Z) : outcome Z :=
    match y with [] => UB | l :: r => Ok (fold_left Z.max r l) end.
  (** Cy_(y_[d]) += 1 for every d: coefficient c *)
  Definition count_label (y : list Z) (c : nat) : T :=
    fold_left (fun n l => if (l =? Z.of_nat c)%Z then n + one else n) y zero.
  (** MultinomialLogisticRegression.cpp 9-27 and SecondOrderLogisticRegressionApproximation.cpp
      10-28, applications/utils.cpp 6-17 (create_class_weights): the class weights D / (count * C), with C the
      largest label plus one *)
  Definition class_weights (y : list Z) : outcome (list T) :=
    let* m := max_label y in
    if (forallb (fun l => 0 <=? l)%Z y && (m <? 2 ^ 31 - 1)%Z)%bool then
      let C := (m + 1)%Z in
      Ok (vtab (Z.to_nat C) (fun c => ofZ (Z.of_nat (length y)) / (count_label y c * ofZ C)))
    else UB.

  (** labels index the weights and the columns of eta; X has as many rows as eta and a column
      per label *)
  Definition fits (X : mat T) (y : list Z) (Cy : list T) (eta : mat T) : bool :=
    Nat.eqb (mrows X) (mrows eta) && Nat.leb (length y) (ncols X) &&
    forallb (fun l => (0 <=? l)%Z && (l <? Z.of_nat (length Cy))%Z && (l <? Z.of_nat (ncols eta))%Z) y.
  Definition label (y : list Z) (d : nat) : nat := Z.to_nat (nth d y 0%Z).

  (** eta.squaredNorm() *)
  Definition squared_norm (eta : mat T) : T := redux (map (fun x => x * x) (mall eta)).

  (** ** MultinomialLogisticRegression *)

  (** MultinomialLogisticRegression.cpp 39-60 (value) *)
  Definition mlr_value (X : mat T) (y : list Z) (Cy : list T) (L : T) (eta : mat T) : outcome T :=
    if negb (fits X y Cy eta) then UB else
    let likelihood := fold_left (fun l d =>
      let t := matT_vec eta (mcol X d) in
      let l := l + vget Cy (label y d) * vget t (label y d) in
      l - vget Cy (label y d) * slog (redux (map sexp t))) (seq 0 (length y)) zero in
    Ok (- likelihood + L * squared_norm eta / ofZ 2).

  (** MultinomialLogisticRegression.cpp 63-77 (gradient) *)
  Definition mlr_gradient (X : mat T) (y : list Z) (Cy : list T) (L : T) (eta : mat T) : outcome (mat T) :=
    if negb (fits X y Cy eta) then UB else
    let K := mrows eta in let C := ncols eta in
    let grad := fold_left (fun g d =>
      let g := mtab K C (fun i c => if Nat.eqb c (label y d) then mget g i c - vget Cy (label y d) * mget X i d
                                    else mget g i c) in
      let t := map sexp (matT_vec eta (mcol X d)) in
      mtab K C (fun i c => mget g i c + vget Cy (label y d) * (mget X i d * vget t c) / redux t))
      (seq 0 (length y)) (mtab K C (fun _ _ => zero)) in
    Ok (mtab K C (fun i c => mget grad i c + mget eta i c * L)).

  (** The problem made by the three-argument constructor. *)
  Definition mlr (X : mat T) (y : list Z) (L : T) : outcome (problem T) :=
    let* Cy := class_weights y in
    Ok (mk_problem (mlr_value X y Cy L) (mlr_gradient X y Cy L)).

  (** ** SecondOrderLogisticRegressionApproximation *)

  (** a.transpose() * b, as rows: entry (i, j) is the dot product of column i of a and column j of b *)
  Definition tr_mul (a b : mat T) : mat T := mtab (ncols a) (ncols b) (fun i j => dot (mcol a i) (mcol b j)).
  Definition transpose (a : mat T) : mat T := mtab (ncols a) (mrows a) (fun i j => mget a j i).
  (** (a * b).diagonal() *)
  Definition diagonal_mul (a b : mat T) : list T := vtab (mrows a) (fun c => dot (mrow a c) (mcol b c)).
  (** X_var_ holds a square matrix of the size of eta's columns for every label *)
  Definition fits_var (V : list (mat T)) (y : list Z) (eta : mat T) : bool :=
    Nat.leb (length y) (length V) &&
    forallb (fun v => Nat.eqb (mrows v) (mrows eta) && Nat.eqb (ncols v) (mrows eta)) V.
  Definition vnth (V : list (mat T)) (d : nat) : mat T := nth d V (mk_mat 0 []).

  (** SecondOrderLogisticRegressionApproximation.cpp 42-60 (value) *)
  Definition so_value (X : mat T) (V : list (mat T)) (y : list Z) (Cy : list T) (L : T) (eta : mat T) : outcome T :=
    if negb (fits X y Cy eta && fits_var V y eta) then UB else
    let likelihood := fold_left (fun l d =>
      let t := matT_vec eta (mcol X d) in
      let q := diagonal_mul (tr_mul eta (vnth V d)) eta in
      let l := l + vget Cy (label y d) * vget t (label y d) in
      l - vget Cy (label y d) *
          slog (redux (vtab (length t) (fun c => sexp (vget t c) * (one + half * vget q c)))))
      (seq 0 (length y)) zero in
    Ok (- likelihood + L * squared_norm eta / ofZ 2).

  (** SecondOrderLogisticRegressionApproximation.cpp 63-94 (gradient) *)
  Definition so_gradient (X : mat T) (V : list (mat T)) (y : list Z) (Cy : list T) (L : T) (eta : mat T)
    : outcome (mat T) :=
    if negb (fits X y Cy eta && fits_var V y eta) then UB else
    let K := mrows eta in let C := ncols eta in
    let grad := fold_left (fun g d =>
      let w := vget Cy (label y d) in
      let g := mtab K C (fun i c => if Nat.eqb c (label y d) then mget g i c - w * mget X i d else mget g i c) in
      let eta_Ez := map sexp (matT_vec eta (mcol X d)) in
      let eta_Vz := tr_mul eta (vnth V d) in
      let eta_Vz_eta := diagonal_mul eta_Vz eta in
      let eta_Vt := tr_mul eta (transpose (vnth V d)) in
      let eta_Vz := mtab C K (fun c i => (mget eta_Vz c i + mget eta_Vt c i) / ofZ 2) in
      let normalizer := redux eta_Ez + half * dot eta_Ez eta_Vz_eta in
      let grad_d := mtab K C (fun i c => mget X i d * (vget eta_Ez c * (one + half * vget eta_Vz_eta c))
                                         + mget eta_Vz c i * vget eta_Ez c) in
      mtab K C (fun i c => mget g i c + w * (one / normalizer) * mget grad_d i c))
      (seq 0 (length y)) (mtab K C (fun _ _ => zero)) in
    Ok (mtab K C (fun i c => mget grad i c + mget eta i c * L)).

  Definition so (X : mat T) (V : list (mat T)) (y : list Z) (L : T) : outcome (problem T) :=
    let* Cy := class_weights y in
    Ok (mk_problem (so_value X V y Cy L) (so_gradient X V y Cy L)).

  (** ** Line search and gradient descent *)

  (** x0 - a * direction *)
  Definition step (x0 : mat T) (a : T) (direction : mat T) : mat T :=
    mtab (mrows x0) (ncols x0) (fun i j => mget x0 i j - a * mget direction i j).

  (** GradientDescent.hpp 63-72 (ConstantLineSearch::search) *)
  Definition constant_search (alpha : T) (p : problem T) (x0 grad direction : mat T) : outcome (mat T * T) :=
    let x := step x0 alpha direction in
    let* v := value p x in Ok (x, v).

  (** GradientDescent.hpp 125-129: the loop; with fuel *)
  Fixpoint armijo_loop (fuel : nat) (tau : T) (p : problem T) (x0 direction : mat T) (value_x0 decrease v a : T)
    : outcome (T * T) :=
    if value_x0 - a * decrease <? v then
      match fuel with
      | 0 => Throw ENotFinished
      | S f => let a := a * tau in
               let* v := value p (step x0 a direction) in
               armijo_loop f tau p x0 direction value_x0 decrease v a
      end
    else Ok (v, a).
  (** GradientDescent.hpp 113-134 (ArmijoLineSearch::search) *)
  Definition armijo_search (fuel : nat) (beta tau : T) (p : problem T) (x0 grad direction : mat T)
    : outcome (mat T * T) :=
    let* value_x0 := value p x0 in
    let decrease := beta * redux (mall (mtab (mrows grad) (ncols grad) (fun i j => mget grad i j * mget direction i j))) in
    let* (v, a) := armijo_loop fuel tau p x0 direction value_x0 decrease value_x0 (one / tau) in
    Ok (step x0 a direction, v).

  (** GradientDescent.hpp 186-201 (minimize), with fuel.  The callback gets the value and the number of
      iterations; [St] is what it remembers between calls.  Simplification: the norm of the
      gradient is not passed (at the first call the code passes the norm of memory not yet
      written; no callback of the library looks at it). *)
  Fixpoint minimize {St} (fuel : nat) (search : problem T -> mat T -> mat T -> mat T -> outcome (mat T * T))
    (progress : St -> T -> nat -> bool * St) (p : problem T) (x : mat T) (v : T) (iterations : nat) (s : St)
    : outcome (mat T * St) :=
    let (go, s) := progress s v iterations in
    if go then
      match fuel with
      | 0 => Throw ENotFinished
      | S f =>
          let* g := gradient p x in
          let* (x, v) := search p x g g in
          minimize f search progress p x v (S iterations) s
      end
    else Ok (x, s).

  (** ** The callback of the M steps *)

  (** FastSupervisedMStep.cpp 76-92, SupervisedMStep.cpp 93-109.  The state: initial_value ([None] for
      INFINITY, which [T] may not have) and the values dispatched so far, newest first.  For floating-point numbers
      (INFINITY - v) / v is above a finite tolerance exactly when v is finite and not negative.  (For v = -0 the code
      stops; simplified.  The objectives are -0 only if the penalty is negative.) *)
  Definition m_progress (limit : nat) (tolerance : T) (s : option T * list T) (v : T) (iterations : nat)
    : bool * (option T * list T) :=
    let improved := match fst s with
                    | None => (negb (v <? zero) && (v - v =? zero))%bool
                    | Some initial => tolerance <? (initial - v) / v
                    end in
    (Nat.ltb iterations limit && improved, (Some v, - v :: snd s))%bool.
  (** FastSupervisedMStep.cpp 72-94, SupervisedMStep.cpp 84-111: the fitted eta and the dispatched
      values in order.  ArmijoLineSearch's defaults: beta = 0.001, tau = 0.5. *)
  Definition fit_eta (fuel limit : nat) (tolerance : T) (p : problem T) (eta : mat T) : outcome (mat T * list T) :=
    let* v := value p eta in
    let* (eta, s) := minimize fuel (armijo_search fuel (one / ofZ 1000) half) (m_progress limit tolerance)
                       p eta v 0 (None, []) in
    Ok (eta, rev (snd s)).
End Opt.
