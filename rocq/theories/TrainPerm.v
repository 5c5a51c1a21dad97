(** In exact arithmetic an epoch does not depend on the order of its documents, for every batch M step. *)
Require Import Reals ZArith List Bool Arith Lia Lra Permutation.
Require Import Verif.Base Verif.Scalar Verif.Mat Verif.UtilsModel Verif.BuilderModel Verif.EStepModel Verif.OptModel Verif.MStepModel Verif.MStepSpec Verif.MStepAny Verif.MStepBatch.
Import ListNotations.

Lemma fold_left_perm {A B} (f : A -> B -> A) (l l' : list B) : (forall a x y, f (f a x) y = f (f a y) x) -> Permutation l l' ->
  forall a, fold_left f l a = fold_left f l' a.
Proof.
  intros H P. induction P as [|x l l' _ IH|x y l|l l' l'' _ IH1 _ IH2]; intros a; cbn; [reflexivity|apply IH|now rewrite H|now rewrite IH1].
Qed.
Lemma fold_left_nth {A B} (f : A -> B -> A) (g : A -> nat -> A) (x0 : B) l : (forall a d, d < length l -> g a d = f a (nth d l x0)) ->
  forall a, fold_left g (seq 0 (length l)) a = fold_left f l a.
Proof.
  intros H. assert (X : forall k l' a, (forall a d, d < length l' -> g a (k + d) = f a (nth d l' x0)) ->
    fold_left g (seq k (length l')) a = fold_left f l' a).
  { intros k l'. revert k. induction l' as [|x l' IH]; intros k a H'; cbn; [reflexivity|].
    pose proof (H' a 0 (Nat.lt_0_succ _)) as H0. rewrite Nat.add_0_r in H0. rewrite H0. cbn [nth]. apply IH. intros b d Hd. specialize (H' b (S d)). cbn in H'. rewrite <- H' by lia. f_equal. lia. }
  intros a. apply X. exact H.
Qed.
Lemma perm_forallb {A} (f : A -> bool) l l' : Permutation l l' -> forallb f l = forallb f l'.
Proof.
  induction 1 as [|x l l' _ IH|x y l|l l' l'' _ IH1 _ IH2]; cbn; [reflexivity|now rewrite IH| |congruence].
  destruct (f x), (f y); reflexivity.
Qed.

Section Perm.
  Variable lg : R -> R.
  Local Hint Extern 0 (ops _) => exact (Rops lg) : typeclass_instances.
  Local Open Scope R_scope.

  (** *** sums *)
  Lemma totals_perm K V (a : item R -> nat -> nat -> R) l l' : Permutation l l' -> totals K V a l = totals K V a l'.
  Proof.
    intros P. unfold totals. apply fold_left_perm; [|exact P]. intros b x y. apply mtab_ext. intros i n Hi Hn. rewrite !mget_tab by assumption. cbn. lra.
  Qed.
  Lemma class_totals_perm K V C (a : item R -> nat -> nat -> R) l l' : Permutation l l' -> class_totals K V C a l = class_totals K V C a l'.
  Proof.
    intros P. unfold class_totals. apply fold_left_perm; [|exact P]. intros b x y. apply mtab_ext. intros i n Hi Hn.
    rewrite !mget_tab by assumption. destruct (Nat.eqb n _), (Nat.eqb n _); cbn; lra.
  Qed.
  Lemma class_log_perm K V (a : item R -> nat -> nat -> R) eta l l' : Permutation l l' -> class_log K V a eta l = class_log K V a eta l'.
  Proof. intros P. unfold class_log. apply fold_left_perm; [|exact P]. intros b x y. cbn. lra. Qed.

  (** *** training sets *)
  Lemma max_label_perm y y' : Permutation y y' -> max_label y = max_label y'.
  Proof.
    assert (F : forall r a b, fold_left Z.max r (Z.max a b) = Z.max a (fold_left Z.max r b)).
    { induction r as [|c r IH]; intros a b; cbn; [reflexivity|]. rewrite <- IH. f_equal. lia. }
    assert (C : forall (a x z : Z), Z.max (Z.max a x) z = Z.max (Z.max a z) x) by lia.
    induction 1 as [|x l l' Q IH|x y l|l l' l'' _ IH1 _ IH2]; [reflexivity| | |congruence].
    - cbn. f_equal. now apply fold_left_perm.
    - cbn. now rewrite Z.max_comm.
  Qed.
  Lemma class_weights_perm y y' : Permutation y y' -> class_weights (T := R) y = class_weights y'.
  Proof.
    intros P. unfold class_weights. rewrite (max_label_perm _ _ P). destruct (max_label y') as [m| |]; [|reflexivity..]. cbn [bind].
    rewrite (perm_forallb _ _ _ P). destruct (_ && _)%bool; [|reflexivity]. f_equal. apply vtab_ext. intros c Hc.
    rewrite (Permutation_length P). do 2 f_equal. unfold count_label. apply fold_left_perm; [|exact P].
    intros a u v. destruct (u =? _)%Z, (v =? _)%Z; reflexivity.
  Qed.
  Lemma fits_perm {A} K (f : A -> list R) (c : A -> Z) l l' Cy eta : Permutation l l' ->
    fits (mk_mat K (map f l)) (map c l) Cy eta = fits (mk_mat K (map f l')) (map c l') Cy eta.
  Proof.
    intros P. unfold fits, ncols. cbn [mrows mcols]. rewrite !map_length, (Permutation_length P). f_equal.
    apply perm_forallb. now apply Permutation_map.
  Qed.

  Section Sets.
    Context {A : Type} (K : nat) (f : A -> list R) (c : A -> Z) (v : A -> mat R).
    Definition column (x : A) : list R := vtab K (fun i => nth i (f x) 0).
    Definition class (x : A) : nat := Z.to_nat (c x).
    Lemma set_label (l : list A) x0 d : (d < length l)%nat -> label (map c l) d = class (nth d l x0).
    Proof. intros Hd. unfold label, class. rewrite (nth_indep _ 0%Z (c x0)) by now rewrite map_length. now rewrite map_nth. Qed.
    Lemma set_get (l : list A) x0 i d : (d < length l)%nat -> mget (mk_mat K (map f l)) i d = nth i (f (nth d l x0)) 0.
    Proof. intros Hd. unfold mget. cbn [mcols]. rewrite (nth_indep _ [] (f x0)) by now rewrite map_length. now rewrite map_nth. Qed.
    Lemma set_col_get (l : list A) x0 d : (d < length l)%nat -> mcol (mk_mat K (map f l)) d = column (nth d l x0).
    Proof. intros Hd. unfold mcol, column. cbn [mrows]. apply vtab_ext. intros i Hi. now apply set_get. Qed.
    Lemma set_var (l : list A) x0 d : (d < length l)%nat -> vnth (map v l) d = v (nth d l x0).
    Proof. intros Hd. unfold vnth. rewrite (nth_indep _ (mk_mat 0 []) (v x0)) by now rewrite map_length. now rewrite map_nth. Qed.

    Lemma mlr_value_perm l l' Cy L eta : Permutation l l' ->
      mlr_value (mk_mat K (map f l)) (map c l) Cy L eta = mlr_value (mk_mat K (map f l')) (map c l') Cy L eta.
    Proof.
      intros P. unfold mlr_value. rewrite (fits_perm K f c l l' Cy eta P). destruct (negb _); [reflexivity|].
      destruct l as [|x0 l0]; [apply Permutation_nil in P; now subst|]. do 3 f_equal.
      pose (F := fun a x => a + vget Cy (class x) * vget (matT_vec eta (column x)) (class x) - vget Cy (class x) * slog (redux (map sexp (matT_vec eta (column x))))).
      assert (E : forall m a, fold_left (fun l d => sub (add l (mul (vget Cy (label (map c m) d)) (vget (matT_vec eta (mcol (mk_mat K (map f m)) d)) (label (map c m) d))))
          (mul (vget Cy (label (map c m) d)) (slog (redux (map sexp (matT_vec eta (mcol (mk_mat K (map f m)) d))))))) (seq 0 (length (map c m))) a = fold_left F m a).
      { intros m a. rewrite map_length. apply (fold_left_nth F _ x0). intros b d Hd. unfold F.
        rewrite (set_label m x0 d Hd), (set_col_get m x0 d Hd). reflexivity. }
      rewrite (E (x0 :: l0) zero), (E l' zero). apply fold_left_perm; [|exact P]. intros a x y. unfold F. cbn. lra.
    Qed.
    Lemma mlr_gradient_perm l l' Cy L eta : Permutation l l' ->
      mlr_gradient (mk_mat K (map f l)) (map c l) Cy L eta = mlr_gradient (mk_mat K (map f l')) (map c l') Cy L eta.
    Proof.
      intros P. unfold mlr_gradient. rewrite (fits_perm K f c l l' Cy eta P). destruct (negb _); [reflexivity|].
      destruct l as [|x0 l0]; [apply Permutation_nil in P; now subst|].
      pose (F := fun g x => mtab (mrows eta) (ncols eta) (fun i k =>
        mget (mtab (mrows eta) (ncols eta) (fun i k => if Nat.eqb k (class x) then mget g i k - vget Cy (class x) * nth i (f x) 0 else mget g i k)) i k +
        vget Cy (class x) * (nth i (f x) 0 * vget (map sexp (matT_vec eta (column x))) k) / redux (map sexp (matT_vec eta (column x))))).
      match goal with |- Ok (mtab _ _ (fun i c0 => add (mget ?u i c0) _)) = Ok (mtab _ _ (fun i c0 => add (mget ?w i c0) _)) =>
        assert (E1 : u = fold_left F (x0 :: l0) (mtab (mrows eta) (ncols eta) (fun _ _ => zero)));
        [|assert (E2 : w = fold_left F l' (mtab (mrows eta) (ncols eta) (fun _ _ => zero))); [|rewrite E1, E2]] end.
      - rewrite map_length. apply (fold_left_nth F _ x0). intros b d Hd. unfold F. apply mtab_ext. intros i k Hi Hk.
        rewrite !mget_tab by assumption. rewrite (set_label (x0 :: l0) x0 d Hd), (set_col_get (x0 :: l0) x0 d Hd), !(set_get (x0 :: l0) x0 i d Hd). reflexivity.
      - rewrite map_length. apply (fold_left_nth F _ x0). intros b d Hd. unfold F. apply mtab_ext. intros i k Hi Hk.
        rewrite !mget_tab by assumption. rewrite (set_label l' x0 d Hd), (set_col_get l' x0 d Hd), !(set_get l' x0 i d Hd). reflexivity.
      - f_equal. apply mtab_ext. intros i k Hi Hk. do 2 f_equal. apply fold_left_perm; [|exact P]. intros a x y. unfold F. apply mtab_ext. intros i' k' Hi' Hk'.
        rewrite !mget_tab by assumption. destruct (Nat.eqb k' (class x)), (Nat.eqb k' (class y)); cbn [add sub mul div Rops]; lra.
    Qed.
    Lemma mlr_perm l l' L : Permutation l l' ->
      (class_weights (T := R) (map c l) = class_weights (map c l')) /\
      forall Cy, (forall eta, mlr_value (mk_mat K (map f l)) (map c l) Cy L eta = mlr_value (mk_mat K (map f l')) (map c l') Cy L eta) /\
      (forall eta, mlr_gradient (mk_mat K (map f l)) (map c l) Cy L eta = mlr_gradient (mk_mat K (map f l')) (map c l') Cy L eta).
    Proof.
      intros P. split; [now apply class_weights_perm, Permutation_map|]. intros Cy. split; intros eta; [now apply mlr_value_perm|now apply mlr_gradient_perm].
    Qed.

    Lemma fits_var_perm l l' eta : Permutation l l' -> fits_var (map v l) (map c l) eta = fits_var (map v l') (map c l') eta.
    Proof.
      intros P. unfold fits_var. rewrite !map_length, (Permutation_length P). f_equal. apply perm_forallb. now apply Permutation_map.
    Qed.
    Lemma so_value_perm l l' Cy L eta : Permutation l l' ->
      so_value (mk_mat K (map f l)) (map v l) (map c l) Cy L eta = so_value (mk_mat K (map f l')) (map v l') (map c l') Cy L eta.
    Proof.
      intros P. unfold so_value. rewrite (fits_perm K f c l l' Cy eta P), (fits_var_perm l l' eta P). destruct (negb _); [reflexivity|].
      destruct l as [|x0 l0]; [apply Permutation_nil in P; now subst|]. do 3 f_equal.
      pose (F := fun a x => a + vget Cy (class x) * vget (matT_vec eta (column x)) (class x) - vget Cy (class x) *
        slog (redux (vtab (length (matT_vec eta (column x))) (fun k => sexp (vget (matT_vec eta (column x)) k) *
          (one + half * vget (diagonal_mul (tr_mul eta (v x)) eta) k))))).
      match goal with |- ?u = ?w => assert (E1 : u = fold_left F (x0 :: l0) zero); [|assert (E2 : w = fold_left F l' zero); [|rewrite E1, E2]] end.
      - rewrite map_length. apply (fold_left_nth F _ x0). intros b d Hd. unfold F.
        rewrite (set_label (x0 :: l0) x0 d Hd), (set_col_get (x0 :: l0) x0 d Hd), (set_var (x0 :: l0) x0 d Hd). reflexivity.
      - rewrite map_length. apply (fold_left_nth F _ x0). intros b d Hd. unfold F.
        rewrite (set_label l' x0 d Hd), (set_col_get l' x0 d Hd), (set_var l' x0 d Hd). reflexivity.
      - apply fold_left_perm; [|exact P]. intros a x y. unfold F. cbn [add sub mul Rops]. lra.
    Qed.
    (** one document's part of the gradient *)
    Definition so_part (eta : mat R) (x : A) : R * mat R :=
      let eta_Ez : list R := map sexp (matT_vec eta (column x)) in
      let eta_Vz : mat R := tr_mul eta (v x) in
      let eta_Vz_eta : list R := diagonal_mul eta_Vz eta in
      let eta_Vt : mat R := tr_mul eta (transpose (v x)) in
      let eta_Vz : mat R := mtab (ncols eta) (mrows eta) (fun c i => div (add (mget eta_Vz c i) (mget eta_Vt c i)) (ofZ 2)) in
      let normalizer : R := add (redux eta_Ez) (mul half (dot eta_Ez eta_Vz_eta)) in
      (normalizer, mtab (mrows eta) (ncols eta) (fun i c => add (mul (nth i (f x) 0) (mul (vget eta_Ez c) (add one (mul half (vget eta_Vz_eta c)))))
                                         (mul (mget eta_Vz c i) (vget eta_Ez c)))).
    Definition so_step (Cy : list R) (eta : mat R) (g : mat R) (x : A) : mat R :=
      let w : R := vget Cy (class x) in
      let g : mat R := mtab (mrows eta) (ncols eta) (fun i k => if Nat.eqb k (class x) then sub (mget g i k) (mul w (nth i (f x) 0)) else mget g i k) in
      mtab (mrows eta) (ncols eta) (fun i c => add (mget g i c) (mul (mul w (div one (fst (so_part eta x)))) (mget (snd (so_part eta x)) i c))).
    Lemma so_step_comm Cy eta g x y : so_step Cy eta (so_step Cy eta g x) y = so_step Cy eta (so_step Cy eta g y) x.
    Proof.
      unfold so_step. cbv zeta. generalize (so_part eta x) (so_part eta y). intros px py. apply mtab_ext. intros i k Hi Hk.
      rewrite !(mget_tab (mrows eta) (ncols eta)) by assumption.
      repeat match goal with |- context [div one ?e] => generalize (div one e); intros ? end.
      repeat match goal with |- context [mget (snd ?e) i k] => generalize (mget (snd e) i k); intros ? end.
      destruct (Nat.eqb k (class x)), (Nat.eqb k (class y)); cbn [add sub mul Rops]; lra.
    Qed.
    Lemma so_gradient_fold (l : list A) (x0 : A) Cy L eta :
      so_gradient (mk_mat K (map f l)) (map v l) (map c l) Cy L eta =
      if negb (fits (mk_mat K (map f l)) (map c l) Cy eta && fits_var (map v l) (map c l) eta) then UB else
      Ok (mtab (mrows eta) (ncols eta) (fun i k => add (mget (fold_left (so_step Cy eta) l (mtab (mrows eta) (ncols eta) (fun _ _ => zero))) i k) (mul (mget eta i k) L))).
    Proof.
      unfold so_gradient. destruct (negb _); [reflexivity|]. cbv zeta. f_equal. apply mtab_ext. intros i k Hi Hk. do 2 f_equal.
      rewrite map_length. apply (fold_left_nth (so_step Cy eta) _ x0). intros b d Hd. unfold so_step, so_part. cbv zeta. cbn [fst snd]. apply mtab_ext. intros i' k' Hi' Hk'.
      rewrite !(mget_tab (mrows eta) (ncols eta)) by assumption.
      rewrite (set_label l x0 d Hd), (set_col_get l x0 d Hd), (set_var l x0 d Hd), !(set_get l x0 i' d Hd). reflexivity.
    Qed.
    Lemma so_gradient_perm l l' Cy L eta : Permutation l l' ->
      so_gradient (mk_mat K (map f l)) (map v l) (map c l) Cy L eta = so_gradient (mk_mat K (map f l')) (map v l') (map c l') Cy L eta.
    Proof.
      intros P. destruct l as [|x0 l0]; [apply Permutation_nil in P; now subst|].
      rewrite !(fun l => so_gradient_fold l x0 Cy L eta), (fits_perm K f c _ _ Cy eta P), (fits_var_perm _ _ eta P).
      destruct (negb _); [reflexivity|]. f_equal. apply mtab_ext. intros i k Hi Hk. do 2 f_equal.
      apply fold_left_perm; [|exact P]. intros a x y. apply so_step_comm.
    Qed.
  End Sets.

  (** *** gradient descent sees only the values and gradients *)
  Lemma armijo_ext (p q : problem R) : (forall x, value p x = value q x) -> forall fuel beta tau x g d,
    armijo_search fuel beta tau p x g d = armijo_search fuel beta tau q x g d.
  Proof.
    intros H fuel beta tau x g d. unfold armijo_search. rewrite H. destruct (value q x) as [v0| |]; [|reflexivity..]. cbn [bind].
    assert (L : forall dec v a, armijo_loop fuel tau p x d v0 dec v a = armijo_loop fuel tau q x d v0 dec v a).
    { induction fuel as [|n IH]; intros dec v a; cbn [armijo_loop]; [reflexivity|]. destruct (ltb _ _); [|reflexivity].
      rewrite H. destruct (value q _); cbn [bind]; [apply IH|reflexivity..]. }
    now rewrite L.
  Qed.
  Lemma minimize_ext {St} (p q : problem R) search progress : (forall x, gradient p x = gradient q x) ->
    (forall x g d, search p x g d = search q x g d) -> forall fuel x v it (s : St),
    minimize fuel search progress p x v it s = minimize fuel search progress q x v it s.
  Proof.
    intros H S. induction fuel as [|n IH]; intros x v it s; cbn [minimize]; [reflexivity|].
    destruct (progress s v it) as [[] s']; [|reflexivity]. rewrite H. destruct (gradient q x); cbn [bind]; [|reflexivity..].
    rewrite S. destruct (search q x a a) as [[x' v']| |]; cbn [bind]; [apply IH|reflexivity..].
  Qed.
  Lemma fit_eta_ext (p q : problem R) fuel limit tolerance eta : (forall x, value p x = value q x) -> (forall x, gradient p x = gradient q x) ->
    fit_eta fuel limit tolerance p eta = fit_eta fuel limit tolerance q eta.
  Proof.
    intros H G. unfold fit_eta. rewrite H. destruct (value q eta) as [v| |]; [|reflexivity..]. cbn [bind].
    rewrite (minimize_ext p q); [reflexivity|exact G|]. intros. now apply armijo_ext.
  Qed.
  Lemma trained_perm fuel limit tolerance L K l l' m : Permutation l l' -> trained fuel limit tolerance L K l m = trained fuel limit tolerance L K l' m.
  Proof.
    intros P. unfold trained, mlr. destruct (mlr_perm K (mixture K (p_alpha m)) class_of l l' L P) as [-> H].
    destruct (class_weights _) as [Cy| |]; cbn [bind]; [|reflexivity..]. destruct (H Cy). now apply fit_eta_ext.
  Qed.
  Lemma trained_slda_perm fuel limit tolerance L K V l l' m : Permutation l l' -> trained_slda fuel limit tolerance L K V l m = trained_slda fuel limit tolerance L K V l' m.
  Proof.
    intros P. unfold trained_slda, so. rewrite (class_weights_perm _ _ (Permutation_map class_of P)).
    destruct (class_weights _) as [Cy| |]; cbn [bind]; [|reflexivity..]. apply fit_eta_ext; intros x; cbn [value gradient]; [now apply so_value_perm|now apply so_gradient_perm].
  Qed.
  Lemma filter_perm {A} (f : A -> bool) l l' : Permutation l l' -> Permutation (filter f l) (filter f l').
  Proof.
    induction 1 as [|x l l' _ IH|x y l|l l' l'' _ IH1 _ IH2]; cbn; [constructor|destruct (f x); auto| |eauto using Permutation_trans].
    destruct (f x), (f y); auto. constructor.
  Qed.
  Lemma Forall_perm {A} (P : A -> Prop) l l' : Permutation l l' -> Forall P l -> Forall P l'.
  Proof. intros H. rewrite !Forall_forall. intros F x Hx. apply F. eapply Permutation_in; [apply Permutation_sym|]; eassumption. Qed.

  Lemma epoch_perm K V C (HK : (0 < K)%nat) St M new a P Q : batch_step (T := R) K V C St M new a P Q ->
    forall l l' m, P m -> Forall (fun x => sized K V x /\ Q x) l -> l <> [] -> Permutation l l' ->
    visible (mrun M (epoch l) m new) = visible (mrun M (epoch l') m new).
  Proof.
    intros B l l' m Hm Hl Hn Pl. pose proof (Forall_perm _ _ _ Pl Hl) as Hl'.
    assert (Hn' : l' <> []) by (intros ->; apply Permutation_sym, Permutation_nil in Pl; congruence).
    pose proof (Forall_and_l _ _ _ Hl) as S1. pose proof (Forall_and_l _ _ _ Hl') as S1'.
    pose proof (Forall_and_r _ _ _ Hl) as C1. pose proof (Forall_and_r _ _ _ Hl') as C1'. destruct B.
    - rewrite !(unsupervised_epoch K V HK) by (try assumption; now left). cbn [visible].
      unfold word_counts. now rewrite (totals_perm K V assigned l l' Pl).
    - rewrite !(fast_epoch K V HK) by (try assumption; exact (fast_new_idle K V HK)).
      unfold word_counts. now rewrite (totals_perm K V assigned l l' Pl), (trained_perm fuel limit tolerance L K l l' m Pl).
    - rewrite !(semi_epoch K V HK) by (try assumption; exact (fast_new_idle K V HK)).
      unfold word_counts. now rewrite (totals_perm K V assigned l l' Pl), (trained_perm fuel limit tolerance L K _ _ m (filter_perm labelled _ _ Pl)).
    - assert (N : sup_idle K V new_sup) by (split; [exact (fast_new_idle K V HK)|reflexivity]).
      rewrite (sup_epoch K V HK fuel limit tolerance L new_sup l m N Hm S1 (Forall_and_r _ _ _ C1) (Forall_and_l _ _ _ C1) Hn).
      rewrite (sup_epoch K V HK fuel limit tolerance L new_sup l' m N Hm S1' (Forall_and_r _ _ _ C1') (Forall_and_l _ _ _ C1') Hn').
      unfold word_counts. now rewrite (totals_perm K V assigned l l' Pl), (trained_slda_perm fuel limit tolerance L K V l l' m Pl).
    - assert (N : stats_fresh K V C new_stats) by now left. destruct Hm as [U1 U2].
      change (multinomial_maximizer mu) with (mk_maximizer (fun s m d v => let* s := multinomial_doc s m d v in Ok (m, s, [])) (stats_m mu)).
      rewrite (multinomial_epoch K V C HK mu new_stats l m N U1 U2 S1 (proj2 (Forall_forall _ _) (fun _ _ => I)) C1 Hn).
      rewrite (multinomial_epoch K V C HK mu new_stats l' m N U1 U2 S1' (proj2 (Forall_forall _ _) (fun _ _ => I)) C1' Hn').
      now rewrite (totals_perm K V assigned l l' Pl), (class_totals_perm K V C assigned l l' Pl), (class_log_perm K V assigned (p_eta m) l l' Pl).
    - assert (N : stats_fresh K V C new_stats) by now left. destruct Hm as [U1 U2].
      change (correspondence_maximizer mu) with (mk_maximizer (fun s m d v => let* s := correspondence_doc s m d v in Ok (m, s, [])) (stats_m mu)).
      rewrite (correspondence_epoch K V C HK mu new_stats l m N U1 U2 S1 (Forall_and_r _ _ _ C1) (Forall_and_l _ _ _ C1) Hn).
      rewrite (correspondence_epoch K V C HK mu new_stats l' m N U1 U2 S1' (Forall_and_r _ _ _ C1') (Forall_and_l _ _ _ C1') Hn').
      now rewrite (totals_perm K V assigned_tau l l' Pl), (class_totals_perm K V C assigned_tau l l' Pl), (class_log_perm K V assigned_tau (p_eta m) l l' Pl).
  Qed.
End Perm.
