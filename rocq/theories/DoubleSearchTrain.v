(** The fits of the supervised M steps in double precision. *)
Require Import Reals ZArith List Bool Arith Lia Lra Permutation.
From Flocq Require Import Core.Core IEEE754.BinarySingleNaN.
Require Import Verif.Base Verif.Scalar Verif.Mat Verif.HostModel Verif.UtilsModel Verif.BuilderModel Verif.EStepModel Verif.OptModel Verif.MStepModel Verif.MStepSpec Verif.MStepAny.
Require Import Verif.DoubleSpec Verif.DoubleSearchSpec Verif.DoubleArith Verif.DoubleUtils Verif.DoubleProofs Verif.DoubleSearch Verif.DoubleSearchProofs.
Import ListNotations.
Open Scope nat_scope.

Section Train.
  Variables (lg ex lga : double -> double) (sum : list double -> double).
  Local Hint Extern 0 (ops _) => exact (DO lg ex lga sum) : typeclass_instances.
  Hypothesis Hsum : forall l, summed l (sum l).

  Lemma max_of y x : fold_left Z.max y x = fold_right Z.max x y.
  Proof. revert x. induction y as [|a y IH]; intros x; [reflexivity|]. cbn [fold_left fold_right]. rewrite IH. clear IH. induction y as [|b y IH]; cbn [fold_right]; lia. Qed.
  Lemma max_ge y x l : l = x \/ In l y -> (l <= fold_left Z.max y x)%Z.
  Proof. rewrite max_of. induction y as [|a y IH]; cbn [fold_right]; intros [->|H]; [lia|destruct H|specialize (IH (or_introl eq_refl)); lia|]. destruct H as [->|H]; [lia|]. specialize (IH (or_intror H)). lia. Qed.
  Lemma max_in y x : fold_left Z.max y x = x \/ In (fold_left Z.max y x) y.
  Proof. rewrite max_of. induction y as [|a y IH]; cbn [fold_right]; [now left|]. destruct (Z.max_spec a (fold_right Z.max x y)) as [[_ E]|[_ E]]; rewrite E; [destruct IH as [IH|IH]; [now left|right; now right]|right; now left]. Qed.
  Lemma class_weights_ok y : y <> [] -> (forall l, In l y -> (0 <= l < 2 ^ 31 - 1)%Z) ->
    exists Cy : list double, class_weights y = Ok Cy /\ forall l, In l y -> (l < Z.of_nat (length Cy))%Z.
  Proof.
    intros Hn Hl. destruct y as [|x y]; [congruence|]. unfold class_weights, max_label. cbn [bind].
    assert (A : forallb (fun l => 0 <=? l)%Z (x :: y) = true) by (apply forallb_forall; intros l H; apply Z.leb_le; now apply Hl).
    assert (I : In (fold_left Z.max y x) (x :: y)) by (destruct (max_in y x) as [->|H]; [now left|now right]).
    rewrite A. replace (fold_left Z.max y x <? 2 ^ 31 - 1)%Z with true by (symmetry; apply Z.ltb_lt; now apply Hl). cbn [andb]. eexists. split; [reflexivity|].
    intros l H. rewrite vtab_length. pose proof (proj1 (Hl _ I)). rewrite Z2Nat.id by lia. pose proof (max_ge y x l ltac:(destruct H as [->|H]; auto)). lia.
  Qed.

  (** ** The objectives of the library *)
  Definition fitting (X : mat double) (y : list Z) (eta : mat double) : Prop := mrows X = mrows eta /\ length y <= ncols X /\ y <> [] /\ forall l, In l y -> (0 <= l < Z.min (Z.of_nat (ncols eta)) (2 ^ 31 - 1))%Z.
  Lemma fits_ok X y (Cy : list double) eta e : fitting X y eta -> (forall l, In l y -> (l < Z.of_nat (length Cy))%Z) -> same_size e eta -> fits X y Cy e = true.
  Proof.
    intros (F1 & F2 & _ & F3) HC [S1 S2]. unfold fits. rewrite S1, S2, F1, Nat.eqb_refl. replace (Nat.leb (length y) (ncols X)) with true by (symmetry; now apply Nat.leb_le). cbn [andb].
    apply forallb_forall. intros l Hl. specialize (F3 l Hl). specialize (HC l Hl). rewrite !andb_true_iff, Z.leb_le, !Z.ltb_lt. lia.
  Qed.
  Lemma mlr_good X y L eta : fitting X y eta -> exists p, mlr X y L = Ok p /\ total p eta /\ passes_nan p.
  Proof.
    intros F. destruct (class_weights_ok y) as (Cy & E & HC); [apply F|intros l Hl; destruct F as (_ & _ & _ & F); specialize (F l Hl); lia|].
    unfold mlr. rewrite E. cbn [bind]. eexists. split; [reflexivity|]. split.
    - intros e S. cbn [value gradient]. unfold mlr_value, mlr_gradient. rewrite (fits_ok _ _ _ _ _ F HC S). cbn [negb]. split; [eexists; reflexivity|]. eexists. split; [reflexivity|].
      destruct S as [S1 S2]. split; [rewrite mrows_tab; exact S1|rewrite ncols_tab; exact S2].
    - intros e v P V N. cbn [value] in V. unfold mlr_value in V. destruct (negb _); [discriminate V|]. match type of V with Ok (- ?l + _)%S = _ => pose proof (norm_nan lg ex lga sum Hsum l L e P N) as W end. unfold plus_norm in W. congruence.
  Qed.
  Definition fitting_var (V : list (mat double)) (y : list Z) (eta : mat double) : Prop := length y <= length V /\ forall v, In v V -> mrows v = mrows eta /\ ncols v = mrows eta.
  Lemma so_good X V y L eta : fitting X y eta -> fitting_var V y eta -> exists p, so X V y L = Ok p /\ total p eta /\ passes_nan p.
  Proof.
    intros F FV. destruct (class_weights_ok y) as (Cy & E & HC); [apply F|intros l Hl; destruct F as (_ & _ & _ & F); specialize (F l Hl); lia|].
    unfold so. rewrite E. cbn [bind]. eexists. split; [reflexivity|]. split.
    - intros e S. cbn [value gradient]. unfold so_value, so_gradient. rewrite (fits_ok _ _ _ _ _ F HC S).
      assert (FE : fits_var V y e = true).
      { destruct FV as [FV1 FV2], S as [S1 S2]. unfold fits_var. apply andb_true_iff. split; [now apply Nat.leb_le|]. apply forallb_forall. intros v Hv. destruct (FV2 v Hv). rewrite andb_true_iff, !Nat.eqb_eq. split; congruence. }
      rewrite FE. cbn [negb andb]. split; [eexists; reflexivity|]. eexists. split; [reflexivity|].
      destruct S as [S1 S2]. split; [rewrite mrows_tab; exact S1|rewrite ncols_tab; exact S2].
    - intros e v P W N. cbn [value] in W. unfold so_value in W. destruct (negb _); [discriminate W|]. match type of W with Ok (- ?l + _)%S = _ => pose proof (norm_nan lg ex lga sum Hsum l L e P N) as W' end. unfold plus_norm in W'. congruence.
  Qed.

  (** ** The supervised M steps *)
  Section MSteps.
    Variables (K V C fuel limit : nat) (tolerance L : double).
    Hypotheses (HK : 0 < K) (HC : (Z.of_nat C < 2 ^ 31)%Z) (Hf : 1076 <= fuel) (Hl : limit <= fuel).
    Notation eta_good := (coefficients K C).

    Lemma trained_ends l m : eta_good (p_eta m) -> l <> [] -> Forall (classified C) l -> exists eta e, trained fuel limit tolerance L K l m = Ok (eta, e) /\ eta_good eta.
    Proof.
      intros (P & N & S1 & S2) Hn Hc. unfold trained. destruct (mlr_good (mk_mat K (map (mixture K (p_alpha m)) l)) (map class_of l) L (p_eta m)) as (p & Ep & T & _).
      { split; [now symmetry|]. unfold ncols. cbn [mcols]. rewrite !map_length. split; [lia|]. split; [destruct l; [congruence|discriminate]|]. intros c Hx. apply in_map_iff in Hx. destruct Hx as (x & <- & Hx).
        rewrite Forall_forall in Hc. destruct (Hc x Hx) as (c & Ec & Bc). unfold class_of. rewrite Ec. fold (ncols (p_eta m)). rewrite S2. lia. }
      rewrite Ep. cbn [bind]. destruct (fit_eta_ends lg ex lga sum Hsum p limit tolerance fuel (p_eta m) Hf Hl P N T) as (eta & e & E & P' & N' & S1' & S2').
      exists eta, e. split; [exact E|]. repeat split; try assumption; congruence.
    Qed.
    Lemma trained_slda_ends l m : eta_good (p_eta m) -> l <> [] -> Forall (classified C) l -> exists eta e, trained_slda fuel limit tolerance L K V l m = Ok (eta, e) /\ eta_good eta.
    Proof.
      intros (P & N & S1 & S2) Hn Hc. unfold trained_slda. destruct (so_good (mk_mat K (map (mean_topics K (p_alpha m)) l)) (map (second_moment K V) l) (map class_of l) L (p_eta m)) as (p & Ep & T & _).
      { split; [now symmetry|]. unfold ncols. cbn [mcols]. rewrite !map_length. split; [lia|]. split; [destruct l; [congruence|discriminate]|]. intros c Hx. apply in_map_iff in Hx. destruct Hx as (x & <- & Hx).
        rewrite Forall_forall in Hc. destruct (Hc x Hx) as (c & Ec & Bc). unfold class_of. rewrite Ec. fold (ncols (p_eta m)). rewrite S2. lia. }
      { split; [rewrite !map_length; lia|]. intros v Hv. apply in_map_iff in Hv. destruct Hv as (x & <- & _). unfold second_moment. rewrite mrows_tab, ncols_tab. split; congruence. }
      rewrite Ep. cbn [bind]. destruct (fit_eta_ends lg ex lga sum Hsum p limit tolerance fuel (p_eta m) Hf Hl P N T) as (eta & e & E & P' & N' & S1' & S2').
      exists eta, e. split; [exact E|]. repeat split; try assumption; congruence.
    Qed.

    (** what the reports say *)
    Lemma fit_closes p eta eta' v0 reports : is_finite tolerance = true -> (0 <= B2R tolerance)%R -> proper eta -> no_minus_zero eta -> total p eta -> passes_nan p ->
      value p eta = Ok v0 -> fit_eta fuel limit tolerance p eta = Ok (eta', reports) -> closes p v0 eta' reports.
    Proof. intros Ft Pt P N T Q. exact (fit_eta_reports lg ex lga sum Hsum p limit tolerance fuel eta eta' v0 reports Hf Ft Pt Q P N T). Qed.
    Lemma trained_closes l m p v0 eta' reports : is_finite tolerance = true -> (0 <= B2R tolerance)%R -> eta_good (p_eta m) -> l <> [] -> Forall (classified C) l ->
      mlr (mk_mat K (map (mixture K (p_alpha m)) l)) (map class_of l) L = Ok p -> value p (p_eta m) = Ok v0 -> trained fuel limit tolerance L K l m = Ok (eta', reports) -> closes p v0 eta' reports.
    Proof.
      clear HK Hl.
      intros Ft Pt (P & N & S1 & S2) Hn Hc Ep Ev. unfold trained. rewrite Ep. cbn [bind]. destruct (mlr_good (mk_mat K (map (mixture K (p_alpha m)) l)) (map class_of l) L (p_eta m)) as (p' & Ep' & T & Q).
      { split; [now symmetry|]. unfold ncols. cbn [mcols]. rewrite !map_length. split; [lia|]. split; [destruct l; [congruence|discriminate]|]. intros c Hx. apply in_map_iff in Hx. destruct Hx as (x & <- & Hx).
        rewrite Forall_forall in Hc. destruct (Hc x Hx) as (c & Ec & Bc). unfold class_of. rewrite Ec. fold (ncols (p_eta m)). rewrite S2. lia. }
      rewrite Ep in Ep'. injection Ep' as <-. now apply fit_closes.
    Qed.
    Lemma trained_slda_closes l m p v0 eta' reports : is_finite tolerance = true -> (0 <= B2R tolerance)%R -> eta_good (p_eta m) -> l <> [] -> Forall (classified C) l ->
      so (mk_mat K (map (mean_topics K (p_alpha m)) l)) (map (second_moment K V) l) (map class_of l) L = Ok p -> value p (p_eta m) = Ok v0 -> trained_slda fuel limit tolerance L K V l m = Ok (eta', reports) -> closes p v0 eta' reports.
    Proof.
      clear HK Hl.
      intros Ft Pt (P & N & S1 & S2) Hn Hc Ep Ev. unfold trained_slda. rewrite Ep. cbn [bind]. destruct (so_good (mk_mat K (map (mean_topics K (p_alpha m)) l)) (map (second_moment K V) l) (map class_of l) L (p_eta m)) as (p' & Ep' & T & Q).
      { split; [now symmetry|]. unfold ncols. cbn [mcols]. rewrite !map_length. split; [lia|]. split; [destruct l; [congruence|discriminate]|]. intros c Hx. apply in_map_iff in Hx. destruct Hx as (x & <- & Hx).
        rewrite Forall_forall in Hc. destruct (Hc x Hx) as (c & Ec & Bc). unfold class_of. rewrite Ec. fold (ncols (p_eta m)). rewrite S2. lia. }
      { split; [rewrite !map_length; lia|]. intros v Hv. apply in_map_iff in Hv. destruct Hv as (x & <- & _). unfold second_moment. rewrite mrows_tab, ncols_tab. split; congruence. }
      rewrite Ep in Ep'. injection Ep' as <-. now apply fit_closes.
    Qed.

    Lemma has_class_of (l : list (item double)) : Forall (classified C) l -> Forall (fun x => d_class (fst x) <> None) l.
    Proof. apply Forall_impl. intros x (c & E & _). congruence. Qed.
    Lemma items_app (a b : list (mcall double)) : items (a ++ b) = items a ++ items b.
    Proof. induction a as [|[d v|] a IH]; cbn; [reflexivity|now rewrite IH|exact IH]. Qed.
    Lemma items_epoch (l : list (item double)) : items (epoch l) = l.
    Proof. unfold epoch, docs. rewrite items_app. cbn. rewrite app_nil_r. induction l as [|[d v] l IH]; cbn; [reflexivity|now rewrite IH]. Qed.
    Lemma items_epochs ls : items (epochs ls) = concat ls.
    Proof. induction ls as [|l ls IH]; [reflexivity|]. unfold epochs in *. cbn [map concat]. now rewrite items_app, items_epoch, IH. Qed.

    Lemma fast_ends ls m : Forall (fun l => l <> [] /\ Forall (fun x => sized K V x /\ classified C x) l) ls -> length (p_alpha m) = K -> eta_good (p_eta m) ->
      exists m' s e, mrun (fast_maximizer fuel limit tolerance L) (epochs ls) m new_fast = Ok (m', s, e) /\ eta_good (p_eta m').
    Proof.
      intros H Ha Hg. cut (exists m' s e, mrun (fast_maximizer fuel limit tolerance L) (epochs ls) m new_fast = Ok (m', s, e) /\ eta_good (p_eta m') /\ fast_idle K V s /\ length (p_alpha m') = K).
      { intros (m' & s & e & E & G & _). now exists m', s, e. }
      induction ls as [|l ls IH] using rev_ind; [exists m, new_fast, []; split; [reflexivity|]; split; [exact Hg|]; split; [now apply fast_new_idle|exact Ha]|].
      apply Forall_app in H. destruct H as [H1 H2]. destruct (IH H1) as (m1 & s1 & e1 & E1 & G1 & I1 & A1). inversion_clear H2 as [|? ? [Hn Hx] _].
      destruct (trained_ends l m1 G1 Hn) as (eta & e2 & E2 & G2); [revert Hx; apply Forall_impl; tauto|].
      assert (R := fast_epoch K V HK fuel limit tolerance L s1 l m1 I1 A1). rewrite E2 in R. cbn [bind] in R. unfold epochs in *. rewrite map_app, concat_app. cbn [map concat]. rewrite app_nil_r.
      assert (R' := R ltac:(revert Hx; apply Forall_impl; tauto) ltac:(apply has_class_of; revert Hx; apply Forall_impl; tauto) Hn). clear R.
      destruct (mrun (fast_maximizer fuel limit tolerance L) (epoch l) m1 s1) as [[[m2 s2] e3]| |] eqn:E3; cbn [visible] in R'; try discriminate R'. injection R' as -> ->.
      assert (E4 : mrun (fast_maximizer fuel limit tolerance L) (concat (map epoch ls) ++ epoch l) m new_fast = Ok (mk_params (p_alpha m1) (over_row_sums K V (word_counts K V l)) eta, s2, e1 ++ e2)).
      { rewrite mrun_app, E1. cbn [bind]. rewrite E3. reflexivity. }
      eexists _, _, _. split; [exact E4|]. split; [exact G2|]. change (epoch l) with (docs l ++ [MEnd]) in E4. rewrite app_assoc in E4. apply (fast_history K V HK fuel limit tolerance L) in E4; [exact E4|exact Ha|].
      rewrite <- app_assoc. fold (epoch l). rewrite items_app, items_epoch. pose proof (items_epochs ls) as IC. unfold epochs in IC. rewrite IC. clear IC. apply Forall_app. split; [|revert Hx; apply Forall_impl; tauto].
      apply Forall_concat. revert H1. apply Forall_impl. intros l' [_ H']. revert H'. apply Forall_impl. tauto.
    Qed.
    Lemma semi_ends ls m : Forall (fun l => Exists (fun x => labelled x = true) l /\ Forall (fun x => sized K V x /\ exists c, d_class (fst x) = Some c /\ (c < Z.of_nat C)%Z) l) ls -> length (p_alpha m) = K -> eta_good (p_eta m) ->
      exists m' s e, mrun (semi_maximizer fuel limit tolerance L) (epochs ls) m new_fast = Ok (m', s, e) /\ eta_good (p_eta m').
    Proof.
      intros H Ha Hg. cut (exists m' s e, mrun (semi_maximizer fuel limit tolerance L) (epochs ls) m new_fast = Ok (m', s, e) /\ eta_good (p_eta m') /\ fast_idle K V s /\ length (p_alpha m') = K).
      { intros (m' & s & e & E & G & _). now exists m', s, e. }
      induction ls as [|l ls IH] using rev_ind; [exists m, new_fast, []; split; [reflexivity|]; split; [exact Hg|]; split; [now apply fast_new_idle|exact Ha]|].
      apply Forall_app in H. destruct H as [H1 H2]. destruct (IH H1) as (m1 & s1 & e1 & E1 & G1 & I1 & A1). inversion_clear H2 as [|? ? [Hn Hx] _].
      destruct (trained_ends (filter labelled l) m1 G1) as (eta & e2 & E2 & G2).
      { apply Exists_exists in Hn. destruct Hn as (x & I & B). intros N. assert (J : In x (filter labelled l)) by (apply filter_In; now split). rewrite N in J. destruct J. }
      { apply Forall_forall. intros x I. apply filter_In in I. destruct I as [I B]. rewrite Forall_forall in Hx. destruct (Hx x I) as (_ & c & Ec & Bc). unfold labelled in B. rewrite Ec in B. apply Z.leb_le in B. exists c. split; [exact Ec|lia]. }
      assert (R := semi_epoch K V HK fuel limit tolerance L s1 l m1 I1 A1). rewrite E2 in R. cbn [bind] in R. unfold epochs in *. rewrite map_app, concat_app. cbn [map concat]. rewrite app_nil_r.
      assert (R' := R ltac:(revert Hx; apply Forall_impl; tauto) ltac:(revert Hx; apply Forall_impl; intros x (_ & c & Ec & _); congruence) ltac:(intros ->; inversion Hn)). clear R.
      destruct (mrun (semi_maximizer fuel limit tolerance L) (epoch l) m1 s1) as [[[m2 s2] e3]| |] eqn:E3; cbn [visible] in R'; try discriminate R'. injection R' as -> ->.
      assert (E4 : mrun (semi_maximizer fuel limit tolerance L) (concat (map epoch ls) ++ epoch l) m new_fast = Ok (mk_params (p_alpha m1) (over_row_sums K V (word_counts K V l)) eta, s2, e1 ++ e2)).
      { rewrite mrun_app, E1. cbn [bind]. rewrite E3. reflexivity. }
      eexists _, _, _. split; [exact E4|]. split; [exact G2|]. change (epoch l) with (docs l ++ [MEnd]) in E4. rewrite app_assoc in E4. apply (semi_history K V HK fuel limit tolerance L) in E4; [exact E4|exact Ha|].
      rewrite <- app_assoc. fold (epoch l). rewrite items_app, items_epoch. pose proof (items_epochs ls) as IC. unfold epochs in IC. rewrite IC. clear IC. apply Forall_app. split; [|revert Hx; apply Forall_impl; tauto].
      apply Forall_concat. revert H1. apply Forall_impl. intros l' [_ H']. revert H'. apply Forall_impl. tauto.
    Qed.
    Lemma sup_ends ls m : Forall (fun l => l <> [] /\ Forall (fun x => sized K V x /\ short x /\ classified C x) l) ls -> length (p_alpha m) = K -> eta_good (p_eta m) ->
      exists m' s e, mrun (sup_maximizer fuel limit tolerance L) (epochs ls) m new_sup = Ok (m', s, e) /\ eta_good (p_eta m').
    Proof.
      intros H Ha Hg. cut (exists m' s e, mrun (sup_maximizer fuel limit tolerance L) (epochs ls) m new_sup = Ok (m', s, e) /\ eta_good (p_eta m') /\ sup_idle K V s /\ length (p_alpha m') = K).
      { intros (m' & s & e & E & G & _). now exists m', s, e. }
      induction ls as [|l ls IH] using rev_ind; [exists m, new_sup, []; split; [reflexivity|]; split; [exact Hg|]; split; [split; [now apply fast_new_idle|reflexivity]|exact Ha]|].
      apply Forall_app in H. destruct H as [H1 H2]. destruct (IH H1) as (m1 & s1 & e1 & E1 & G1 & I1 & A1). inversion_clear H2 as [|? ? [Hn Hx] _].
      destruct (trained_slda_ends l m1 G1 Hn) as (eta & e2 & E2 & G2); [revert Hx; apply Forall_impl; tauto|].
      assert (R := sup_epoch K V HK fuel limit tolerance L s1 l m1 I1 A1). rewrite E2 in R. cbn [bind] in R. unfold epochs in *. rewrite map_app, concat_app. cbn [map concat]. rewrite app_nil_r.
      assert (R' := R ltac:(revert Hx; apply Forall_impl; tauto) ltac:(revert Hx; apply Forall_impl; tauto) ltac:(apply has_class_of; revert Hx; apply Forall_impl; tauto) Hn). clear R.
      destruct (mrun (sup_maximizer fuel limit tolerance L) (epoch l) m1 s1) as [[[m2 s2] e3]| |] eqn:E3; cbn [visible] in R'; try discriminate R'. injection R' as -> ->.
      assert (E4 : mrun (sup_maximizer fuel limit tolerance L) (concat (map epoch ls) ++ epoch l) m new_sup = Ok (mk_params (p_alpha m1) (over_row_sums K V (word_counts K V l)) eta, s2, e1 ++ e2)).
      { rewrite mrun_app, E1. cbn [bind]. rewrite E3. reflexivity. }
      eexists _, _, _. split; [exact E4|]. split; [exact G2|]. change (epoch l) with (docs l ++ [MEnd]) in E4. rewrite app_assoc in E4. apply (sup_history K V HK fuel limit tolerance L) in E4; [exact E4|exact Ha|].
      rewrite <- app_assoc. fold (epoch l). rewrite items_app, items_epoch. pose proof (items_epochs ls) as IC. unfold epochs in IC. rewrite IC. clear IC. apply Forall_app. split; [|revert Hx; apply Forall_impl; tauto].
      apply Forall_concat. revert H1. apply Forall_impl. intros l' [_ H']. revert H'. apply Forall_impl. tauto.
    Qed.
  End MSteps.
End Train.
