(** The batch M steps under renumbering, in exact arithmetic. *)
Require Import Reals ZArith List Arith Bool Lia Lra Permutation.
Require Import Verif.Base Verif.Scalar Verif.Mat Verif.UtilsModel Verif.UtilsProofs
  Verif.BuilderModel Verif.EStepModel Verif.OptModel Verif.OptSpec Verif.OptProofs Verif.MStepModel Verif.MStepSpec Verif.MStepAny Verif.MStepBatch
  Verif.LdaModel Verif.TrainPerm Verif.RenameSpec Verif.RenameBase Verif.RenameEStep Verif.RenameOpt.
Import ListNotations.
Local Open Scope nat_scope.

Section Real.
  Variable lg : R -> R.
  Local Hint Extern 0 (ops _) => exact (Rops lg) : typeclass_instances.
  Variables K V C : nat.
  Variable a : naming.
  Hypothesis Pa : valid_naming K V C a.
  Notation sk := (topic_at a). Notation sv := (word_at a). Notation sc := (class_at a).
  Let Pk : permutes K sk := proj1 Pa.
  Let Pv : permutes V sv := proj1 (proj2 Pa).
  Let Pc : permutes C sc := proj2 (proj2 Pa).
  Notation kren := (list_renamed (A := R) 0%R K sk).
  Notation bren := (mat_renamed K V sk sv).
  Notation eren := (mat_renamed K C sk sc).
  Definition item_renamed (x x' : item R) : Prop := doc_renamed V C a (fst x) (fst x') /\ posterior_renamed K V a (snd x) (snd x').
  Notation lren := (Forall2 item_renamed).

  (** ** Statistics *)
  Definition alike (f : item R -> nat -> nat -> R) (x x' : item R) : Prop := forall i n, i < K -> n < V -> f x' i n = f x (sk i) (sv n).
  Lemma assigned_alike x x' : item_renamed x x' -> alike assigned x x'.
  Proof.
    intros [(HX & _) (_ & Hp & _)] i n Hi Hn. unfold assigned. rewrite (mren_get lg K V sk sv _ _ i n Hp Hi Hn). do 2 f_equal. now apply HX.
  Qed.
  Lemma assigned_tau_alike x x' : item_renamed x x' -> with_tau V x -> alike assigned_tau x x'.
  Proof.
    intros [(HX & _) (_ & Hp & Ht)] HT i n Hi Hn. unfold assigned_tau, count. rewrite (mren_get lg K V sk sv _ _ i n Hp Hi Hn). destruct HX as (_ & _ & HX). rewrite (HX n Hn).
    destruct Ht as [Ht|[Ht _]]; [now rewrite (vren_get lg V sv _ _ n Ht Hn)|]. unfold with_tau in HT. rewrite Ht in HT. cbn in HT. lia.
  Qed.
  Lemma totals_renamed f l l' : Forall2 (alike f) l l' -> bren (totals K V f l) (totals K V f l').
  Proof.
    intros H. unfold totals. apply fold_rel; [|apply (mren_tab lg K V sk sv Pk Pv); reflexivity].
    eapply Forall2_impl; [|exact H]. intros x x' Hx b b' Hb. apply (mren_tab lg K V sk sv Pk Pv). intros i n Hi Hn.
    now rewrite (mren_get lg K V sk sv b b' i n Hb Hi Hn), (Hx i n Hi Hn).
  Qed.
  Lemma row_total_renamed f x x' i : alike f x x' -> i < K -> redux (vtab V (fun n => f x' i n)) = redux (vtab V (fun n => f x (sk i) n)).
  Proof. intros H Hi. apply (vren_redux lg V sv); [exact Pv|]. apply vren_tab; [exact Pv|]. intros n Hn. now apply H. Qed.
  Lemma over_row_sums_renamed m m' : bren m m' -> bren (over_row_sums K V m) (over_row_sums K V m').
  Proof.
    intros H. unfold over_row_sums. apply (mren_tab lg K V sk sv Pk Pv). intros i n Hi Hn. rewrite (mren_get lg K V sk sv m m' i n H Hi Hn). f_equal.
    apply (vren_redux lg V sv); [exact Pv|]. apply vren_tab; [exact Pv|]. intros j Hj. now apply (mren_get lg K V sk sv).
  Qed.
  Lemma class_of_renamed x x' : item_renamed x x' -> has_class x -> label_renamed C a (class_of x) (class_of x').
  Proof. intros [(_ & H & _) _] Hx. unfold has_class, class_of in *. destruct (d_class (fst x)), (d_class (fst x')); tauto. Qed.
  Lemma class_totals_renamed f l l' : Forall2 (alike f) l l' -> Forall2 item_renamed l l' -> Forall (classified C) l -> eren (class_totals K V C f l) (class_totals K V C f l').
  Proof.
    intros H HI HC. unfold class_totals. apply fold_rel; [|apply (mren_tab lg K C sk sc Pk Pc); reflexivity].
    eapply Forall2_impl; [|exact (Forall2_left _ _ _ _ HC (Forall2_and _ _ _ _ H HI))]. intros x x' (HC1 & Hx & Hi1) b b' Hb.
    apply (mren_tab lg K C sk sc Pk Pc). intros i j Hi Hj.
    destruct HC1 as (y & Ey & Hy). assert (Hc : has_class x) by (unfold has_class; congruence).
    pose proof (class_of_renamed x x' Hi1 Hc) as L. assert (Ec : class_of x = y) by (unfold class_of; now rewrite Ey). rewrite Ec in *.
    destruct (label_range C a _ _ L Hy) as [L1 L2].
    rewrite (nat_label_eqb K V C a Pa (Z.to_nat y) (Z.to_nat (class_of x')) j) by (lia || assumption).
    now rewrite (mren_get lg K C sk sc b b' i j Hb Hi Hj), (row_total_renamed f x x' i Hx Hi).
  Qed.
  Lemma class_log_renamed f e e' l l' : Forall2 (alike f) l l' -> Forall2 item_renamed l l' -> Forall (classified C) l -> eren e e' ->
    class_log K V f e' l' = class_log K V f e l.
  Proof.
    intros H HI HC He. unfold class_log. apply fold_eq.
    eapply Forall2_impl; [|exact (Forall2_left _ _ _ _ HC (Forall2_and _ _ _ _ H HI))]. intros x x' (HC1 & Hx & Hi1) b. f_equal.
    destruct HC1 as (y & Ey & Hy). assert (Hc : has_class x) by (unfold has_class; congruence).
    pose proof (class_of_renamed x x' Hi1 Hc) as L. assert (Ec : class_of x = y) by (unfold class_of; now rewrite Ey). rewrite Ec in *.
    destruct (label_range C a _ _ L Hy) as [L1 L2].
    apply (vren_redux lg K sk); [exact Pk|]. apply vren_tab; [exact Pk|]. intros i Hi.
    rewrite (row_total_renamed f x x' i Hx Hi), (mren_get lg K C sk sc e e' i (Z.to_nat (class_of x')) He Hi) by lia. now rewrite L2.
  Qed.

  (** ** Training sets *)
  Lemma excess_renamed al al' x x' : kren al al' -> item_renamed x x' -> kren (excess K al x) (excess K al' x').
  Proof.
    intros Ha [_ (Hg & _)]. unfold excess. apply vren_tab; [exact Pk|]. intros i Hi. now rewrite (vren_get lg K sk _ _ i Hg Hi), (vren_get lg K sk _ _ i Ha Hi).
  Qed.
  Lemma mixture_renamed al al' x x' : kren al al' -> item_renamed x x' -> kren (mixture K al x) (mixture K al' x').
  Proof.
    intros Ha Hx. pose proof (excess_renamed al al' x x' Ha Hx) as H. unfold mixture. cbv zeta. rewrite (vren_redux lg K sk _ _ Pk H).
    destruct (eqb _ _); [exact H|]. now apply vren_map.
  Qed.
  Lemma words_in_renamed x x' : item_renamed x x' -> words_in x' = words_in x.
  Proof. intros [(H & _) _]. unfold words_in. now apply (Zren_sum V sv). Qed.
  Lemma mean_topics_renamed al al' x x' : kren al al' -> item_renamed x x' -> kren (mean_topics K al x) (mean_topics K al' x').
  Proof.
    intros Ha Hx. unfold mean_topics. rewrite (words_in_renamed x x' Hx). apply vren_map; [exact Pk|]. now apply excess_renamed.
  Qed.
  Lemma second_moment_renamed x x' : item_renamed x x' -> mat_renamed K K sk sk (second_moment K V x) (second_moment K V x').
  Proof.
    intros Hx. pose proof (assigned_alike x x' Hx) as H. unfold second_moment. rewrite (words_in_renamed x x' Hx). apply (mren_tab lg K K sk sk Pk Pk).
    intros i j Hi Hj. f_equal. apply (vren_redux lg V sv); [exact Pv|]. apply vren_tab; [exact Pv|]. intros n Hn. now rewrite (H i n Hi Hn), (H j n Hj Hn).
  Qed.
  Definition eta_result (r r' : mat R * list R) : Prop := eren (fst r) (fst r') /\ snd r' = snd r.
  Lemma no_columns X y w L (e : mat R) : ncols e = 0 -> y <> [] -> mlr_value X y w L e = UB.
  Proof.
    intros H Hy. unfold mlr_value. destruct (fits X y w e) eqn:F; [|reflexivity]. exfalso. unfold fits in F. rewrite !andb_true_iff, H in F. destruct F as [_ F].
    destruct y as [|u y]; [congruence|]. cbn [forallb] in F. rewrite !andb_true_iff, Z.leb_le, !Z.ltb_lt in F. lia.
  Qed.
  Lemma no_columns_so X W y w L (e : mat R) : ncols e = 0 -> y <> [] -> so_value X W y w L e = UB.
  Proof.
    intros H Hy. unfold so_value. destruct (fits X y w e) eqn:F; [|reflexivity]. exfalso. unfold fits in F. rewrite !andb_true_iff, H in F. destruct F as [_ F].
    destruct y as [|u y]; [congruence|]. cbn [forallb] in F. rewrite !andb_true_iff, Z.leb_le, !Z.ltb_lt in F. lia.
  Qed.
  Lemma trained_sim fuel limit tolerance L l l' m m' : lren l l' -> Forall has_class l -> largest (map class_of l') = largest (map class_of l) -> model_renamed K V C a m m' ->
    sim eta_result (trained fuel limit tolerance L K l m) (trained fuel limit tolerance L K l' m').
  Proof.
    intros Hl Hc HL (Ha & _ & He). unfold trained. destruct He as [He|(H0 & _ & H1)].
    - apply (sim_bind (problem_renamed lg K C a)).
      + apply mlr_sim with (V := V); [exact Pa| |exact HL]. eapply Forall2_impl; [|exact (Forall2_left _ _ _ _ Hc Hl)]. intros x x' [X1 X2].
        split; [now apply mixture_renamed|now apply class_of_renamed].
      + intros p p' Hp. now apply fit_eta_sim with (V := V).
    - unfold mlr. destruct (class_weights (map class_of l)) as [w| |] eqn:Ew; cbn [bind]; [|apply sim_throw|apply sim_fail].
      assert (Hy : map (@class_of R) l <> []) by (intros X; rewrite X in Ew; discriminate Ew). unfold fit_eta. cbn [value]. rewrite (no_columns _ _ _ _ _ H1 Hy). apply sim_fail.
  Qed.
  Lemma trained_slda_sim fuel limit tolerance L l l' m m' : lren l l' -> Forall has_class l -> largest (map class_of l') = largest (map class_of l) -> model_renamed K V C a m m' ->
    sim eta_result (trained_slda fuel limit tolerance L K V l m) (trained_slda fuel limit tolerance L K V l' m').
  Proof.
    intros Hl Hc HL (Ha & _ & He). unfold trained_slda. destruct He as [He|(H0 & _ & H1)].
    - apply (sim_bind (problem_renamed lg K C a)).
      + apply so_sim with (V := V); [exact Pa| |exact HL]. eapply Forall2_impl; [|exact (Forall2_left _ _ _ _ Hc Hl)]. intros x x' [X1 X2].
        split; [split; [now apply mean_topics_renamed|now apply class_of_renamed]|now apply second_moment_renamed].
      + intros p p' Hp. now apply fit_eta_sim with (V := V).
    - unfold so. destruct (class_weights (map class_of l)) as [w| |] eqn:Ew; cbn [bind]; [|apply sim_throw|apply sim_fail].
      assert (Hy : map (@class_of R) l <> []) by (intros X; rewrite X in Ew; discriminate Ew). unfold fit_eta. cbn [value]. rewrite (no_columns_so _ _ _ _ _ _ H1 Hy). apply sim_fail.
  Qed.
  Lemma labelled_renamed x x' : item_renamed x x' -> labelled x' = labelled x.
  Proof.
    intros [(_ & H & _) _]. unfold labelled. destruct (d_class (fst x)) as [y|], (d_class (fst x')) as [y'|]; try contradiction; [|reflexivity]. now apply (label_sign C a).
  Qed.
  Lemma filter_renamed l l' : lren l l' -> lren (filter labelled l) (filter labelled l').
  Proof. induction 1 as [|x x' l l' H _ IH]; cbn; [constructor|]. rewrite (labelled_renamed x x' H). destruct (labelled x); [now constructor|exact IH]. Qed.
  Lemma largest_filter (l : list (item R)) : largest (map class_of (filter labelled l)) = largest (map class_of l).
  Proof.
    induction l as [|x l IH]; [reflexivity|]. cbn [filter map]. pose proof (largest_nonneg (map (@class_of R) l)) as N.
    assert (E : forall u y, largest (u :: y) = Z.max u (largest y)) by reflexivity. rewrite (E (class_of x)).
    unfold labelled at 1. destruct (d_class (fst x)) as [y|] eqn:Ed.
    - assert (Ec : class_of x = y) by (unfold class_of; now rewrite Ed). destruct (Z.leb_spec 0 y) as [Hy|Hy]; [cbn [map]; rewrite E, IH; reflexivity|]. rewrite IH. lia.
    - assert (Ec : class_of x = 0%Z) by (unfold class_of; now rewrite Ed). rewrite IH. lia.
  Qed.

  (** ** Epochs *)
  Variables (St : Type) (M : maximizer R St) (new : St) (f : item R -> nat -> nat -> R) (P : params R -> Prop) (Q : item R -> Prop).
  Hypothesis B : batch_step K V C St M new f P Q.
  Hypothesis HK : 0 < K.
  Lemma sized_renamed x x' : item_renamed x x' -> sized K V x'.
  Proof. intros [((_ & H1 & _) & _) ((_ & H2 & _) & (_ & H3 & _ & H4 & _) & _)]. repeat split; assumption. Qed.
  Lemma has_class_renamed x x' : item_renamed x x' -> has_class x -> has_class x'.
  Proof. intros [(_ & H & _) _]. unfold has_class. destruct (d_class (fst x)), (d_class (fst x')); congruence || contradiction. Qed.
  Lemma classified_renamed x x' : item_renamed x x' -> classified C x -> classified C x'.
  Proof.
    intros [(_ & H & _) _] (y & Ey & Hy). rewrite Ey in H. destruct (d_class (fst x')) as [y'|] eqn:Ey'; [|contradiction].
    destruct (label_range C a _ _ H Hy) as [L _]. now exists y'.
  Qed.
  Lemma good_renamed x x' : item_renamed x x' -> Q x -> Q x'.
  Proof.
    intros Hx. destruct B; try (intros; exact I).
    - now apply has_class_renamed.
    - now apply has_class_renamed.
    - intros [H1 H2]. split; [now apply (has_class_renamed x)|]. unfold short in *. now rewrite (words_in_renamed x x' Hx).
    - now apply classified_renamed.
    - intros [H1 H2]. split; [now apply (classified_renamed x)|]. unfold with_tau in *. destruct Hx as [_ (_ & _ & [Ht|[T1 T2]])]; [apply Ht|]. rewrite T2. now rewrite T1 in H2.
  Qed.
  Lemma model_ok_renamed m m' : model_renamed K V C a m m' -> P m -> P m'.
  Proof.
    intros (Ha & Hb & He). destruct B; try (intros; exact I); try (intros _; apply Ha).
    - intros [H1 H2]. destruct He as [He|(_ & -> & _)]; [|now split]. now destruct (rows_of _ _ _ _ _ _ _ He) as (_ & -> & _ & ->).
    - intros [H1 H2]. destruct He as [He|(_ & -> & _)]; [|now split]. now destruct (rows_of _ _ _ _ _ _ _ He) as (_ & -> & _ & ->).
  Qed.
  Definition epoch_result (r r' : params R * list R) : Prop := model_renamed K V C a (fst r) (fst r') /\ snd r' = snd r.
  Lemma eta_of m m' (l : list (item R)) : model_renamed K V C a m m' -> Forall (classified C) l -> l <> [] -> eren (p_eta m) (p_eta m').
  Proof.
    intros (_ & _ & [He|(H0 & _)]) Hc Hl; [exact He|]. exfalso. destruct l as [|x l]; [congruence|]. inversion Hc as [|? ? (y & _ & Hy)]. rewrite H0 in Hy. lia.
  Qed.
  Lemma epoch_sim l l' m m' : model_renamed K V C a m m' -> P m -> lren l l' -> Forall (fun x => sized K V x /\ Q x) l -> l <> [] ->
    (weighs_classes St M -> largest (map class_of l') = largest (map class_of l)) ->
    sim epoch_result (visible (mrun M (epoch l) m new)) (visible (mrun M (epoch l') m' new)).
  Proof.
    intros Hm Hp Hl Hg Hn HL. assert (Hg' : Forall (fun x => sized K V x /\ Q x) l').
    { clear - Hl Hg B Pk Pv Pc. induction Hl as [|x x' l l' H _ IH]; [constructor|]. inversion Hg as [|? ? [_ X]]; subst. constructor; [|now apply IH].
      split; [now apply (sized_renamed x)|now apply (good_renamed x)]. }
    assert (Hn' : l' <> []) by (intros ->; inversion Hl; congruence). pose proof (model_ok_renamed m m' Hm Hp) as Hp'.
    pose proof (Forall_and_l _ _ _ Hg) as S1. pose proof (Forall_and_l _ _ _ Hg') as S1'.
    pose proof (Forall_and_r _ _ _ Hg) as C1. pose proof (Forall_and_r _ _ _ Hg') as C1'. pose proof Hm as (Ha & Hb & He).
    assert (As : Forall2 (alike assigned) l l') by (eapply Forall2_impl; [|exact Hl]; apply assigned_alike).
    pose proof (over_row_sums_renamed _ _ (totals_renamed assigned l l' As)) as Hb'.
    assert (Fin : forall r r' : outcome (mat R * list R), sim eta_result r r' ->
      sim epoch_result (let* (eta, e) := r in Ok (mk_params (p_alpha m) (over_row_sums K V (word_counts K V l)) eta, e))
        (let* (eta, e) := r' in Ok (mk_params (p_alpha m') (over_row_sums K V (word_counts K V l')) eta, e))).
    { intros r r' Hr. apply (sim_bind eta_result); [exact Hr|]. intros [e s] [e' s'] [H1 H2]. apply sim_ok. split; [|exact H2]. split; [exact Ha|]. split; [exact Hb'|now left]. }
    destruct B.
    - rewrite !(unsupervised_epoch K V HK) by (try assumption; now left). cbn [visible]. apply sim_ok. split; [|reflexivity]. split; [exact Ha|]. split; [exact Hb'|exact He].
    - rewrite !(fast_epoch K V HK) by (try assumption; exact (fast_new_idle K V HK)). apply Fin. apply trained_sim; try assumption. apply HL. constructor.
    - rewrite !(semi_epoch K V HK) by (try assumption; exact (fast_new_idle K V HK)). apply Fin. apply trained_sim; try assumption; [now apply filter_renamed| |rewrite !largest_filter; apply HL; constructor].
      apply Forall_forall. intros x Hx. apply filter_In in Hx. rewrite Forall_forall in C1. now apply C1.
    - assert (N : sup_idle K V new_sup) by (split; [exact (fast_new_idle K V HK)|reflexivity]).
      rewrite (sup_epoch K V HK fuel limit tolerance L new_sup l m N Hp S1 (Forall_and_r _ _ _ C1) (Forall_and_l _ _ _ C1) Hn).
      rewrite (sup_epoch K V HK fuel limit tolerance L new_sup l' m' N Hp' S1' (Forall_and_r _ _ _ C1') (Forall_and_l _ _ _ C1') Hn').
      apply Fin. apply trained_slda_sim; try assumption; [exact (Forall_and_l _ _ _ C1)|apply HL; constructor].
    - assert (N : stats_fresh K V C new_stats) by now left. destruct Hp as [U1 U2], Hp' as [U1' U2']. pose proof (eta_of m m' l Hm C1 Hn) as He'.
      change (multinomial_maximizer mu) with (mk_maximizer (fun s m d v => let* s := multinomial_doc s m d v in Ok (m, s, [])) (stats_m mu)).
      rewrite (multinomial_epoch K V C HK mu new_stats l m N U1 U2 S1 (proj2 (Forall_forall _ _) (fun _ _ => I)) C1 Hn).
      rewrite (multinomial_epoch K V C HK mu new_stats l' m' N U1' U2' S1' (proj2 (Forall_forall _ _) (fun _ _ => I)) C1' Hn').
      apply sim_ok. split; [|cbn [snd]; now rewrite (class_log_renamed assigned (p_eta m) (p_eta m') l l' As Hl C1 He')]. split; [exact Ha|]. cbn [p_beta p_eta fst]. split.
      + apply (mren_normalize_rows lg K V sk sv Pk Pv). now apply totals_renamed.
      + left. apply (mren_normalize_rows lg K C sk sc Pk Pc). unfold smoothed. apply (mren_tab lg K C sk sc Pk Pc). intros i j Hi Hj.
        now rewrite (mren_get lg K C sk sc _ _ i j (class_totals_renamed assigned l l' As Hl C1) Hi Hj).
    - assert (N : stats_fresh K V C new_stats) by now left. destruct Hp as [U1 U2], Hp' as [U1' U2'].
      pose proof (Forall_and_l _ _ _ C1) as Cl. pose proof (Forall_and_l _ _ _ C1') as Cl'. pose proof (Forall_and_r _ _ _ C1) as Ct. pose proof (Forall_and_r _ _ _ C1') as Ct'.
      pose proof (eta_of m m' l Hm Cl Hn) as He'.
      assert (At : Forall2 (alike assigned_tau) l l') by (eapply Forall2_impl; [|exact (Forall2_left _ _ _ _ Ct Hl)]; intros x x' [X1 X2]; now apply assigned_tau_alike).
      change (correspondence_maximizer mu) with (mk_maximizer (fun s m d v => let* s := correspondence_doc s m d v in Ok (m, s, [])) (stats_m mu)).
      rewrite (correspondence_epoch K V C HK mu new_stats l m N U1 U2 S1 Ct Cl Hn).
      rewrite (correspondence_epoch K V C HK mu new_stats l' m' N U1' U2' S1' Ct' Cl' Hn').
      apply sim_ok. split; [|cbn [snd]; now rewrite (class_log_renamed assigned_tau (p_eta m) (p_eta m') l l' At Hl Cl He')]. split; [exact Ha|]. cbn [p_beta p_eta fst]. split.
      + apply (mren_normalize_rows lg K V sk sv Pk Pv). now apply totals_renamed.
      + left. apply (mren_normalize_rows lg K C sk sc Pk Pc). unfold smoothed. apply (mren_tab lg K C sk sc Pk Pc). intros i j Hi Hj.
        now rewrite (mren_get lg K C sk sc _ _ i j (class_totals_renamed assigned_tau l l' At Hl Cl) Hi Hj).
  Qed.
End Real.
