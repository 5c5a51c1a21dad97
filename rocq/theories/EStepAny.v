(** Lemmas about the E steps that hold for every scalar type. *)
Require Import ZArith List Arith Bool Lia.
Require Import Verif.Base Verif.Scalar Verif.Mat Verif.UtilsModel Verif.BuilderModel.
Require Import Verif.EStepModel Verif.EStepSpec.
Import ListNotations.

(** Equal failures, or related results. *)
Definition orel {A B} (R : A -> B -> Prop) (o : outcome A) (o' : outcome B) : Prop :=
  match o, o' with
  | Ok a, Ok b => R a b
  | Throw e, Throw e' => e = e'
  | UB, UB => True
  | _, _ => False
  end.
Lemma orel_refl {A} (R : A -> A -> Prop) o : (forall a, R a a) -> orel R o o.
Proof. intros H. destruct o; cbn; auto. Qed.
Lemma orel_bind {A A' B B'} (R : A -> A' -> Prop) (Q : B -> B' -> Prop) o o' f f' :
  orel R o o' -> (forall a a', R a a' -> orel Q (f a) (f' a')) -> orel Q (bind o f) (bind o' f').
Proof. intros H F. destruct o, o'; cbn in *; try contradiction; auto. Qed.
Lemma orel_omap {A A' B} (R : A -> A' -> Prop) (f : A -> B) (f' : A' -> B) o o' :
  orel R o o' -> (forall a a', R a a' -> f a = f' a') -> omap f o = omap f' o'.
Proof. intros H F. destruct o, o'; cbn in *; try contradiction; try reflexivity; [f_equal; auto|congruence]. Qed.
Lemma orel_eq {A} (o o' : outcome A) : o = o' -> orel eq o o'.
Proof. intros <-. apply orel_refl. reflexivity. Qed.
Lemma bind_same {A B B'} (Q : B -> B' -> Prop) (o : outcome A) f f' :
  (forall a, orel Q (f a) (f' a)) -> orel Q (bind o f) (bind o f').
Proof. intros H. apply (orel_bind eq); [now apply orel_eq|intros a a' <-; apply H]. Qed.

Section Any.
  Context {T : Type} {O : ops T}.
  Variable dfuel : nat.

  Lemma em_loop_rel {A B} (R : A -> B -> Prop) tol (g : A -> list T) (g' : B -> list T) up up' :
    (forall s s', R s s' -> g s = g' s') ->
    (forall s s', R s s' -> orel R (up s) (up' s')) ->
    forall limit old s s', R s s' -> orel R (em_loop limit tol g up old s) (em_loop limit tol g' up' old s').
  Proof.
    intros Hg Hu. induction limit as [|l IH]; intros old s s' HR; [exact HR|]. cbn.
    rewrite (Hg _ _ HR). destruct (converged old (g' s') tol); [exact HR|].
    apply (orel_bind R); [now apply Hu|]. intros a a' Ha. now apply IH.
  Qed.

  (** phi's that agree on the words of X *)
  Definition agree (X : list Z) (phi phi' : mat T) : Prop :=
    mrows phi = mrows phi' /\ ncols phi = ncols phi' /\
    forall i n, Xget X n <> 0%Z -> mget phi i n = mget phi' i n.
  Lemma agree_refl X phi : agree X phi phi.
  Proof. repeat split. Qed.
  Lemma agree_col X phi phi' n : agree X phi phi' -> Xget X n <> 0%Z -> mcol phi n = mcol phi' n.
  Proof. intros (Hr & _ & H) Hn. unfold mcol. rewrite Hr. apply vtab_ext. intros i _. auto. Qed.

  Lemma fold_left_eq {A B} (f f' : A -> B -> A) l a : (forall a x, f a x = f' a x) -> fold_left f l a = fold_left f' l a.
  Proof. intros H. revert a; induction l as [|x l IH]; intros a; cbn; [reflexivity|]. now rewrite H, IH. Qed.

  Lemma compute_gamma_agree X alpha phi phi' : agree X phi phi' ->
    compute_gamma X alpha phi = compute_gamma X alpha phi'.
  Proof.
    intros (Hr & Hc & H). unfold compute_gamma, sum_cols_scaled_int. rewrite Hc. apply fold_left_eq. intros r j.
    unfold Xget in H. destruct (Z.eqb_spec (nth j X 0%Z) 0) as [E|E]; [reflexivity|].
    apply vtab_ext. intros i _. now rewrite H.
  Qed.

  Lemma mget_out (m : mat T) i j : ncols m <= j -> mget m i j = zero.
  Proof. intros H. unfold mget. rewrite (nth_overflow (mcols m)) by exact H. now destruct i. Qed.
  Lemma mget_mtab_out r c (f : nat -> nat -> T) i j : (i < r -> j < c -> False) -> mget (mtab r c f) i j = zero.
  Proof.
    intros H. destruct (lt_dec j c) as [L|L]; [|apply mget_out; rewrite ncols_tab; lia].
    unfold mget, mtab. cbn [mcols]. rewrite (vtab_nth c (fun j => vtab r (fun i => f i j)) j) by assumption.
    apply nth_overflow. rewrite vtab_length. destruct (lt_dec i r); [exfalso; auto|lia].
  Qed.
  (** two tabulated matrices that agree on the words of X *)
  Lemma mtab_agree X r c f g : (forall i n, Xget X n <> 0%Z -> f i n = g i n) ->
    agree X (mtab r c f) (mtab r c g).
  Proof.
    intros H. split; [reflexivity|]. split; [now rewrite !ncols_tab|]. intros i n Hn.
    destruct (lt_dec i r) as [Hi|Hi]; [destruct (lt_dec n c) as [Hc|Hc]|].
    - rewrite !mget_tab by assumption. auto.
    - rewrite !mget_mtab_out by lia. reflexivity.
    - rewrite !mget_mtab_out by lia. reflexivity.
  Qed.
  Lemma normalize_cols_agree X m m' : agree X m m' -> agree X (normalize_cols m) (normalize_cols m').
  Proof.
    intros H. unfold normalize_cols. rewrite (proj1 H), (proj1 (proj2 H)). apply mtab_agree. intros i n Hn.
    rewrite (agree_col X m m' n H Hn). now rewrite (proj2 (proj2 H) i n Hn).
  Qed.
  Lemma scale_normalize_agree X beta beta' e : agree X beta beta' ->
    agree X (scale_normalize beta e) (scale_normalize beta' e).
  Proof.
    intros H. apply normalize_cols_agree. rewrite (proj1 H), (proj1 (proj2 H)). apply mtab_agree.
    intros i n Hn. now rewrite (proj2 (proj2 H) i n Hn).
  Qed.

  (** related loop states: same gamma, agreeing phi *)
  Definition st_rel (X : list Z) (s s' : list T * mat T) : Prop := fst s = fst s' /\ agree X (snd s) (snd s').

  Lemma lik_same X alpha beta beta' phi phi' gamma :
    orel (fun _ _ => True) (compute_unsupervised_likelihood dfuel X alpha beta phi gamma)
                           (compute_unsupervised_likelihood dfuel X alpha beta' phi' gamma).
  Proof.
    unfold compute_unsupervised_likelihood. apply bind_same. intros dg. apply bind_same. intros psi.
    apply bind_same. intros lga. apply bind_same. intros lgg. exact I.
  Qed.
  Lemma report_rel emit (l l' : outcome T) : orel (fun _ _ => True) l l' ->
    orel (fun _ _ => True) (report emit l) (report emit l').
  Proof. intros H. destruct emit; cbn; [|exact I]. destruct l, l'; cbn in *; auto. Qed.

  Section Words.
    Variables (X : list Z) (m m' : params T).
    Hypothesis S : same_on_words X m m'.
    Lemma beta_agree : agree X (p_beta m) (p_beta m').
    Proof. destruct S as (_ & _ & Hr & Hc & H). split; [exact Hr|]. split; [exact Hc|]. exact H. Qed.
    Lemma sizes_same d : d_words d = X -> sizes_ok d m = sizes_ok d m'.
    Proof. destruct S as (Ha & _ & Hr & Hc & _). intros _. unfold sizes_ok. now rewrite Ha, Hr, Hc. Qed.
    Lemma class_same y : class_ok y m = class_ok y m'.
    Proof. destruct S as (_ & He & Hr & _). unfold class_ok. now rewrite He, Hr. Qed.
  End Words.

  (** the result: same gamma, agreeing phi *)
  Definition res_rel (X : list Z) (r r' : vparams T * option T) : Prop :=
    v_gamma (fst r) = v_gamma (fst r') /\ agree X (v_phi (fst r)) (v_phi (fst r')).

  Lemma unsupervised_words cf emit d m m' : same_on_words (d_words d) m m' ->
    orel (res_rel (d_words d)) (unsupervised_doc_e_step dfuel cf emit d m) (unsupervised_doc_e_step dfuel cf emit d m').
  Proof.
    intros S. pose proof S as (Ha & He & Hr & Hc & _). unfold unsupervised_doc_e_step.
    apply bind_same. intros N. rewrite (sizes_same _ _ _ S d eq_refl). destruct (negb _); [exact I|].
    rewrite Ha, Hr. apply (orel_bind (st_rel (d_words d))).
    - apply em_loop_rel; [intros s s' H; apply H| |split; [reflexivity|apply agree_refl]].
      intros s s' [H1 H2]. rewrite H1. unfold compute_unsupervised_phi, bind.
      destruct (psi_of dfuel (fst s')) as [psi| |]; try exact I; try reflexivity.
      destruct (vmapM fast_exp psi) as [e| |]; try exact I; try reflexivity.
      pose proof (scale_normalize_agree (d_words d) _ _ e (beta_agree _ _ _ S)) as G. split; [|exact G].
      cbn [fst snd]. now apply compute_gamma_agree.
    - intros [g p] [g' p'] [H1 H2]. cbn in H1, H2. subst g'. cbn [bind].
      apply (orel_bind (fun _ _ => True)); [apply report_rel, lik_same|]. intros. split; cbn; auto.
  Qed.

  Lemma multinomial_lik_same X y alpha beta beta' eta phi phi' gamma a b c :
    orel (fun _ _ => True) (compute_supervised_multinomial_likelihood dfuel X y alpha beta eta phi gamma a b c)
                           (compute_supervised_multinomial_likelihood dfuel X y alpha beta' eta phi' gamma a b c).
  Proof.
    unfold compute_supervised_multinomial_likelihood. eapply orel_bind; [apply lik_same|].
    intros. apply bind_same. intros. exact I.
  Qed.

  Lemma multinomial_words cf mu w emit d m m' : same_on_words (d_words d) m m' ->
    orel (res_rel (d_words d)) (multinomial_doc_e_step dfuel cf mu w emit d m) (multinomial_doc_e_step dfuel cf mu w emit d m').
  Proof.
    intros S. pose proof S as (Ha & He & Hr & Hc & _). unfold multinomial_doc_e_step.
    apply bind_same. intros N. destruct (d_class d) as [yz|]; [|exact I].
    rewrite (sizes_same _ _ _ S d eq_refl), (class_same _ _ _ S). destruct (negb _); [exact I|].
    rewrite Ha, Hr, He. apply (orel_bind (st_rel (d_words d))).
    - apply em_loop_rel; [intros s s' H; apply H| |split; [reflexivity|apply agree_refl]].
      intros s s' [H1 H2]. rewrite H1. unfold compute_supervised_multinomial_phi, bind. rewrite Hr.
      destruct (psi_of dfuel (fst s')) as [psi| |]; try exact I; try reflexivity.
      destruct (digamma dfuel (redux (fst s'))) as [dg| |]; try exact I; try reflexivity.
      destruct (vmapM fast_exp _) as [e| |]; try exact I; try reflexivity.
      pose proof (scale_normalize_agree (d_words d) _ _ e (beta_agree _ _ _ S)) as G. split; [|exact G].
      cbn [fst snd]. now apply compute_gamma_agree.
    - intros [g p] [g' p'] [H1 H2]. cbn in H1, H2. subst g'. cbn [bind].
      apply (orel_bind (fun _ _ => True)); [apply report_rel, multinomial_lik_same|]. intros. split; cbn; auto.
  Qed.

  (** 0/n is a zero (of either sign) for an int n other than 0 *)
  Definition zero_ratio : Prop :=
    forall n, (n <> 0 -> - 2 ^ 31 <= n < 2 ^ 31 -> eqb (div (ofZ 0) (ofZ n)) zero = true)%Z.

  Lemma fold_left_ext_in {A B} (f f' : A -> B -> A) l a : (forall a x, In x l -> f a x = f' a x) ->
    fold_left f l a = fold_left f' l a.
  Proof.
    revert a; induction l as [|x l IH]; intros a H; cbn; [reflexivity|]. rewrite H by now left.
    apply IH. intros. apply H. now right.
  Qed.
  Lemma ratio_get X N j : j < length X -> vget (ratio X N) j = div (ofZ (nth j X 0%Z)) (ofZ N).
  Proof.
    intros H. unfold vget, ratio.
    rewrite (nth_indep _ zero (div (ofZ 0) (ofZ N))) by (rewrite map_length; lia).
    apply (map_nth (fun x => div (ofZ x) (ofZ N)) X 0%Z j).
  Qed.
  Lemma z_bar_agree X N phi phi' z : zero_ratio -> (N <> 0 -> - 2 ^ 31 <= N < 2 ^ 31 -> agree X phi phi' ->
    ncols phi = length X -> sum_cols_scaled phi (ratio X N) z = sum_cols_scaled phi' (ratio X N) z)%Z.
  Proof.
    intros Z0 HN HN2 (Hr & Hc & H) HV. unfold sum_cols_scaled. rewrite <- Hc. apply fold_left_ext_in. intros r j Hj.
    apply in_seq in Hj. rewrite (ratio_get X N j) by lia.
    destruct (Z.eq_dec (nth j X 0%Z) 0) as [E|E].
    - rewrite E. rewrite Z0 by assumption. reflexivity.
    - destruct (eqb _ _); [reflexivity|]. apply vtab_ext. intros i _. now rewrite (H i j E).
  Qed.

  Lemma h_same X Xr eta phi phi' : orel (fun h h' => h = None /\ h' = None \/ exists a b, h = Some a /\ h' = Some b)
    (compute_h X Xr eta phi) (compute_h X Xr eta phi').
  Proof.
    unfold compute_h. eapply (orel_bind (fun _ _ => True)).
    - unfold all_products. generalize (Ok (vtab (ncols eta) (fun _ : nat => one))).
      assert (G : forall l (o o' : outcome (list T)), orel (fun _ _ => True) o o' ->
        orel (fun _ _ => True)
         (fold_left (fun acc n => let* products := acc in
            if (true && (Xget X n =? 0)%Z)%bool then Ok products
            else let* ee := exp_eta_scaled eta (vget Xr n) in Ok (vzip mul products (matT_vec ee (mcol phi n)))) l o)
         (fold_left (fun acc n => let* products := acc in
            if (true && (Xget X n =? 0)%Z)%bool then Ok products
            else let* ee := exp_eta_scaled eta (vget Xr n) in Ok (vzip mul products (matT_vec ee (mcol phi' n)))) l o')).
      { induction l as [|n l IH]; intros o o' H; [exact H|]. cbn [fold_left]. apply IH.
        eapply orel_bind; [exact H|]. intros. destruct (_ && _); [exact I|]. apply bind_same. intros. exact I. }
      intros o. apply G. now apply orel_refl.
    - intros p p' _. destruct (last_word _ _ _); [|left; auto]. apply bind_same. intros. cbn. right. eauto.
  Qed.
  Lemma supervised_lik_h_same X y alpha beta beta' eta phi phi' gamma h h' :
    (h = None /\ h' = None \/ exists a b, h = Some a /\ h' = Some b) ->
    orel (fun _ _ => True) (compute_supervised_likelihood_h dfuel X y alpha beta eta phi gamma h)
                           (compute_supervised_likelihood_h dfuel X y alpha beta' eta phi' gamma h').
  Proof.
    intros H. unfold compute_supervised_likelihood_h. eapply orel_bind; [apply lik_same|].
    intros. apply bind_same. intros. destruct (last_word _ _ _); [|exact I].
    destruct H as [[-> ->]|(c & e & -> & ->)]; exact I.
  Qed.
  Lemma supervised_lik_same X y alpha beta beta' eta phi phi' gamma :
    orel (fun _ _ => True) (compute_supervised_likelihood dfuel X y alpha beta eta phi gamma)
                           (compute_supervised_likelihood dfuel X y alpha beta' eta phi' gamma).
  Proof.
    unfold compute_supervised_likelihood. apply bind_same. intros N. eapply orel_bind; [apply h_same|].
    intros h h' H. now apply supervised_lik_h_same.
  Qed.

  Lemma agree_dims X (phi phi' : mat T) : agree X phi phi' -> mrows phi = mrows phi' /\ ncols phi = ncols phi'.
  Proof. intros (H1 & H2 & _). auto. Qed.

  Lemma fast_words cf w emit d m m' : zero_ratio -> same_on_words (d_words d) m m' ->
    orel (res_rel (d_words d)) (fast_supervised_doc_e_step dfuel cf w emit d m) (fast_supervised_doc_e_step dfuel cf w emit d m').
  Proof.
    intros Z0 S. pose proof S as (Ha & He & Hr & Hc & _). unfold fast_supervised_doc_e_step.
    destruct (int_sum (d_words d)) as [N| |] eqn:EN; cbn [bind]; [|reflexivity|exact I].
    assert (HN : (- 2 ^ 31 <= N < 2 ^ 31)%Z).
    { unfold int_sum in EN. destruct (_ && _) eqn:B; [|discriminate]. injection EN as <-.
      apply andb_true_iff in B as [B1 B2]. apply Z.leb_le in B1. apply Z.ltb_lt in B2. auto. }
    destruct (d_class d) as [yz|]; [|exact I].
    rewrite (sizes_same _ _ _ S d eq_refl), (class_same _ _ _ S). destruct (negb _) eqn:B; [exact I|].
    assert (HV : length (d_words d) = ncols (p_beta m')).
    { apply negb_false_iff, andb_true_iff in B as [B _]. unfold sizes_ok in B. apply andb_true_iff in B as [_ B].
      now apply Nat.eqb_eq in B. }
    rewrite Ha, Hr, He.
    apply (orel_bind (fun s s' => st_rel (d_words d) s s' /\ ncols (snd s) = length (d_words d))).
    - apply em_loop_rel; [intros s s' H; apply H| |].
      2:{ split; [split; [reflexivity|apply agree_refl]|]. cbn. unfold init_phi. apply ncols_tab. }
      intros s s' [[H1 H2] H3]. rewrite H1. unfold compute_supervised_approximate_phi.
      destruct (Z.eqb_spec N 0) as [E0|E0].
      + cbn. repeat split; try apply H2; auto. cbn [fst snd]. now apply compute_gamma_agree.
      + unfold bind. rewrite Hr. destruct (psi_of dfuel (fst s')) as [psi| |]; try exact I; try reflexivity.
        rewrite (proj1 H2). rewrite (z_bar_agree (d_words d) N (snd s) (snd s')) by (auto; lia).
        destruct (vmapM fast_exp _) as [ex| |]; try exact I; try reflexivity.
        destruct (max_coeff _) as [[mx bi]|]; cbn; auto.
        destruct (vmapM fast_exp _) as [e| |]; try exact I; try reflexivity.
        pose proof (scale_normalize_agree (d_words d) _ _ e (beta_agree _ _ _ S)) as G.
        split; [split; [|exact G]|].
        * cbn [fst snd]. now apply compute_gamma_agree.
        * cbn [fst snd]. unfold scale_normalize, normalize_cols. rewrite !ncols_tab. lia.
    - intros [g p] [g' p'] [[H1 H2] _]. cbn in H1, H2. subst g'. cbn [bind].
      apply (orel_bind (fun _ _ => True)); [apply report_rel, supervised_lik_same|]. intros. split; cbn; auto.
  Qed.

  Lemma fixed_points_beta k x r y b b' eta psi h p : b = b' ->
    fixed_points k x r y b eta psi h p = fixed_points k x r y b' eta psi h p.
  Proof. now intros <-. Qed.

  Lemma supervised_words cf fpi emit d m m' : same_on_words (d_words d) m m' ->
    orel (res_rel (d_words d)) (supervised_doc_e_step dfuel cf fpi emit d m) (supervised_doc_e_step dfuel cf fpi emit d m').
  Proof.
    intros S. pose proof S as (Ha & He & Hr & Hc & _). unfold supervised_doc_e_step.
    apply bind_same. intros N. destruct (d_class d) as [yz|]; [|exact I].
    rewrite (sizes_same _ _ _ S d eq_refl), (class_same _ _ _ S). destruct (negb _) eqn:B; [exact I|].
    rewrite Ha, Hr, He. apply (orel_bind eq).
    - apply em_loop_rel; [congruence| |reflexivity].
      intros s s' <-. apply orel_eq. f_equal. unfold compute_supervised_phi_gamma.
      destruct (psi_of dfuel (fst (fst s))) as [psi| |]; cbn [bind]; auto.
      destruct (all_products _ _ _ _ _) as [pr| |]; cbn [bind]; auto.
      apply fold_left_ext_in. intros acc n _. destruct acc as [st| |]; cbn [bind]; auto.
      unfold slda_word. destruct (Z.eqb_spec (Xget (d_words d) n) 0) as [E|E]; [reflexivity|].
      now rewrite (agree_col _ _ _ n (beta_agree _ _ _ S) E).
    - intros [[g p] h] ? <-. cbn [bind].
      apply (orel_bind (fun _ _ => True)).
      + apply report_rel, supervised_lik_h_same. destruct h; [right; eauto|now left].
      + intros. split; cbn; [reflexivity|apply agree_refl].
  Qed.

  (** ** Stopping *)
  Lemma em_loop_runs {A} tol (g : A -> list T) up K limit : forall p s t,
    em_loop limit tol g up (match p with Some a => g a | None => zeros K end) s = Ok t ->
    exists n, runs up (fun p s => converged (match p with Some a => g a | None => zeros K end) (g s) tol = true)
                   limit p s n t.
  Proof.
    induction limit as [|l IH]; intros p s t H.
    - cbn in H. injection H as <-. exists 0. constructor.
    - cbn in H. destruct (converged _ (g s) tol) eqn:C.
      + injection H as <-. exists 0. now constructor.
      + destruct (up s) as [s'| |] eqn:U; cbn in H; try discriminate.
        destruct (IH (Some s) s' t H) as (n & Hn). exists (Datatypes.S n). eapply runs_step; eauto.
        congruence.
  Qed.
  Lemma runs_le {A} (step : A -> outcome A) stop l p s n t : runs step stop l p s n t -> n <= l.
  Proof. induction 1; lia. Qed.
End Any.
