(** The likelihoods the supervised E steps report, as sums over words, topics and classes. *)
Require Import Reals ZArith List Arith Bool Lia Lra.
Require Import Verif.Base Verif.Scalar Verif.Mat Verif.UtilsModel Verif.UtilsSpec Verif.UtilsProofs Verif.DigammaProofs.
Require Import Verif.BuilderModel Verif.EStepModel Verif.EStepSpec Verif.EStepReal Verif.EStepOpt Verif.EStepZero Verif.EStepElbo Verif.EStepStop Verif.EStepSlda Verif.RenameBase.
Require Import Verif.UpdateSpec Verif.UpdateProofs Verif.UpdateSlda.
Import ListNotations.
Open Scope R_scope.

Section Any.
  Context {T : Type} {O : ops T}.
  Lemma reported (l : outcome T) e v : report e l = Ok (Some v) -> l = Ok v.
  Proof. unfold report. destruct e; [|discriminate]. intros E. apply bind_ok in E as (x & -> & E). congruence. Qed.
  Lemma fast_reported dfuel cf w emit (d : doc T) m y g phi tau v : d_class d = Some y ->
    fast_supervised_doc_e_step dfuel cf w emit d m = Ok (mk_vparams g phi tau, Some v) ->
    compute_supervised_likelihood dfuel (d_words d) (Z.to_nat y) (p_alpha m) (p_beta m) (p_eta m) phi g = Ok v.
  Proof.
    intros Ey E. unfold fast_supervised_doc_e_step in E. apply bind_ok in E as (N & _ & E). rewrite Ey in E. destruct (negb _); [discriminate|].
    apply bind_ok in E as ([g' phi'] & _ & E). apply bind_ok in E as (ev & E1 & E). injection E as -> -> _ ->. exact (reported _ _ _ E1).
  Qed.
  Lemma multinomial_reported dfuel cf mu w emit (d : doc T) m y g phi tau v : d_class d = Some y ->
    multinomial_doc_e_step dfuel cf mu w emit d m = Ok (mk_vparams g phi tau, Some v) ->
    compute_supervised_multinomial_likelihood dfuel (d_words d) (Z.to_nat y) (p_alpha m) (p_beta m) (p_eta m) phi g
      (vget (d_priors d) (Z.to_nat y)) mu (div one (ofZ (d_corpus_size d))) = Ok v.
  Proof.
    intros Ey E. unfold multinomial_doc_e_step in E. apply bind_ok in E as (N & _ & E). rewrite Ey in E. destruct (negb _); [discriminate|].
    apply bind_ok in E as ([g' phi'] & _ & E). apply bind_ok in E as (ev & E1 & E). injection E as -> -> _ ->. exact (reported _ _ _ E1).
  Qed.
  Lemma correspondence_reported dfuel cf mu emit (d : doc T) m y g phi tau v : d_class d = Some y ->
    correspondence_doc_e_step dfuel cf mu emit d m = Ok (mk_vparams g phi tau, Some v) ->
    compute_supervised_correspondence_likelihood dfuel (d_words d) (Z.to_nat y) (p_alpha m) (p_beta m) (p_eta m) phi g tau mu (div one (ofZ (d_corpus_size d))) = Ok v.
  Proof.
    intros Ey E. unfold correspondence_doc_e_step in E. apply bind_ok in E as (N & _ & E). rewrite Ey in E. destruct (negb _); [discriminate|].
    apply bind_ok in E as ([[g' phi'] tau'] & _ & E). apply bind_ok in E as (ev & E1 & E). injection E as -> -> -> ->. exact (reported _ _ _ E1).
  Qed.
End Any.

Section Report.
  Variable lg : R -> R.
  Local Hint Extern 0 (ops _) => exact (Rops lg) : typeclass_instances.
  Notation fexp := (fexp lg).
  Variables (X : list Z) (m : params R) (yz : Z).
  Hypothesis PI : proper_input X m.
  Hypothesis HC : class_in_range yz m.
  Notation K := (mrows (p_beta m)).
  Notation V := (ncols (p_beta m)).
  Notation C := (ncols (p_eta m)).
  Notation N := (Zsum X).
  Notation y := (Z.to_nat yz).
  Notation wf := (word_factor fexp X N (p_eta m)).

  Lemma absent_factor phi c n : simplex_phi lg m phi -> (n < V)%nat -> nth n X 0%Z = 0%Z -> wf phi c n = 1.
  Proof.
    intros (Pr & Pc & P) Hn Z. unfold word_factor. rewrite Pr, Z. destruct (P n Hn) as [_ P1]. rewrite <- P1 at 1. apply rsum_ext. intros i Hi.
    unfold Rdiv. rewrite Rmult_0_l, Rmult_0_r, fexp_0. ring.
  Qed.
  (** compute_h skips the absent words, whose factors are one *)
  Lemma all_products_skip phi : simplex_phi lg m phi ->
    exists p, all_products true X (ratio X N) (p_eta m) phi = Ok p /\ length p = C /\ forall c, (c < C)%nat -> vget p c = rprod V (wf phi c).
  Proof.
    intros HP. unfold all_products. rewrite (pi_words _ _ PI).
    assert (G : forall k j p, (j + k = V)%nat -> length p = C -> (forall c, (c < C)%nat -> vget p c = rprod j (wf phi c)) ->
      exists p', fold_left (fun acc n => let* products := acc in
        if (true && (Xget X n =? 0)%Z)%bool then Ok products
        else let* ee := exp_eta_scaled (p_eta m) (vget (ratio X N) n) in
             Ok (vzip mul products (matT_vec ee (mcol phi n)))) (seq j k) (Ok p) = Ok p' /\
        length p' = C /\ forall c, (c < C)%nat -> vget p' c = rprod V (wf phi c)).
    { induction k as [|k IH]; intros j p Hj Hl Hp.
      - exists p. replace V with j by lia. auto.
      - cbn [seq fold_left bind andb]. destruct (Z.eqb_spec (Xget X j) 0) as [Z|NZ].
        + apply IH; [lia|exact Hl|]. intros c Hc. rewrite rprod_S, (absent_factor phi c j HP) by (assumption || lia). rewrite Rmult_1_r. now apply Hp.
        + rewrite (exp_eta_get lg X m yz PI HC j) by lia. cbn [bind]. apply IH; [lia| |].
          * unfold vzip. now rewrite vtab_length.
          * intros c Hc. unfold vzip. rewrite vget_tab by lia. rewrite (factor_get lg X m j c _ phi); [|lia|assumption|apply HP|].
            -- rewrite rprod_S, <- Hp by assumption. reflexivity.
            -- intros i Hi. apply (mcol_get lg m); [apply HP|assumption]. }
    apply (G V 0%nat); [lia|apply vtab_length|]. intros c Hc. rewrite vget_tab by assumption. reflexivity.
  Qed.
  Lemma compute_h_value phi n : simplex_phi lg m phi -> last_word (fun x => negb (x =? 0)%Z) X V = Some n ->
    exists h, compute_h X (ratio X N) (p_eta m) phi = Ok (Some h) /\ length h = K /\
      forall i, (i < K)%nat -> vget h i = documented_h fexp X N (p_eta m) phi n i.
  Proof.
    intros HP En. destruct (last_word_lt X _ _ _ En) as [Hn _]. unfold compute_h. destruct (all_products_skip phi HP) as (p & -> & Lp & Vp). cbn [bind].
    rewrite (pi_words _ _ PI), En. rewrite (exp_eta_get lg X m yz PI HC n Hn). cbn [bind]. eexists. split; [reflexivity|].
    set (ee := mtab K C _). set (q := vzip div p _).
    assert (HB : forall c, (c < C)%nat -> vget q c = rprod V (fun l => if Nat.eqb l n then 1 else wf phi c l)).
    { intros c Hc. unfold q, vzip. rewrite vget_tab by lia. rewrite Vp by assumption.
      unfold ee. rewrite (factor_get lg X m n c _ phi); [|assumption|assumption|apply HP|intros; apply (mcol_get lg m); [apply HP|assumption]].
      cbn [div Rops]. rewrite (rprod_but V n (wf phi c)) by assumption. pose proof (factor_pos lg X m phi c n HP Hn). field. lra. }
    split; [unfold mat_vec; apply vtab_length|]. intros i Hi. rewrite (mat_vec_get lg) by exact Hi. unfold ee at 1. rewrite ncols_tab.
    unfold documented_h. rewrite (proj1 (proj2 HP)). apply rsum_ext. intros c Hc. rewrite HB by assumption. unfold ee. rewrite mget_tab by assumption. ring.
  Qed.

  Lemma supported_simplex gamma phi : valid_posterior X m gamma phi -> (forall n, (n < V)%nat -> supported (p_beta m) n) -> simplex_phi lg m phi.
  Proof.
    intros VP HS. split; [apply (vp_rows _ _ _ _ VP)|]. split; [apply (vp_cols _ _ _ _ VP)|]. intros n Hn. split; [intros i Hi; now apply (vp_nonneg _ _ _ _ VP)|].
    destruct (vp_sum _ _ _ _ VP n Hn) as [S|[_ S]]; [exact S|]. now elim S; apply HS.
  Qed.

  Lemma fast_report cf w d : d_words d = X -> d_class d = Some yz -> (forall n, (n < V)%nat -> supported (p_beta m) n) ->
    (exists n, (0 < nth n X 0)%Z) ->
    exists gamma phi v l, fast_supervised_doc_e_step 7 cf w true d m = Ok (mk_vparams gamma phi [], Some v) /\
      compute_unsupervised_likelihood 7 X (p_alpha m) (p_beta m) phi gamma = Ok l /\
      v = l + rsum V (fun n => IZR (nth n X 0%Z) * rsum K (fun i => mget phi i n * mget (p_eta m) i y)) / IZR N
            - ln (class_normaliser fexp X N (p_eta m) phi).
  Proof.
    intros E Ey HS NE. destruct (fast_valid lg X m PI 7 (le_n 7) cf w true d yz E Ey HC (fun _ => NE)) as (gamma & phi & ev & Er & VP & He).
    destruct (He eq_refl) as (v & ->). pose proof (fast_reported 7 cf w true d m yz gamma phi [] v Ey Er) as L. rewrite E in L.
    pose proof (supported_simplex gamma phi VP HS) as SP.
    unfold compute_supervised_likelihood in L. rewrite (int_sum_ok lg X m PI) in L. cbn [bind] in L.
    destruct (nonempty_lt X NE) as (k & Hk & Hk2). rewrite (pi_words _ _ PI) in Hk.
    destruct (last_word_some X (fun x => negb (x =? 0)%Z) V k Hk) as (n & En).
    { unfold Xget. destruct (Z.eqb_spec (nth k X 0%Z) 0); [lia|reflexivity]. }
    destruct (compute_h_value phi n SP En) as (h & Eh & Lh & Vh). rewrite Eh in L. cbn [bind] in L. unfold compute_supervised_likelihood_h in L.
    apply bind_ok in L as (l & El & L). rewrite (int_sum_ok lg X m PI) in L. cbn [bind] in L. rewrite (last_word_same lg X m PI 7 (le_n 7)), (pi_words _ _ PI), En in L.
    exists gamma, phi, v, l. split; [exact Er|]. split; [exact El|].
    rewrite <- (f_equal (fun o => match o with Ok b => b | _ => 0 end) L). cbn [add opp div slog ofZ Rops].
    rewrite (eta_term lg X m yz PI HC 7 (le_n 7) phi SP). rewrite (h_dot lg X m phi n h SP); auto. apply last_word_lt in En. apply En.
  Qed.

  Notation prior_term mu D := (1 / IZR D * ((mu - 1) * rsum C (fun c => rsum (mrows (p_eta m)) (fun i => ln (mget (p_eta m) i c))) + (lg (INR C * mu) - INR C * lg mu))).
  Lemma multinomial_report cf mu w d : d_words d = X -> d_class d = Some yz -> (yz < Z.of_nat (length (d_priors d)))%Z ->
    exists gamma phi v l, multinomial_doc_e_step 7 cf mu w true d m = Ok (mk_vparams gamma phi [], Some v) /\
      compute_unsupervised_likelihood 7 X (p_alpha m) (p_beta m) phi gamma = Ok l /\
      v = l + rsum V (fun n => IZR (nth n X 0%Z) * rsum K (fun i => mget phi i n * ln (mget (p_eta m) i y)))
            - IZR (N - 1) * ln (vget (d_priors d) y) + prior_term mu (d_corpus_size d).
  Proof.
    intros E Ey Hp. destruct (multinomial_valid lg X m PI 7 (le_n 7) cf mu w true d yz E Ey HC Hp) as (gamma & phi & ev & Er & VP & He).
    destruct (He eq_refl) as (v & ->). pose proof (multinomial_reported 7 cf mu w true d m yz gamma phi [] v Ey Er) as L. rewrite E in L.
    unfold compute_supervised_multinomial_likelihood in L. apply bind_ok in L as (l & El & L). rewrite (int_sum_ok lg X m PI) in L. cbn [bind] in L.
    exists gamma, phi, v, l. split; [exact Er|]. split; [exact El|].
    rewrite <- (f_equal (fun o => match o with Ok b => b | _ => 0 end) L). cbv zeta. rewrite (redux_mtab lg). rewrite (RenameBase.mall_map lg). rewrite (redux_mtab lg).
    cbn [add sub mul div one slog slgamma ofZ Rops]. rewrite <- INR_IZR_INZ. rewrite (vp_rows _ _ _ _ VP), (vp_cols _ _ _ _ VP).
    rewrite (rsum_ext V (fun n => rsum K _) (fun n => IZR (nth n X 0%Z) * rsum K (fun i => mget phi i n * ln (mget (p_eta m) i y)))).
    2: { intros n Hn. rewrite <- rsum_mult_l. apply rsum_ext. intros i Hi. unfold Xget. ring. }
    ring.
  Qed.

  Lemma correspondence_report cf mu d : d_words d = X -> d_class d = Some yz ->
    exists gamma phi tau v l, correspondence_doc_e_step 7 cf mu true d m = Ok (mk_vparams gamma phi tau, Some v) /\
      compute_unsupervised_likelihood 7 X (p_alpha m) (p_beta m) phi gamma = Ok l /\
      v = l - rsum V (fun n => IZR (nth n X 0%Z) * (vget tau n * ln (vget tau n + / 10 ^ 44)))
            + rsum V (fun n => IZR (nth n X 0%Z) * (vget tau n * rsum K (fun i => mget phi i n * ln (mget (p_eta m) i y))))
            - ln (IZR N) + prior_term mu (d_corpus_size d).
  Proof.
    intros E Ey. destruct (correspondence_valid lg X m PI 7 (le_n 7) cf mu true d yz E Ey HC) as (gamma & phi & tau & ev & Er & VP & Ht & He).
    destruct (He eq_refl) as (v & ->). pose proof (correspondence_reported 7 cf mu true d m yz gamma phi tau v Ey Er) as L. rewrite E in L.
    unfold compute_supervised_correspondence_likelihood in L. apply bind_ok in L as (l & El & L). rewrite (int_sum_ok lg X m PI) in L. cbn [bind] in L.
    exists gamma, phi, tau, v, l. split; [exact Er|]. split; [exact El|].
    rewrite <- (f_equal (fun o => match o with Ok b => b | _ => 0 end) L). cbv zeta. rewrite (redux_mtab lg). rewrite (RenameBase.mall_map lg). rewrite (redux_mtab lg). rewrite (redux_tab lg), (proj1 Ht).
    cbn [add sub mul div one opp slog slgamma ofZ Rops]. rewrite <- INR_IZR_INZ. rewrite (vp_rows _ _ _ _ VP), (vp_cols _ _ _ _ VP).
    rewrite (rsum_ext V (fun n => rsum K _) (fun n => IZR (nth n X 0%Z) * (vget tau n * rsum K (fun i => mget phi i n * ln (mget (p_eta m) i y))))).
    2: { intros n Hn. rewrite <- rsum_mult_l, <- rsum_mult_l. apply rsum_ext. intros i Hi. unfold Xget. ring. }
    rewrite (rsum_ext V (fun n => vget tau n * _ * _) (fun n => IZR (nth n X 0%Z) * (vget tau n * ln (vget tau n + / 10 ^ 44)))).
    2: { intros n Hn. replace tiny with (/ 10 ^ 44); [unfold Xget; ring|]. unfold tiny. cbn [div one ofZ Rops]. change (10 ^ 22)%Z with 10000000000000000000000%Z.
         replace (10 ^ 44)%R with (10000000000000000000000 * 10000000000000000000000)%R by ring. field. }
    ring.
  Qed.
End Report.
