(** Inference. *)
Require Import Reals ZArith List Bool Arith Lia Lra.
From Flocq Require Import Core.Core IEEE754.BinarySingleNaN.
Require Import Verif.Base Verif.Scalar Verif.Mat Verif.UtilsModel Verif.BuilderModel Verif.EStepModel Verif.EStepSpec Verif.EStepTheorems
  Verif.PoolModel Verif.PoolSpec Verif.PoolTheorems Verif.LdaModel Verif.InferSpec.
Import ListNotations.
Local Open Scope nat_scope.

(** ** The index of the largest coefficient, through a real measure *)
Section Max.
  Context {T : Type} {O : ops T}.
  Variable val : T -> R.
  Variable good : T -> Prop.
  Hypothesis ltb_val : forall x y, good x -> good y -> (ltb x y = true <-> (val x < val y)%R).
  Lemma max_from_spec l : forall pre best b, good best -> Forall good l -> nth_error pre b = Some best ->
    Forall good pre -> (forall i x, nth_error pre i = Some x -> (val x <= val best)%R /\ ((i < b)%nat -> (val x < val best)%R)) ->
    exists p x, max_from best b (length pre) l = p /\ nth_error (pre ++ l) p = Some x /\
      forall i y, nth_error (pre ++ l) i = Some y -> (val y <= val x)%R /\ ((i < p)%nat -> (val y < val x)%R).
  Proof.
    induction l as [|a l IH]; intros pre best b Gb Gl Hb Gp H; cbn [max_from].
    - exists b, best. rewrite app_nil_r. now split.
    - pose proof (Forall_inv Gl) as Ga. pose proof (Forall_inv_tail Gl) as Gl'.
      assert (LEN : length (pre ++ [a]) = S (length pre)) by (rewrite app_length; cbn; lia).
      assert (Gp' : Forall good (pre ++ [a])) by (apply Forall_app; split; [assumption|now constructor]).
      replace (pre ++ a :: l) with ((pre ++ [a]) ++ l) by now rewrite <- app_assoc. rewrite <- LEN.
      assert (B : (b < length pre)%nat) by (apply nth_error_Some; congruence).
      assert (SPLIT : forall i x, nth_error (pre ++ [a]) i = Some x -> nth_error pre i = Some x \/ (i = length pre /\ x = a)).
      { intros i x E. destruct (Nat.lt_ge_cases i (length pre)); [left; rewrite nth_error_app1 in E by assumption; exact E|].
        right. rewrite nth_error_app2 in E by assumption. destruct (i - length pre)%nat eqn:D; [cbn in E; split; [lia|congruence]|].
        cbn in E. destruct n; discriminate. }
      destruct (ltb best a) eqn:L.
      + apply ltb_val in L; [|assumption..]. apply IH; try assumption.
        * rewrite nth_error_app2 by lia. now rewrite Nat.sub_diag.
        * intros i x E. destruct (SPLIT i x E) as [E'|[-> ->]]; [|split; [lra|lia]].
          destruct (H i x E') as [H1 _]. split; [lra|intros _; lra].
      + assert (N : (val a <= val best)%R).
        { destruct (Rlt_dec (val best) (val a)) as [G|G]; [|lra]. apply ltb_val in G; [congruence|assumption..]. }
        apply IH; try assumption.
        * now rewrite nth_error_app1.
        * intros i x E. destruct (SPLIT i x E) as [E'|[-> ->]]; [now apply H|]. split; [exact N|]. lia.
  Qed.
  Lemma max_index_spec l : l <> [] -> Forall good l ->
    exists p, max_index l = Ok p /\ first_best (length l) (fun c => val (nth c l zero)) p.
  Proof.
    intros Hn G. destruct l as [|x l]; [congruence|]. cbn [max_index].
    destruct (max_from_spec l [x] x 0 (Forall_inv G) (Forall_inv_tail G) eq_refl) as (p & y & E & Hp & H).
    - constructor; [apply (Forall_inv G)|constructor].
    - intros [|i] z Hz; [|destruct i; discriminate]. cbn in Hz. injection Hz as <-. split; [lra|lia].
    - exists p. split; [cbn [length] in E; now rewrite E|]. cbn [app] in *.
      assert (P : (p < length (x :: l))%nat) by (apply nth_error_Some; congruence).
      pose proof (nth_error_nth (x :: l) p zero Hp) as NP. unfold first_best. rewrite NP. split; [exact P|].
      assert (A : forall c, (c < length (x :: l))%nat -> nth_error (x :: l) c = Some (nth c (x :: l) zero)).
      { intros c Hc. destruct (nth_error (x :: l) c) eqn:Ec; [now rewrite (nth_error_nth _ _ zero Ec)|]. apply nth_error_None in Ec. lia. }
      split; intros c Hc; apply (H c); try (apply A; lia); assumption.
  Qed.
End Max.

Lemma seqM_tab {A} n (f : nat -> outcome A) (P : nat -> A -> Prop) : (forall i, i < n -> exists a, f i = Ok a /\ P i a) ->
  exists l, seqM (vtab n f) = Ok l /\ length l = n /\ forall i d, i < n -> P i (nth i l d).
Proof.
  revert f P. induction n as [|n IH]; intros f P H.
  - exists []. split; [reflexivity|]. split; [reflexivity|]. intros; lia.
  - rewrite vtab_S. destruct (H 0) as (a & E & Ha); [lia|]. cbn [seqM]. rewrite E. cbn [bind].
    destruct (IH (fun i => f (S i)) (fun i => P (S i))) as (l & El & Ll & Pl); [intros i Hi; apply H; lia|].
    rewrite El. cbn [bind]. exists (a :: l). split; [reflexivity|]. split; [cbn; lia|]. intros [|i] d Hi; [exact Ha|]. cbn. apply Pl. lia.
Qed.

Section ExactInfer.
  Variable lg : R -> R.
  Local Hint Extern 0 (ops _) => exact (Rops lg) : typeclass_instances.
  Open Scope R_scope.
  Lemma decision_R (m : params R) (g : mat R) : length (p_alpha m) = mrows g -> mrows (p_eta m) = mrows g ->
    exists s, decision_function m g = Ok s /\ mrows s = ncols (p_eta m) /\ ncols s = ncols g /\
      forall c d, (c < ncols (p_eta m))%nat -> (d < ncols g)%nat -> mget s c d = score m g c d.
  Proof.
    intros H1 H2. unfold decision_function. rewrite H1, H2, !Nat.eqb_refl. cbn [andb negb].
    eexists. split; [reflexivity|]. split; [reflexivity|]. split; [apply ncols_tab|]. intros c d Hc Hd.
    rewrite mget_tab by assumption. unfold score.
    match goal with |- redux (vtab ?n ?f) = _ => change (redux (vtab n f)) with (rsum n f) end.
    apply rsum_ext. intros i Hi. cbn [mul Rops]. f_equal. rewrite mget_tab by assumption. unfold share. cbn [div Rops].
    rewrite mget_tab by assumption. cbn [sub Rops]. f_equal. rewrite mcol_tab by assumption. reflexivity.
  Qed.
  Lemma predict_R (s : mat R) : (0 < mrows s)%nat ->
    exists p, predict_scores s = Ok p /\ length p = ncols s /\
      forall d, (d < ncols s)%nat -> first_best (mrows s) (fun c => mget s c d) (nth d p 0%nat).
  Proof.
    intros H. destruct (seqM_tab (ncols s) (fun d => max_index (mcol s d)) (fun d p => first_best (mrows s) (fun c => mget s c d) p)) as (p & E & L & P).
    - intros d Hd. destruct (max_index_spec (fun x : R => x) (fun _ => True)) with (l := mcol s d) as (p & E & F1 & F2 & F3).
      + intros x y _ _. cbn [ltb Rops]. destruct (Rlt_dec x y); split; intros; try assumption; try reflexivity; [discriminate|contradiction].
      + unfold mcol. destruct (mrows s); [lia|discriminate].
      + apply Forall_forall. intros; exact I.
      + exists p. split; [exact E|]. unfold mcol in *. rewrite vtab_length in *.
        assert (G : forall c, (c < mrows s)%nat -> nth c (vtab (mrows s) (fun i => mget s i d)) zero = mget s c d) by (intros c Hc; now apply (vtab_nth (mrows s) (fun i => mget s i d))).
        split; [exact F1|]. split; intros c Hc.
        * specialize (F2 c Hc). now rewrite !G in F2 by assumption.
        * specialize (F3 c Hc). rewrite !G in F3 by lia. exact F3.
    - exists p. split; [exact E|]. split; [exact L|]. intros d Hd. now apply P.
  Qed.
End ExactInfer.

(** ** Floats *)
Section FloatInfer.
  Variables prec emax : Z.
  Context {Hprec : Prec_gt_0 prec} {Hemax : Prec_lt_emax prec emax}.
  Variables (lg ex lga : binary_float prec emax -> binary_float prec emax) (sum : list (binary_float prec emax) -> binary_float prec emax).
  Local Hint Extern 0 (ops (binary_float prec emax)) => exact (Fops prec emax lg ex lga sum) : typeclass_instances.
  Lemma predict_float (s : mat (binary_float prec emax)) : 0 < mrows s ->
    (forall c d, c < mrows s -> d < ncols s -> is_finite (mget s c d) = true) ->
    exists p, predict_scores s = Ok p /\ length p = ncols s /\
      forall d, d < ncols s -> first_best (mrows s) (fun c => B2R (mget s c d)) (nth d p 0).
  Proof.
    intros H Hf. destruct (seqM_tab (ncols s) (fun d => max_index (mcol s d)) (fun d p => first_best (mrows s) (fun c => B2R (mget s c d)) p)) as (p & E & L & P).
    - intros d Hd. destruct (max_index_spec (O := Fops prec emax lg ex lga sum) B2R (fun x => is_finite x = true)) with (l := mcol s d) as (p & E & F1 & F2 & F3).
      + intros x y Fx Fy. cbn [ltb Fops]. rewrite (Bltb_correct prec emax x y Fx Fy).
        destruct (Rlt_bool_spec (B2R x) (B2R y)); split; intros; try reflexivity; try assumption; [discriminate|]. exfalso. eapply Rlt_irrefl. eapply Rle_lt_trans; eassumption.
      + unfold mcol. destruct (mrows s); [lia|discriminate].
      + apply Forall_forall. intros x Hx. unfold mcol, vtab in Hx. apply in_map_iff in Hx. destruct Hx as (c & <- & Hc). apply in_seq in Hc. apply Hf; [lia|assumption].
      + exists p. split; [exact E|]. unfold mcol in *. rewrite vtab_length in *.
        assert (G : forall c, c < mrows s -> nth c (vtab (mrows s) (fun i => mget s i d)) zero = mget s c d) by (intros c Hc; now apply (vtab_nth (mrows s) (fun i => mget s i d))).
        split; [exact F1|]. split; intros c Hc.
        * specialize (F2 c Hc). now rewrite !G in F2 by assumption.
        * specialize (F3 c Hc). rewrite !G in F3 by lia. exact F3.
    - exists p. split; [exact E|]. split; [exact L|]. intros d Hd. now apply P.
  Qed.
  (** NaN is never exceeded *)
  Lemma predict_nan (s : mat (binary_float prec emax)) : 0 < mrows s ->
    (forall d, d < ncols s -> mget s 0 d = B754_nan) -> predict_scores s = Ok (repeat 0 (ncols s)).
  Proof.
    intros H Hn. unfold predict_scores. unfold vtab. rewrite (seqM_ok _ (fun _ => 0)).
    - f_equal. clear Hn. induction (ncols s) as [|n IH]; [reflexivity|]. rewrite seq_S, map_app, IH. cbn. symmetry. apply repeat_cons.
    - intros d Hd. apply in_seq in Hd. unfold mcol. destruct (mrows s) as [|r]; [lia|]. rewrite vtab_S. cbn [max_index]. rewrite Hn by lia. f_equal.
      generalize (vtab r (fun i => mget s (S i) d)) as l. generalize 1 as k. intros k l. revert k. induction l as [|x l IH]; intros k; [reflexivity|]. cbn [max_from].
      replace (ltb B754_nan x) with false by (destruct x; reflexivity). apply IH.
  Qed.
End FloatInfer.

(** ** transform *)
Lemma pool_run_reachable {V P S R X} (estep : P -> nat -> V) (feed : S -> P -> nat -> V -> S * P * list X) e_end m_end md owner docs W s0 p0
  (s s' : state V P S R X) (ls : list (label R)) : reachable estep feed e_end m_end md owner docs W s0 p0 s ->
  run estep feed e_end m_end md owner docs ls s s' -> reachable estep feed e_end m_end md owner docs W s0 p0 s'.
Proof. intros Hs Hr. induction Hr; [assumption|]. apply IHHr. eapply reach_step; eassumption. Qed.
Section Transform.
  Context {T : Type} {O : ops T}.
  Variable dfuel : nat.
  (** the draws decide only about the event *)
  Lemma report_fst {A} (x : outcome A) (f : A -> vparams T) (lik : A -> outcome T) emit v e :
    (let* a := x in let* ev := report emit (lik a) in Ok (f a, ev)) = Ok (v, e) -> exists a, x = Ok a /\ v = f a.
  Proof.
    destruct x as [a| |]; cbn [bind]; try discriminate. destruct (report emit (lik a)) as [ev| |]; cbn [bind]; try discriminate.
    intros H. injection H as <- <-. eauto.
  Qed.
  Lemma draws k : forall epochs d m emit emit' v e v' e',
    doc_e_step dfuel k epochs emit d m = Ok (v, e) -> doc_e_step dfuel k epochs emit' d m = Ok (v', e') -> v = v'.
  Proof.
    induction k; intros epochs d m emit emit' v e v' e'; cbn [doc_e_step].
    - unfold unsupervised_doc_e_step. destruct (int_sum _); cbn [bind]; try discriminate. destruct (negb _); [discriminate|].
      match goal with |- bind ?x _ = _ -> _ => destruct x as [[gamma phi]| |]; cbn [bind]; try discriminate end.
      intros H H'. apply (report_fst (Ok tt) (fun _ => _) (fun _ => _)) in H. apply (report_fst (Ok tt) (fun _ => _) (fun _ => _)) in H'.
      destruct H as (? & _ & ->), H' as (? & _ & ->). reflexivity.
    - unfold supervised_doc_e_step. destruct (int_sum _); cbn [bind]; try discriminate. destruct (d_class d); [|discriminate]. destruct (negb _); [discriminate|].
      match goal with |- bind ?x _ = _ -> _ => destruct x as [[[gamma phi] h]| |]; cbn [bind]; try discriminate end.
      intros H H'. apply (report_fst (Ok tt) (fun _ => _) (fun _ => _)) in H. apply (report_fst (Ok tt) (fun _ => _) (fun _ => _)) in H'.
      destruct H as (? & _ & ->), H' as (? & _ & ->). reflexivity.
    - unfold fast_supervised_doc_e_step. destruct (int_sum _); cbn [bind]; try discriminate. destruct (d_class d); [|discriminate]. destruct (negb _); [discriminate|].
      match goal with |- bind ?x _ = _ -> _ => destruct x as [[gamma phi]| |]; cbn [bind]; try discriminate end.
      intros H H'. apply (report_fst (Ok tt) (fun _ => _) (fun _ => _)) in H. apply (report_fst (Ok tt) (fun _ => _) (fun _ => _)) in H'.
      destruct H as (? & _ & ->), H' as (? & _ & ->). reflexivity.
    - unfold semi_supervised_doc_e_step. destruct (d_class d) as [y|]; [|discriminate]. destruct (y <? 0)%Z; eauto.
    - unfold multinomial_doc_e_step. destruct (int_sum _); cbn [bind]; try discriminate. destruct (d_class d); [|discriminate]. destruct (negb _); [discriminate|].
      match goal with |- bind ?x _ = _ -> _ => destruct x as [[gamma phi]| |]; cbn [bind]; try discriminate end.
      intros H H'. apply (report_fst (Ok tt) (fun _ => _) (fun _ => _)) in H. apply (report_fst (Ok tt) (fun _ => _) (fun _ => _)) in H'.
      destruct H as (? & _ & ->), H' as (? & _ & ->). reflexivity.
    - unfold correspondence_doc_e_step. destruct (int_sum _); cbn [bind]; try discriminate. destruct (d_class d); [|discriminate]. destruct (negb _); [discriminate|].
      match goal with |- bind ?x _ = _ -> _ => destruct x as [[[gamma phi] tau]| |]; cbn [bind]; try discriminate end.
      intros H H'. apply (report_fst (Ok tt) (fun _ => _) (fun _ => _)) in H. apply (report_fst (Ok tt) (fun _ => _) (fun _ => _)) in H'.
      destruct H as (? & _ & ->), H' as (? & _ & ->). reflexivity.
  Qed.
  Definition gammas (k : e_step T) epochs (m : params T) (X : list (list Z)) : outcome (mat T) :=
    gather (mrows (p_beta m)) (map (fun x => let* v := posterior dfuel k epochs (unlabelled x) m in Ok (v_gamma v)) X).
  Lemma transform_unique k epochs W m X r : transform_call dfuel k epochs W m X r -> r = gammas k epochs m X.
  Proof.
    intros (owner & s0 & s & L & Rs & D & ->). unfold gammas. f_equal.
    destruct (C15_transform_columns _ _ _ _ _ _ _ _ _ _ _ _ _ L Rs D) as [-> _].
    rewrite <- (vtab_eta X []) at 2. unfold vtab. rewrite map_map. reflexivity.
  Qed.
  Lemma transform_exists k epochs W m X : 0 < W -> transform_call dfuel k epochs W m X (gammas k epochs m X).
  Proof.
    intros HW. set (s0 := map (fun _ => UB : outcome (list T)) X).
    destruct (C16_can_complete (outcome (list T)) (params T) (list (outcome (list T))) (option T) T
      (fun p i => let* v := posterior dfuel k epochs (unlabelled (nth i X [])) p in Ok (v_gamma v))
      (fun g p i c => (replace i c g, p, [])) (fun p => p) (fun g p => (g, p, [])) Transform true (length X) 0 W s0 m (initial W s0 m)) as (ls & s' & Rn & D).
    - exact (inhabits None).
    - exact HW.
    - intros. apply le_n.
    - intros. apply le_n.
    - apply reach_init.
    - assert (L : length s0 = length X) by (unfold s0; now rewrite map_length).
      assert (H : transform_call dfuel k epochs W m X (gather (mrows (p_beta m)) (priv s'))).
      { exists true, s0, s'. split; [exact L|]. split; [refine (pool_run_reachable _ _ _ _ _ _ _ _ _ _ _ _ _ _ Rn); apply reach_init|]. now split. }
      rewrite <- (transform_unique _ _ _ _ _ _ H). exact H.
  Qed.
  Lemma gammas_sizes k epochs m X g : gammas k epochs m X = Ok g -> mrows g = mrows (p_beta m) /\ ncols g = length X.
  Proof.
    unfold gammas, gather. set (l := map _ X). assert (L : length l = length X) by apply map_length.
    destruct (seqM l) as [cols| |] eqn:E; cbn [bind]; try discriminate. destruct (forallb _ cols); [|discriminate]. intros H. injection H as <-.
    split; [reflexivity|]. unfold ncols. cbn [mcols]. rewrite <- L. clear -E. revert cols E. induction l as [|x l IH]; intros cols E; cbn in E.
    - injection E as <-. reflexivity.
    - destruct x; cbn in E; try discriminate. destruct (seqM l); cbn in E; try discriminate. injection E as <-. cbn. f_equal. now apply IH.
  Qed.
  Lemma posterior_reads_label k epochs X m : reads_label k = true -> posterior dfuel k epochs (unlabelled X) m = UB.
  Proof.
    intros H. unfold posterior. replace (doc_e_step dfuel k epochs true (unlabelled X) m) with (UB : outcome (vparams T * option T)); [reflexivity|].
    destruct k; try discriminate; cbn; unfold supervised_doc_e_step, fast_supervised_doc_e_step, semi_supervised_doc_e_step, multinomial_doc_e_step, correspondence_doc_e_step;
      cbn [d_words d_class unlabelled]; unfold int_sum; try reflexivity; destruct (_ && _)%bool; reflexivity.
  Qed.
  Lemma gammas_reads_label k epochs m X : reads_label k = true -> X <> [] -> gammas k epochs m X = UB.
  Proof.
    intros H Hn. destruct X as [|x X]; [congruence|]. unfold gammas. cbn [map]. rewrite posterior_reads_label by assumption. reflexivity.
  Qed.
End Transform.

Section ExactTransform.
  Variable lg : R -> R.
  Local Hint Extern 0 (ops _) => exact (Rops lg) : typeclass_instances.
  Open Scope R_scope.
  Lemma classic_posterior cf epochs (m : params R) x : proper_input x m ->
    exists gamma phi, posterior 7 (Classic cf) epochs (unlabelled x) m = Ok (mk_vparams gamma phi []) /\ valid_posterior x m gamma phi.
  Proof.
    intros P. unfold posterior. cbn [doc_e_step].
    destruct (C30_valid_posterior lg cf true (unlabelled x) m P) as (g1 & p1 & e1 & E1 & _). rewrite E1. cbn [bind].
    destruct (C30_valid_posterior lg cf false (unlabelled x) m P) as (g & p & e & E & V & _). rewrite E. cbn [bind]. exists g, p. split; [reflexivity|exact V].
  Qed.
  Lemma classic_gammas cf epochs (m : params R) X : Forall (fun x => proper_input x m) X ->
    exists g, gammas 7 (Classic cf) epochs m X = Ok g /\ mrows g = mrows (p_beta m) /\ ncols g = length X /\
      forall d, (d < length X)%nat -> exists phi, valid_posterior (nth d X []) m (mcol g d) phi.
  Proof.
    intros H.
    assert (A : exists cols, seqM (map (fun x => let* v := posterior 7 (Classic cf) epochs (unlabelled x) m in Ok (v_gamma v)) X) = Ok cols /\
      length cols = length X /\ forallb (fun c => Nat.eqb (length c) (mrows (p_beta m))) cols = true /\
      forall d, (d < length X)%nat -> exists phi, valid_posterior (nth d X []) m (nth d cols []) phi).
    { induction X as [|x X IH]; [exists []; repeat split; intros; cbn in *; lia|].
      destruct (IH (Forall_inv_tail H)) as (cols & E & L & F & Hd).
      destruct (classic_posterior cf epochs m x (Forall_inv H)) as (gamma & phi & Ex & Vx). cbn [map seqM]. rewrite Ex. cbn [bind v_gamma]. rewrite E. cbn [bind].
      exists (gamma :: cols). split; [reflexivity|]. split; [cbn; lia|]. split; [cbn; rewrite F, (vp_len _ _ _ _ Vx), Nat.eqb_refl; reflexivity|].
      intros [|d] Hd'; cbn; [now exists phi|]. apply Hd. cbn in Hd'. lia. }
    destruct A as (cols & E & L & F & Hd). unfold gammas, gather. rewrite E. cbn [bind]. rewrite F. eexists. split; [reflexivity|].
    split; [reflexivity|]. split; [exact L|]. intros d Hd'. destruct (Hd d Hd') as (phi & V). exists phi.
    replace (mcol (mk_mat (mrows (p_beta m)) cols) d) with (nth d cols []); [exact V|].
    unfold mcol. cbn [mrows]. rewrite <- (vp_len _ _ _ _ V). symmetry. exact (vtab_eta (nth d cols []) 0).
  Qed.
  (** the shares of a document with a word some topic has *)
  Lemma shares_distribution (m : params R) (g : mat R) X d phi : proper_input X m -> mrows g = mrows (p_beta m) ->
    valid_posterior X m (mcol g d) phi ->
    (exists n, (n < length X)%nat /\ (0 < nth n X 0)%Z /\ supported (p_beta m) n) ->
    (forall i, (i < mrows g)%nat -> 0 <= share m g i d) /\ rsum (mrows g) (fun i => share m g i d) = 1.
  Proof.
    intros P Hr V (n & Hn & Hx & Hs).
    assert (G : forall i, (i < mrows g)%nat -> mget g i d - vget (p_alpha m) i = rsum (ncols (p_beta m)) (fun n => IZR (nth n X 0%Z) * mget phi i n)).
    { intros i Hi. pose proof (vp_gamma _ _ _ _ V i) as E. unfold mcol in E. rewrite vget_tab in E by assumption. rewrite E by lia. lra. }
    assert (CN : forall j, 0 <= IZR (nth j X 0%Z)).
    { intros j. apply (IZR_le 0). destruct (Nat.lt_ge_cases j (length X)); [apply (pi_counts _ _ P), nth_In; assumption|]. rewrite nth_overflow by assumption. lia. }
    assert (N : forall i, (i < mrows g)%nat -> 0 <= mget g i d - vget (p_alpha m) i).
    { intros i Hi. rewrite G by assumption. apply rsum_nonneg. intros j Hj. apply Rmult_le_pos; [apply CN|]. apply (vp_nonneg _ _ _ _ V); lia. }
    set (S := rsum (mrows g) (fun j => mget g j d - vget (p_alpha m) j)).
    assert (PS : 0 < S).
    { assert (E : S = rsum (ncols (p_beta m)) (fun n => IZR (nth n X 0%Z) * rsum (mrows g) (fun i => mget phi i n))).
      { unfold S. rewrite (rsum_ext (mrows g) _ _ G), rsum_swap. apply rsum_ext. intros j _. now rewrite rsum_mult_l. }
      rewrite E. rewrite (pi_words _ _ P) in Hn.
      apply Rlt_le_trans with (IZR (nth n X 0%Z) * rsum (mrows g) (fun i => mget phi i n)).
      - rewrite Hr. destruct (vp_sum _ _ _ _ V n Hn) as [->|[_ Q]]; [|contradiction]. rewrite Rmult_1_r. now apply (IZR_lt 0).
      - apply (rsum_le_term (ncols (p_beta m)) (fun n => IZR (nth n X 0%Z) * rsum (mrows g) (fun i => mget phi i n))); [|assumption].
        intros j Hj. apply Rmult_le_pos; [apply CN|]. apply rsum_nonneg. intros i Hi. apply (vp_nonneg _ _ _ _ V); lia. }
    split.
    - intros i Hi. unfold share. fold S. apply Rmult_le_pos; [now apply N|]. left. now apply Rinv_0_lt_compat.
    - unfold share. fold S. rewrite rsum_div. fold S. unfold Rdiv. apply Rinv_r. lra.
  Qed.
End ExactTransform.
