(** The M steps maximise the bound of the epoch's documents. *)
Require Import Reals ZArith List Bool Arith Lia Lra.
Require Import Verif.Base Verif.Scalar Verif.Mat Verif.RealLemmas Verif.UtilsModel Verif.BuilderModel Verif.EStepModel Verif.EStepSpec Verif.EStepElbo Verif.LgammaSpec.
Require Import Verif.OptModel Verif.OptSpec Verif.OptProofs Verif.MStepModel Verif.MStepSpec Verif.MStepAny Verif.MStepBatch Verif.MStepReal Verif.BoundSpec.
Import ListNotations.
Open Scope R_scope.

Section Corpus.
  Variables lg : R -> R.
  Local Hint Extern 0 (ops _) => exact (Rops lg) : typeclass_instances.
  Variables (psi : R -> R) (K V C : nat).

  Lemma lsum_cons a l : lsum (a :: l) = a + lsum l.
  Proof. reflexivity. Qed.
  (** expected counts weigh functions like the documents do *)
  Lemma expected_weigh (a : item R -> nat -> nat -> R) (f : nat -> nat -> R) l :
    rsum K (fun i => rsum V (fun n => expected a l i n * f i n)) = lsum (map (fun x => rsum K (fun i => rsum V (fun n => a x i n * f i n))) l).
  Proof.
    induction l as [|x l IH]; cbn [map].
    - change (lsum []) with 0. apply rsum_zero. intros i Hi. apply rsum_zero. intros n Hn. unfold expected. cbn. ring.
    - rewrite lsum_cons, <- IH, <- rsum_plus. apply rsum_ext. intros i Hi. rewrite <- rsum_plus. apply rsum_ext. intros n Hn.
      unfold expected. cbn [map]. rewrite lsum_cons. ring.
  Qed.
  Lemma elbo_topics X alpha gamma phi (b b' eta eta' : mat R) : mrows b = K -> ncols b = V -> mrows b' = K -> ncols b' = V ->
    elbo lg psi X (mk_params alpha b eta) gamma phi =
    elbo lg psi X (mk_params alpha b' eta') gamma phi +
      (rsum K (fun i => rsum V (fun n => mget phi i n * IZR (nth n X 0%Z) * ln (mget b i n))) -
       rsum K (fun i => rsum V (fun n => mget phi i n * IZR (nth n X 0%Z) * ln (mget b' i n)))).
  Proof.
    intros R1 C1 R2 C2. unfold elbo, e_ln_dirichlet, phi_part, e_ln_theta. cbn [p_beta p_alpha]. rewrite R1, C1, R2, C2.
    set (el := fun i => psi (vget gamma i) - psi (rsum K (vget gamma))).
    assert (S : forall q : nat -> nat -> R, rsum V (fun n => IZR (nth n X 0%Z) * rsum K (fun i => mget phi i n * (psi (vget gamma i) - psi (rsum K (vget gamma)) + q i n - ln (mget phi i n)))) =
      rsum V (fun n => IZR (nth n X 0%Z) * rsum K (fun i => mget phi i n * (el i - ln (mget phi i n)))) + rsum K (fun i => rsum V (fun n => mget phi i n * IZR (nth n X 0%Z) * q i n))).
    { intros q. rewrite (rsum_swap K V), <- rsum_plus. apply rsum_ext. intros n Hn. rewrite <- !rsum_mult_l, <- rsum_plus. apply rsum_ext. intros i Hi. unfold el. ring. }
    rewrite (S (fun i n => ln (mget b i n))), (S (fun i n => ln (mget b' i n))). ring.
  Qed.
  Lemma corpus_topics l alpha (b b' eta eta' : mat R) : mrows b = K -> ncols b = V -> mrows b' = K -> ncols b' = V ->
    corpus_bound lg psi l (mk_params alpha b eta) =
    corpus_bound lg psi l (mk_params alpha b' eta') + (log_likelihood K V (expected assigned l) b - log_likelihood K V (expected assigned l) b').
  Proof.
    intros R1 C1 R2 C2. unfold log_likelihood. rewrite !expected_weigh. unfold corpus_bound.
    induction l as [|x l IH]; cbn [map]; [change (lsum []) with 0; ring|]. rewrite !lsum_cons, IH.
    rewrite (elbo_topics (d_words (fst x)) alpha (v_gamma (snd x)) (v_phi (snd x)) b b' eta eta' R1 C1 R2 C2).
    unfold assigned, count. cbn [mul ofZ Rops]. ring.
  Qed.

  Lemma topics_optimal l alpha (b b' eta eta' : mat R) : Forall (nonneg_item K V) l -> mass K V (expected assigned l) ->
    mrows b' = K -> ncols b' = V -> (forall i n, (i < K)%nat -> (n < V)%nat -> mget b' i n = expected assigned l i n / rsum V (expected assigned l i)) ->
    stochastic K V b -> explains K V (expected assigned l) b ->
    corpus_bound lg psi l (mk_params alpha b eta) <= corpus_bound lg psi l (mk_params alpha b' eta').
  Proof.
    intros Hl Hm R C' G S Ex. rewrite (corpus_topics l alpha b b' eta eta') by (assumption || apply S).
    assert (log_likelihood K V (expected assigned l) b <= log_likelihood K V (expected assigned l) b'); [|lra].
    apply (likelihood_optimal lg K V (expected assigned l) b' b); auto.
    intros i n Hi Hn. apply (expected_nonneg lg K V assigned l i n (assigned_nonneg lg K V)); assumption.
  Qed.
  Lemma batch_corpus (HK : (0 < K)%nat) St M new P Q : batch_step K V C St M new assigned P Q ->
    forall h m0 m s e, P m0 -> between_epochs h -> Forall (fun x => sized K V x /\ Q x) (items h) -> mrun M h m0 new = Ok (m, s, e) ->
    forall l m' s' e', Forall (fun x => sized K V x /\ Q x /\ nonneg_item K V x) l -> mass K V (expected assigned l) ->
    mrun M (epoch l) m s = Ok (m', s', e') ->
    forall b eta, stochastic K V b -> explains K V (expected assigned l) b ->
      corpus_bound lg psi l (mk_params (p_alpha m) b eta) <= corpus_bound lg psi l m'.
  Proof.
    intros B h m0 m s e HP Hh Hi E l m' s' e' Hl Hm E' b eta S Ex.
    destruct (batch_between K V C HK St M new assigned P Q B h m0 m s e HP Hh Hi E) as [_ X].
    assert (Hl1 : Forall (fun x => sized K V x /\ Q x) l) by (revert Hl; apply Forall_impl; tauto).
    assert (Hl2 : Forall (nonneg_item K V) l) by (revert Hl; apply Forall_impl; tauto).
    assert (Hn : l <> []). { intros ->. specialize (Hm 0%nat HK). rewrite rsum_zero in Hm; [lra|]. reflexivity. }
    destruct (X l Hl1 Hn) as [_ Y]. destruct (Y m' s' e' E') as [EA T]. destruct (topics_R lg K V assigned l _ T Hm) as (T1 & T2 & T3).
    destruct m' as [a' b' e'']. cbn [p_alpha p_beta] in *. subst a'. now apply topics_optimal.
  Qed.

  (** posteriors of the model's own E step: its topics explain the counts *)
  Lemma expected_witness (a : item R -> nat -> nat -> R) l i n : (forall x, In x l -> 0 <= a x i n) -> 0 < expected a l i n -> exists x, In x l /\ 0 < a x i n.
  Proof.
    induction l as [|x l IH]; intros Ha P; [exfalso; revert P; unfold expected; cbn; lra|].
    destruct (Rle_lt_or_eq_dec 0 (a x i n) (Ha x (or_introl eq_refl))) as [L|E]; [exists x; split; [now left|exact L]|].
    destruct IH as (y & Hy & Py); [intros y Hy; apply Ha; now right| |exists y; split; [now right|exact Py]].
    unfold expected in *. cbn [map] in P. rewrite lsum_cons in P. lra.
  Qed.
  Lemma own_explains (m : params R) l : mrows (p_beta m) = K -> ncols (p_beta m) = V ->
    (forall i n, (i < K)%nat -> (n < V)%nat -> 0 <= mget (p_beta m) i n) -> Forall (nonneg_item K V) l ->
    Forall (fun x => competitor (d_words (fst x)) (p_beta m) (v_phi (snd x))) l -> explains K V (expected assigned l) (p_beta m).
  Proof.
    intros R C' N Hl Hc i n Hi Hn P. rewrite Forall_forall in Hl, Hc.
    destruct (expected_witness assigned l i n) as (x & Hx & Px); [|exact P|].
    - intros x Hx. destruct (Hl x Hx) as [A B]. destruct (A n Hn) as [A1 _]. specialize (B i n Hi Hn). unfold assigned. cbn [mul ofZ Rops]. apply Rmult_le_pos; [exact B|]. now apply (IZR_le 0).
    - destruct (Rle_lt_or_eq_dec 0 (mget (p_beta m) i n) (N i n Hi Hn)) as [L|E]; [exact L|exfalso].
      unfold assigned in Px. cbn [mul ofZ Rops] in Px. destruct (Z.eq_dec (count x n) 0) as [Z|Z]; [rewrite Z, Rmult_0_r in Px; lra|].
      destruct (Hc x Hx n) as [_ Q]; [now rewrite C'|exact Z|]. destruct (Q i) as [_ Q2]; [now rewrite R|]. rewrite Q2, Rmult_0_l in Px by now symmetry. lra.
  Qed.

  (** ** The class multinomials *)
  (** the classes' part of the bounds *)
  Lemma class_weigh (a : item R -> nat -> nat -> R) (f : nat -> nat -> R) l : Forall (classified C) l ->
    rsum K (fun i => rsum C (fun c => class_expected V a l i c * f i c)) =
    lsum (map (fun x => rsum K (fun i => rsum V (fun n => a x i n) * f i (Z.to_nat (class_of x)))) l).
  Proof.
    induction 1 as [|x l Hx Hl IH]; cbn [map].
    - change (lsum []) with 0. apply rsum_zero. intros i Hi. apply rsum_zero. intros n Hn. unfold class_expected. cbn. ring.
    - rewrite lsum_cons, <- IH, <- rsum_plus. apply rsum_ext. intros i Hi. destruct Hx as (k & Ek & Bk).
      assert (Eq : class_of x = k) by (unfold class_of; now rewrite Ek).
      rewrite (rsum_ext C (fun c => class_expected V a (x :: l) i c * f i c)
        (fun c => (if Nat.eqb c (Z.to_nat k) then rsum V (fun n => a x i n) * f i c else 0) + class_expected V a l i c * f i c)).
      + rewrite rsum_plus. f_equal. rewrite Eq. rewrite (rsum_single C (Z.to_nat k)); [now rewrite Nat.eqb_refl|lia|].
        intros c Hc Ne. destruct (Nat.eqb_spec c (Z.to_nat k)); [contradiction|reflexivity].
      + intros c Hc. unfold class_expected. cbn [map]. rewrite lsum_cons, Eq. destruct (Nat.eqb c (Z.to_nat k)); ring.
  Qed.
  Definition class_part (mu : R) (a : item R -> nat -> nat -> R) (l : list (item R)) (e : mat R) : R :=
    rsum K (fun i => rsum C (fun c => (class_expected V a l i c + (mu - 1)) * ln (mget e i c))).
  Lemma class_part_split mu a l e : Forall (classified C) l -> class_part mu a l e =
    lsum (map (fun x => rsum K (fun i => rsum V (fun n => a x i n) * ln (mget e i (Z.to_nat (class_of x))))) l) +
    (mu - 1) * rsum K (fun i => rsum C (fun c => ln (mget e i c))).
  Proof.
    intros Hl. rewrite <- (class_weigh a (fun i c => ln (mget e i c)) l Hl). unfold class_part. rewrite <- rsum_mult_l, <- rsum_plus. apply rsum_ext. intros i Hi.
    rewrite <- rsum_mult_l, <- rsum_plus. apply rsum_ext. intros c Hc. ring.
  Qed.
  (** A row of normalised non-negative weights maximises their log likelihood. *)
  Lemma class_optimal mu a l (e e' : mat R) : nonneg_counts lg K V a -> Forall (nonneg_item K V) l -> Forall (classified C) l ->
    1 < mu \/ (1 <= mu /\ mass K V (expected a l)) -> (0 < C)%nat -> smoothed_classes K V C mu a l e' -> stochastic K C e -> allows K V C mu a l e ->
    class_part mu a l e <= class_part mu a l e'.
  Proof.
    intros Ha Hn Hl Hmu HC (_ & _ & SC) (_ & _ & SE) AL. unfold class_part. apply rsum_le. intros i Hi.
    destruct (SC i Hi) as (_ & G & _); [destruct Hmu as [|[M1 M2]]; [now left|right; split; [exact M1|now apply M2]]|].
    set (w := fun c => class_expected V a l i c + (mu - 1)).
    assert (W0 : forall c, (c < C)%nat -> 0 <= w c).
    { intros c Hc. assert (0 <= class_expected V a l i c) by exact (class_total_nonneg lg K V a l i c Ha Hn Hi). unfold w. destruct Hmu; lra. }
    assert (WS : rsum C w = rsum V (expected a l i) + INR C * (mu - 1)).
    { unfold w. rewrite rsum_plus, rsum_const. f_equal. exact (class_totals_sum V C a l i Hl). }
    assert (WP : 0 < rsum C w).
    { rewrite WS. assert (0 < INR C) by now apply lt_0_INR. assert (0 <= rsum V (expected a l i)) by (apply rsum_nonneg; intros n Hn'; now apply (expected_nonneg lg K V a l i n Ha)).
      destruct Hmu as [M|[M1 M2]]; [pose proof (Rmult_lt_0_compat (INR C) (mu - 1)); lra|]. specialize (M2 i Hi). pose proof (Rmult_le_pos (INR C) (mu - 1)). lra. }
    rewrite (rsum_ext C (fun c => w c * ln (mget e' i c)) (fun c => w c * ln (w c / rsum C w))).
    - apply (row_optimal C w (mget e i)); [exact W0|exact WP|now apply SE|]. intros c Hc P. now apply AL.
    - intros c Hc. rewrite G by exact Hc. now rewrite WS.
  Qed.

  Lemma multinomial_split mu l alpha (b e : mat R) : Forall (classified C) l -> mrows b = K -> ncols b = V -> mrows e = K -> ncols e = C ->
    multinomial_corpus_bound lg psi mu l (mk_params alpha b e) = corpus_bound lg psi l (mk_params alpha b e) + class_part mu assigned l e.
  Proof.
    intros Hl R1 C1 R2 C2. rewrite (class_part_split mu assigned l e Hl). unfold multinomial_corpus_bound, eta_prior, corpus_bound. cbn [p_eta]. rewrite R2, C2.
    rewrite <- Rplus_assoc. f_equal. rewrite <- lsum_map_plus. f_equal. apply map_ext. intros x. unfold multinomial_bound. cbn [p_eta p_beta]. rewrite R1, C1. f_equal.
    rewrite Rmult_1_l. rewrite (rsum_ext K (fun i => rsum V (fun n => assigned x i n) * _) (fun i => rsum V (fun n => assigned x i n * ln (mget e i (Z.to_nat (class_of x)))))).
    2: { intros i Hi. now rewrite rsum_mult_r. }
    rewrite (rsum_swap K V). apply rsum_ext. intros n Hn. rewrite <- rsum_mult_l. apply rsum_ext. intros i Hi. unfold assigned, count. cbn [mul ofZ Rops]. ring.
  Qed.
  Lemma multinomial_corpus mu (HK : (0 < K)%nat) :
    forall h m0 m s e, mrows (p_eta m0) = K -> ncols (p_eta m0) = C -> between_epochs h ->
      Forall (fun x => sized K V x /\ classified C x) (items h) -> mrun (multinomial_maximizer mu) h m0 new_stats = Ok (m, s, e) ->
    forall l, Forall (fun x => sized K V x /\ classified C x /\ nonneg_item K V x) l -> mass K V (expected assigned l) -> 1 <= mu ->
    exists m' s' e', mrun (multinomial_maximizer mu) (epoch l) m s = Ok (m', s', e') /\
      forall b eta, stochastic K V b -> explains K V (expected assigned l) b -> stochastic K C eta -> allows K V C mu assigned l eta ->
        multinomial_corpus_bound lg psi mu l (mk_params (p_alpha m) b eta) <= multinomial_corpus_bound lg psi mu l m'.
  Proof.
    intros h m0 m s e E1 E2 Hh Hi E l Hl Hm Hmu.
    assert (Hn : l <> []). { intros ->. specialize (Hm 0%nat HK). rewrite rsum_zero in Hm; [lra|]. reflexivity. }
    assert (L2 : Forall (classified C) l) by (revert Hl; apply Forall_impl; tauto).
    assert (L3 : Forall (nonneg_item K V) l) by (revert Hl; apply Forall_impl; tauto).
    destruct (multinomial_R lg K V C mu HK h m0 m s e E1 E2 Hh Hi E l Hl Hn) as (m' & s' & e' & E' & SC & _).
    exists m', s', e'. split; [exact E'|]. intros b eta Sb Eb Se Ae.
    assert (HC : (0 < C)%nat). { destruct l as [|x l]; [congruence|]. destruct (Forall_inv L2) as (c & _ & B). lia. }
    destruct (batch_between K V C HK _ _ _ _ _ _ (step_multinomial K V C mu) h m0 m s e (conj E1 E2) Hh Hi E) as [_ X].
    destruct (X l ltac:(revert Hl; apply Forall_impl; tauto) Hn) as [_ Y]. destruct (Y m' s' e' E') as [EA T].
    destruct (topics_R lg K V assigned l _ T Hm) as (T1 & T2 & T3).
    destruct m' as [a' b' e'']. cbn [p_alpha p_beta p_eta] in *. subst a'.
    rewrite !multinomial_split; try assumption; try apply Sb; try apply Se; try apply SC. apply Rplus_le_compat.
    - apply topics_optimal; auto.
    - apply class_optimal; auto. apply (assigned_nonneg lg K V).
  Qed.

  (** ** Correspondence: the class multinomials, for the same topics *)
  Lemma correspondence_split mu l alpha (b e : mat R) : Forall (classified C) l -> mrows b = K -> ncols b = V -> mrows e = K -> ncols e = C ->
    correspondence_corpus_bound lg psi mu l (mk_params alpha b e) = corpus_bound lg psi l (mk_params alpha b e) + class_part mu assigned_tau l e -
      lsum (map (fun x => rsum V (fun n => IZR (count x n) * (vget (v_tau (snd x)) n * ln (vget (v_tau (snd x)) n)))) l).
  Proof.
    intros Hl R1 C1 R2 C2. rewrite (class_part_split mu assigned_tau l e Hl). unfold correspondence_corpus_bound, eta_prior, corpus_bound. cbn [p_eta]. rewrite R2, C2.
    match goal with |- ?A + ?P = ?B + (?D + ?P) - ?F => enough (G : A = B + D - F) by lra end.
    clear Hl. induction l as [|x l IH]; cbn [map]; [change (lsum []) with 0; ring|]. rewrite !lsum_cons, IH.
    match goal with |- ?A + _ = ?B + _ + (?D + _) - (?F + _) => enough (G : A = B + D - F) by lra end. clear IH.
    unfold correspondence_bound. cbn [p_eta p_beta]. rewrite R1, C1.
    rewrite (rsum_ext K (fun i => rsum V (fun n => assigned_tau x i n) * _) (fun i => rsum V (fun n => assigned_tau x i n * ln (mget e i (Z.to_nat (class_of x)))))).
    2: { intros i Hi. now rewrite rsum_mult_r. }
    rewrite (rsum_swap K V). unfold Rminus at 2. rewrite Rplus_assoc. f_equal. fold (Rminus (rsum V (fun n => rsum K (fun i => assigned_tau x i n * ln (mget e i (Z.to_nat (class_of x)))))) (rsum V (fun n => IZR (count x n) * (vget (v_tau (snd x)) n * ln (vget (v_tau (snd x)) n))))).
    rewrite <- rsum_minus. apply rsum_ext. intros n Hn. unfold count.
    rewrite (rsum_ext K (fun i => assigned_tau x i n * _) (fun i => IZR (nth n (d_words (fst x)) 0%Z) * vget (v_tau (snd x)) n * (mget (v_phi (snd x)) i n * ln (mget e i (Z.to_nat (class_of x)))))).
    2: { intros i Hi. unfold assigned_tau, count. cbn [mul ofZ Rops]. ring. }
    rewrite rsum_mult_l. ring.
  Qed.
  Lemma correspondence_classes mu (HK : (0 < K)%nat) :
    forall h m0 m s e, mrows (p_eta m0) = K -> ncols (p_eta m0) = C -> between_epochs h ->
      Forall (fun x => sized K V x /\ classified C x /\ with_tau V x) (items h) -> mrun (correspondence_maximizer mu) h m0 new_stats = Ok (m, s, e) ->
    forall l, Forall (fun x => sized K V x /\ classified C x /\ with_tau V x /\ nonneg_item K V x) l -> l <> [] ->
      1 < mu \/ (1 <= mu /\ mass K V (expected assigned_tau l)) ->
    exists m' s' e', mrun (correspondence_maximizer mu) (epoch l) m s = Ok (m', s', e') /\ p_alpha m' = p_alpha m /\
      forall b eta, mrows b = K -> ncols b = V -> stochastic K C eta -> allows K V C mu assigned_tau l eta ->
        correspondence_corpus_bound lg psi mu l (mk_params (p_alpha m) b eta) <= correspondence_corpus_bound lg psi mu l (mk_params (p_alpha m) b (p_eta m')).
  Proof.
    intros h m0 m s e E1 E2 Hh Hi E l Hl Hn Hmu.
    assert (L2 : Forall (classified C) l) by (revert Hl; apply Forall_impl; tauto).
    assert (L3 : Forall (nonneg_item K V) l) by (revert Hl; apply Forall_impl; tauto).
    destruct (correspondence_R lg K V C mu HK h m0 m s e E1 E2 Hh Hi E l Hl Hn) as (m' & s' & e' & E' & SC & _).
    exists m', s', e'. split; [exact E'|].
    destruct (batch_between K V C HK _ _ _ _ _ _ (step_correspondence K V C mu) h m0 m s e (conj E1 E2) Hh Hi E) as [_ X].
    destruct (X l ltac:(revert Hl; apply Forall_impl; tauto) Hn) as [_ Y]. destruct (Y m' s' e' E') as [EA _]. split; [exact EA|].
    intros b eta Rb Cb Se Ae.
    assert (HC : (0 < C)%nat). { destruct l as [|x l]; [congruence|]. destruct (Forall_inv L2) as (c & _ & B). lia. }
    rewrite !correspondence_split; try assumption; try apply Se; try apply SC.
    assert (class_part mu assigned_tau l eta <= class_part mu assigned_tau l (p_eta m')); [|].
    { apply class_optimal; auto. apply (assigned_tau_nonneg lg K V). }
    assert (corpus_bound lg psi l (mk_params (p_alpha m) b eta) = corpus_bound lg psi l (mk_params (p_alpha m) b (p_eta m'))) by reflexivity.
    lra.
  Qed.
End Corpus.
