(** Training keeps the sizes of the model, whatever the arithmetic, the M step and the schedule. *)
Require Import ZArith List Bool Arith Lia Permutation.
Require Import Verif.Base Verif.Scalar Verif.Mat Verif.UtilsModel Verif.BuilderModel Verif.EStepModel Verif.OptModel Verif.MStepModel Verif.MStepSpec Verif.MStepAny Verif.ShapeSpec
  Verif.PoolModel Verif.PoolSpec Verif.PoolProofs Verif.PoolDone Verif.LdaModel Verif.TrainSizes Verif.TrainProofs.
Import ListNotations.
Local Open Scope nat_scope.

(** ** The pool: what holds of the parameters while documents are processed holds of every E step's result *)
Section Pool.
  Context {V P S R X : Type}.
  Variable estep : P -> nat -> V.
  Variable feed : S -> P -> nat -> V -> S * P * list X.
  Variable e_end : P -> P.
  Variable m_end : S -> P -> S * P * list X.
  Variable owner : bool.
  Variable docs : nat.
  Notation reach := (@reachable V P S R X estep feed e_end m_end Fit owner docs).
  Variable I : S -> P -> Prop.
  Variable Q : nat -> V -> Prop.
  Hypothesis HE : forall s p i, I s p -> Q i (estep p i).
  Hypothesis HF : forall s p i v, I s p -> Q i v -> I (fst (fst (feed s p i v))) (snd (fst (feed s p i v))).

  Lemma consume_keeps l : forall s p, I s p -> Forall (fun iv => Q (fst iv) (snd iv)) l ->
    I (fst (consume feed l (s, p))) (snd (consume feed l (s, p))).
  Proof.
    induction l as [|[i v] l IH]; intros s p H F; [exact H|]. inversion F as [|? ? F1 F2]; subst. cbn [fst snd] in F1. unfold consume. cbn [fold_left fst snd].
    specialize (HF s p i v H F1). destruct (feed s p i v) as [[s1 p1] x]. exact (IH s1 p1 HF F2).
  Qed.
  Lemma estep_log (l : list (obs V P R X)) i v : esteps (l ++ [OEstep i v]) = esteps l ++ [(i, v)].
  Proof. induction l as [|[] l IH]; cbn; rewrite ?IH; reflexivity. Qed.
  Lemma other_log (l : list (obs V P R X)) o : (forall i v, o <> OEstep i v) -> esteps (l ++ [o]) = esteps l.
  Proof. intros H. induction l as [|[] l IH]; cbn; rewrite ?IH; try reflexivity. destruct o; try reflexivity. now destruct (H i v). Qed.

  Lemma reach_esteps W s0 p0 s : I s0 p0 -> reach W s0 p0 s -> Forall (fun iv => Q (fst iv) (snd iv)) (esteps (log s)).
  Proof.
    intros HI. induction 1 as [|l s s' Hr IH H]; [constructor|].
    assert (F : Forall (fun iv => Q (fst iv) (snd iv)) (fed (log s))).
    { destruct (reach_data Hr) as (D & _). rewrite Forall_forall in *. intros x Hx. apply IH. eapply Permutation_in; [apply Permutation_sym, D|].
      apply in_or_app. now left. }
    pose proof (consume_keeps (fed (log s)) s0 p0 HI F) as C. pose proof (reach_fold Hr) as (_ & Fo). pose proof (reach_phase Hr) as (_ & Ph). clear Hr F.
    step_cases H l s; rewrite ?other_log by discriminate; try exact IH.
    rewrite estep_log. apply Forall_app. split; [exact IH|]. constructor; [|constructor]. cbn [fst snd].
    apply Ph in Hw. revert Fo. unfold finish_data. 
    assert (E : main_end m = 0) by (destruct m; cbn [stage_ok] in Hw; try discriminate Hw; reflexivity).
    rewrite E. intros Fo. destruct (consume feed (fed lg) (s0, p0)) as [s1 p1]. cbn [fst snd] in *. injection Fo as -> ->. exact (HE s1 p1 i C).
  Qed.
  Lemma done_keeps W s0 p0 s : I s0 p0 -> reach W s0 p0 s -> main s = MDone ->
    exists l, List.length l = docs /\ Forall (fun iv => Q (fst iv) (snd iv)) l /\
      (priv s, param s) = fst (m_end (fst (consume feed l (s0, p0))) (e_end (snd (consume feed l (s0, p0))))).
  Proof.
    intros HI Hr Hm. exists (fed (log s)). destruct (done_quiet Hr Hm) as (_ & _ & Q3 & Q4). split; [|split].
    - apply Permutation_length in Q3. now rewrite map_length, seq_length in Q3.
    - pose proof (reach_esteps W s0 p0 s HI Hr) as F. rewrite Forall_forall in *. intros x Hx. apply F. eapply Permutation_in; eassumption.
    - exact (done_result Hr Hm).
  Qed.
End Pool.

Section Shape.
  Context {T : Type} {O : ops T}.
  Variables K V C : nat.
  Hypothesis HK : 0 < K.

  Lemma exact_tab r c (f : nat -> nat -> T) : exact_size r c (mtab r c f).
  Proof.
    split; [reflexivity|]. split; [apply ncols_tab|]. unfold mtab. cbn [mcols]. apply Forall_forall. intros x Hx. unfold vtab in Hx.
    apply in_map_iff in Hx. destruct Hx as (i & <- & _). apply vtab_length.
  Qed.
  Lemma exact_tab' r c r' c' (f : nat -> nat -> T) : r' = r -> c' = c -> exact_size r c (mtab r' c' f).
  Proof. intros -> ->. apply exact_tab. Qed.
  Notation has_size := (has_size (T := T) K V C).
  (** [before]: what an M step needs of its buffers before a document; [filled]: what they are after one *)
  Definition keeps_size {St} (M : maximizer T St) (before filled : St -> Prop) : Prop :=
    (forall s, filled s -> before s) /\
    (forall s m d v m' s' e, has_size m -> before s -> sized K V (d, v) -> ms_doc M s m d v = Ok (m', s', e) -> p_alpha m' = p_alpha m /\ has_size m' /\ filled s') /\
    (forall s m m' s' e, has_size m -> filled s -> ms_end M s m = Ok (m', s', e) -> p_alpha m' = p_alpha m /\ has_size m' /\ before s').

  Definition full (b : mat T) : Prop := mrows b = K /\ ncols b = V.
  Definition open (b : mat T) : Prop := b = empty_mat \/ full b.
  Lemma unsupervised_doc_full b d v b' : open b -> sized K V (d, v) -> unsupervised_doc b d v = Ok b' -> full b'.
  Proof.
    intros Hb (S1 & S2 & S3 & S4) E. cbn [fst snd] in *. unfold unsupervised_doc in E. destruct (negb _) in E; [discriminate|].
    rewrite S2, S3 in E. match type of E with (if negb (same_size ?b0 _) then _ else _) = _ => assert (F : full b0) end.
    { destruct Hb as [->|Hb]; [split; [reflexivity|apply ncols_tab]|]. destruct Hb as [Hr Hc]. rewrite Hr. destruct (Nat.eqb_spec K 0); [lia|]. now split. }
    destruct (negb _) in E; [discriminate|]. injection E as <-. unfold madd, full. rewrite mrows_tab, ncols_tab. exact F.
  Qed.
  Lemma unsupervised_m_size b m : full b -> has_size m -> has_size (fst (unsupervised_m b m)) /\ full (snd (unsupervised_m b m)) /\ p_alpha (fst (unsupervised_m b m)) = p_alpha m /\
    p_eta (fst (unsupervised_m b m)) = p_eta m.
  Proof.
    intros [Hr Hc] (A & B & E). unfold unsupervised_m. cbn [fst snd set_beta p_alpha p_beta p_eta]. split; [|split; [|split; reflexivity]].
    - split; [exact A|]. split; [|exact E]. cbn [p_beta]. now apply exact_tab'.
    - unfold mzero, full. rewrite mrows_tab, ncols_tab. now split.
  Qed.
  Lemma unsupervised_keeps : keeps_size unsupervised_maximizer open full.
  Proof.
    split; [intros s H; now right|]. split.
    - intros s m d v m' s' e H1 H2 H3 E. cbn [ms_doc unsupervised_maximizer] in E. apply bind_ok' in E. destruct E as (b & E & X). injection X as <- <- <-.
      split; [reflexivity|]. split; [exact H1|]. exact (unsupervised_doc_full s d v b H2 H3 E).
    - intros s m m' s' e H1 H2 E. cbn [ms_end unsupervised_maximizer] in E. destruct (unsupervised_m_size s m H2 H1) as (X1 & X2 & X3 & _).
      destruct (unsupervised_m s m) as [m1 b1]. injection E as <- <- <-. cbn [fst snd] in *. split; [exact X3|]. split; [exact X1|]. now right.
  Qed.

  (** *** eta *)
  Lemma minimize_size {St} fuel search (progress : St -> T -> nat -> bool * St) p : (forall x g d x' v, exact_size K C x -> search p x g d = Ok (x', v) -> exact_size K C x') ->
    forall x v it s x' s', exact_size K C x -> minimize fuel search progress p x v it s = Ok (x', s') -> exact_size K C x'.
  Proof.
    intros HS. induction fuel as [|n IH]; intros x v it s x' s' H; cbn [minimize]; destruct (progress s v it) as [go s1]; destruct go; intros E; try discriminate E;
      try (injection E as <- <-; exact H).
    apply bind_ok' in E. destruct E as (g & _ & E). apply bind_ok' in E. destruct E as ([x1 v1] & E1 & E). exact (IH x1 v1 _ s1 x' s' (HS _ _ _ _ _ H E1) E).
  Qed.
  Lemma fit_eta_size fuel limit tolerance p eta eta' e : exact_size K C eta -> fit_eta fuel limit tolerance p eta = Ok (eta', e) -> exact_size K C eta'.
  Proof.
    intros H E. unfold fit_eta in E. apply bind_ok' in E. destruct E as (v & _ & E). apply bind_ok' in E. destruct E as ([x s] & E & X). injection X as <- <-.
    refine (minimize_size _ _ _ _ _ _ _ _ _ _ _ H E). clear. intros x g d x' v H E. unfold armijo_search in E.
    apply bind_ok' in E. destruct E as (v0 & _ & E). apply bind_ok' in E. destruct E as ([v1 a] & _ & E). injection E as <- <-.
    unfold step. destruct H as (H1 & H2 & _). now apply exact_tab'.
  Qed.

  Lemma fast_doc_full s m d v s' : open (f_b s) -> sized K V (d, v) -> fast_doc s m d v = Ok s' -> full (f_b s').
  Proof.
    intros H S E. unfold fast_doc in E. apply bind_ok' in E. destruct E as (b & Eb & E). pose proof (unsupervised_doc_full _ _ _ _ H S Eb) as F.
    destruct (d_class d); [|discriminate]. apply bind_ok' in E. destruct E as (y & _ & E). destruct (negb _) in E; [discriminate|].
    apply bind_ok' in E. destruct E as (z0 & _ & E). injection E as <-. exact F.
  Qed.
  Lemma fast_prepare_size s m m' s' X y : has_size m -> full (f_b s) -> fast_prepare s m = Ok (m', s', X, y) ->
    p_alpha m' = p_alpha m /\ has_size m' /\ full (f_b s').
  Proof.
    intros H F E. unfold fast_prepare in E. destruct (unsupervised_m_size (f_b s) m F H) as (X1 & X2 & X3 & _). destruct (unsupervised_m (f_b s) m) as [m1 b1].
    apply bind_ok' in E. destruct E as (ys & _ & E). apply bind_ok' in E. destruct E as (zs & _ & E). injection E as <- <- <- <-. split; [exact X3|]. split; [exact X1|exact X2].
  Qed.
  Lemma set_eta_size m eta : has_size m -> exact_size K C eta -> has_size (set_eta m eta).
  Proof. intros (A & B & _) E. split; [exact A|]. split; [exact B|exact E]. Qed.
  Lemma fast_m_size fuel limit tolerance L s m m' s' e : has_size m -> full (f_b s) -> fast_m fuel limit tolerance L s m = Ok (m', s', e) ->
    p_alpha m' = p_alpha m /\ has_size m' /\ open (f_b s').
  Proof.
    intros H F E. unfold fast_m in E. apply bind_ok' in E. destruct E as ([[[m1 s1] X] y] & E1 & E). destruct (fast_prepare_size _ _ _ _ _ _ H F E1) as (A1 & A2 & A3).
    apply bind_ok' in E. destruct E as (p & _ & E). apply bind_ok' in E. destruct E as ([eta ev] & E2 & E). injection E as <- <- <-.
    split; [exact A1|]. split; [|now right]. apply set_eta_size; [exact A2|]. refine (fit_eta_size _ _ _ _ _ _ _ _ E2). apply A2.
  Qed.
  Lemma fast_keeps fuel limit tolerance L : keeps_size (fast_maximizer fuel limit tolerance L) (fun s => open (f_b s)) (fun s => full (f_b s)).
  Proof.
    split; [intros s H; now right|]. split.
    - intros s m d v m' s' e H1 H2 H3 E. cbn [ms_doc fast_maximizer] in E. apply bind_ok' in E. destruct E as (b & E & X). injection X as <- <- <-.
      split; [reflexivity|]. split; [exact H1|]. exact (fast_doc_full s m d v b H2 H3 E).
    - intros s m m' s' e. apply fast_m_size.
  Qed.
  Lemma semi_keeps fuel limit tolerance L : keeps_size (semi_maximizer fuel limit tolerance L) (fun s => open (f_b s)) (fun s => full (f_b s)).
  Proof.
    split; [intros s H; now right|]. split.
    - intros s m d v m' s' e H1 H2 H3 E. cbn [ms_doc semi_maximizer] in E. apply bind_ok' in E. destruct E as (b & E & X). injection X as <- <- <-.
      split; [reflexivity|]. split; [exact H1|]. unfold semi_doc in E. destruct (d_class d) as [c|]; [|discriminate]. destruct (c <? 0)%Z.
      + apply bind_ok' in E. destruct E as (b1 & E & X). injection X as <-. exact (unsupervised_doc_full _ _ _ _ H2 H3 E).
      + exact (fast_doc_full s m d v b H2 H3 E).
    - intros s m m' s' e. apply fast_m_size.
  Qed.
  Lemma sup_keeps fuel limit tolerance L : keeps_size (sup_maximizer fuel limit tolerance L) (fun s => open (f_b (su_fast s))) (fun s => full (f_b (su_fast s))).
  Proof.
    split; [intros s H; now right|]. split.
    - intros s m d v m' s' e H1 H2 H3 E. cbn [ms_doc sup_maximizer] in E. apply bind_ok' in E. destruct E as (s1 & E & X). injection X as <- <- <-.
      split; [reflexivity|]. split; [exact H1|]. unfold sup_doc in E. apply bind_ok' in E. destruct E as (b & Eb & E). pose proof (unsupervised_doc_full _ _ _ _ H2 H3 Eb) as F.
      apply bind_ok' in E. destruct E as (N & _ & E). destruct (d_class d); [|discriminate]. apply bind_ok' in E. destruct E as (y & _ & E). destruct (negb _) in E; [discriminate|].
      apply bind_ok' in E. destruct E as (z0 & _ & E). apply bind_ok' in E. destruct E as (sq & _ & E). apply bind_ok' in E. destruct E as (vr & _ & E). injection E as <-. exact F.
    - intros s m m' s' e H F E. cbn [ms_end sup_maximizer] in E. unfold sup_m in E. apply bind_ok' in E. destruct E as ([[[[m1 s1] X] V1] y] & E1 & E).
      unfold sup_prepare in E1. apply bind_ok' in E1. destruct E1 as ([[[m2 f2] X2] y2] & E1 & E3). apply bind_ok' in E3. destruct E3 as (vs & _ & E3). injection E3 as <- <- <- <- <-.
      destruct (fast_prepare_size _ _ _ _ _ _ H F E1) as (A1 & A2 & A3).
      apply bind_ok' in E. destruct E as (p & _ & E). apply bind_ok' in E. destruct E as ([eta ev] & E2 & E). injection E as <- <- <-.
      split; [exact A1|]. split; [|now right]. apply set_eta_size; [exact A2|]. refine (fit_eta_size _ _ _ _ _ _ _ _ E2). apply A2.
  Qed.

  (** *** multinomial and correspondence *)
  Definition stats_full (s : stats T) : Prop := full (st_b s) /\ mrows (st_h s) = K /\ ncols (st_h s) = C.
  Definition stats_open (s : stats T) : Prop := st_b s = empty_mat \/ stats_full s.
  Lemma stats_doc_full scaled s m c s' : has_size m -> stats_open s -> full scaled -> stats_doc scaled s m c = Ok s' -> stats_full s'.
  Proof.
    intros (_ & _ & E1 & E2 & _) H [F1 F2] E. unfold stats_doc in E. rewrite F1, F2, E1, E2 in E.
    set (s0 := if Nat.eqb (mrows (st_b s)) 0 then _ else s) in E.
    assert (F : stats_full s0).
    { unfold s0. destruct H as [->|H]; [repeat split; cbn; apply ncols_tab|]. pose proof H as ((Hr & _) & _). rewrite Hr. destruct (Nat.eqb_spec K 0); [lia|exact H]. }
    clearbody s0. destruct (negb _) in E; [discriminate|]. destruct (st_log s0); [|discriminate]. injection E as <-.
    destruct F as ((A & B) & D1 & D2). split; cbn [st_b st_h]; [unfold madd, full|]; now rewrite mrows_tab, ncols_tab.
  Qed.
  Lemma normalize_rows_size r c (m : mat T) : mrows m = r -> ncols m = c -> exact_size r c (normalize_rows m).
  Proof. intros H1 H2. unfold normalize_rows. now apply exact_tab'. Qed.
  Lemma stats_m_size mu s m m' s' e : has_size m -> stats_full s -> stats_m mu s m = Ok (m', s', e) -> p_alpha m' = p_alpha m /\ has_size m' /\ stats_open s'.
  Proof.
    intros (A & _) ((F1 & F2) & F3 & F4) E. unfold stats_m in E. destruct (st_log s); [|discriminate]. injection E as <- <- <-. cbn [p_alpha]. split; [reflexivity|]. split.
    - split; [exact A|]. cbn [p_beta p_eta]. split; apply normalize_rows_size; try assumption; rewrite ?mrows_tab, ?ncols_tab; assumption.
    - right. unfold stats_full, full, mzero. cbn [st_b st_h]. now rewrite !mrows_tab, !ncols_tab.
  Qed.
  Lemma multinomial_keeps mu : keeps_size (multinomial_maximizer mu) stats_open stats_full.
  Proof.
    split; [intros s H; now right|]. split; [|intros s m m' s' e; apply stats_m_size].
    intros s m d v m' s' e H1 H2 (S1 & S2 & S3 & S4) E. cbn [ms_doc multinomial_maximizer fst snd] in *. apply bind_ok' in E. destruct E as (s1 & E & X). injection X as <- <- <-.
    split; [reflexivity|]. split; [exact H1|]. unfold multinomial_doc in E. destruct (d_class d); [|discriminate]. destruct (negb _) in E; [discriminate|].
    refine (stats_doc_full _ _ _ _ _ H1 H2 _ E). unfold weigh, full. now rewrite mrows_tab, ncols_tab.
  Qed.
  Lemma correspondence_keeps mu : keeps_size (correspondence_maximizer mu) stats_open stats_full.
  Proof.
    split; [intros s H; now right|]. split; [|intros s m m' s' e; apply stats_m_size].
    intros s m d v m' s' e H1 H2 (S1 & S2 & S3 & S4) E. cbn [ms_doc correspondence_maximizer fst snd] in *. apply bind_ok' in E. destruct E as (s1 & E & X). injection X as <- <- <-.
    split; [reflexivity|]. split; [exact H1|]. unfold correspondence_doc in E. destruct (d_class d); [|discriminate]. destruct (negb _) in E; [discriminate|].
    refine (stats_doc_full _ _ _ _ _ H1 H2 _ E). unfold full. now rewrite mrows_tab, ncols_tab.
  Qed.

  (** *** online *)
  Lemma online_m_size cf s m m' s' e : has_size m -> online_m cf s m = Ok (m', s', e) -> p_alpha m' = p_alpha m /\ has_size m'.
  Proof.
    intros H E. unfold online_m in E. destruct (Nat.ltb _ _); [injection E as <- <- <-; now split|]. destruct (negb _); [discriminate|].
    apply bind_ok' in E. destruct E as (p & _ & E). apply bind_ok' in E. destruct E as (g & _ & E). apply bind_ok' in E. destruct E as (v & _ & E).
    injection E as <- <- <-. cbn [p_alpha]. split; [reflexivity|]. destruct H as (A & (B1 & B2 & _) & (D1 & D2 & _)). split; [exact A|]. cbn [p_beta p_eta].
    split; unfold madd; now apply exact_tab'.
  Qed.
  Lemma online_keeps cf : keeps_size (online_maximizer cf) (fun _ => True) (fun _ => True).
  Proof.
    split; [trivial|]. split.
    - intros s m d v m' s' e H1 _ _ E. cbn [ms_doc online_maximizer] in E. unfold online_doc in E. destruct (d_class d); [|discriminate].
      destruct (negb _) in E; [discriminate|]. destruct (Nat.leb _ _) in E.
      + apply online_m_size in E; [tauto|exact H1].
      + injection E as <- <- <-. now split.
    - intros s m m' s' e H _ E. apply online_m_size in E; [tauto|exact H].
  Qed.

  (** ** Training *)
  Variable dfuel : nat.
  Variable k : e_step T.
  Context {St : Type}.
  Variable M : maximizer T St.
  Variables before filled : St -> Prop.
  Hypothesis HM : keeps_size M before filled.
  Variable alpha : list T.
  Definition holding (B : St -> Prop) (st : outcome St) (p : shared (T := T)) : Prop :=
    p_alpha (fst p) = alpha /\ has_size (fst p) /\ forall s, st = Ok s -> B s.
  Definition result_sized (D : list (doc T)) (i : nat) (v : outcome (vparams T)) : Prop := forall x, v = Ok x -> sized K V (nth i D nodoc, x).
  Lemma estep_holding (B : St -> Prop) D st p i : holding B st p -> result_sized D i (train_estep dfuel k D p i).
  Proof.
    intros (_ & (_ & (B1 & B2 & _) & _) & _) x E. unfold train_estep in E. apply posterior_sized in E. now rewrite B1, B2 in E.
  Qed.
  Lemma feed_holding (B : St -> Prop) D st p i v : (forall s, B s -> before s) -> holding B st p -> result_sized D i v ->
    holding filled (fst (fst (train_feed M D st p i v))) (snd (fst (train_feed M D st p i v))).
  Proof.
    intros HB (A & H & F) S. destruct HM as (_ & H2 & _). unfold train_feed. destruct st as [s| |]; cbn [bind settle fst snd]; try (split; [exact A|split; [exact H|discriminate]]).
    destruct v as [v| |]; cbn [bind settle fst snd]; try (split; [exact A|split; [exact H|discriminate]]).
    destruct (ms_doc M s (fst p) (nth i D nodoc) v) as [[[m1 s1] e1]| |] eqn:E; cbn [settle fst snd]; try (split; [exact A|split; [exact H|discriminate]]).
    destruct (H2 _ _ _ _ _ _ _ H (HB _ (F _ eq_refl)) (S _ eq_refl) E) as (X1 & X2 & X3). split; [cbn [fst]; congruence|]. split; [exact X2|]. intros s' E'. now injection E' as <-.
  Qed.
  Lemma holding_weaken st p : holding filled st p -> holding before st p.
  Proof. intros (A & B & F). split; [exact A|]. split; [exact B|]. intros s E. apply HM. now apply F. Qed.
  Lemma epoch_holding D owner W st p s : D <> [] -> holding before st p ->
    reachable (R := option T) (train_estep dfuel k D) (train_feed M D) train_e_end (train_m_end M) Fit owner (length D) W st p s -> main s = MDone ->
    holding before (priv s) (param s).
  Proof.
    intros HD H Hr Hm.
    destruct (done_keeps (train_estep dfuel k D) (train_feed M D) train_e_end (train_m_end M) owner (length D) (holding before) (result_sized D)
      (fun st p i h => estep_holding before D st p i h)
      (fun st p i v h q => holding_weaken _ _ (feed_holding before D st p i v (fun s h => h) h q)) W st p s H Hr Hm) as (l & L & F & E).
    destruct l as [|[i v] l]; [now destruct D|]. inversion F as [|? ? F1 F2]; subst. cbn [fst snd] in F1.
    unfold consume in E. cbn [fold_left fst snd] in E.
    pose proof (feed_holding before D st p i v (fun s h => h) H F1) as G. destruct (train_feed M D st p i v) as [[st1 p1] x1]. cbn [fst snd] in *.
    destruct HM as (HB & _ & H3).
    pose proof (consume_keeps (train_feed M D) (holding filled) (result_sized D) (fun st p i v h q => feed_holding filled D st p i v HB h q) l st1 p1 G F2) as J.
    change (fold_left _ l (st1, p1)) with (consume (train_feed M D) l (st1, p1)) in E.
    destruct (consume (train_feed M D) l (st1, p1)) as [st2 p2]. cbn [fst snd] in *. destruct J as (J1 & J2 & J3).
    unfold train_m_end, train_e_end in E. destruct st2 as [s2| |]; cbn [bind settle fst snd] in E; try (injection E as -> ->; split; [exact J1|split; [exact J2|discriminate]]).
    destruct (ms_end M s2 (fst p2)) as [[[m3 s3] e3]| |] eqn:E3; cbn [settle fst snd] in E; injection E as -> ->; try (split; [exact J1|split; [exact J2|discriminate]]).
    destruct (H3 _ _ _ _ _ J2 (J3 _ eq_refl) E3) as (X1 & X2 & X3). split; [cbn [fst]; congruence|]. split; [exact X2|]. intros s' E'. now injection E' as <-.
  Qed.

  Lemma partial_fit_holding D W st p st' p' : D <> [] -> holding before st p -> partial_fit_call dfuel M k W D st p st' p' -> holding before st' p'.
  Proof.
    intros HD H (D' & owner & s & PD & R & Dn & -> & ->). apply (epoch_holding D' owner W st p s); try assumption.
    intros ->. apply HD, Permutation_nil, Permutation_sym, PD.
  Qed.
  Lemma fit_holding D W n : D <> [] -> forall st p st' p', holding before st p -> fit_call dfuel M k W D n st p st' p' -> holding before st' p'.
  Proof.
    intros HD. induction n as [|n IH]; intros st p st' p' H F; inversion F; subst; [exact H|]. eauto using partial_fit_holding.
  Qed.
End Shape.

Lemma library_keeps {T} {O : ops T} K V C St (M : maximizer T St) new : 0 < K -> library_step St M new ->
  exists before filled, keeps_size K V C M before filled /\ before new.
Proof.
  intros HK L. destruct L.
  - eexists _, _. split; [now apply unsupervised_keeps|]. now left.
  - eexists _, _. split; [now apply fast_keeps|]. now left.
  - eexists _, _. split; [now apply semi_keeps|]. now left.
  - eexists _, _. split; [now apply sup_keeps|]. now left.
  - eexists _, _. split; [now apply multinomial_keeps|]. now left.
  - eexists _, _. split; [now apply correspondence_keeps|]. now left.
  - eexists _, _. split; [now apply online_keeps|]. exact I.
Qed.
Lemma fit_keeps_size {T} {O : ops T} dfuel K V C St (M : maximizer T St) new k W D n m ep st p : library_step St M new -> 0 < K -> D <> [] -> has_size K V C m ->
  fit_call dfuel M k W D n (Ok new) (m, ep) st p -> p_alpha (fst p) = p_alpha m /\ has_size K V C (fst p).
Proof.
  intros L HK HD H F. destruct (library_keeps K V C St M new HK L) as (before & filled & HM & HN).
  refine (let X := fit_holding K V C dfuel k M before filled HM (p_alpha m) D W n HD (Ok new) (m, ep) st p _ F in conj (proj1 X) (proj1 (proj2 X))).
  split; [reflexivity|]. split; [exact H|]. intros s E. now injection E as <-.
Qed.

(** *** No documents *)
Lemma unsupervised_doc_model {T} {O : ops T} (s : mat T) m d v m' s' (e : list T) : ms_doc unsupervised_maximizer s m d v = Ok (m', s', e) -> m' = m.
Proof. cbn. destruct (unsupervised_doc s d v); cbn; intros E; inversion E; reflexivity. Qed.
Lemma empty_epoch {T} {O : ops T} dfuel k W st p s' p' : partial_fit_call dfuel unsupervised_maximizer k W [] st p (Ok s') p' ->
  exists s, st = Ok s /\ (s = empty_mat -> s' = empty_mat /\ mrows (p_beta (fst p')) = 0 /\ ncols (p_beta (fst p')) = 0).
Proof.
  intros H. destruct (partial_fit_ok dfuel unsupervised_maximizer k unsupervised_doc_model W [] st p s' p' H) as (s & l & e & -> & P & _ & R & _).
  exists s. split; [reflexivity|]. intros ->. destruct l; [|apply Permutation_sym, Permutation_nil in P; discriminate P].
  cbn in R. injection R as <- <- _. repeat split.
Qed.
Lemma empty_fit {T} {O : ops T} dfuel k W n m ep s p : fit_call dfuel unsupervised_maximizer k W [] (S n) (Ok empty_mat) (m, ep) (Ok s) p ->
  mrows (p_beta (fst p)) = 0 /\ ncols (p_beta (fst p)) = 0.
Proof.
  intros F.
  assert (X : forall n st q, fit_call dfuel unsupervised_maximizer k W [] n st q (Ok s) p ->
    exists s0, st = Ok s0 /\ (s0 = empty_mat -> n = 0 /\ p = q \/ mrows (p_beta (fst p)) = 0 /\ ncols (p_beta (fst p)) = 0)).
  { clear F n m ep. induction n as [|n IH]; intros st q F; inversion F; subst; [exists s; auto|].
    destruct (IH _ _ H1) as (s1 & -> & A). destruct (empty_epoch _ _ _ _ _ _ _ H0) as (s0 & -> & B). exists s0. split; [reflexivity|].
    intros Z0. right. destruct (B Z0) as (Z1 & B'). destruct (A Z1) as [[_ ->]|A']; assumption. }
  destruct (X _ _ _ F) as (s0 & E & A). injection E as <-. destruct (A eq_refl) as [[E _]|A']; [discriminate E|exact A'].
Qed.
