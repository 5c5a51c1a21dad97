(** Training with one worker. *)
Require Import ZArith List Bool Arith Lia Permutation.
Require Import Verif.Base Verif.Scalar Verif.Mat Verif.UtilsModel Verif.BuilderModel Verif.EStepModel Verif.OptModel Verif.MStepModel Verif.MStepSpec Verif.PoolModel Verif.PoolSpec Verif.PoolProofs Verif.PoolDone
  Verif.PoolOrder Verif.LdaModel Verif.CorpusModel Verif.CorpusProofs Verif.TrainSizes Verif.TrainProofs Verif.TrainFit Verif.PoolTheorems Verif.MStepAny Verif.InferProofs Verif.ReproModel Verif.ReproSpec.
Import ListNotations.
Local Open Scope nat_scope.

Section One.
  Context {T : Type} {O : ops T} {St : Type}.
  Variable dfuel : nat.
  Variable M : maximizer T St.
  Variable k : e_step T.
  Hypothesis HM : forall s m d v m' s' e, ms_doc M s m d v = Ok (m', s', e) -> m' = m.

  Definition in_order (D : list (doc T)) (p : shared) : list (nat * outcome (vparams T)) :=
    map (fun i => (i, train_estep dfuel k D p i)) (seq 0 (length D)).
  Lemma ordered_value D st p st' p' : partial_fit_ordered dfuel M k 1 D st p st' p' ->
    (st', p') = fst (train_m_end M (fst (consume (train_feed M D) (in_order D p) (st, p))) (train_e_end p)).
  Proof.
    intros (owner & s & Rn & Dn & -> & ->). pose proof (done_order (feed_keeps M HM D) Rn Dn) as F.
    pose proof (done_result Rn Dn) as E. cbn zeta in E. rewrite E, F. unfold in_order. f_equal. f_equal. f_equal.
    generalize (map (fun i => (i, train_estep dfuel k D p i)) (seq 0 (length D))). intros l. generalize st. induction l as [|[i v] l IH]; intros s0; [reflexivity|].
    unfold consume in *. cbn [fold_left fst snd]. pose proof (feed_keeps M HM D s0 p i v) as K. destruct (train_feed M D s0 p i v) as [[s1 p1] e1]. cbn in K. subst p1. cbn [fst]. apply IH.
  Qed.
  Lemma ordered_det D st p st1 p1 st2 p2 : partial_fit_ordered dfuel M k 1 D st p st1 p1 -> partial_fit_ordered dfuel M k 1 D st p st2 p2 ->
    st1 = st2 /\ p1 = p2.
  Proof. intros A B. apply ordered_value in A. apply ordered_value in B. rewrite <- B in A. now injection A. Qed.

  Lemma seeded_det at_ ds : forall idx st p st1 p1 st2 p2, fit_seeded dfuel M k 1 at_ ds idx st p st1 p1 -> fit_seeded dfuel M k 1 at_ ds idx st p st2 p2 ->
    st1 = st2 /\ p1 = p2.
  Proof.
    induction ds as [|d ds IH]; intros idx st p st1 p1 st2 p2 A B.
    - inversion A; inversion B; subst. split; congruence.
    - inversion A as [|? ? ? ? ? sa pa ? ? A1 A2]; inversion B as [|? ? ? ? ? sb pb ? ? B1 B2]; subst.
      destruct (ordered_det _ _ _ _ _ _ _ A1 B1) as [-> ->]. exact (IH _ _ _ _ _ _ _ A2 B2).
  Qed.

  (** ** The plain loop *)
  Lemma consume_plain D0 D : forall s p l, (forall j, j < length D -> exists i, nth j l (0, UB) = (i, posterior dfuel k (snd p) (nth j D nodoc) (fst p)) /\ nth i D0 nodoc = nth j D nodoc) ->
    length l = length D ->
    fst (consume (train_feed M D0) l (Ok s, p)) = plain_docs dfuel M k D (snd p) (fst p) s.
  Proof.
    induction D as [|d D IH]; intros s p l H L; [destruct l; [reflexivity|discriminate L]|]. destruct l as [|[i v] l]; [discriminate L|].
    destruct (H 0 ltac:(cbn; lia)) as (i' & E & Hi). cbn [nth] in E, Hi. injection E as -> ->.
    unfold consume. cbn [fold_left fst snd plain_docs]. unfold train_feed at 2. cbn [bind]. rewrite Hi.
    assert (F : forall st q, (forall s, st <> Ok s) -> fst (consume (train_feed M D0) l (st, q)) = st).
    { clear. induction l as [|[j w] l IH]; intros st q N; [reflexivity|]. unfold consume in *. cbn [fold_left fst snd]. unfold train_feed at 2.
      destruct st as [s| |]; [now destruct (N s)| |]; cbn [bind settle fst snd]; apply IH; discriminate. }
    destruct (posterior dfuel k (snd p) d (fst p)) as [v| |]; cbn [bind settle fst snd]; [|apply F; discriminate..].
    destruct (ms_doc M s (fst p) d v) as [[[m1 s1] e1]| |] eqn:Em; cbn [bind settle fst snd]; [|apply F; discriminate..].
    rewrite (HM _ _ _ _ _ _ _ Em). replace (fst p, snd p) with p by now destruct p. apply IH; [|cbn in L; lia].
    intros j Hj. destruct (H (S j) ltac:(cbn; lia)) as (i & E & Hi'). exists i. exact (conj E Hi').
  Qed.
  Lemma ordered_plain D s p st' p' : partial_fit_ordered dfuel M k 1 D (Ok s) p st' p' ->
    match plain_epoch dfuel M k D (snd p) (fst p) s with
    | Ok (m, s') => st' = Ok s' /\ p' = (m, S (snd p))
    | Throw e => st' = Throw e
    | UB => st' = UB
    end.
  Proof.
    intros A. apply ordered_value in A.
    match type of A with _ = fst (train_m_end M ?c _) => assert (C : c = plain_docs dfuel M k D (snd p) (fst p) s); [apply consume_plain|rewrite C in A; clear C] end.
    - intros j Hj. exists j. split; [|reflexivity]. unfold in_order. rewrite (nth_indep _ (0, UB) (0, train_estep dfuel k D p 0)) by (rewrite map_length, seq_length; exact Hj).
      rewrite (map_nth (fun i => (i, train_estep dfuel k D p i))), seq_nth by exact Hj. reflexivity.
    - unfold in_order. now rewrite map_length, seq_length.
    - unfold plain_epoch. destruct (plain_docs dfuel M k D (snd p) (fst p) s) as [s1| |]; cbn [bind train_m_end train_e_end settle fst snd] in *.
      + unfold train_m_end in A. cbn [bind train_e_end fst snd] in A. destruct (ms_end M s1 (fst p)) as [[[m2 s2] e2]| |]; cbn [bind settle fst snd] in *; inversion A; subst; try split; reflexivity.
      + now inversion A.
      + now inversion A.
  Qed.
  Lemma failed_stays D st p st' p' : partial_fit_ordered dfuel M k 1 D st p st' p' -> (forall s, st <> Ok s) -> st' = st.
  Proof.
    intros A N. apply ordered_value in A. revert A. generalize (in_order D p). intros l.
    assert (F : fst (consume (train_feed M D) l (st, p)) = st).
    { clear - N. generalize p. induction l as [|[j w] l IH]; intros q; [reflexivity|]. unfold consume in *. cbn [fold_left fst snd]. unfold train_feed at 2.
      destruct st as [s| |]; [now destruct (N s)| |]; cbn [bind settle fst snd]; apply IH. }
    rewrite F. destruct st as [s| |]; [now destruct (N s)| |]; cbn; intros A; now inversion A.
  Qed.
  Lemma seeded_failed at_ ds : forall idx st p st' p', fit_seeded dfuel M k 1 at_ ds idx st p st' p' -> (forall s, st <> Ok s) -> st' = st.
  Proof.
    induction ds as [|d ds IH]; intros idx st p st' p' A N; inversion A as [|? ? ? ? ? sa pa ? ? A1 A2]; subst; [reflexivity|].
    pose proof (failed_stays _ _ _ _ _ A1 N) as E. subst sa. exact (IH _ _ _ _ _ A2 N).
  Qed.
  Lemma seeded_plain at_ ds : forall idx s m n st' p', fit_seeded dfuel M k 1 at_ ds idx (Ok s) (m, n) st' p' ->
    match plain_fit dfuel M k (orders_of shuffle at_ ds idx) n m s with
    | Ok (m', s') => st' = Ok s' /\ p' = (m', n + length ds)
    | Throw e => st' = Throw e
    | UB => st' = UB
    end.
  Proof.
    induction ds as [|d ds IH]; intros idx s m n st' p' A; inversion A as [|? ? ? ? ? sa pa ? ? A1 A2]; subst; cbn [orders_of plain_fit].
    - split; [reflexivity|]. cbn. now rewrite Nat.add_0_r.
    - pose proof (ordered_plain _ _ _ _ _ A1) as E. cbn [fst snd] in E. destruct (plain_epoch dfuel M k _ n m s) as [[m1 s1]| |]; cbn [bind].
      + destruct E as [-> ->]. specialize (IH _ _ _ _ _ _ A2). cbn [length]. replace (n + S (length ds)) with (S n + length ds) by lia. exact IH.
      + subst sa. apply (seeded_failed _ _ _ _ _ _ _ A2). discriminate.
      + subst sa. apply (seeded_failed _ _ _ _ _ _ _ A2). discriminate.
  Qed.
  Lemma seeded_fit W at_ ds : forall idx D st p st' p', Permutation D (map at_ idx) -> fit_seeded dfuel M k W at_ ds idx st p st' p' -> fit_call dfuel M k W D (length ds) st p st' p'.
  Proof.
    clear HM. induction ds as [|d ds IH]; intros idx D st p st' p' PD A; inversion A as [|? ? ? ? ? sa pa ? ? A1 A2]; subst; [constructor|]. cbn [length].
    assert (PD2 : Permutation D (map at_ (shuffle d idx))) by (rewrite PD; apply Permutation_map, shuffle_perm).
    econstructor; [|exact (IH _ _ _ _ _ _ PD2 A2)].
    destruct A1 as (owner & s & Rn & Dn & E1 & E2). exists (map at_ (shuffle d idx)), owner, s. repeat split; assumption.
  Qed.
End One.

Section Batch.
  Context {T : Type} {O : ops T}.
  Lemma batch_keeps_any K V C St (M : maximizer T St) new a P Q : batch_step K V C St M new a P Q ->
    forall s m d v m' s' e, ms_doc M s m d v = Ok (m', s', e) -> m' = m.
  Proof.
    intros B. destruct B; intros s m d v m' s' e; cbn [ms_doc unsupervised_maximizer fast_maximizer semi_maximizer sup_maximizer multinomial_maximizer correspondence_maximizer];
      intros E; apply bind_ok' in E; destruct E as (s1 & _ & E); now injection E as <- <- <-.
  Qed.
  Lemma ordered_returns dfuel St (M : maximizer T St) k n W D st p : 0 < W ->
    (forall s m d v m' s' e, ms_doc M s m d v = Ok (m', s', e) -> length e <= n) -> (forall s m m' s' e, ms_end M s m = Ok (m', s', e) -> length e <= n) ->
    exists st' p', partial_fit_ordered dfuel M k W D st p st' p'.
  Proof.
    intros HW H1 H2.
    destruct (C16_can_complete (outcome (vparams T)) (shared (T := T)) (outcome St) (option T) T
      (train_estep dfuel k D) (train_feed M D) train_e_end (train_m_end M) Fit true (length D) n W st p (initial W st p)) as (ls & s' & Rn & Dn).
    - exact (inhabits None).
    - exact HW.
    - intros s q i v. unfold train_feed, settle. destruct s as [s| |]; cbn [bind]; try (cbn; lia). destruct v as [v| |]; cbn [bind]; try (cbn; lia).
      destruct (ms_doc M s (fst q) (nth i D nodoc) v) as [[[m2 s2] e2]| |] eqn:E; cbn; try lia. exact (H1 _ _ _ _ _ _ _ E).
    - intros s q. unfold train_m_end, settle. destruct s as [s| |]; cbn [bind]; try (cbn; lia).
      destruct (ms_end M s (fst q)) as [[[m2 s2] e2]| |] eqn:E; cbn; try lia. exact (H2 _ _ _ _ _ E).
    - apply reach_init.
    - exists (priv s'), (param s'), true, s'. split; [|split; [exact Dn|split; reflexivity]].
      refine (pool_run_reachable _ _ _ _ _ _ _ _ _ _ _ _ _ _ Rn). apply reach_init.
  Qed.
  Lemma seeded_returns dfuel K V C St (M : maximizer T St) new a P Q k W at_ ds : batch_step K V C St M new a P Q -> 0 < W ->
    forall idx st p, exists st' p', fit_seeded dfuel M k W at_ ds idx st p st' p'.
  Proof.
    intros B HW. destruct (batch_events K V C St M new a P Q B) as (n & H1 & H2).
    induction ds as [|d ds IH]; intros idx st p; [exists st, p; constructor|].
    destruct (ordered_returns dfuel St M k n W (map at_ (shuffle d idx)) st p HW H1 H2) as (st1 & p1 & E1).
    destruct (IH (shuffle d idx) st1 p1) as (st2 & p2 & E2). exists st2, p2. econstructor; eassumption.
  Qed.
End Batch.
