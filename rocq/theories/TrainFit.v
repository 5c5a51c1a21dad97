(** Training calls return; training with the classic E step and the unsupervised M step is well defined. *)
Require Import Reals ZArith List Bool Arith Lia Lra Permutation.
Require Import Verif.Base Verif.Scalar Verif.Mat Verif.UtilsModel Verif.BuilderModel Verif.EStepModel Verif.EStepSpec Verif.EStepTheorems Verif.OptModel Verif.MStepModel Verif.MStepSpec Verif.MStepAny Verif.MStepBatch Verif.MStepReal
  Verif.PoolModel Verif.PoolSpec Verif.PoolProofs Verif.PoolDone Verif.PoolTheorems Verif.LdaModel Verif.InferProofs Verif.TrainSizes Verif.TrainPerm Verif.TrainProofs.
Import ListNotations.
Local Open Scope nat_scope.

Section Returns.
  Context {T : Type} {O : ops T}.
  Variable dfuel : nat.

  (** the number of values dispatched by one call of an M step is bounded *)
  Lemma minimize_events limit tolerance search (p : problem T) fuel : forall x v it s x' s',
    minimize fuel search (m_progress limit tolerance) p x v it s = Ok (x', s') -> length (snd s') <= length (snd s) + S (limit - it).
  Proof.
    induction fuel as [|n IH]; intros x v it s x' s'; cbn [minimize m_progress];
      match goal with |- context [if ?b then _ else _] => destruct b eqn:E end; intros H; try discriminate H; try (injection H as <- <-; cbn; lia).
    apply bind_ok' in H. destruct H as (g & _ & H). apply bind_ok' in H. destruct H as ([x1 v1] & _ & H). apply IH in H. cbn [snd length] in H.
    apply andb_prop in E. destruct E as [E _]. apply Nat.ltb_lt in E. lia.
  Qed.
  Lemma fit_eta_events fuel limit tolerance (p : problem T) eta eta' e : fit_eta fuel limit tolerance p eta = Ok (eta', e) -> length e <= S limit.
  Proof.
    unfold fit_eta. intros H. apply bind_ok' in H. destruct H as (v & _ & H). apply bind_ok' in H. destruct H as ([x s] & H & H2). injection H2 as <- <-.
    apply minimize_events in H. cbn in H. rewrite rev_length. lia.
  Qed.
  Lemma batch_events K V C St (M : maximizer T St) new a P Q : batch_step K V C St M new a P Q ->
    exists n, (forall s m d v m' s' e, ms_doc M s m d v = Ok (m', s', e) -> length e <= n) /\ (forall s m m' s' e, ms_end M s m = Ok (m', s', e) -> length e <= n).
  Proof.
    intros B. destruct B; [exists 0|exists (S limit)|exists (S limit)|exists (S limit)|exists 1|exists 1];
      cbn [ms_doc ms_end unsupervised_maximizer fast_maximizer semi_maximizer sup_maximizer multinomial_maximizer correspondence_maximizer]; split; intros s m.
    all: try (intros d v m' s' e E; apply bind_ok' in E; destruct E as (s1 & _ & E); injection E as <- <- <-; cbn; lia).
    - intros m' s' e E. injection E as <- <- <-. cbn. lia.
    - intros m' s' e E. unfold fast_m in E. apply bind_ok' in E. destruct E as ([[[? ?] ?] ?] & _ & E). apply bind_ok' in E. destruct E as (? & _ & E).
      apply bind_ok' in E. destruct E as ([? ?] & E1 & E). injection E as <- <- <-. exact (fit_eta_events _ _ _ _ _ _ _ E1).
    - intros m' s' e E. unfold fast_m in E. apply bind_ok' in E. destruct E as ([[[? ?] ?] ?] & _ & E). apply bind_ok' in E. destruct E as (? & _ & E).
      apply bind_ok' in E. destruct E as ([? ?] & E1 & E). injection E as <- <- <-. exact (fit_eta_events _ _ _ _ _ _ _ E1).
    - intros m' s' e E. unfold sup_m in E. apply bind_ok' in E. destruct E as ([[[[? ?] ?] ?] ?] & _ & E). apply bind_ok' in E. destruct E as (? & _ & E).
      apply bind_ok' in E. destruct E as ([? ?] & E1 & E). injection E as <- <- <-. exact (fit_eta_events _ _ _ _ _ _ _ E1).
    - intros m' s' e E. unfold stats_m in E. destruct (st_log s); [|discriminate]. injection E as <- <- <-. cbn. lia.
    - intros m' s' e E. unfold stats_m in E. destruct (st_log s); [|discriminate]. injection E as <- <- <-. cbn. lia.
  Qed.

  Lemma partial_fit_returns St (M : maximizer T St) k n W D st p : 0 < W ->
    (forall s m d v m' s' e, ms_doc M s m d v = Ok (m', s', e) -> length e <= n) -> (forall s m m' s' e, ms_end M s m = Ok (m', s', e) -> length e <= n) ->
    exists st' p', partial_fit_call dfuel M k W D st p st' p'.
  Proof.
    intros HW H1 H2.
    destruct (C16_can_complete (outcome (vparams T)) (shared (T := T)) (outcome St) (option T) T
      (train_estep dfuel k D) (train_feed M D) train_e_end (train_m_end M) Fit true (length D) n W st p (initial W st p)) as (ls & s' & Rn & Dn).
    - exact (inhabits None).
    - exact HW.
    - intros s q i v. unfold train_feed, settle. destruct s as [s| |]; cbn [bind]; try (cbn; lia). destruct v as [v| |]; cbn [bind]; try (cbn; lia).
      destruct (ms_doc M s (fst q) (nth i D nodoc) v) as [[[m2 s2] e2]| |] eqn:E; cbn; try lia. exact (H1 _ _ _ _ _ _ _ E).
    - intros s q. unfold train_m_end, settle. destruct s as [s| |]; cbn [bind]; try (cbn; lia).
      destruct (ms_end M s (fst q)) as [[[m2 s2] e2]| |] eqn:E; cbn; try lia. exact (H2 _ _ _ _ _ E).
    - apply reach_init.
    - exists (priv s'), (param s'), D, true, s'. split; [reflexivity|]. split; [|split; [exact Dn|split; reflexivity]].
      refine (pool_run_reachable _ _ _ _ _ _ _ _ _ _ _ _ _ _ Rn). apply reach_init.
  Qed.
  Lemma fit_returns K V C St (M : maximizer T St) new a P Q k W D n : batch_step K V C St M new a P Q -> 0 < W ->
    forall st p, exists st' p', fit_call dfuel M k W D n st p st' p'.
  Proof.
    intros B HW. destruct (batch_events _ _ _ _ _ _ _ _ _ B) as (b & B1 & B2). induction n as [|n IH]; intros st p; [exists st, p; constructor|].
    destruct (partial_fit_returns St M k b W D st p HW B1 B2) as (st1 & p1 & E). destruct (IH st1 p1) as (st2 & p2 & E2). exists st2, p2. econstructor; eassumption.
  Qed.
End Returns.

Section Classic.
  Variable lg : R -> R.
  Local Hint Extern 0 (ops _) => exact (Rops lg) : typeclass_instances.
  Local Open Scope R_scope.
  Lemma classic_posterior_doc cf epochs (m : params R) d : proper_input (d_words d) m ->
    exists gamma phi, posterior 7 (Classic cf) epochs d m = Ok (mk_vparams gamma phi []) /\ valid_posterior (d_words d) m gamma phi.
  Proof.
    intros P. unfold posterior. cbn [doc_e_step].
    destruct (C30_valid_posterior lg cf true d m P) as (g1 & p1 & e1 & E1 & _). rewrite E1. cbn [bind].
    destruct (C30_valid_posterior lg cf false d m P) as (g & p & e & E & V & _). rewrite E. cbn [bind]. exists g, p. split; [reflexivity|exact V].
  Qed.
  Lemma proper_shape X (m : params R) beta : proper_input X m -> mrows beta = mrows (p_beta m) -> ncols beta = ncols (p_beta m) ->
    (forall i n, (i < mrows beta)%nat -> (n < ncols beta)%nat -> 0 <= mget beta i n) -> proper_input X (set_beta m beta).
  Proof. intros [A1 A2 A3 A4 A5 A6 A7] H1 H2 H3. constructor; cbn [set_beta p_beta p_alpha]; rewrite ?H1, ?H2; try assumption. now rewrite <- H1, <- H2. Qed.

  Lemma classic_epoch cf ep (m : params R) D : D <> [] -> Forall (fun d => proper_input (d_words d) m) D ->
    exists l, map fst l = D /\ Forall (found 7 (Classic cf) (m, ep)) l /\ Forall (fun x => sized (mrows (p_beta m)) (ncols (p_beta m)) x /\ True) l /\
      Forall (nonneg_item (mrows (p_beta m)) (ncols (p_beta m))) l.
  Proof.
    intros _ H. induction H as [|d D Hd _ IH]; [exists []; repeat split; constructor|]. destruct IH as (l & L1 & L2 & L3 & L4).
    destruct (classic_posterior_doc cf ep m d Hd) as (gamma & phi & E & Vp). exists ((d, mk_vparams gamma phi []) :: l). cbn [map fst]. rewrite L1.
    split; [reflexivity|]. split; [constructor; [exact E|assumption]|]. split; [constructor; [|assumption]|constructor; [|assumption]].
    - split; [|exact I]. exact (posterior_sized 7 (Classic cf) ep d m _ E).
    - split.
      + intros n Hn. split.
        * unfold count. cbn [fst]. apply (pi_counts _ _ Hd). apply nth_In. now rewrite (pi_words _ _ Hd).
        * cbn [snd v_tau]. unfold vget. destruct n; cbn; lra.
      + intros i n Hi Hn. cbn [snd v_phi]. exact (vp_nonneg _ _ _ _ Vp i n Hi Hn).
  Qed.
  Lemma topics_nonneg K V (l : list (item R)) : Forall (nonneg_item K V) l -> forall i n, (i < K)%nat -> (n < V)%nat -> 0 <= mget (over_row_sums K V (word_counts K V l)) i n.
  Proof.
    intros H i n Hi Hn. unfold word_counts. rewrite over_row_sums_R by assumption.
    assert (N : forall j, (j < V)%nat -> 0 <= expected assigned l i j) by (intros j Hj; apply (expected_nonneg lg K V); try assumption; apply assigned_nonneg).
    unfold Rdiv. apply Rmult_le_pos; [now apply N|].
    assert (S : 0 <= rsum V (expected assigned l i)) by (apply rsum_nonneg; exact N). destruct S as [S| <-]; [left; now apply Rinv_0_lt_compat|]. rewrite Rinv_0. lra.
  Qed.

  Lemma classic_fit cf D W n : D <> [] -> forall m ep s st p, Forall (fun d => proper_input (d_words d) m) D -> fresh (mrows (p_beta m)) (ncols (p_beta m)) s ->
    fit_call 7 unsupervised_maximizer (Classic cf) W D n (Ok s) (m, ep) st p ->
    (exists s', st = Ok s') /\ snd p = (ep + n)%nat /\ p_alpha (fst p) = p_alpha m /\ p_eta (fst p) = p_eta m /\
    mrows (p_beta (fst p)) = mrows (p_beta m) /\ ncols (p_beta (fst p)) = ncols (p_beta m) /\ Forall (fun d => proper_input (d_words d) (fst p)) D.
  Proof.
    intros HD. induction n as [|n IH]; intros m ep s st p HP Hs F; inversion F; subst.
    - cbn [fst snd]. repeat split; eauto; lia.
    - match goal with H : partial_fit_call _ _ _ _ _ _ _ _ _ |- _ => rename H into E end. match goal with H : fit_call _ _ _ _ _ _ _ _ _ _ |- _ => rename H into G end.
      set (K := mrows (p_beta m)) in *. set (V := ncols (p_beta m)) in *.
      assert (HK : (0 < K)%nat) by (destruct D as [|d D']; [congruence|]; exact (pi_topics _ _ (Forall_inv HP))).
      destruct (classic_epoch cf ep m D HD HP) as (l & L1 & L2 & L3 & L4).
      destruct (partial_fit_run 7 unsupervised_maximizer (Classic cf) (batch_keeps lg K V 0 _ _ _ _ _ _ (step_unsupervised K V 0)) W D s (m, ep) st1 p1 l E
        (Permutation_refl' L1) L2) as (l2 & P2 & Run). cbn [fst snd] in Run.
      pose proof (Forall_perm _ _ _ (Permutation_sym P2) (Forall_and_l _ _ _ L3)) as S2. pose proof (Forall_perm _ _ _ (Permutation_sym P2) L4) as N2.
      assert (Hl2 : l2 <> []). { intros ->. apply Permutation_nil in P2. subst l. cbn in L1. congruence. }
      destruct (Run _ _ _ (unsupervised_epoch K V HK s l2 m Hs S2 Hl2)) as [-> ->].
      set (beta := over_row_sums K V (word_counts K V l2)) in *.
      assert (B1 : mrows beta = K) by reflexivity. assert (B2 : ncols beta = V) by apply ncols_tab.
      destruct (IH (set_beta m beta) (S ep) (MStepAny.zeros K V) st p) with (3 := G) as (I1 & I2 & I3 & I4 & I5 & I6 & I7).
      + revert HP. apply Forall_impl. intros d Hd. apply proper_shape; try assumption. rewrite B1, B2. exact (topics_nonneg K V l2 N2).
      + cbn [set_beta p_beta]. rewrite B1, B2. right. reflexivity.
      + cbn [set_beta p_beta p_alpha p_eta] in *. rewrite B1 in *. rewrite B2 in *. repeat split; try assumption. lia.
  Qed.
End Classic.
