(** Training calls: the pool feeds the M step with the documents in some order; with a batch M step and exact arithmetic
    the order does not matter. *)
Require Import Reals ZArith List Bool Arith Lia Permutation.
Require Import Verif.Base Verif.Scalar Verif.Mat Verif.UtilsModel Verif.BuilderModel Verif.EStepModel Verif.OptModel Verif.MStepModel Verif.MStepSpec Verif.MStepAny Verif.MStepBatch
  Verif.PoolModel Verif.PoolSpec Verif.PoolProofs Verif.PoolDone Verif.LdaModel Verif.TrainSizes Verif.TrainPerm.
Import ListNotations.
Local Open Scope nat_scope.

Section Pool.
  Context {T : Type} {O : ops T} {St : Type}.
  Variable dfuel : nat.
  Variable M : maximizer T St.
  Variable k : e_step T.
  (** doc_m_step does not touch the model *)
  Hypothesis HM : forall s m d v m' s' e, ms_doc M s m d v = Ok (m', s', e) -> m' = m.

  Definition result (D : list (doc T)) (iv : nat * outcome (vparams T)) : doc T * outcome (vparams T) := (nth (fst iv) D nodoc, snd iv).

  Lemma feed_keeps D s p i v : snd (fst (train_feed M D s p i v)) = p.
  Proof.
    unfold train_feed, settle. destruct s as [s| |]; cbn [bind]; try reflexivity. destruct v as [v| |]; cbn [bind]; try reflexivity.
    destruct (ms_doc M s (fst p) (nth i D nodoc) v) as [[[m s'] e]| |] eqn:E; cbn; try reflexivity. rewrite (HM _ _ _ _ _ _ _ E). now destruct p.
  Qed.
  Lemma consume_failed D l : forall st p, (forall s, st <> Ok s) -> forall s, fst (consume (train_feed M D) l (st, p)) <> Ok s.
  Proof.
    induction l as [|[i v] l IH]; intros st p H; cbn; [exact H|].
    destruct (train_feed M D st p i v) as [[st' p'] e] eqn:E. cbn. apply IH. intros s' Hs'. unfold train_feed in E.
    destruct st as [s| |]; [now apply (H s)| |]; cbn [bind settle] in E; injection E as <- <- <-; discriminate.
  Qed.
  (** a run of doc_m_steps that succeeds *)
  Lemma consume_ok D l : forall s p s', fst (consume (train_feed M D) l (Ok s, p)) = Ok s' ->
    exists its e, map (result D) l = map (fun x => (fst x, Ok (snd x))) its /\ mrun M (docs its) (fst p) s = Ok (fst p, s', e) /\
      snd (consume (train_feed M D) l (Ok s, p)) = p.
  Proof.
    induction l as [|[i v] l IH]; intros s p s' H.
    - cbn in H. injection H as <-. exists [], []. repeat split.
    - unfold consume in H. cbn [fold_left fst snd] in H. destruct (train_feed M D (Ok s) p i v) as [[st1 p1] e1] eqn:E. cbn [fst snd] in H.
      assert (K : p1 = p) by (pose proof (feed_keeps D (Ok s) p i v) as K; now rewrite E in K). subst p1.
      destruct st1 as [s1| |]; [|exfalso; eapply consume_failed; [|exact H]; discriminate..].
      unfold train_feed in E. cbn [bind] in E. destruct v as [v| |]; cbn [bind settle] in E; [|discriminate E..].
      destruct (ms_doc M s (fst p) (nth i D nodoc) v) as [[[m1 s2] e2]| |] eqn:E2; cbn [settle] in E; [|discriminate E..]. injection E as <- E3 <-.
      destruct (IH s2 p s' H) as (its & e & H1 & H2 & H3).
      exists ((nth i D nodoc, v) :: its), (e2 ++ e). cbn [map docs]. rewrite H1. split; [reflexivity|]. split.
      + cbn [mrun fst snd]. rewrite E2, (HM _ _ _ _ _ _ _ E2). cbn [bind]. change (map _ its) with (docs its). rewrite H2. reflexivity.
      + unfold consume. cbn [fold_left fst snd]. unfold train_feed at 2. cbn [bind]. rewrite E2. cbn [settle fst snd].
        rewrite (HM _ _ _ _ _ _ _ E2). replace (fst p, snd p) with p by now destruct p. exact H3.
  Qed.
  Lemma consume_run D l its : map (result D) l = map (fun x => (fst x, Ok (snd x))) its -> forall s p,
    match mrun M (docs its) (fst p) s with
    | Ok (m', s', e) => consume (train_feed M D) l (Ok s, p) = (Ok s', p) /\ m' = fst p
    | _ => forall s', fst (consume (train_feed M D) l (Ok s, p)) <> Ok s'
    end.
  Proof.
    revert its. induction l as [|[i v] l IH]; intros [|[d w] its] H s p; try discriminate H; [cbn; tauto|].
    injection H as H1 H2 H3. cbn [fst snd] in *. cbn [docs map mrun fst snd]. subst d v.
    unfold consume. cbn [fold_left fst snd]. unfold train_feed at 2 4 6. cbn [bind].
    destruct (ms_doc M s (fst p) (nth i D nodoc) w) as [[[m1 s2] e2]| |] eqn:E2; cbn [bind settle fst snd].
    - rewrite (HM _ _ _ _ _ _ _ E2). replace (fst p, snd p) with p by now destruct p. specialize (IH its H3 s2 p). change (map _ its) with (docs its).
      destruct (mrun M (docs its) (fst p) s2) as [[[m' s'] e']| |]; cbn [bind]; exact IH.
    - apply consume_failed. discriminate.
    - apply consume_failed. discriminate.
  Qed.

  Lemma map_nth_seq {A} (D : list A) x0 : map (fun i => nth i D x0) (seq 0 (length D)) = D.
  Proof. exact (vtab_eta D x0). Qed.

  (** A call of partial_fit: an order of the documents with their E-step results. *)
  Lemma partial_fit_order W D st p st' p' : partial_fit_call dfuel M k W D st p st' p' ->
    exists D' l, Permutation (map (result D') l) (map (fun d => (d, posterior dfuel k (snd p) d (fst p))) D) /\
      let c := consume (train_feed M D') l (st, p) in
      (st', p') = fst (train_m_end M (fst c) (train_e_end (snd c))).
  Proof.
    intros (D' & owner & s & PD & R & Dn & -> & ->). exists D', (fed (log s)).
    pose proof (fed_values (feed_keeps D') R Dn) as F. split.
    - rewrite F, map_map. unfold result at 1. cbn [fst snd]. unfold train_estep.
      rewrite <- (map_map (fun i => nth i D' nodoc) (fun d => (d, posterior dfuel k (snd p) d (fst p)))), map_nth_seq.
      now apply Permutation_map, Permutation_sym.
    - pose proof (done_result R Dn) as X. cbn in X. rewrite X. reflexivity.
  Qed.
  Definition found (p : shared (T := T)) (x : item T) : Prop := posterior dfuel k (snd p) (fst x) (fst p) = Ok (snd x).

  Lemma partial_fit_ok W D st p s' p' : partial_fit_call dfuel M k W D st p (Ok s') p' ->
    exists s l e, st = Ok s /\ Permutation (map fst l) D /\ Forall (found p) l /\
      mrun M (epoch l) (fst p) s = Ok (fst p', s', e) /\ snd p' = S (snd p).
  Proof.
    intros H. destruct (partial_fit_order _ _ _ _ _ _ H) as (D' & l & P & E). cbv zeta in E.
    assert (X : exists s, st = Ok s).
    { destruct st as [s| |]; [eauto|exfalso..];
        match type of E with context [consume ?f l ?c] => pose proof (consume_failed D' l (fst c) (snd c)) as N; cbn [fst snd] in N;
          destruct (consume f l c) as [c1 p1] end; cbn [fst snd] in *; (destruct c1 as [s| |]; [now apply (N ltac:(discriminate) s)|cbn in E; discriminate E..]). }
    destruct X as (s & ->).
    destruct (fst (consume (train_feed M D') l (Ok s, p))) as [s1| |] eqn:C; cbn [fst snd] in E; [|discriminate E..].
    destruct (consume_ok D' l s p s1 C) as (its & e & H1 & H2 & H3). rewrite H3 in E.
    unfold train_m_end in E. cbn [bind train_e_end fst] in E. destruct (ms_end M s1 (fst p)) as [[[m2 s2] e2]| |] eqn:E2; cbn [settle fst] in E; [|discriminate E..].
    injection E as -> ->. exists s, its, (e ++ e2 ++ []). split; [reflexivity|]. rewrite H1 in P. split; [|split; [|split]].
    - apply (Permutation_map fst) in P. rewrite !map_map in P. cbn [fst] in P. now rewrite map_id in P.
    - apply Forall_forall. intros [d v] Hx. unfold found. cbn [fst snd].
      assert (X : In (d, Ok v) (map (fun d => (d, posterior dfuel k (snd p) d (fst p))) D)).
      { eapply Permutation_in; [exact P|]. apply in_map_iff. exists (d, v). split; [reflexivity|assumption]. }
      apply in_map_iff in X. destruct X as (d' & X & _). injection X as -> <-. reflexivity.
    - unfold epoch. rewrite mrun_app, H2. cbn [bind mrun]. rewrite E2. reflexivity.
    - reflexivity.
  Qed.
  Lemma mrun_epoch_docs l m s : mrun M (epoch l) m s = let* (m, s, e) := mrun M (docs l) m s in let* (m, s, e') := ms_end M s m in Ok (m, s, e ++ e').
  Proof.
    unfold epoch. rewrite mrun_app. destruct (mrun M (docs l) m s) as [[[m1 s1] e1]| |]; cbn [bind]; [|reflexivity..].
    cbn [mrun]. destruct (ms_end M s1 m1) as [[[m2 s2] e2]| |]; cbn [bind]; [|reflexivity..]. now rewrite app_nil_r.
  Qed.
  (** if the E step succeeds for all documents, so does the call, if the M step does *)
  Lemma partial_fit_run W D s p st' p' l0 : partial_fit_call dfuel M k W D (Ok s) p st' p' -> Permutation (map fst l0) D -> Forall (found p) l0 ->
    exists l, Permutation l l0 /\ forall m' s' e, mrun M (epoch l) (fst p) s = Ok (m', s', e) -> st' = Ok s' /\ p' = (m', S (snd p)).
  Proof.
    intros H P0 F0. destruct (partial_fit_order _ _ _ _ _ _ H) as (D' & l & P & E). cbv zeta in E.
    assert (P1 : Permutation (map (result D') l) (map (fun x => (fst x, Ok (snd x))) l0)).
    { rewrite P. rewrite <- (Permutation_map _ P0), map_map. erewrite map_ext_in; [apply Permutation_refl|]. intros x Hx. cbn.
      rewrite Forall_forall in F0. now rewrite (F0 x Hx). }
    apply Permutation_map_inv in P1. destruct P1 as (its & P1 & P2). exists its. split; [now apply Permutation_sym|].
    intros m' s' e R. rewrite mrun_epoch_docs in R. pose proof (consume_run D' l its P1 s p) as X.
    destruct (mrun M (docs its) (fst p) s) as [[[m1 s1] e1]| |]; cbn [bind] in R; [|discriminate R..]. destruct X as [X ->].
    match type of E with context [consume ?a ?b ?c] => replace (consume a b c) with (Ok s1, p) in E by (symmetry; exact X) end.
    cbn [fst snd] in E. unfold train_m_end in E. cbn [bind train_e_end fst] in E.
    destruct (ms_end M s1 (fst p)) as [[[m2 s2] e2]| |]; cbn [bind settle fst snd] in *; [|discriminate R..]. injection R as <- <- <-. now injection E as -> ->.
  Qed.
End Pool.

Section Fit.
  Variable lg : R -> R.
  Local Hint Extern 0 (ops _) => exact (Rops lg) : typeclass_instances.
  Variables K V C : nat.
  Hypothesis HK : 0 < K.

  Lemma batch_keeps St M new a P Q : batch_step (T := R) K V C St M new a P Q ->
    forall s m d v m' s' e, ms_doc M s m d v = Ok (m', s', e) -> m' = m.
  Proof.
    intros B. destruct B; intros s m d v m' s' e; cbn [ms_doc unsupervised_maximizer fast_maximizer semi_maximizer sup_maximizer multinomial_maximizer correspondence_maximizer];
      intros E; apply bind_ok' in E; destruct E as (s1 & _ & E); now injection E as <- <- <-.
  Qed.

  (** complete epochs, one after the other *)
  Lemma between_app (h : list (mcall R)) l : between_epochs (h ++ epoch l).
  Proof. right. exists (h ++ docs l). unfold epoch. now rewrite app_assoc. Qed.
  Lemma items_docs (l : list (item R)) : items (docs l) = l.
  Proof. induction l as [|[d v] l IH]; [reflexivity|]. cbn. apply (f_equal (cons (d, v)) IH). Qed.
  Lemma items_app (h g : list (mcall R)) : items (h ++ g) = items h ++ items g.
  Proof. induction h as [|[d v|] h IH]; cbn; [reflexivity| |exact IH]. now rewrite IH. Qed.
  Lemma items_epoch (l : list (item R)) : items (epoch l) = l.
  Proof. unfold epoch. rewrite items_app, items_docs. cbn. apply app_nil_r. Qed.

  Definition shape (m : params R) : Prop := mrows (p_beta m) = K /\ ncols (p_beta m) = V.
  Lemma topics_shape (b : mat R) a (l : list (item R)) : b = over_row_sums K V (totals K V a l) \/ b = normalize_rows (totals K V a l) ->
    mrows b = K /\ ncols b = V.
  Proof.
    intros [-> | ->].
    - unfold over_row_sums. now rewrite mrows_tab, ncols_tab.
    - unfold normalize_rows. rewrite mrows_tab, ncols_tab. apply totals_shape.
  Qed.

  Variables (St : Type) (M : maximizer R St) (new : St) (a : item R -> nat -> nat -> R) (P : params R -> Prop) (Q : item R -> Prop).
  Hypothesis B : batch_step K V C St M new a P Q.
  Variable k : e_step R.
  Variable D : list (doc R).
  Hypothesis HD : D <> [].
  (** what the M step asks of documents, the E step delivers *)
  Hypothesis HQ : forall epochs m d v, In d D -> shape m -> posterior 7 k epochs d m = Ok v -> Q (d, v).

  (** a state reached by complete epochs on these documents *)
  Definition trained_by (m0 m : params R) (s : St) : Prop :=
    exists h e, between_epochs h /\ Forall (fun x => sized K V x /\ Q x) (items h) /\ mrun M h m0 new = Ok (m, s, e).

  Lemma found_good p (l : list (item R)) : shape (fst p) -> Permutation (map fst l) D -> Forall (found 7 k p) l -> Forall (fun x => sized K V x /\ Q x) l.
  Proof.
    intros [S1 S2] Pl F. rewrite Forall_forall in *. intros [d v] Hx. specialize (F _ Hx). unfold found in F. cbn [fst snd] in F.
    assert (Hd : In d D) by (eapply Permutation_in; [exact Pl|]; apply (in_map fst _ _ Hx)).
    split; [|now apply (HQ (snd p) (fst p))]. rewrite <- S1, <- S2. exact (posterior_sized 7 k _ _ _ _ F).
  Qed.

  (** the E step does not look at the number of epochs *)
  Definition indifferent : Prop := forall n n' d m, posterior 7 k n d m = posterior 7 k n' d m.
  Lemma fit_same m0 m02 : P m0 -> P m02 -> forall W W' n m ep ep2 s s2 s' p' st2' p2', ep = ep2 \/ indifferent ->
    shape m -> trained_by m0 m s -> trained_by m02 m s2 ->
    fit_call 7 M k W D n (Ok s) (m, ep) (Ok s') p' -> fit_call 7 M k W' D n (Ok s2) (m, ep2) st2' p2' ->
    fst p2' = fst p' /\ snd p' = ep + n /\ snd p2' = ep2 + n /\ shape (fst p') /\ P (fst p') /\ exists t, st2' = Ok t /\ trained_by m02 (fst p2') t.
  Proof.
    intros HP HP2 W W'. induction n as [|n IH]; intros m ep ep2 s s2 s' p' st2' p2' HE Sh T1 T2 F1 F2.
    { inversion F1; inversion F2; subst. cbn [fst snd]. rewrite !Nat.add_0_r. repeat (split; [now (reflexivity || apply Sh)|]).
      split; [|now exists s2]. destruct T1 as (h1 & e1 & T11 & T12 & T13). exact (proj1 (batch_between K V C HK St M new a P Q B h1 m0 m s' e1 HP T11 T12 T13)). }
    inversion F1; inversion F2; subst.
    match goal with H : partial_fit_call _ _ _ W _ _ _ ?st1 ?p1, H' : partial_fit_call _ _ _ W' _ _ _ ?st3 ?p3 |- _ =>
      rename H into E1; rename H' into E2; rename st1 into r1; rename p1 into q1; rename st3 into r2; rename p3 into q2 end.
    match goal with H : fit_call _ _ _ W _ _ r1 q1 _ _, H' : fit_call _ _ _ W' _ _ r2 q2 _ _ |- _ => rename H into G1; rename H' into G2 end.
    assert (Z : exists s1, r1 = Ok s1).
    { destruct r1 as [s1| |]; [eauto| |]; exfalso; clear - G1 B.
      - remember (Throw e : outcome St) as r eqn:Er. assert (Hr : forall s, r <> Ok s) by (subst; discriminate). clear Er. revert G1 Hr. revert r q1. induction n; intros r q1 G1 Hr; inversion G1; subst; [now apply (Hr s')|].
        destruct st1 as [s1| |]; [|eapply IHn; [eassumption|discriminate]..]. destruct (partial_fit_ok 7 M k (batch_keeps _ _ _ _ _ _ B) _ _ _ _ _ _ H0) as (s0 & _ & _ & X & _). now apply (Hr s0).
      - remember (UB : outcome St) as r eqn:Er. assert (Hr : forall s, r <> Ok s) by (subst; discriminate). clear Er. revert G1 Hr. revert r q1. induction n; intros r q1 G1 Hr; inversion G1; subst; [now apply (Hr s')|].
        destruct st1 as [s1| |]; [|eapply IHn; [eassumption|discriminate]..]. destruct (partial_fit_ok 7 M k (batch_keeps _ _ _ _ _ _ B) _ _ _ _ _ _ H0) as (s0 & _ & _ & X & _). now apply (Hr s0). }
    destruct Z as (s1 & ->). destruct q1 as [m1 ep1].
    destruct (partial_fit_ok 7 M k (batch_keeps _ _ _ _ _ _ B) _ _ _ _ _ _ E1) as (s0 & l & e & X & Pl & Fl & R1 & X2). injection X as <-. cbn [fst snd] in *. subst ep1.
    pose proof (found_good (m, ep) l Sh Pl Fl) as Gl.
    assert (Fl2 : Forall (found 7 k (m, ep2)) l).
    { destruct HE as [<-|HE]; [exact Fl|]. eapply Forall_impl; [|exact Fl]. intros x. unfold found. cbn [fst snd]. intros <-. apply HE. }
    assert (Hl : l <> []) by (intros ->; cbn in Pl; apply Permutation_nil in Pl; congruence).
    destruct T1 as (h1 & e1 & T11 & T12 & T13), T2 as (h2 & e2 & T21 & T22 & T23).
    destruct (batch_between K V C HK St M new a P Q B h1 m0 m s e1 HP T11 T12 T13) as [Pm A1].
    destruct (batch_between K V C HK St M new a P Q B h2 m02 m s2 e2 HP2 T21 T22 T23) as [_ A2].
    destruct (partial_fit_run 7 M k (batch_keeps _ _ _ _ _ _ B) _ _ _ _ _ _ l E2 Pl Fl2) as (l2 & Pl2 & Run). cbn [fst snd] in Run.
    pose proof (Forall_perm _ _ _ (Permutation_sym Pl2) Gl) as Gl2.
    assert (Hl2 : l2 <> []) by (intros ->; apply Permutation_nil in Pl2; congruence).
    assert (Vis : visible (mrun M (epoch l2) m s2) = Ok (m1, e)).
    { destruct (A2 l2 Gl2 Hl2) as [Y _]. rewrite Y. rewrite <- (epoch_perm lg K V C HK St M new a P Q B l l2 m Pm Gl Hl (Permutation_sym Pl2)).
      destruct (A1 l Gl Hl) as [Y1 _]. rewrite <- Y1, R1. reflexivity. }
    destruct (mrun M (epoch l2) m s2) as [[[m3 s3] e3]| |] eqn:R2; cbn [visible] in Vis; [|discriminate..]. injection Vis as -> ->.
    destruct (Run m1 s3 e eq_refl) as [-> ->].
    rewrite <- !Nat.add_succ_comm. refine (IH m1 (S ep) (S ep2) s1 s3 s' p' st2' p2' _ _ _ _ G1 G2).
    - destruct HE as [<-|HE]; [now left|now right].
    - destruct (A1 l Gl Hl) as [_ Y]. destruct (Y _ _ _ R1) as [_ Y2]. exact (topics_shape _ _ _ Y2).
    - exists (h1 ++ epoch l), (e1 ++ e). split; [apply between_app|]. split.
      + rewrite items_app, items_epoch. apply Forall_app. now split.
      + rewrite mrun_app, T13. cbn [bind]. rewrite R1. reflexivity.
    - exists (h2 ++ epoch l2), (e2 ++ e). split; [apply between_app|]. split.
      + rewrite items_app, items_epoch. apply Forall_app. now split.
      + rewrite mrun_app, T23. cbn [bind]. rewrite R2. reflexivity.
  Qed.
  Lemma fit_independent m0 : P m0 -> forall W W' n m ep s s2 s' p' st2' p2',
    shape m -> trained_by m0 m s -> trained_by m0 m s2 ->
    fit_call 7 M k W D n (Ok s) (m, ep) (Ok s') p' -> fit_call 7 M k W' D n (Ok s2) (m, ep) st2' p2' ->
    p2' = p' /\ exists t, st2' = Ok t.
  Proof.
    intros HP W W' n m ep s s2 s' p' st2' p2' Sh T1 T2 F1 F2.
    destruct (fit_same m0 m0 HP HP W W' n m ep ep s s2 s' p' st2' p2' (or_introl eq_refl) Sh T1 T2 F1 F2) as (A1 & A2 & A3 & _ & _ & t & A4 & _).
    split; [|eauto]. destruct p', p2'. cbn [fst snd] in *. congruence.
  Qed.
End Fit.
