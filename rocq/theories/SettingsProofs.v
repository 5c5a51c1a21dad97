(** Lemmas about the settings of a builder. *)
Require Import ZArith List Bool Arith.
Require Import Verif.Base Verif.Scalar Verif.Mat Verif.UtilsModel Verif.BuilderModel Verif.EStepModel Verif.OptModel Verif.MStepModel
  Verif.PoolModel Verif.LdaModel Verif.SettingsModel Verif.SettingsSpec.
Import ListNotations.

Section Settings.
  Context {T : Type} {O : ops T}.
  Variables dfuel fuel : nat.

  Lemma vtab_const n (a : T) : vtab n (fun _ => a) = repeat a n.
  Proof. unfold vtab. generalize 0. induction n as [|n IH]; intros i; cbn; [reflexivity|]. f_equal. apply IH. Qed.
  Lemma vtab_copy (w : list T) : vtab (length w) (vget w) = w.
  Proof.
    unfold vtab, vget. apply nth_ext with (d := zero) (d' := zero); [now rewrite map_length, seq_length|].
    intros n H. rewrite map_length, seq_length in H. rewrite (nth_indep _ _ (nth 0 w zero)) by now rewrite map_length, seq_length.
    rewrite (map_nth (fun i => nth i w zero)), seq_nth by exact H. reflexivity.
  Qed.

  (** ** What is stored is what was asked for *)
  Definition matches (hw : nat) (h : list (scall T)) (s : settings T) : Prop :=
    s_iterations s = iterations_asked h /\ s_workers s = workers_asked hw h /\
    doc_e_step dfuel (s_e s) = e_asked dfuel h /\ m_meant dfuel fuel (s_m s) = m_asked dfuel fuel h.
  Lemma step_matches hw h s p x s' p' : matches hw h s -> scall_caught (s, p) x = Ok (s', p') -> matches hw (x :: h) s'.
  Proof.
    intros (A & B & C & D) E. unfold matches, scall_caught in *.
    destruct x; cbn in E |- *;
      try (injection E as <- _; cbn; repeat split; auto; fail);
      try (match type of E with context [let* _ := ?o in _] => destruct o; cbn in E; try discriminate; injection E as <- _ end;
           repeat split; auto; fail).
    - (* semi *) injection E as <- _. cbn. repeat split; auto. destruct supervised, unsupervised; reflexivity.
    - (* online *) injection E as <- _. cbn. repeat split; auto.
      destruct c; cbn; [rewrite vtab_const|rewrite vtab_copy|]; reflexivity.
  Qed.
  Lemma fold_stuck {A B} (f : A -> B -> outcome A) l : (fold_left (fun o x => let* a := o in f a x) l UB = UB) /\
    (forall e, fold_left (fun o x => let* a := o in f a x) l (Throw e) = Throw e).
  Proof. induction l as [|x l IH]; cbn; [split; reflexivity|exact IH]. Qed.
  Lemma configure_snoc hw h x : configure hw (h ++ [x]) = let* sp := configure hw h in scall_caught sp x.
  Proof. unfold configure. rewrite fold_left_app. reflexivity. Qed.
  Lemma configure_matches hw h s p : configure hw h = Ok (s, p) -> matches hw (rev h) s.
  Proof.
    revert s p. induction h as [|x h IH] using rev_ind; intros s p E.
    - cbn in E. injection E as <- _. repeat split.
    - rewrite configure_snoc in E. destruct (configure hw h) as [[s0 p0]| |] eqn:E0; try discriminate. cbn [bind] in E.
      rewrite rev_unit. exact (step_matches hw (rev h) s0 p0 x s p (IH _ _ eq_refl) E).
  Qed.
  Lemma fit_meant o docs r : object_fit dfuel fuel o docs r <->
    m_meant dfuel fuel (ob_m o) (ob_e o) (ob_workers o) docs (ob_iterations o) (ob_params o) r.
  Proof. unfold object_fit. destruct (ob_m o); reflexivity. Qed.
  Lemma built_ok hw h o : built hw h = Ok o -> exists s p, configure hw h = Ok (s, p) /\ o = mk_object p (s_e s) (s_m s) (s_iterations s) (s_workers s).
  Proof.
    unfold built. destruct (configure hw h) as [[s p]| |]; cbn; try discriminate. intros E.
    repeat match type of E with (if ?c then _ else _) = _ => destruct c; try discriminate end.
    injection E as <-. exists s, p. split; reflexivity.
  Qed.
  Lemma settings_used hw h o : built hw h = Ok o ->
    (forall epochs emit d m, doc_e_step dfuel (ob_e o) epochs emit d m = e_asked dfuel (rev h) epochs emit d m) /\
    (forall docs r, object_fit dfuel fuel o docs r <->
       m_asked dfuel fuel (rev h) (ob_e o) (workers_asked hw (rev h)) docs (iterations_asked (rev h)) (ob_params o) r) /\
    (forall X r, object_transform dfuel o X r <-> transform_call dfuel (ob_e o) 0 (workers_asked hw (rev h)) (ob_params o) X r).
  Proof.
    intros E. destruct (built_ok hw h o E) as (s & p & E1 & ->). destruct (configure_matches hw h s p E1) as (A & B & C & D).
    split; [|split].
    - intros epochs emit d m. cbn. now rewrite C.
    - intros docs r. rewrite fit_meant. cbn. rewrite A, B, D. reflexivity.
    - intros X r. unfold object_transform. cbn. rewrite B. reflexivity.
  Qed.

  (** ** The same calls without the arguments *)
  Definition forget (s : settings T) : config :=
    mk_config (s_iterations s) (s_workers s) (e_kind (s_e s)) (m_kind (s_m s)) (s_e_requires_eta s) (s_m_requires_eta s).
  Definition forgotten (o : outcome (settings T * params T)) : outcome (config * params T) :=
    let* (s, p) := o in Ok (forget s, p).
  Lemma step_forget s p x : forgotten (scall_caught (s, p) x) = call_caught (forget s, p) (plain x).
  Proof.
    unfold scall_caught, call_caught. destruct x; try reflexivity; cbn.
    - destruct (topics_seeded X topics N draw p); reflexivity.
    - destruct (eta_zeros n p); reflexivity.
    - destruct (eta_uniform n p); reflexivity.
  Qed.
  Lemma configure_forget hw h : forgotten (configure hw h) = run hw (map plain h).
  Proof.
    induction h as [|x h IH] using rev_ind; [reflexivity|].
    rewrite configure_snoc, map_app. unfold run. rewrite fold_left_app. cbn [fold_left map]. fold (run hw (map plain h)).
    rewrite <- IH. destruct (configure hw h) as [[s p]| |]; cbn [bind forgotten]; try reflexivity. apply step_forget.
  Qed.
  Lemma built_plain hw h : build hw (map plain h) =
    match built hw h with
    | Ok o => let* (s, p) := configure hw h in Ok (forget s, ob_params o)
    | Throw e => Throw e
    | UB => UB
    end.
  Proof.
    unfold build, built. rewrite <- configure_forget. destruct (configure hw h) as [[s p]| |]; cbn; try reflexivity.
    unfold check_build. cbn. destruct (mrows (p_beta p) =? 0); [reflexivity|].
    destruct ((mrows (p_eta p) =? 0) && (s_e_requires_eta s || s_m_requires_eta s))%bool; reflexivity.
  Qed.

  Lemma built_same hw h :
    match built hw h with
    | Ok o => exists c, build hw (map plain h) = Ok (c, ob_params o)
    | Throw e => build hw (map plain h) = Throw e
    | UB => build hw (map plain h) = UB
    end.
  Proof.
    rewrite built_plain. destruct (built hw h) as [o| |] eqn:E; try reflexivity.
    destruct (built_ok hw h o E) as (s & p & -> & _). exists (forget s). reflexivity.
  Qed.

  (** ** Settings without effect *)
  Lemma fit_same {St} (M : maximizer T St) k k' W docs : posterior dfuel k = posterior dfuel k' ->
    forall n st p st' p', fit_call dfuel M k W docs n st p st' p' -> fit_call dfuel M k' W docs n st p st' p'.
  Proof.
    intros E n st p st' p' H. induction H as [|n st p st1 p1 st2 p2 H1 _ IH]; [constructor|].
    apply fit_epoch with st1 p1; [|exact IH]. unfold partial_fit_call, train_estep in *. rewrite <- E. exact H1.
  Qed.
  Lemma fit_with_same {St} (M : maximizer T St) new k k' W docs n p r : posterior dfuel k = posterior dfuel k' ->
    fit_with dfuel M new k W docs n p r -> fit_with dfuel M new k' W docs n p r.
  Proof. intros E (st & q & H & R). exists st, q. split; [exact (fit_same M k k' W docs E n _ _ _ _ H)|exact R]. Qed.
  Lemma meant_same m k k' W docs n p r : posterior dfuel k = posterior dfuel k' ->
    m_meant dfuel fuel m k W docs n p r -> m_meant dfuel fuel m k' W docs n p r.
  Proof. intros E. destruct m; cbn; apply fit_with_same; exact E. Qed.
  Lemma transform_same k k' ep W m X r : posterior dfuel k = posterior dfuel k' ->
    transform_call dfuel k ep W m X r -> transform_call dfuel k' ep W m X r.
  Proof. intros E. unfold transform_call. rewrite E. intros H; exact H. Qed.
  Lemma posterior_of k k' : doc_e_step dfuel k = doc_e_step dfuel k' -> posterior dfuel k = posterior dfuel k'.
  Proof. intros E. unfold posterior. now rewrite E. Qed.

  (** Two histories that agree up to what a user cannot tell apart lead to objects that cannot be told apart. *)
  Definition alike (o o' : object T) : Prop :=
    (forall docs r, object_fit dfuel fuel o docs r <-> object_fit dfuel fuel o' docs r) /\
    (forall X r, object_transform dfuel o X r <-> object_transform dfuel o' X r).
  Definition near (s s' : settings T) : Prop :=
    s_iterations s = s_iterations s' /\ s_workers s = s_workers s' /\ doc_e_step dfuel (s_e s) = doc_e_step dfuel (s_e s') /\
    m_meant dfuel fuel (s_m s) = m_meant dfuel fuel (s_m s') /\
    s_e_requires_eta s = s_e_requires_eta s' /\ s_m_requires_eta s = s_m_requires_eta s'.
  Lemma near_alike p s s' : near s s' ->
    alike (mk_object p (s_e s) (s_m s) (s_iterations s) (s_workers s)) (mk_object p (s_e s') (s_m s') (s_iterations s') (s_workers s')).
  Proof.
    intros (A & B & C & D & _). apply posterior_of in C. split.
    - intros docs r. rewrite !fit_meant. cbn. rewrite A, B, D. split; apply meant_same; congruence.
    - intros X r. unfold object_transform. cbn. rewrite B. split; apply transform_same; congruence.
  Qed.
  Definition near_out (o o' : outcome (settings T * params T)) : Prop :=
    match o, o' with
    | Ok (s, p), Ok (s', p') => near s s' /\ p = p'
    | Throw e, Throw e' => e = e'
    | UB, UB => True
    | _, _ => False
    end.
  Lemma near_step s s' p x : near s s' -> near_out (scall_caught (s, p) x) (scall_caught (s', p) x).
  Proof.
    intros (A & B & C & D & E & F). unfold scall_caught, near_out, near.
    destruct x; cbn; try (repeat split; auto; fail).
    - destruct (topics_seeded X topics N draw p); cbn; repeat split; auto.
    - destruct (eta_zeros n p); cbn; repeat split; auto.
    - destruct (eta_uniform n p); cbn; repeat split; auto.
  Qed.
  Lemma near_fold h o o' : near_out o o' ->
    near_out (fold_left (fun o x => let* sp := o in scall_caught sp x) h o) (fold_left (fun o x => let* sp := o in scall_caught sp x) h o').
  Proof.
    revert o o'. induction h as [|x h IH]; intros o o' H; [exact H|]. cbn [fold_left]. apply IH.
    destruct o as [[s p]| |], o' as [[s' p']| |]; cbn in H; try contradiction; try exact H.
    destruct H as [H <-]. exact (near_step s s' p x H).
  Qed.
  (** The two objects, or the two refusals *)
  Definition alike_out (o o' : outcome (object T)) : Prop :=
    match o, o' with
    | Ok o, Ok o' => ob_params o = ob_params o' /\ alike o o'
    | Throw e, Throw e' => e = e'
    | UB, UB => True
    | _, _ => False
    end.
  Lemma near_built hw h x x' h2 : (forall s p, near_out (scall_caught (s, p) x) (scall_caught (s, p) x')) ->
    alike_out (built hw (h ++ x :: h2)) (built hw (h ++ x' :: h2)).
  Proof.
    intros H. assert (G : near_out (configure hw (h ++ x :: h2)) (configure hw (h ++ x' :: h2))).
    { unfold configure. rewrite !fold_left_app. cbn [fold_left]. apply near_fold. fold (configure hw h).
      destruct (configure hw h) as [[s p]| |]; cbn [bind]; [apply H| |]; cbn; auto. }
    unfold built. destruct (configure hw (h ++ x :: h2)) as [[s p]| |], (configure hw (h ++ x' :: h2)) as [[s' p']| |];
      cbn in G; try contradiction; cbn [bind]; [|exact G|exact I].
    destruct G as [G <-]. destruct (mrows (p_beta p) =? 0); [reflexivity|].
    destruct G as (A & B & C & D & E & F). rewrite E, F.
    destruct ((mrows (p_eta p) =? 0) && (s_e_requires_eta s' || s_m_requires_eta s'))%bool; [reflexivity|].
    cbn. split; [reflexivity|]. apply near_alike. unfold near. auto 10.
  Qed.

  Lemma alike_cases x y : alike_out x y ->
    (exists e, x = Throw e /\ y = Throw e) \/ (x = UB /\ y = UB) \/
    (exists o o', x = Ok o /\ y = Ok o' /\ ob_params o = ob_params o' /\
       (forall docs r, object_fit dfuel fuel o docs r <-> object_fit dfuel fuel o' docs r) /\
       (forall X r, object_transform dfuel o X r <-> object_transform dfuel o' X r)).
  Proof.
    destruct x as [o|e|], y as [o'|e'|]; cbn; intros H; try contradiction.
    - right. right. exists o, o'. destruct H as (A & B & C). auto 10.
    - left. exists e. subst. auto.
    - right. left. auto.
  Qed.

  Lemma tolerance_unused hw h i t t' mu w l h2 :
    alike_out (built hw (h ++ SetMultinomialE i t mu w l :: h2)) (built hw (h ++ SetMultinomialE i t' mu w l :: h2)).
  Proof. apply near_built. intros s p. unfold scall_caught, near_out, near. cbn. repeat split. Qed.

  Lemma online_weights (w w' : list T) L b m r bw : length w = length w' ->
    online_maximizer (mk_oconf w L b m r bw) = online_maximizer (mk_oconf w' L b m r bw).
  Proof.
    intros E. unfold online_maximizer, online_doc, online_m. cbn [o_class_weights o_L o_minibatch o_momentum o_rate o_beta_weight].
    rewrite E. reflexivity.
  Qed.
  Lemma weights_unused hw h c c' L b m r bw h2 : length (weights c) = length (weights c') ->
    alike_out (built hw (h ++ SetOnlineM c L b m r bw :: h2)) (built hw (h ++ SetOnlineM c' L b m r bw :: h2)).
  Proof.
    intros E. apply near_built. intros s p. unfold scall_caught, near_out, near. cbn.
    assert (K : forall c : classes T, length (match c with Number n => vtab n (fun _ => one) | Vector w => vtab (length w) (vget w) | Matrix w => w end) = length (weights c)).
    { intros [n|v|v]; cbn; [now rewrite vtab_const|now rewrite vtab_copy|reflexivity]. }
    split; [|reflexivity]. split; [reflexivity|]. split; [reflexivity|]. split; [reflexivity|]. split; [|split; reflexivity].
    rewrite (online_weights _ (match c' with Number n => vtab n (fun _ => one) | Vector w => vtab (length w) (vget w) | Matrix w => w end));
      [reflexivity|]. rewrite !K. exact E.
  Qed.
End Settings.
