(** Lemmas about the builder. *)
Require Import Reals ZArith List Arith Bool Lia Lra.
Require Import Verif.Base Verif.Scalar Verif.Mat Verif.UtilsModel Verif.UtilsProofs.
Require Import Verif.BuilderModel Verif.BuilderSpec.
Import ListNotations.

Section Any.
  Local Open Scope nat_scope.
  Context {T : Type} {O : ops T}.
  Implicit Types h : list (bcall T).

  Lemma seeded_row_ok X N draw V : X <> [] -> (forall d, In d X -> length d = V) ->
    exists row, seeded_row (O:=O) X N draw V = Ok row /\ length row = V.
  Proof.
    intros HX HV. unfold seeded_row.
    assert (G : forall l row, length row = V -> exists row',
      fold_left (fun acc r => let* row := acc in
        let doc := nth (draw r mod length X) X [] in
        if length doc =? V then Ok (vtab V (fun w => add (vget row w) (ofZ (nth w doc 0%Z)))) else UB) l (Ok row)
      = Ok row' /\ length row' = V).
    { induction l as [|r l IH]; intros row Hr; [exists row; auto|]. cbn [fold_left bind]. cbv zeta.
      rewrite HV, Nat.eqb_refl.
      - apply IH. apply vtab_length.
      - apply nth_In. apply Nat.mod_upper_bound. destruct X; [congruence|discriminate]. }
    apply G. apply vtab_length.
  Qed.

  Lemma topics_seeded_ok X k N draw p : seedable X -> exists q, topics_seeded X k N draw p = Ok q.
  Proof.
    intros (V & HX & HV). unfold topics_seeded. destruct X as [|d X]; [congruence|].
    assert (length d = V) as -> by (apply HV; now left).
    assert (G : forall l, exists rows, seqM (map (fun k => seeded_row (O:=O) (d :: X) N (draw k) V) l) = Ok rows).
    { induction l as [|i l IH]; [cbn; eauto|]. destruct IH as (rows & IH).
      destruct (seeded_row_ok (d :: X) N (draw i) V HX HV) as (row & Hr & _).
      cbn [map seqM]. rewrite Hr, IH. cbn. eauto. }
    destruct (G (seq 0 k)) as (rows & ->). cbn. eauto.
  Qed.

  Lemma topics_seeded_shape X k N draw p q : topics_seeded X k N draw p = Ok q ->
    length (p_alpha q) = k /\ mrows (p_beta q) = k /\ p_eta q = p_eta p.
  Proof.
    unfold topics_seeded. destruct X as [|d X]; [discriminate|].
    destruct (seqM _) as [rows| |]; cbn; try discriminate. intros [= <-]. cbn.
    now rewrite vtab_length.
  Qed.

  (** The state after a history, in terms of the history. *)
  Definition inv (hw : nat) h (cp : config * params T) : Prop :=
    let (c, p) := cp in
    mrows (p_beta p) = topics_left h /\ mrows (p_eta p) = eta_left h /\
    c = mk_config (iterations_left h) (workers_left hw h) (e_left h) (m_left h) (e_supervised h) (m_supervised h) /\
    (Forall call_proper h -> length (p_alpha p) = topics_left h).

  Lemma inv_call hw h cp x cp' : inv hw h cp -> call_caught cp x = Ok cp' -> inv hw (x :: h) cp'.
  Proof.
    destruct cp as [c p]. intros (Hb & He & -> & Ha) H.
    assert (Ha' : Forall call_proper (x :: h) -> length (p_alpha p) = topics_left h).
    { intros F. inversion F; subst. auto. }
    unfold call_caught in H. destruct x as [n|n|e|e|m|m|X k N d|w k d|m|n|n|m]; cbn in H.
    - injection H as <-. repeat split; auto.
    - injection H as <-. repeat split; auto.
    - injection H as <-. destruct e; repeat split; auto.
    - injection H as <-. repeat split; auto.
    - injection H as <-. destruct m; repeat split; auto.
    - injection H as <-. repeat split; auto.
    - destruct (topics_seeded X k N d p) as [q|e|] eqn:E; cbn in H; [|exfalso|discriminate].
      + injection H as <-. apply topics_seeded_shape in E as (E1 & E2 & E3).
        repeat split; cbn; auto. now rewrite E3.
      + revert E. unfold topics_seeded. destruct X as [|d0 X]; [discriminate|].
        destruct (seqM _) as [rows|e'|] eqn:S; cbn; try discriminate. intros _. clear - S. revert e' S.
        induction (seq 0 k) as [|i l IH]; intros e' S; [discriminate|]. cbn [map seqM] in S.
        destruct (seeded_row _ _ _ _) as [row|e2|] eqn:R; cbn in S; [|exfalso|discriminate].
        * destruct (seqM _) as [rows|e3|] eqn:S3; cbn in S; try discriminate. eapply IH. reflexivity.
        * clear - R. unfold seeded_row in R. set (f := fun acc r => _) in R.
          assert (G : forall l (o : outcome (list T)), (forall e, o <> Throw e) -> forall e, fold_left f l o <> Throw e).
          { induction l as [|r l IH]; intros o Ho e; [apply Ho|]. apply IH. intros e'. unfold f.
            destruct o as [row|e4|]; cbn; [|exfalso; exact (Ho e4 eq_refl)|discriminate].
            destruct (_ =? _); discriminate. }
          exact (G _ (Ok _) ltac:(discriminate) _ R).
    - injection H as <-. repeat split; cbn; auto. intros _. apply vtab_length.
    - injection H as <-. repeat split; cbn; auto. intros F. now inversion F; subst.
    - unfold eta_zeros in H. rewrite Hb in H. destruct (topics_left h) as [|k] eqn:Ek; cbn in H; injection H as <-.
      + repeat split; cbn; rewrite ?Ek; auto.
      + repeat split; cbn; rewrite ?Ek; auto.
    - unfold eta_uniform in H. rewrite Hb in H. destruct (topics_left h) as [|k] eqn:Ek; cbn in H; injection H as <-.
      + repeat split; cbn; rewrite ?Ek; auto.
      + repeat split; cbn; rewrite ?Ek; auto.
    - injection H as <-. repeat split; auto.
  Qed.

  Lemma fold_bind_ub {A B} (f : A -> B -> outcome A) l o : (forall a, o <> Ok a) ->
    fold_left (fun o x => let* a := o in f a x) l o = o.
  Proof.
    revert o; induction l as [|x l IH]; intros o H; [reflexivity|]. cbn.
    destruct o as [a| |]; [now destruct (H a)|now apply IH|now apply IH].
  Qed.
  Lemma run_snoc hw h x : run hw (h ++ [x]) = (let* cp := run hw h in call_caught cp x).
  Proof. unfold run. now rewrite fold_left_app. Qed.

  Lemma run_inv hw h cp : run hw h = Ok cp -> inv hw (rev h) cp.
  Proof.
    revert cp. induction h as [|x h IH] using rev_ind; intros cp H.
    - cbn in H. injection H as <-. repeat split.
    - rewrite run_snoc in H. destruct (run hw h) as [cp0| |]; cbn in H; try discriminate.
      rewrite rev_unit. eapply inv_call; eauto.
  Qed.

  Lemma run_defined hw h : Forall call_defined h -> exists cp, run hw h = Ok cp.
  Proof.
    induction h as [|x h IH] using rev_ind; intros F; [cbn; eauto|].
    apply Forall_app in F as [F1 F2]. inversion F2 as [|? ? Hx _]; subst. destruct (IH F1) as ([c p] & E).
    rewrite run_snoc, E. cbn. unfold call_caught.
    destruct x as [n|n|e|e|m|m|X k N d|w k d|m|n|n|m]; cbn in *; eauto.
    - destruct (topics_seeded_ok X k N d p Hx) as (q & ->). cbn. eauto.
    - unfold eta_zeros. destruct (_ =? _); cbn; eauto.
    - unfold eta_uniform. destruct (_ =? _); cbn; eauto.
  Qed.

  Lemma build_iff hw h : Forall call_defined h ->
    (build hw h = Throw ERuntime <->
     topics_left (rev h) = 0 \/
     eta_left (rev h) = 0 /\ (e_supervised (rev h) = true \/ m_supervised (rev h) = true)) /\
    (build hw h = Throw ERuntime \/ exists cp, build hw h = Ok cp).
  Proof.
    intros F. destruct (run_defined hw h F) as ([c p] & E). pose proof (run_inv _ _ _ E) as (Hb & He & Hc & _).
    unfold build. rewrite E. cbn [bind]. unfold check_build. rewrite Hb, He, Hc. cbn [c_e_requires_eta c_m_requires_eta].
    destruct (topics_left (rev h)) as [|k]; cbn; [split; [intuition|auto]|].
    destruct (eta_left (rev h)) as [|j]; cbn; [|split; [intuition; discriminate|eauto]].
    destruct (e_supervised (rev h)), (m_supervised (rev h)); cbn; (split; [intuition; discriminate|eauto]).
  Qed.

  Lemma build_config hw h c p : build hw h = Ok (c, p) ->
    c_iterations c = iterations_left (rev h) /\ c_workers c = workers_left hw (rev h) /\
    c_e c = e_left (rev h) /\ c_m c = m_left (rev h) /\
    mrows (p_beta p) = topics_left (rev h) /\ mrows (p_eta p) = eta_left (rev h).
  Proof.
    unfold build. destruct (run hw h) as [[c0 p0]| |] eqn:E; cbn; try discriminate.
    destruct (check_build c0 p0); cbn; try discriminate. intros [= <- <-].
    apply run_inv in E as (Hb & He & -> & _). cbn. repeat split; assumption.
  Qed.

  Lemma eta_call_throws hw h cp n : run hw h = Ok cp ->
    (call cp (EtaZeros n) = Throw ERuntime <-> topics_left (rev h) = 0) /\
    (call cp (EtaUniform n) = Throw ERuntime <-> topics_left (rev h) = 0).
  Proof.
    intros E. destruct cp as [c p]. apply run_inv in E as (Hb & _). cbn. unfold eta_zeros, eta_uniform. rewrite Hb.
    destruct (topics_left (rev h)) as [|k]; cbn; split; split; auto; discriminate.
  Qed.

  Lemma build_alpha hw h c p : Forall call_proper h -> build hw h = Ok (c, p) ->
    length (p_alpha p) = mrows (p_beta p).
  Proof.
    intros F. unfold build. destruct (run hw h) as [[c0 p0]| |] eqn:E; cbn; try discriminate.
    destruct (check_build c0 p0); cbn; try discriminate. intros [= <- <-].
    apply run_inv in E as (Hb & _ & _ & Ha). rewrite Hb. apply Ha. now apply Forall_rev.
  Qed.

  Lemma topics_left_skip a b : (forall x, In x a -> sets_topics x = false) -> topics_left (a ++ b) = topics_left (T:=T) b.
  Proof.
    induction a as [|x a IH]; intros H; [reflexivity|].
    assert (Hx := H x (or_introl eq_refl)). rewrite <- IH by (intros; apply H; now right).
    destruct x; cbn in *; try discriminate; reflexivity.
  Qed.
  Lemma eta_left_skip a b : (forall x, In x a -> sets_eta x = false) -> eta_left (a ++ b) = eta_left (T:=T) b.
  Proof.
    induction a as [|x a IH]; intros H; [reflexivity|].
    assert (Hx := H x (or_introl eq_refl)). rewrite <- IH by (intros; apply H; now right).
    destruct x; cbn in *; try discriminate; reflexivity.
  Qed.

  Lemma build_eta hw pre x post c p :
    sizes_eta x = true -> (forall y, In y post -> sets_topics y = false /\ sets_eta y = false) ->
    build hw (pre ++ x :: post) = Ok (c, p) -> mrows (p_eta p) = mrows (p_beta p).
  Proof.
    intros Hx Hp H. assert (H0 := H). apply build_config in H as (_ & _ & _ & _ & Hb & He).
    rewrite rev_app_distr in *. cbn [rev] in *. rewrite <- app_assoc in *. cbn [app] in *.
    rewrite eta_left_skip in He by (intros y Hy; apply in_rev in Hy; now apply Hp).
    rewrite topics_left_skip in Hb by (intros y Hy; apply in_rev in Hy; now apply Hp).
    assert (Hn : topics_left (rev pre) <> 0).
    { unfold build in H0. destruct (run hw (pre ++ x :: post)) as [[c0 p0]| |] eqn:E; cbn in H0; try discriminate.
      unfold check_build in H0. destruct (mrows (p_beta p0) =? 0) eqn:Z; cbn in H0; try discriminate.
      destruct (_ && _); cbn in H0; try discriminate. injection H0 as <- <-. apply Nat.eqb_neq in Z.
      rewrite Hb in Z. destruct x; try discriminate; exact Z. }
    rewrite Hb, He. destruct x; try discriminate; cbn; destruct (topics_left (rev pre)); congruence.
  Qed.

  (** ** Aliasing *)
  Lemma set_nth_length {A} (l : list A) i x : length (set_nth l i x) = length l.
  Proof.
    unfold set_nth. rewrite app_length, firstn_length.
    assert (length (skipn i l) = length l - i) by apply skipn_length.
    destruct (skipn i l); cbn in *; lia.
  Qed.
  Lemma set_nth_same {A} (l : list A) i x : i < length l -> nth_error (set_nth l i x) i = Some x.
  Proof.
    revert i; induction l as [|y l IH]; intros i H; cbn in H; [lia|].
    destruct i as [|i]; [reflexivity|]. unfold set_nth. cbn. apply IH. lia.
  Qed.
  Lemma set_nth_other {A} (l : list A) i j x : i <> j -> nth_error (set_nth l i x) j = nth_error l j.
  Proof.
    revert i j; induction l as [|y l IH]; intros i j H.
    - unfold set_nth. now destruct i, j.
    - destruct i as [|i], j as [|j]; [congruence|reflexivity|reflexivity|].
      unfold set_nth. cbn. apply IH. congruence.
  Qed.

  Definition winv (w : @world T) : Prop :=
    length (w_heap w) = length (w_builders w) /\
    (forall b a c, nth_error (w_builders w) b = Some (a, c) -> a = b) /\
    (forall l o, nth_error (w_ldas w) l = Some o -> l_params o = l_builder o /\ l_builder o < length (w_heap w)).

  Lemma act_winv w a w' : winv w -> act w a = Ok w' -> winv w'.
  Proof.
    intros (H1 & H2 & H3) H. destruct a as [hw|b x|b|l f]; cbn in H.
    - injection H as <-. split; [|split]; cbn.
      + rewrite !app_length. cbn. lia.
      + intros b a c E. destruct (lt_dec b (length (w_builders w))).
        * rewrite nth_error_app1 in E by assumption. eauto.
        * rewrite nth_error_app2 in E by lia. destruct (b - length (w_builders w)) as [|[|]] eqn:D; cbn in E; try discriminate.
          injection E as <- <-. lia.
      + intros l o E. apply H3 in E as [E1 E2]. split; [assumption|]. rewrite app_length. lia.
    - destruct (nth_error (w_builders w) b) as [[a c]|] eqn:E; [|discriminate].
      destruct (nth_error (w_heap w) a) as [p|] eqn:P; [|discriminate].
      destruct (call_caught (c, p) x) as [[c' p']| |]; cbn in H; try discriminate. injection H as <-.
      split; [|split]; cbn.
      + now rewrite !set_nth_length.
      + intros b' a' c0 E'. destruct (Nat.eq_dec b b') as [->|N].
        * rewrite set_nth_same in E' by (apply nth_error_Some; congruence). injection E' as <- <-. eauto.
        * rewrite set_nth_other in E' by assumption. eauto.
      + intros l o E'. apply H3 in E'. now rewrite set_nth_length.
    - destruct (nth_error (w_builders w) b) as [[a c]|] eqn:E; [|discriminate].
      destruct (nth_error (w_heap w) a) as [p|] eqn:P; [|discriminate].
      destruct (check_build c p) as [u|e|]; [|injection H as <-; now repeat split; auto; eapply H3; eauto|discriminate].
      injection H as <-. split; [assumption|]. split; [assumption|]. cbn. intros l o E'.
      destruct (lt_dec l (length (w_ldas w))).
      + rewrite nth_error_app1 in E' by assumption. eauto.
      + rewrite nth_error_app2 in E' by lia. destruct (l - length (w_ldas w)) as [|[|]] eqn:D; cbn in E'; try discriminate.
        injection E' as <-. cbn. split; [eauto|]. rewrite H1. apply nth_error_Some. congruence.
    - destruct (nth_error (w_ldas w) l) as [o|] eqn:E; [|discriminate].
      destruct (nth_error (w_heap w) (l_params o)) as [p|] eqn:P; [|discriminate]. injection H as <-.
      split; [|split]; cbn; rewrite ?set_nth_length; auto.
  Qed.

  Lemma acts_winv (h : list (@action T)) w : acts h = Ok w -> winv w.
  Proof.
    revert w. induction h as [|a h IH] using rev_ind; intros w H.
    - cbn in H. injection H as <-. split; [reflexivity|]. split; intros; destruct b + destruct l; discriminate.
    - unfold acts in *. rewrite fold_left_app in H. cbn in H.
      destruct (fold_left _ h _) as [w0| |]; cbn in H; try discriminate. eapply act_winv; eauto.
  Qed.

  Lemma train_shared (h : list (@action T)) w l1 l2 o1 o2 f :
    acts h = Ok w -> nth_error (w_ldas w) l1 = Some o1 -> nth_error (w_ldas w) l2 = Some o2 ->
    l_builder o1 = l_builder o2 ->
    exists w' p, act w (Train l1 f) = Ok w' /\ lda_params w l1 = Some p /\ lda_params w l2 = Some p /\
      lda_params w' l1 = Some (f p) /\ lda_params w' l2 = Some (f p).
  Proof.
    intros Hw E1 E2 Hb. apply acts_winv in Hw as (_ & _ & H3).
    destruct (H3 _ _ E1) as [P1 B1]. destruct (H3 _ _ E2) as [P2 B2].
    destruct (nth_error (w_heap w) (l_builder o1)) as [p|] eqn:P; [|apply nth_error_None in P; lia].
    unfold lda_params. cbn. rewrite E1, E2, P1, P2, <- Hb, P.
    eexists. exists p. split; [reflexivity|]. cbn. rewrite E1, E2, P1, P2, <- Hb.
    rewrite set_nth_same by assumption. auto.
  Qed.

  Lemma train_separate (h : list (@action T)) w l1 l2 o1 o2 f :
    acts h = Ok w -> nth_error (w_ldas w) l1 = Some o1 -> nth_error (w_ldas w) l2 = Some o2 ->
    l_builder o1 <> l_builder o2 ->
    exists w', act w (Train l1 f) = Ok w' /\ lda_params w' l2 = lda_params w l2 /\
      lda_params w' l1 = option_map f (lda_params w l1).
  Proof.
    intros Hw E1 E2 Hb. apply acts_winv in Hw as (_ & _ & H3).
    destruct (H3 _ _ E1) as [P1 B1]. destruct (H3 _ _ E2) as [P2 B2].
    destruct (nth_error (w_heap w) (l_builder o1)) as [p|] eqn:P; [|apply nth_error_None in P; lia].
    unfold lda_params. cbn. rewrite E1, P1, P. eexists. split; [reflexivity|]. cbn. rewrite E1, E2, P1, P2.
    rewrite set_nth_same by assumption. rewrite set_nth_other by assumption. auto.
  Qed.

  Lemma call_separate (h : list (@action T)) w l o b x w' :
    acts h = Ok w -> nth_error (w_ldas w) l = Some o -> l_builder o <> b ->
    act w (Call b x) = Ok w' -> lda_params w' l = lda_params w l.
  Proof.
    intros Hw E Hb H. apply acts_winv in Hw as (_ & H2 & H3). cbn in H.
    destruct (nth_error (w_builders w) b) as [[a c]|] eqn:Eb; [|discriminate].
    destruct (nth_error (w_heap w) a) as [p|] eqn:P; [|discriminate].
    destruct (call_caught (c, p) x) as [[c' p']| |]; cbn in H; try discriminate. injection H as <-.
    unfold lda_params. cbn. rewrite E. apply H2 in Eb as ->. apply H3 in E as [-> _].
    now rewrite set_nth_other by congruence.
  Qed.
End Any.

(** ** Initial topics, over the reals *)
Section Exact.
  Variable lg : R -> R.
  Local Instance RO : ops R := Rops lg.
  Open Scope R_scope.

  Lemma seeded_row_R X N draw V : X <> [] -> (forall d, In d X -> length d = V) ->
    seeded_row X N draw V = Ok (vtab V (fun w =>
      1 + rsum N (fun r => IZR (nth w (nth (draw r mod length X) X []) 0%Z)))).
  Proof.
    intros HX HV. unfold seeded_row. induction N as [|N IH].
    - cbn [seq fold_left]. f_equal. apply vtab_ext. intros w _. rewrite rsum_0. cbn. lra.
    - rewrite seq_S, fold_left_app, IH. cbn [fold_left bind Nat.add]. cbv zeta.
      rewrite HV, Nat.eqb_refl.
      + f_equal. apply vtab_ext. intros w Hw. rewrite vget_tab by assumption. rewrite rsum_S.
        cbn [add ofZ RO Rops]. lra.
      + apply nth_In. apply Nat.mod_upper_bound. destruct X; [congruence|discriminate].
  Qed.

  Lemma topics_seeded_R X k N draw p V : (0 < V)%nat -> X <> [] -> (forall d, In d X -> length d = V) ->
    (forall d c, In d X -> In c d -> (0 <= c)%Z) ->
    exists q, topics_seeded X k N draw p = Ok q /\
      length (p_alpha q) = k /\ (forall i, (i < k)%nat -> vget (p_alpha q) i = 1 / INR k) /\
      mrows (p_beta q) = k /\ ncols (p_beta q) = V /\ p_eta q = p_eta p /\
      forall i, (i < k)%nat -> row_distribution (p_beta q) i V /\
        (forall w, (w < V)%nat -> 0 < mget (p_beta q) i w) /\
        exists t, 0 < t /\ forall w, (w < V)%nat ->
          t * mget (p_beta q) i w = 1 + rsum N (fun r => IZR (nth w (nth (draw i r mod length X) X []) 0%Z)).
  Proof.
    intros V0 HX HV HP. unfold topics_seeded. destruct X as [|d X]; [congruence|].
    assert (length d = V) as -> by (apply HV; now left).
    rewrite (seqM_ok _ (fun i => vtab V (fun w =>
      1 + rsum N (fun r => IZR (nth w (nth (draw i r mod length (d :: X)) (d :: X) []) 0%Z))))).
    2:{ intros i _. now apply seeded_row_R. }
    cbn [bind]. eexists. split; [reflexivity|]. cbn [p_alpha p_beta p_eta].
    rewrite vtab_length, ncols_tab. split; [reflexivity|]. split.
    { intros i Hi. rewrite vget_tab by assumption. unfold inverse. cbn [div one ofZ RO Rops].
      now rewrite <- INR_IZR_INZ. }
    split; [reflexivity|]. split; [reflexivity|]. split; [reflexivity|]. intros i Hi.
    set (c := fun w => 1 + rsum N (fun r => IZR (nth w (nth (draw i r mod length (d :: X)) (d :: X) []) 0%Z))).
    assert (Hc : forall w, 1 <= c w).
    { intros w. unfold c. match goal with |- _ <= 1 + ?s => assert (0 <= s) end; [|lra].
      apply rsum_nonneg. intros r _. apply IZR_le.
      set (doc := nth _ _ []). assert (In doc (d :: X)).
      { apply nth_In. apply Nat.mod_upper_bound. discriminate. }
      destruct (lt_dec w (length doc)) as [L|L].
      - eapply HP; [eassumption|now apply nth_In].
      - rewrite nth_overflow by lia. lia. }
    assert (Hg : forall w, (w < V)%nat ->
      mget (mtab k V (fun k0 w0 => let row := nth k0 (vtab k (fun i0 => vtab V (fun w1 =>
        1 + rsum N (fun r => IZR (nth w1 (nth (draw i0 r mod length (d :: X)) (d :: X) []) 0%Z))))) [] in
        div (vget row w0) (redux row))) i w = c w / rsum V c).
    { intros w Hw. rewrite mget_tab by assumption. cbv zeta. rewrite vtab_nth by assumption.
      rewrite vget_tab by assumption. reflexivity. }
    assert (S : 0 < rsum V c) by (apply rsum_pos_all; [assumption|intros w _; specialize (Hc w); lra]).
    change (map (fun i0 : nat => vtab V (fun w1 => 1 + rsum N (fun r => IZR (nth w1 (nth (draw i0 r mod length (d :: X)) (d :: X) []) 0%Z)))) (seq 0 k))
      with (vtab k (fun i0 => vtab V (fun w1 => 1 + rsum N (fun r => IZR (nth w1 (nth (draw i0 r mod length (d :: X)) (d :: X) []) 0%Z))))).
    assert (P : forall w, (w < V)%nat -> 0 < c w / rsum V c).
    { intros w _. apply Rdiv_lt_0_compat; [specialize (Hc w); lra|assumption]. }
    split; [split|split].
    - intros w Hw. rewrite Hg by assumption. left. now apply P.
    - rewrite (rsum_ext V _ (fun w => c w / rsum V c)) by (intros; now apply Hg).
      rewrite rsum_div. unfold Rdiv. apply Rinv_r. lra.
    - intros w Hw. rewrite Hg by assumption. now apply P.
    - exists (rsum V c). split; [assumption|]. intros w Hw. rewrite Hg by assumption. fold (c w). field. lra.
  Qed.

  Lemma topics_random_R V k draw p :
    (forall i w, (i < k)%nat -> (w < V)%nat -> 0 <= draw i w < 1) ->
    (forall i, (i < k)%nat -> exists w, (w < V)%nat /\ draw i w <> 0) ->
    let q := topics_random V k draw p in
      length (p_alpha q) = k /\ (forall i, (i < k)%nat -> vget (p_alpha q) i = 1 / INR k) /\
      mrows (p_beta q) = k /\ ncols (p_beta q) = V /\ p_eta q = p_eta p /\
      forall i, (i < k)%nat -> row_distribution (p_beta q) i V /\
        exists t, 0 < t /\ forall w, (w < V)%nat -> t * mget (p_beta q) i w = draw i w.
  Proof.
    intros HD HN q. unfold q, topics_random. cbn [p_alpha p_beta p_eta].
    rewrite vtab_length. split; [reflexivity|]. split.
    { intros i Hi. rewrite vget_tab by assumption. unfold inverse. cbn [div one ofZ RO Rops].
      now rewrite <- INR_IZR_INZ. }
    split; [reflexivity|]. split. { unfold normalize_rows. now rewrite !ncols_tab. }
    split; [reflexivity|]. intros i Hi.
    assert (S : 0 < rsum V (draw i)).
    { destruct (HN i Hi) as (w & Hw & N). apply (rsum_pos V _ w); [intros j Hj; now apply HD|assumption|].
      destruct (HD i w Hi Hw). lra. }
    assert (Hg : forall w, (w < V)%nat ->
      mget (normalize_rows (mtab k V (fun k w => draw k w))) i w = draw i w / rsum V (draw i)).
    { intros w Hw. unfold normalize_rows. rewrite ncols_tab, mrows_tab, !mget_tab by assumption.
      rewrite mrow_tab by assumption. change (redux (vtab V (fun j => draw i j))) with (rsum V (draw i)).
      cbv zeta. cbn [eqb RO Rops zero]. destruct (Req_EM_T _ _); [lra|]. reflexivity. }
    split; [split|].
    - intros w Hw. rewrite Hg by assumption. destruct (HD i w Hi Hw). apply Rmult_le_pos; [assumption|].
      left. now apply Rinv_0_lt_compat.
    - rewrite (rsum_ext V _ (fun w => draw i w / rsum V (draw i))) by (intros; now apply Hg).
      rewrite rsum_div. unfold Rdiv. apply Rinv_r. lra.
    - exists (rsum V (draw i)). split; [assumption|]. intros w Hw. rewrite Hg by assumption. field. lra.
  Qed.
End Exact.

Lemma topics_seeded_call (lg : R -> R) (O := Rops lg) X k N draw (c : config) (p : params R) V :
  (0 < V)%nat -> X <> [] -> (forall d, In d X -> length d = V) ->
  (forall d n, In d X -> In n d -> (0 <= n)%Z) ->
  exists q, call (c, p) (TopicsSeeded X k N draw) = Ok (c, q) /\
    length (p_alpha q) = k /\ (forall i, (i < k)%nat -> vget (p_alpha q) i = (1 / INR k)%R) /\
    mrows (p_beta q) = k /\ ncols (p_beta q) = V /\ p_eta q = p_eta p /\
    forall i, (i < k)%nat -> row_distribution (p_beta q) i V /\
      (forall w, (w < V)%nat -> (0 < mget (p_beta q) i w)%R) /\
      exists t, (0 < t)%R /\ forall w, (w < V)%nat ->
        (t * mget (p_beta q) i w = 1 + rsum N (fun r => IZR (nth w (nth (draw i r mod length X) X []) 0%Z)))%R.
Proof.
  intros H1 H2 H3 H4. destruct (topics_seeded_R lg X k N draw p V H1 H2 H3 H4) as (q & E & Hq).
  exists q. split; [|exact Hq]. unfold call. unfold RO in E. fold O in E. rewrite E. reflexivity.
Qed.

Lemma build_consistent {T : Type} {O : ops T} hw (h : list (bcall T)) c p :
  Forall call_proper h -> build hw h = Ok (c, p) ->
  length (p_alpha p) = mrows (p_beta p) /\
  forall pre x post, h = pre ++ x :: post -> sizes_eta x = true ->
    (forall y, In y post -> sets_topics y = false /\ sets_eta y = false) ->
    mrows (p_eta p) = mrows (p_beta p).
Proof.
  intros F E. split; [eapply build_alpha; eauto|]. intros pre x post -> S P. eapply build_eta; eauto.
Qed.

Local Open Scope nat_scope.
(** The supervised parameters start at zero, or as uniform distributions over the classes. *)
Lemma eta_calls (lg : R -> R) (O := Rops lg) (n : nat) (c : config) (p : params R) : 0 < mrows (p_beta p) ->
  (exists q, call (c, p) (EtaZeros n) = Ok (c, q) /\ p_alpha q = p_alpha p /\ p_beta q = p_beta p /\
     mrows (p_eta q) = mrows (p_beta p) /\ ncols (p_eta q) = n /\
     forall i y, i < mrows (p_beta p) -> y < n -> mget (p_eta q) i y = 0%R) /\
  (exists q, call (c, p) (EtaUniform n) = Ok (c, q) /\ p_alpha q = p_alpha p /\ p_beta q = p_beta p /\
     mrows (p_eta q) = mrows (p_beta p) /\ ncols (p_eta q) = n /\
     forall i, i < mrows (p_beta p) -> (forall y, y < n -> mget (p_eta q) i y = (1 / INR n)%R) /\ (0 < n -> row_distribution (p_eta q) i n)).
Proof.
  intros K. apply Nat.neq_0_lt_0, Nat.eqb_neq in K. cbn [call]. unfold eta_zeros, eta_uniform. rewrite K. cbn [bind]. split.
  - eexists. split; [reflexivity|]. cbn [p_alpha p_beta p_eta]. rewrite mrows_tab, ncols_tab. repeat (split; [reflexivity|]). intros i y Hi Hy. now rewrite mget_tab.
  - eexists. split; [reflexivity|]. cbn [p_alpha p_beta p_eta]. rewrite mrows_tab, ncols_tab. repeat (split; [reflexivity|]). intros i Hi.
    assert (E : forall y, y < n -> mget (mtab (mrows (p_beta p)) n (fun _ _ => inverse n)) i y = (1 / INR n)%R).
    { intros y Hy. rewrite mget_tab by assumption. unfold inverse. cbn [div one ofZ O Rops]. now rewrite INR_IZR_INZ. }
    split; [exact E|]. intros N. assert (P : (0 < INR n)%R) by now apply lt_0_INR. split.
    + intros y Hy. rewrite E by exact Hy. left. now apply Rdiv_lt_0_compat; [apply Rlt_0_1|].
    + rewrite (rsum_ext n _ (fun _ => (1 / INR n)%R)) by exact E. rewrite rsum_const. field. now apply Rgt_not_eq.
Qed.
