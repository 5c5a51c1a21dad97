(** Training and inference under renumbering, in exact arithmetic. *)
Require Import Reals ZArith List Arith Bool Lia Lra Permutation.
Require Import Verif.Base Verif.Scalar Verif.Mat Verif.UtilsModel Verif.UtilsProofs
  Verif.BuilderModel Verif.EStepModel Verif.OptModel Verif.OptSpec Verif.OptProofs Verif.MStepModel Verif.MStepSpec Verif.MStepAny Verif.MStepBatch
  Verif.PoolModel Verif.LdaModel Verif.InferSpec Verif.InferProofs Verif.TrainSizes Verif.TrainPerm Verif.TrainProofs Verif.RenameSpec Verif.RenameBase Verif.RenameEStep Verif.RenameOpt Verif.RenameMStep.
Import ListNotations.
Local Open Scope nat_scope.

Section Real.
  Variable lg : R -> R.
  Local Hint Extern 0 (ops _) => exact (Rops lg) : typeclass_instances.
  Variables K V C : nat.
  Variable a : naming.
  Hypothesis Pa : valid_naming K V C a.
  Notation sk := (topic_at a). Notation sv := (word_at a). Notation sc := (class_at a).
  Let Pk : permutes K sk := proj1 Pa.
  Let Pv : permutes V sv := proj1 (proj2 Pa).
  Let Pc : permutes C sc := proj2 (proj2 Pa).
  Variable k : e_step R.
  Hypothesis Hw : ordered_words k -> forall n, n < V -> sv n = n.

  (** ** Training *)
  Section Fit.
    Variables (St : Type) (M : maximizer R St) (new : St) (f : item R -> nat -> nat -> R) (P : params R -> Prop) (Q : item R -> Prop).
    Hypothesis B : batch_step K V C St M new f P Q.
    Hypothesis HK : 0 < K.
    Variables D D' : list (doc R).
    Hypothesis HD : D <> [].
    Hypothesis HDD : Forall2 (doc_renamed V C a) D D'.
    Hypothesis HQ : forall epochs m d v, In d D -> shape K V m -> posterior 7 k epochs d m = Ok v -> Q (d, v).
    Hypothesis HW : weighs_classes St M -> largest_class D' = largest_class D.

    Lemma largest_perm y y' : Permutation y y' -> largest y = largest y'.
    Proof. unfold largest. induction 1; cbn; lia. Qed.
    Lemma largest_items (l : list (item R)) (E : list (doc R)) : Permutation (map fst l) E -> largest (map class_of l) = largest_class E.
    Proof.
      intros H. unfold largest_class. apply largest_perm. rewrite <- (Permutation_map _ H), map_map. apply Permutation_refl.
    Qed.
    Lemma found_renamed m m' ep l : model_renamed K V C a m m' -> Forall (found 7 k (m, ep)) l -> forall E', Forall2 (doc_renamed V C a) (map fst l) E' ->
      exists l', map fst l' = E' /\ Forall2 (item_renamed lg K V C a) l l' /\ Forall (found 7 k (m', ep)) l'.
    Proof.
      intros Hm. induction l as [|[d v] l IH]; intros F E' H; inversion H; subst; [exists []; repeat constructor|]. inversion F as [|? ? F1 F2]; subst.
      match goal with H : Forall2 _ (map fst l) _ |- _ => destruct (IH F2 _ H) as (r & L1 & L2 & L3) end. unfold found in F1. cbn [fst snd] in *.
      destruct (posterior_sim lg 7 K V C a Pa k Hw ep d y m m' H2 Hm v F1) as (v' & E & Hv).
      exists ((y, v') :: r). cbn [map fst]. rewrite L1. split; [reflexivity|]. split; constructor; try assumption. now split.
    Qed.
    Lemma fit_failed W n st p s' p' : fit_call 7 M k W D n st p (Ok s') p' -> exists s, st = Ok s.
    Proof.
      revert st p. induction n as [|n IH]; intros st p H; inversion H; subst; [eauto|]. destruct (IH _ _ H2) as (s1 & ->).
      destruct (partial_fit_ok 7 M k (batch_keeps lg K V C _ _ _ _ _ _ B) _ _ _ _ _ _ H1) as (s0 & _ & _ & X & _). eauto.
    Qed.
    Lemma fit_renamed m0 m0' : P m0 -> P m0' -> forall W W' n m m' ep s s2 s' p' st2' p2', model_renamed K V C a m m' ->
      trained_by K V St M new Q m0 m s -> trained_by K V St M new Q m0' m' s2 ->
      fit_call 7 M k W D n (Ok s) (m, ep) (Ok s') p' -> fit_call 7 M k W' D' n (Ok s2) (m', ep) st2' p2' ->
      model_renamed K V C a (fst p') (fst p2') /\ snd p' = ep + n /\ snd p2' = ep + n /\ exists t, st2' = Ok t.
    Proof.
      intros HP HP' W W'. induction n as [|n IH]; intros m m' ep s s2 s' p' st2' p2' Hm T1 T2 F1 F2.
      { inversion F1; inversion F2; subst. cbn [fst snd]. rewrite Nat.add_0_r. split; [exact Hm|]. repeat split. now exists s2. }
      inversion F1; inversion F2; subst.
      match goal with H : partial_fit_call _ _ _ W _ _ _ ?st1 ?p1, H' : partial_fit_call _ _ _ W' _ _ _ ?st3 ?p3 |- _ =>
        rename H into E1; rename H' into E2; rename st1 into r1; rename p1 into q1; rename st3 into r2; rename p3 into q2 end.
      match goal with H : fit_call _ _ _ W _ _ r1 q1 _ _, H' : fit_call _ _ _ W' _ _ r2 q2 _ _ |- _ => rename H into G1; rename H' into G2 end.
      destruct (fit_failed _ _ _ _ _ _ G1) as (s1 & ->). destruct q1 as [m1 ep1].
      destruct (partial_fit_ok 7 M k (batch_keeps lg K V C _ _ _ _ _ _ B) _ _ _ _ _ _ E1) as (s0 & l & e & X & Pl & Fl & R1 & X2). injection X as <-. cbn [fst snd] in *. subst ep1.
      assert (Sh : shape K V m). { destruct Hm as (_ & (S1 & _ & S2 & _) & _). now split. }
      pose proof (found_good lg K V Q k D HQ (m, ep) l Sh Pl Fl) as Gl.
      assert (Hl : l <> []) by (intros ->; cbn in Pl; apply Permutation_nil in Pl; congruence).
      destruct (Permutation_Forall2 (Permutation_sym Pl) HDD) as (E' & PE & FE).
      destruct (found_renamed m m' ep l Hm Fl E' FE) as (l' & L1 & L2 & L3).
      assert (Pl' : Permutation (map fst l') D') by (rewrite L1; now apply Permutation_sym).
      destruct T1 as (h1 & e1 & T11 & T12 & T13), T2 as (h2 & e2 & T21 & T22 & T23).
      destruct (batch_between K V C HK St M new f P Q B h1 m0 m s e1 HP T11 T12 T13) as [Pm A1].
      destruct (batch_between K V C HK St M new f P Q B h2 m0' m' s2 e2 HP' T21 T22 T23) as [Pm' A2].
      destruct (partial_fit_run 7 M k (batch_keeps lg K V C _ _ _ _ _ _ B) _ _ _ _ _ _ l' E2 Pl' L3) as (l2 & Pl2 & Run). cbn [fst snd] in Run.
      assert (Gl' : Forall (fun x => sized K V x /\ Q x) l').
      { clear - L2 Gl B Pa. induction L2 as [|x x' l l' H _ IH]; [constructor|]. inversion Gl as [|? ? [_ X]]; subst. constructor; [|now apply IH].
        split; [now apply (sized_renamed lg K V C a x)|now apply (good_renamed lg K V C a Pa St M new f P Q B x)]. }
      pose proof (Forall_perm _ _ _ (Permutation_sym Pl2) Gl') as Gl2.
      assert (Hl' : l' <> []) by (intros ->; apply Hl; now inversion L2).
      assert (Hl2 : l2 <> []) by (intros ->; apply Permutation_nil in Pl2; congruence).
      assert (HL : weighs_classes St M -> largest (map class_of l') = largest (map class_of l)).
      { intros Y. rewrite (largest_items l D Pl), (largest_items l' D' Pl'). now apply HW. }
      assert (V1 : visible (mrun M (epoch l) m new) = Ok (m1, e)). { destruct (A1 l Gl Hl) as [Y1 _]. rewrite <- Y1, R1. reflexivity. }
      destruct (epoch_sim lg K V C a Pa St M new f P Q B HK l l' m m' Hm Pm L2 Gl Hl HL (m1, e) V1) as ([m1' e'] & V2 & Hm1 & He). cbn [fst snd] in *. subst e'.
      assert (Vis : visible (mrun M (epoch l2) m' s2) = Ok (m1', e)).
      { destruct (A2 l2 Gl2 Hl2) as [Y _]. rewrite Y. rewrite <- (epoch_perm lg K V C HK St M new f P Q B l' l2 m' Pm' Gl' Hl' (Permutation_sym Pl2)). exact V2. }
      destruct (mrun M (epoch l2) m' s2) as [[[m3 s3] e3]| |] eqn:R2; cbn [visible] in Vis; [|discriminate..]. injection Vis as -> ->.
      destruct (Run m1' s3 e eq_refl) as [-> ->].
      rewrite <- !Nat.add_succ_comm. refine (IH m1 m1' (S ep) s1 s3 s' p' st2' p2' Hm1 _ _ G1 G2).
      - exists (h1 ++ epoch l), (e1 ++ e). split; [apply between_app|]. split.
        + rewrite items_app, items_epoch. apply Forall_app. now split.
        + rewrite mrun_app, T13. cbn [bind]. rewrite R1. reflexivity.
      - exists (h2 ++ epoch l2), (e2 ++ e). split; [apply between_app|]. split.
        + rewrite items_app, items_epoch. apply Forall_app. now split.
        + rewrite mrun_app, T23. cbn [bind]. rewrite R2. reflexivity.
    Qed.
  End Fit.

  (** Classes that keep their numbers *)
  Lemma same_largest (D D' : list (doc R)) : (forall c, c < C -> sc c = c) -> Forall2 (doc_renamed V C a) D D' -> largest_class D' = largest_class D.
  Proof.
    intros H F. unfold largest_class. f_equal. induction F as [|d d' D D' (_ & Hd & _) _ IH]; [reflexivity|]. cbn [map]. f_equal; [|exact IH].
    destruct (d_class d) as [y|], (d_class d') as [y'|]; try contradiction; [|reflexivity]. destruct Hd as [(H1 & ->)|(_ & ->)]; [|reflexivity]. rewrite H by lia. lia.
  Qed.

  (** ** Inference *)
  Notation same := (fun n : nat => n).
  Lemma seqM_sim {A A'} (rel : A -> A' -> Prop) l l' : Forall2 (sim rel) l l' -> sim (Forall2 rel) (seqM l) (seqM l').
  Proof.
    induction 1 as [|x x' l l' H _ IH]; cbn [seqM]; [apply sim_ok; constructor|].
    apply (sim_bind rel); [exact H|]. intros u u' Hu. apply (sim_bind (Forall2 rel)); [exact IH|]. intros r r' Hr. apply sim_ok. now constructor.
  Qed.
  Lemma gammas_sim epochs m m' X X' : model_renamed K V C a m m' -> Forall2 (list_renamed 0%Z V sv) X X' ->
    sim (mat_renamed K (length X) sk same) (gammas 7 k epochs m X) (gammas 7 k epochs m' X').
  Proof.
    intros Hm HX. unfold gammas, gather. destruct Hm as (Ha & Hb & He). destruct (rows_of _ _ _ _ _ _ _ Hb) as (B1 & B2 & _). rewrite B1, B2.
    assert (S : sim (Forall2 (list_renamed 0%R K sk)) (seqM (map (fun x => let* v := posterior 7 k epochs (unlabelled x) m in Ok (v_gamma v)) X))
                  (seqM (map (fun x => let* v := posterior 7 k epochs (unlabelled x) m' in Ok (v_gamma v)) X'))).
    { apply seqM_sim. induction HX as [|x x' X X' H _ IH]; cbn [map]; constructor; [|exact IH].
      apply (sim_bind (posterior_renamed K V a)).
      - apply (posterior_sim lg 7 K V C a Pa k Hw); [|exact (conj Ha (conj Hb He))]. split; [exact H|]. split; [exact I|]. split; [reflexivity|]. intros c _. now rewrite !(proj2 (nth_error_None _ _)) by (cbn; lia).
      - intros v v' (Hv & _). now apply sim_ok. }
    destruct (seqM (map (fun x => let* v := posterior 7 k epochs (unlabelled x) m in Ok (v_gamma v)) X)) as [cols| |] eqn:E; [|apply sim_throw|apply sim_fail].
    destruct (S cols eq_refl) as (cols' & -> & Hc). cbn [bind]. pose proof (seqM_length _ _ E) as L. rewrite map_length in L.
    assert (F : forallb (fun c => length c =? K) cols = true /\ forallb (fun c => length c =? K) cols' = true /\ length cols' = length cols).
    { clear - Hc. induction Hc as [|x x' l l' (H1 & H2 & _) _ (I1 & I2 & I3)]; [repeat split|]. cbn. rewrite H1, H2, Nat.eqb_refl, I1, I2, I3. repeat split. }
    destruct F as (-> & -> & L'). apply sim_ok. unfold ncols. cbn [mrows mcols]. split; [reflexivity|]. split; [reflexivity|]. split; [exact L|]. split; [exact (eq_trans L' L)|].
    intros i j Hi Hj. unfold mget. cbn [mcols]. rewrite <- L in Hj. clear - Hc Hi Hj. revert j Hj. induction Hc as [|x x' l l' (H1 & H2 & H3) _ IH]; intros j Hj; [cbn in Hj; lia|].
    destruct j as [|j]; cbn [nth]; [now apply H3|]. apply IH. cbn in Hj. lia.
  Qed.
  Lemma decision_sim m m' g g' n : model_renamed K V C a m m' -> mat_renamed K n sk same g g' ->
    sim (mat_renamed C n sc same) (decision_function m g) (decision_function m' g').
  Proof.
    intros (Ha & Hb & He) Hg. unfold decision_function. destruct (rows_of _ _ _ _ _ _ _ Hg) as (G1 & G2 & G3 & G4). pose proof Ha as (A1 & A2 & _). rewrite G1, G2, G3, G4, A1, A2, Nat.eqb_refl.
    cbn [andb]. destruct (Nat.eqb_spec (mrows (p_eta m)) K) as [Hr|]; [|apply sim_fail]. cbn [negb].
    assert (Hr' : mrows (p_eta m') = K) by (destruct He as [He|(_ & -> & _)]; [apply (rows_of _ _ _ _ _ _ _ He)|exact Hr]). rewrite Hr', Nat.eqb_refl. cbn [negb]. apply sim_ok.
    assert (Hc : ncols (p_eta m) = C /\ ncols (p_eta m') = C).
    { destruct He as [He|(H0 & H1 & H2)]; [split; apply (rows_of _ _ _ _ _ _ _ He)|]. rewrite H1. split; congruence. }
    destruct Hc as [-> ->]. pose proof (permutes_id n) as Pi.
    assert (Hz : mat_renamed K n sk same (mtab K n (fun i d => sub (mget g i d) (vget (p_alpha m) i))) (mtab K n (fun i d => sub (mget g' i d) (vget (p_alpha m') i)))).
    { apply (mren_tab lg K n sk same Pk Pi). intros i d Hi Hd. now rewrite (mren_get lg K n sk same g g' i d Hg Hi Hd), (vren_get lg K sk _ _ i Ha Hi). }
    set (z := mtab K n (fun i d => sub (mget g i d) (vget (p_alpha m) i))) in *. set (z' := mtab K n (fun i d => sub (mget g' i d) (vget (p_alpha m') i))) in *.
    assert (Hq : mat_renamed K n sk same (mtab K n (fun i d => div (mget z i d) (redux (mcol z d)))) (mtab K n (fun i d => div (mget z' i d) (redux (mcol z' d))))).
    { apply (mren_tab lg K n sk same Pk Pi). intros i d Hi Hd. rewrite (mren_get lg K n sk same z z' i d Hz Hi Hd).
      now rewrite (vren_redux lg K sk _ _ Pk (mren_col lg K n sk same Pk z z' d Hz Hd)). }
    apply (mren_tab lg C n sc same Pc Pi). intros c d Hc Hd. apply (vren_redux lg K sk); [exact Pk|]. apply vren_tab; [exact Pk|]. intros i Hi.
    rewrite (mren_get lg K n sk same _ _ i d Hq Hi Hd). destruct He as [He|(H0 & _)]; [|lia]. now rewrite (mren_get lg K C sk sc _ _ i c He Hi Hc).
  Qed.
  Definition predicted_alike (n : nat) (s : mat R) (p p' : list nat) : Prop :=
    length p = n /\ length p' = n /\
    forall d, d < n -> nth d p' 0 < C /\ mget s (sc (nth d p' 0)) d = mget s (nth d p 0) d /\
      ((forall c c', c < C -> c' < C -> mget s c d = mget s c' d -> c = c') -> nth d p 0 = sc (nth d p' 0)).
  Lemma predict_sim s s' n : mat_renamed C n sc same s s' -> sim (predicted_alike n s) (predict_scores s) (predict_scores s').
  Proof.
    intros Hs. destruct (rows_of _ _ _ _ _ _ _ Hs) as (S1 & S2 & S3 & S4). destruct (Nat.eq_dec C 0) as [H0|H0].
    - unfold predict_scores. rewrite S3, S4. destruct n as [|n]; [apply sim_ok; repeat split; lia|]. unfold vtab. cbn [seq map seqM]. unfold mcol at 1. rewrite S1, H0. cbn. apply sim_fail.
    - destruct (predict_R lg s) as (p & E & L & F); [lia|]. destruct (predict_R lg s') as (p' & E' & L' & F'); [lia|]. rewrite E, E', S3, S4, S1, S2 in *. apply sim_ok.
      split; [exact L|]. split; [exact L'|]. intros d Hd. destruct (F d Hd) as (F1 & F2 & F3). destruct (F' d Hd) as (F1' & F2' & F3').
      assert (X : mget s (sc (nth d p' 0)) d = mget s (nth d p 0) d).
      { apply Rle_antisym; [apply F2; now apply (proj1 Pc)|]. destruct (permutes_surj C sc Pc (nth d p 0) F1) as (c & Hc & <-).
        specialize (F2' c Hc). cbv beta in F2'. rewrite (mren_get lg C n sc same s s' c d Hs Hc Hd), (mren_get lg C n sc same s s' _ d Hs F1' Hd) in F2'. exact F2'. }
      split; [exact F1'|]. split; [exact X|]. intros U. symmetry. apply U; [now apply (proj1 Pc)|exact F1|exact X].
  Qed.
End Real.
