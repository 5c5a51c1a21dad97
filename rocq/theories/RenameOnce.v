(** One epoch of the fast supervised algorithm, and a training set on which it depends on the numbers of the classes. *)
Require Import Reals ZArith List Arith Bool Lia Lra Permutation.
Require Import Verif.Base Verif.Scalar Verif.Mat Verif.UtilsModel Verif.BuilderModel Verif.EStepModel Verif.EStepSpec Verif.EStepTheorems
  Verif.OptModel Verif.OptSpec Verif.OptReal Verif.MStepModel Verif.MStepSpec Verif.MStepAny Verif.MStepReal
  Verif.LdaModel Verif.TrainSizes Verif.TrainPerm Verif.TrainProofs Verif.RenameSpec Verif.RenameRefute.
Import ListNotations.
Local Open Scope nat_scope.

Section Real.
  Variable lg : R -> R.
  Local Hint Extern 0 (ops _) => exact (Rops lg) : typeclass_instances.
  Lemma fit_1 {St} (M : maximizer R St) k W D st p st' p' : fit_call 7 M k W D 1 st p st' p' -> partial_fit_call 7 M k W D st p st' p'.
  Proof. intros F. inversion F as [|? ? ? st1 p1 ? ? E G]; subst. now inversion G; subst. Qed.
  Section Once.
    Variables (K V C : nat) (fuel limit : nat) (tolerance L : R) (k : e_step R) (D : list (doc R)).
    Hypothesis HK : 0 < K.
    Hypothesis HD : D <> [].
    Lemma once_run W m ep st p l eta e : shape K V m -> length (p_alpha m) = K -> Permutation (map fst l) D -> Forall (found 7 k (m, ep)) l ->
      Forall (fun x : item R => d_class (fst x) <> None) l -> trained fuel limit tolerance L K l m = Ok (eta, e) ->
      fit_call 7 (fast_maximizer fuel limit tolerance L) k W D 1 (Ok new_fast) (m, ep) st p ->
      (exists s, st = Ok s) /\ p_eta (fst p) = eta.
    Proof.
      intros Sh Ha Pl Fl Cl Tr E. apply fit_1 in E.
      destruct (partial_fit_run 7 _ k (batch_keeps lg K V C _ _ _ _ _ _ (step_fast K V C fuel limit tolerance L)) _ _ _ _ _ _ l E Pl Fl) as (l2 & P2 & Run). cbn [fst snd] in Run.
      assert (S1 : Forall (sized K V) l2).
      { apply (Forall_perm _ _ _ (Permutation_sym P2)). rewrite Forall_forall in *. intros [d v] Hx. destruct Sh as [S1 S2]. rewrite <- S1, <- S2. exact (posterior_sized 7 k _ _ _ _ (Fl _ Hx)). }
      assert (C1 : Forall (fun x : item R => d_class (fst x) <> None) l2) by (apply (Forall_perm _ _ _ (Permutation_sym P2)); exact Cl).
      assert (H2 : l2 <> []). { intros ->. apply Permutation_nil in P2. subst l. cbn in Pl. apply Permutation_nil in Pl. now apply HD. }
      pose proof (fast_epoch K V HK fuel limit tolerance L new_fast l2 m (fast_new_idle K V HK) Ha S1 C1 H2) as Vis.
      rewrite (trained_perm lg fuel limit tolerance L K l2 l m P2), Tr in Vis. cbn [bind] in Vis.
      destruct (mrun (fast_maximizer fuel limit tolerance L) (epoch l2) m new_fast) as [[[m3 s3] e3]| |] eqn:R2; cbn [visible] in Vis; [|discriminate..]. injection Vis as -> ->.
      destruct (Run _ s3 e eq_refl) as [-> ->]. split; [eauto|reflexivity].
    Qed.
  End Once.

  (** What the E step finds. *)
  Lemma fast_found cf ex w ep (m : params R) D : Forall (fun d => proper_input (d_words d) m /\ (exists y, d_class d = Some y /\ class_in_range y m) /\ exists n, (0 < nth n (d_words d) 0)%Z) D ->
    exists l : list (item R), map fst l = D /\ Forall (fun x : item R => found 7 (FastSupervised cf ex w) (m, ep) x /\ valid_posterior (d_words (fst x)) m (v_gamma (snd x)) (v_phi (snd x)) /\ v_tau (snd x) = []) l.
  Proof.
    induction 1 as [|d D (H1 & (y & H2 & H3) & H4) _ (l & I1 & I2)]; [exists []; split; [reflexivity|constructor]|].
    destruct (C31_fast lg cf (get_weight ex w ep) true d m y H1 H2 H3 (fun _ => H4)) as (g1 & f1 & e1 & E1 & _).
    destruct (C31_fast lg cf (get_weight ex w ep) false d m y H1 H2 H3) as (g & f & e2 & E2 & Vp & _); [discriminate|].
    exists ((d, mk_vparams g f []) :: l). cbn [map fst]. split; [now rewrite I1|]. constructor; [|exact I2]. cbn [fst snd v_gamma v_phi v_tau]. split; [|split; [exact Vp|reflexivity]].
    unfold found. cbn [fst snd]. unfold posterior. cbn [doc_e_step]. rewrite E1. cbn [bind]. rewrite E2. reflexivity.
  Qed.
  (** One epoch succeeds if the line searches are given enough steps. *)
  Lemma fast_once cf ex w C e limit tolerance L D m : D <> [] -> (Z.of_nat C < 2 ^ 31)%Z -> p_eta m = mtab (mrows (p_beta m)) C e ->
    Forall (fun d => proper_input (d_words d) m /\ (exists y, d_class d = Some y /\ (0 <= y < Z.of_nat C)%Z) /\ exists n, (0 < nth n (d_words d) 0)%Z) D ->
    exists fuel, forall W st p,
      fit_call 7 (fast_maximizer fuel limit tolerance L) (FastSupervised cf ex w) W D 1 (Ok new_fast) (m, 0) st p -> exists s, st = Ok s.
  Proof.
    intros HD HC He HP.
    destruct (fast_found cf ex w 0 m D) as (l & L1 & L2).
    { eapply Forall_impl; [|exact HP]. intros d (H1 & (y & H2 & H3) & H4). split; [exact H1|]. split; [|exact H4]. exists y. split; [exact H2|].
      unfold class_in_range. rewrite He. unfold ncols, mtab. cbn [mrows mcols]. rewrite vtab_length. now split. }
    assert (Hl : l <> []) by (intros ->; cbn in L1; congruence).
    assert (Cl : Forall (classified C) l).
    { apply Forall_forall. intros x Hx. rewrite Forall_forall in HP. apply (HP (fst x)). rewrite <- L1. now apply in_map. }
    destruct (trained_R lg (mrows (p_beta m)) C limit tolerance L m e l He Hl Cl HC) as (fuel & F). exists fuel. intros W st p Fit.
    destruct (F fuel (le_n _)) as (eta & rep & Tr & _).
    assert (Hm : 0 < mrows (p_beta m) /\ length (p_alpha m) = mrows (p_beta m)).
    { destruct D as [|d D']; [congruence|]. destruct (Forall_inv HP) as (X & _). split; apply X. }
    destruct Hm as (Hk & Ha).
    refine (proj1 (once_run (mrows (p_beta m)) (ncols (p_beta m)) C fuel limit tolerance L _ D Hk HD W m 0 st p l _ _ (conj eq_refl eq_refl) Ha _ _ _ Tr Fit)).
    - now rewrite L1.
    - eapply Forall_impl; [|exact L2]. intros x Hx. apply Hx.
    - eapply Forall_impl; [|exact Cl]. intros x (c & -> & _). discriminate.
  Qed.

  (** The document of one word, of class y: one epoch. *)
  Lemma once_one cf ex w y t : y < 2 -> exists eta : entries, (forall W st p,
    fit_call 7 (fast_maximizer 1 1 t 0%R) (FastSupervised cf ex w) W [fst (one_item (Z.of_nat y))] 1 (Ok new_fast) (one_model, 0) st p ->
    (exists s, st = Ok s) /\ p_eta (fst p) = mtab 1 2 eta) /\ eta 0 y = (/ (INR y + 1) / 2)%R.
  Proof.
    intros Hy. destruct (trained_one lg y t Hy) as (e & Tr). exists (margin y (/ (INR y + 1) / 2)). split; [|unfold margin; now rewrite Nat.eqb_refl].
    intros W st p Fit.
    destruct (fast_found cf ex w 0 one_model [fst (one_item (Z.of_nat y))]) as (l & L1 & L2).
    { constructor; [|constructor]. cbn [fst one_item d_words d_class]. split; [|split].
      - constructor; cbn; try lia; try reflexivity.
        + intros [|i] Hi; [|lia]. unfold vget. cbn. lra.
        + intros [|i] [|n] Hi Hn; try lia. unfold mget. cbn. lra.
      - exists (Z.of_nat y). split; [reflexivity|]. split; [reflexivity|]. cbn. lia.
      - exists 0. cbn. lia. }
    destruct l as [|[d v] [|]]; cbn in L1; try discriminate. injection L1 as ->.
    pose proof (Forall_inv L2) as (Fd & Vp & Ht). cbn [fst snd] in *.
    assert (Eg : v_gamma v = [2%R]).
    { destruct v as [g phi tau]. destruct Vp as [V1 V2 V3 V4 V5 V6 V7]. change (mrows (p_beta one_model)) with 1 in *. change (ncols (p_beta one_model)) with 1 in *. cbn [v_gamma v_phi] in *.
      assert (X : mget phi 0 0 = 1%R).
      { destruct (V5 0 ltac:(lia)) as [X|(_ & X)]; [rewrite rsum_1 in X; exact X|]. exfalso. apply X. exists 0. split; [cbn; lia|]. unfold mget. cbn. lra. }
      specialize (V6 0 ltac:(lia)). rewrite rsum_1 in V6. cbv beta in V6. rewrite X in V6. unfold vget in V6. cbn in V6.
      destruct g as [|g0 [|]]; cbn in V3; try lia. cbn in V6. subst g0. f_equal. lra. }
    assert (Tr' : trained 1 1 t 0%R 1 [(fst (one_item (Z.of_nat y)), v)] one_model = Ok (mtab 1 2 (margin y (/ (INR y + 1) / 2)), e)).
    { rewrite <- Tr. unfold trained. cbn [map]. replace (mixture 1 (p_alpha one_model) (fst (one_item (Z.of_nat y)), v)) with (mixture 1 (p_alpha one_model) (one_item (Z.of_nat y))); [reflexivity|].
      unfold mixture, excess. cbn [snd one_item]. rewrite Eg. reflexivity. }
    refine (once_run 1 1 2 1 1 t 0%R _ _ (Nat.lt_0_succ 0) _ W one_model 0 st p _ _ _ (conj eq_refl eq_refl) eq_refl _ _ _ Tr' Fit).
    - discriminate.
    - reflexivity.
    - constructor; [exact Fd|constructor].
    - constructor; [discriminate|constructor].
  Qed.
End Real.
