(** Lemmas about the snapshots of train in the root directory's application. *)
Require Import ZArith List Bool Arith Lia Ascii String.
Require Import Verif.Base Verif.Scalar Verif.Mat Verif.NumpyModel Verif.NumpySpec Verif.HostModel Verif.HostProofs Verif.DiskModel Verif.BuilderModel Verif.EStepModel Verif.OptModel Verif.MStepModel
  Verif.PoolModel Verif.LdaModel Verif.SettingsModel Verif.AppsModel Verif.AppsProofs Verif.ShapeSpec Verif.CommandModel Verif.CommandSpec Verif.CommandProofs Verif.CommandFiles Verif.SnapshotProofs Verif.FreshTrain
  Verif.ProgramSpec Verif.ProgramProofs Verif.RootModel Verif.RootSpec Verif.RootProofs Verif.RootSnapSpec Verif.NumpyProofs Verif.EStepStop.
Import ListNotations.
Local Open Scope nat_scope.
Local Open Scope list_scope.

Section Snap.
  Context {T : Type} {O : ops T}.
  Variable to_bytes : T -> elem.
  Variable of_bytes : elem -> T.
  Hypothesis round : forall x, of_bytes (to_bytes x) = x.
  Hypothesis width : forall x, List.length (to_bytes x) = 8.
  Variables dfuel ofuel : nat.
  Variable args : string -> value.
  Variable stol : string -> outcome Z.
  Variable stof : string -> outcome T.
  Variable document_draws : Z -> nat -> nat -> nat.
  Variable hw : nat.
  Variable jk : nat -> junk.

  Lemma object_trains device o docs l d r d' : object_train to_bytes dfuel ofuel args device o docs l d r d' ->
    exists St (M : maximizer T St) new, maximizes ofuel (ob_m o) St M new /\ library_step St M new /\
      train_with to_bytes dfuel args device M new (ob_e o) docs (mk_config (ob_iterations o) (ob_workers o) EClassic MClassic false false, ob_params o) l d r d'.
  Proof. unfold object_train. destruct (ob_m o); intros H; eexists _, _, _; (split; [constructor|split; [|exact H]]; constructor). Qed.

  Lemma root_snapshots d d' path x y0 y K V C h N : args "MODEL"%string = VString path -> data_xy args jk d = Ok (x, y0) -> labels y0 = Ok y -> 1 <= em_cols x ->
    root_asks of_bytes args stol stof document_draws jk d x y K V C h -> storable K V -> storable K C ->
    long_arg args stol "--snapshot_every" = Ok (Z.of_nat N) -> 0 < N -> (Z.of_nat N < 2 ^ 31)%Z ->
    root_train_main to_bytes of_bytes dfuel ofuel args stol stof document_draws hw jk good_device d (Ok tt) d' ->
    exists o docs St (M : maximizer T St) new, SettingsModel.built hw h = Ok o /\ labelled_docs (columns x) y = Ok docs /\ maximizes ofuel (ob_m o) St M new /\
      let n := ob_iterations o in let fit := fit_call dfuel M (ob_e o) (ob_workers o) docs in
      ((Z.of_nat n < 2 ^ 31)%Z ->
       exists st m ep, fit n (Ok new) (ob_params o, 0) (Ok st) (m, ep) /\ (forall jk', CommandModel.model_at of_bytes jk' d' path = Ok m) /\
        (forall e, 1 <= e <= n -> e mod N = 0 -> exists file digits st_e m_e ep_e,
          bytes file = bytes path ++ text "_" ++ digits /\ is_numeral digits (Z.of_nat e) /\ (forall jk', CommandModel.model_at of_bytes jk' d' file = Ok m_e) /\
          fit e (Ok new) (ob_params o, 0) st_e (m_e, ep_e) /\ fit (n - e) st_e (m_e, ep_e) (Ok st) (m, ep)) /\
        (forall name, d' name <> d name -> name = bytes path \/
          exists e digits, 1 <= e <= n /\ e mod N = 0 /\ is_numeral digits (Z.of_nat e) /\ name = bytes path ++ text "_" ++ digits)).
  Proof.
    intros A R1 R2 NE AS S1 S2 EN HN HN31 H. unfold root_train_main in H. rewrite R1 in H. cbn [bind] in H. rewrite R2 in H. cbn [bind] in H.
    rewrite (root_lda_built _ _ _ _ _ _ _ _ _ _ _ _ _ _ AS) in H. destruct (after_ok _ _ _ _ H) as ([[o docs] l] & E & TW). clear H.
    destruct (bind_ok _ _ _ E) as (o' & B & E1). destruct (bind_ok _ _ _ E1) as (l' & El & E2). destruct (bind_ok _ _ _ E2) as (docs' & LD & E3). injection E3 as -> -> ->. clear E E1 E2.
    assert (Hl : l = Some (new_snap (bytes path) (Z.of_nat N))).
    { unfold listeners in El. destruct (bind_ok _ _ _ El) as (q & _ & El1). unfold snapshot_option in El1. rewrite EN in El1. cbn [bind] in El1.
      destruct (Z.ltb_spec 0 (Z.of_nat N)); [|lia]. rewrite A in El1. cbn [asString bind] in El1. rewrite wrap32_small in El1 by lia. now injection El1 as <-. }
    subst l.
    assert (HD : docs <> []).
    { intros ->. destruct (labelled_documents _ _ _ LD) as [L _]. apply (f_equal (@List.length _)) in L. rewrite columns_length in L. cbn in L. lia. }
    destruct (object_trains _ _ _ _ _ _ _ TW) as (St & M & new & U & L & TW'). exists o, docs, St, M, new. split; [exact B|]. split; [exact LD|]. split; [exact U|]. intros n fit HI.
    assert (HS : has_size K V C (ob_params o)) by (eapply root_size; eassumption).
    refine (train_snapshots to_bytes of_bytes round width dfuel args _ St M new (ob_e o) docs (mk_config (ob_iterations o) (ob_workers o) EClassic MClassic false false, ob_params o) K V C path N d d' L HD HS S1 S2 A HN HN31 HI TW'). exact jk.
  Qed.

  (** A training of an object all of whose fits end normally *)
  Lemma root_ends d path x y0 y K V C h o docs l St (M : maximizer T St) new : args "MODEL"%string = VString path -> data_xy args jk d = Ok (x, y0) -> labels y0 = Ok y ->
    root_asks of_bytes args stol stof document_draws jk d x y K V C h -> storable K V -> storable K C ->
    SettingsModel.built hw h = Ok o -> labelled_docs (columns x) y = Ok docs -> docs <> [] -> maximizes ofuel (ob_m o) St M new ->
    listeners args stol = Ok l -> usual_listener l (ob_iterations o) ->
    (forall st p, fit_call dfuel M (ob_e o) (ob_workers o) docs (ob_iterations o) (Ok new) (ob_params o, 0) st p -> exists s, st = Ok s) ->
    let run := root_train_main to_bytes of_bytes dfuel ofuel args stol stof document_draws hw jk good_device d in
    (forall r d', run r d' -> r = Ok tt /\ exists s m ep, fit_call dfuel M (ob_e o) (ob_workers o) docs (ob_iterations o) (Ok new) (ob_params o, 0) (Ok s) (m, ep) /\
      has_size K V C m /\ forall jk', CommandModel.model_at of_bytes jk' d' path = Ok m) /\
    ((exists st p, fit_call dfuel M (ob_e o) (ob_workers o) docs (ob_iterations o) (Ok new) (ob_params o, 0) st p) -> exists d', run (Ok tt) d').
  Proof.
    intros A R1 R2 AS S1 S2 B LD HD U El Ul HF run.
    assert (HS : has_size K V C (ob_params o)) by (eapply root_size; eassumption).
    set (b := (mk_config (ob_iterations o) (ob_workers o) EClassic MClassic false false, ob_params o)).
    assert (RE : forall r d', run r d' <-> train_with to_bytes dfuel args good_device M new (ob_e o) docs b l d r d').
    { intros r d'. unfold run, root_train_main. rewrite R1. cbn [bind]. rewrite R2. cbn [bind]. rewrite (root_lda_built _ _ _ _ _ _ _ _ _ _ _ _ _ _ AS), B. cbn [bind]. rewrite El. cbn [bind]. rewrite LD. cbn [bind after].
      unfold object_train. fold b. clear - U. destruct U; reflexivity. }
    assert (L : library_step St M new) by (clear - U; destruct U; constructor).
    destruct (train_with_ends to_bytes of_bytes round width dfuel args jk St M new (ob_e o) docs b l K V C path d L HD HS S1 S2 A Ul HF) as [X Y]. split.
    - intros r d' H. apply RE in H. exact (X r d' H).
    - intros H. destruct (Y H) as (d' & H'). exists d'. now apply RE.
  Qed.

  (** The object of train --continue with distributions of classes *)
  Lemma class_listener f path n w : class_options args stol stof f path n w -> exists l, listeners args stol = Ok l /\ usual_listener l n.
  Proof.
    intros [_ EM _ _ _ _ (q & Eq) (s & Es & Hs)]. unfold listeners, snapshot_option. rewrite Eq. cbn [asBool bind]. rewrite Es. cbn [bind]. destruct (Z.ltb_spec 0 s) as [P|P].
    - destruct Hs as [Hs|[H1 H2]]; [lia|]. rewrite EM. cbn [asString bind]. eexists. split; [reflexivity|]. right. exists (bytes path), (Z.to_nat s).
      rewrite Z2Nat.id by lia. rewrite wrap32_small by lia. repeat split; lia.
    - eexists. split; [reflexivity|]. now left.
  Qed.
  Lemma same_params (m : params T) p : eta_from_model m (topics_from_model m p) = m.
  Proof. destruct m. reflexivity. Qed.
  Lemma class_built d x y f path n w K V C m mu : class_options args stol stof f path n w -> CommandModel.model_at of_bytes jk d f = Ok m -> has_size K V C m -> 0 < K ->
    float_arg args stof "--mu" = Ok mu ->
    (off args "--multinomial" -> on args "--correspondence" -> exists h cf, root_asks of_bytes args stol stof document_draws jk d x y K V C h /\
      SettingsModel.built hw h = Ok (mk_object m (Correspondence cf mu) (CorrespondenceM mu) n w)) /\
    (forall weight, on args "--multinomial" -> float_arg args stof "--eta_weight" = Ok weight -> exists h cf, root_asks of_bytes args stol stof document_draws jk d x y K V C h /\
      SettingsModel.built hw h = Ok (mk_object m (Multinomial cf mu weight) (MultinomialM mu) n w)).
  Proof.
    intros [C1 C2 (C3 & C4 & C5 & C6 & C7) (i & I1 & <-) (j & J1 & <-) (ei & t & l & E1 & E2 & E3) _ _] MA (HA & (HB1 & HB2 & _) & (HE1 & HE2 & _)) HK MU.
    assert (ST : start_named of_bytes args stol document_draws jk d x y K V C [FromModel m; EtaOf m]).
    { rewrite <- HB1, <- HB2, <- HE2. apply (start_continue of_bytes args stol document_draws jk d x y f m C1 MA); congruence. }
    assert (Z1 : (mrows (p_beta m) =? 0) = false) by (apply Nat.eqb_neq; lia). assert (Z2 : (mrows (p_eta m) =? 0) = false) by (apply Nat.eqb_neq; lia).
    split.
    - intros F1 F2. eexists _, (mk_econf (size ei) t l). split.
      + eexists i, j, _, _, _. split; [exact I1|]. split; [exact J1|]. split; [eapply e_correspondence; eassumption|]. split; [eapply m_correspondence; eassumption|]. split; [exact ST|reflexivity].
      + unfold SettingsModel.built, configure. cbn [app fold_left bind]. unfold scall_caught. cbn [scall_step bind]. rewrite same_params, Z1, Z2. reflexivity.
    - intros weight F1 F2. eexists _, (mk_econf (size ei) t l). split.
      + eexists i, j, _, _, _. split; [exact I1|]. split; [exact J1|]. split; [eapply e_multinomial; eassumption|]. split; [eapply m_multinomial; eassumption|]. split; [exact ST|reflexivity].
      + unfold SettingsModel.built, configure. cbn [app fold_left bind]. unfold scall_caught. cbn [scall_step bind]. rewrite same_params, Z1, Z2. reflexivity.
  Qed.
End Snap.
