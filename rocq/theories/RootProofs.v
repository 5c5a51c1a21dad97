(** Lemmas about train in the root directory's application. *)
Require Import ZArith List Bool Arith Lia Ascii String.
Require Import Verif.Base Verif.Scalar Verif.Mat Verif.NumpyModel Verif.NumpySpec Verif.NumpyProofs Verif.HostModel Verif.HostProofs Verif.DiskModel Verif.DiskProofs
  Verif.UtilsModel Verif.BuilderModel Verif.CorpusModel Verif.EStepModel Verif.EStepStop Verif.OptModel Verif.MStepModel Verif.MStepSpec Verif.PoolModel Verif.LdaModel Verif.InferProofs Verif.TrainSizes
  Verif.SettingsModel Verif.AppsModel Verif.AppsProofs Verif.AppsOptions Verif.ShapeSpec Verif.ShapeProofs Verif.CommandModel Verif.CommandSpec Verif.CommandProofs Verif.CommandFiles
  Verif.ProgramSpec Verif.ProgramProofs Verif.RootModel Verif.RootSpec.
Import ListNotations.
Local Open Scope nat_scope.
Local Open Scope list_scope.

Section Root.
  Context {T : Type} {O : ops T}.
  Variable to_bytes : T -> elem.
  Variable of_bytes : elem -> T.
  Hypothesis round : forall x, of_bytes (to_bytes x) = x.
  Hypothesis width : forall x, List.length (to_bytes x) = 8.
  Variables dfuel ofuel : nat.
  Variable args : string -> value.
  Variable stol : string -> outcome Z.
  Variable stof : string -> outcome T.
  Variable document_draws : Z -> nat -> nat -> nat.
  Variable hw : nat.
  Variable jk : nat -> junk.
  Notation long_arg := (long_arg args stol).
  Notation float_arg := (float_arg args stof).
  Notation model_at := (model_at of_bytes jk).

  Lemma shown l : likelihood_of args l -> show_likelihood args = Ok l.
  Proof. unfold show_likelihood, on, off. intros [[A ->]|[A ->]]; unfold on, off in A; rewrite A; reflexivity. Qed.

  Ltac flags := repeat match goal with H : on _ _ |- _ => unfold on in H | H : off _ _ |- _ => unfold off in H | H : likelihood_of _ _ |- _ => apply shown in H end;
    repeat match goal with H : args _ = _ |- _ => rewrite H; cbn [asBool bind] end;
    repeat match goal with H : _ = Ok _ |- _ => rewrite H; cbn [bind] end; try reflexivity.
  Lemma e_named_step (b : settings T * params T) e : e_named args stol stof e -> root_e_step args stol stof b = scall_caught b e.
  Proof. intros H. destruct b as [s p]. unfold root_e_step. destruct H; flags. Qed.
  Lemma m_named_step y (b : settings T * params T) m : m_named args stol stof y m -> root_m_step args stol stof y b = scall_caught b m.
  Proof. intros H. destruct b as [s p]. unfold root_m_step. destruct H; flags. Qed.

  Lemma uniform_end (s : settings T) p C :
    (let* (s', p') := scall_caught (s, p) (Uniform C) in finish s' p') = (let* q := eta_uniform C p in finish s q).
  Proof.
    unfold scall_caught, scall_step, eta_uniform. destruct (mrows (p_beta p) =? 0) eqn:E; cbn [bind]; [|reflexivity]. unfold finish. now rewrite E.
  Qed.
  Lemma seeded_caught X k N draw (s : settings T) p : scall_caught (s, p) (Seeded X k N draw) = (let* q := topics_seeded X k N draw p in Ok (s, q)).
  Proof.
    unfold scall_caught. cbn [scall_step]. pose proof (seeded_no_throw X k N draw p) as N0.
    destruct (topics_seeded _ _ _ _ p) as [q|e|]; cbn [bind]; [reflexivity|now destruct (N0 e)|reflexivity].
  Qed.
  Lemma start_named_step d x y K V C start (s : settings T) p : start_named of_bytes args stol document_draws jk d x y K V C start ->
    (let* b := root_init of_bytes args stol document_draws jk d (columns x) y (s, p) in let (s', p') := b in finish s' p') =
    (let* (s', p') := follow (s, p) start in finish s' p').
  Proof.
    intros H. unfold root_init. destruct H as [f m A B L1 L2|k C A U E1 E2|k C A U1 U2 E1 E2].
    - rewrite A. cbn [given asString bind]. rewrite B. reflexivity.
    - rewrite A. cbn [given bind].
      assert (U' : (let* multinomial := asBool (args "--multinomial") in if multinomial then Ok true else asBool (args "--correspondence")) = Ok true).
      { unfold on, off in U. destruct U as [U|[U1 U2]]; [rewrite U; reflexivity|rewrite U1, U2; reflexivity]. }
      destruct (asBool (args "--multinomial")) as [mu| |] eqn:EM; cbn [bind] in *; try discriminate. rewrite U'. cbn [bind]. rewrite E1. cbn [bind].
      unfold follow. cbn [fold_left bind]. rewrite seeded_caught. cbn [scall_step].
      destruct (topics_seeded _ _ _ _ p) as [q|e|]; cbn [bind]; try reflexivity. rewrite E2. cbn [bind].
      unfold scall_caught, scall_step. pose proof (uniform_end s q C) as UE. unfold scall_caught, scall_step in UE. destruct (eta_uniform C q) as [q'|e|]; cbn [bind] in *; try reflexivity.
      now rewrite UE.
    - unfold off in U1, U2. rewrite A. cbn [given bind]. rewrite U1, U2. cbn [asBool bind]. rewrite E1. cbn [bind].
      unfold follow. cbn [fold_left bind]. rewrite seeded_caught. cbn [scall_step].
      destruct (topics_seeded _ _ _ _ p) as [q|e|]; cbn [bind]; try reflexivity. rewrite E2. cbn [bind].
      unfold scall_caught, scall_step. pose proof (zeros_end s q C) as UE. unfold scall_caught, scall_step in UE. destruct (eta_zeros C q) as [q'|e|]; cbn [bind] in *; try reflexivity.
      now rewrite UE.
  Qed.
  Lemma root_lda_built d x y K V C h : root_asks of_bytes args stol stof document_draws jk d x y K V C h ->
    root_lda of_bytes args stol stof document_draws hw jk d (columns x) y = SettingsModel.built hw h.
  Proof.
    intros (n & w & e & m & start & E1 & E2 & E & M & S & ->). unfold root_lda. rewrite E1. cbn [bind]. rewrite E2. cbn [bind scall_step].
    rewrite (e_named_step _ _ E). unfold SettingsModel.built, configure. cbn [app fold_left bind]. unfold scall_caught at 3 4. cbn [scall_step bind].
    set (b0 := (mk_settings _ _ _ _ _ _, _)).
    assert (EE : exists b1, scall_caught b0 e = Ok b1) by (destruct E; eexists; reflexivity). destruct EE as (b1 & EE). fold b0. rewrite EE. cbn [bind].
    rewrite (m_named_step _ _ _ M). assert (MM : exists b2, scall_caught b1 m = Ok b2) by (destruct b1, M; eexists; reflexivity). destruct MM as ([s p] & MM). rewrite MM. cbn [bind].
    pose proof (start_named_step d x y K V C start s p S) as SS. unfold finish in SS. exact SS.
  Qed.
  Lemma root_size d x y K V C h o : root_asks of_bytes args stol stof document_draws jk d x y K V C h -> SettingsModel.built hw h = Ok o -> has_size K V C (ob_params o).
  Proof.
    intros (n & w & e & m & start & E1 & E2 & E & M & S & ->) H. unfold SettingsModel.built, configure in H. cbn [app fold_left bind] in H.
    assert (C1 : exists s, scall_caught (new_settings (T := T) hw, empty_params) (Iterations (size n)) = Ok (s, empty_params)) by (eexists; reflexivity).
    destruct C1 as (s1 & C1). rewrite C1 in H. cbn [bind] in H. clear C1.
    assert (C2 : exists s, scall_caught (s1, empty_params (T := T)) (Workers (size w)) = Ok (s, empty_params)) by (eexists; reflexivity).
    destruct C2 as (b0 & C2). rewrite C2 in H. cbn [bind] in H. clear C2.
    assert (EE : exists s1, scall_caught (b0, empty_params) e = Ok (s1, empty_params)) by (destruct E; eexists; reflexivity). destruct EE as (b1 & EE). rewrite EE in H. cbn [bind] in H.
    assert (MM : exists s2, scall_caught (b1, empty_params) m = Ok (s2, empty_params)) by (destruct M; eexists; reflexivity). destruct MM as (s & MM). rewrite MM in H. cbn [bind] in H.
    change (fold_left _ start _) with (follow (s, empty_params) start) in H.
    destruct (bind_ok _ _ _ H) as ([s' p'] & F & H1). clear H. cbn beta iota in H1.
    assert (OP : ob_params o = p' /\ mrows (p_beta p') <> 0). { destruct (Nat.eqb_spec (mrows (p_beta p')) 0); [discriminate|]. destruct (_ && _)%bool; [discriminate|]. injection H1 as <-. now split. }
    destruct OP as [-> NZ]. clear H1. unfold follow in F. destruct S as [f m0 A B L1 L2|k C A U E3 E4|k C A U1 U2 E3 E4].
    - cbn in F. injection F as <- <-. cbn [eta_from_model topics_from_model p_alpha p_beta p_eta]. destruct (model_at_exact _ _ _ _ _ B) as [T1 T2]. split; [exact L1|].
      split; apply exact_of; auto.
    - cbn [fold_left bind] in F. rewrite seeded_caught in F. destruct (topics_seeded _ _ _ _ empty_params) as [q|e0|] eqn:TS; cbn [bind] in F; try discriminate.
      destruct (seeded_exact _ _ _ _ _ _ (em_rows x) TS (columns_rows x)) as (S1 & S2 & S3). unfold scall_caught, scall_step, eta_uniform in F.
      destruct (mrows (p_beta q) =? 0) eqn:Z0; cbn [bind] in F; injection F as <- <-; [apply Nat.eqb_eq in Z0; now destruct NZ|].
      split; [exact S1|]. split; [exact S2|]. cbn [p_eta]. apply exact_tab'; [apply S2|reflexivity].
    - cbn [fold_left bind] in F. rewrite seeded_caught in F. destruct (topics_seeded _ _ _ _ empty_params) as [q|e0|] eqn:TS; cbn [bind] in F; try discriminate.
      destruct (seeded_exact _ _ _ _ _ _ (em_rows x) TS (columns_rows x)) as (S1 & S2 & S3). unfold scall_caught, scall_step, eta_zeros in F.
      destruct (mrows (p_beta q) =? 0) eqn:Z0; cbn [bind] in F; injection F as <- <-; [apply Nat.eqb_eq in Z0; now destruct NZ|].
      split; [exact S1|]. split; [exact S2|]. cbn [p_eta]. apply exact_tab'; [apply S2|reflexivity].
  Qed.

  (** fit and save_lda of an object, without snapshots *)
  Definition ends_with (K V C : nat) (path : string) (d : disk) (m : outcome (params T)) (r : outcome unit) (d' : disk) : Prop :=
    match m with
    | Ok m => r = Ok tt /\ has_size K V C m /\ exists w, save_lda false (file_of to_bytes m) = Ok w /\ d' = saved_all d [(bytes path, w)]
    | Throw e => r = Throw e /\ d' = d
    | UB => r = UB
    end.
  Lemma with_exact St (M : maximizer T St) new k docs cfg q K V C path d r d' : library_step St M new -> docs <> [] ->
    has_size K V C q -> storable K V -> storable K C -> args "MODEL"%string = VString path ->
    train_with to_bytes dfuel args good_device M new k docs (cfg, q) None d r d' <->
    exists m, fit_with dfuel M new k (c_workers cfg) docs (c_iterations cfg) q m /\ ends_with K V C path d m r d'.
  Proof.
    intros L HD HS S1 S2 A. rewrite (train_with_exact to_bytes width dfuel args jk St M new k docs cfg q K V C path d r d' L HD HS S1 S2 A). unfold fit_with, ends_with. split.
    - intros (st & p & F & H). exists (let* _ := st in Ok (fst p)). split; [exists st, p; now split|]. destruct st; exact H.
    - intros (m & (st & p & F & ->) & H). exists st, p. split; [exact F|]. destruct st; exact H.
  Qed.
  Lemma object_train_exact o docs K V C path d r d' : docs <> [] -> has_size K V C (ob_params o) -> storable K V -> storable K C -> args "MODEL"%string = VString path ->
    object_train to_bytes dfuel ofuel args good_device o docs None d r d' <-> exists m, object_fit dfuel ofuel o docs m /\ ends_with K V C path d m r d'.
  Proof.
    intros HD HS S1 S2 A. unfold object_train, object_fit. destruct (ob_m o);
      (refine (with_exact _ _ _ _ docs (mk_config (ob_iterations o) (ob_workers o) EClassic MClassic false false) (ob_params o) K V C path d r d' _ HD HS S1 S2 A); constructor).
  Qed.

  Lemma root_trained_is_program d path x y0 y K V C h q n r : args "MODEL"%string = VString path -> data_xy args jk d = Ok (x, y0) -> labels y0 = Ok y -> 1 <= em_cols x ->
    root_asks of_bytes args stol stof document_draws jk d x y K V C h -> storable K V -> storable K C ->
    args "--quiet"%string = VBool q -> long_arg "--snapshot_every" = Ok n -> (n <= 0)%Z ->
    root_trained to_bytes of_bytes dfuel ofuel args stol stof document_draws hw jk d path r <-> program dfuel ofuel hw h (labelled_docs (columns x) y) r.
  Proof.
    intros A R1 R2 NE AS S1 S2 Q SN HN.
    assert (LI : listeners args stol = Ok None).
    { unfold listeners, snapshot_option. rewrite Q. cbn [asBool bind]. rewrite SN. cbn [bind]. destruct (Z.ltb_spec 0 n); [lia|reflexivity]. }
    assert (RU : forall r d', root_train_main to_bytes of_bytes dfuel ofuel args stol stof document_draws hw jk good_device d r d' <->
      after (let* o := SettingsModel.built hw h in let* docs := labelled_docs (columns x) y in Ok (o, docs)) (fun '(o, docs) => object_train to_bytes dfuel ofuel args good_device o docs None d r d') d r d').
    { intros r0 d'. unfold root_train_main. rewrite R1. cbn [bind]. rewrite R2. cbn [bind]. rewrite (root_lda_built _ _ _ _ _ _ _ AS). rewrite LI.
      destruct (SettingsModel.built hw h); cbn [bind]; try reflexivity. destruct (labelled_docs (columns x) y); reflexivity. }
    unfold root_trained, program.
    destruct (SettingsModel.built hw h) as [o|e|] eqn:B; cbn [bind] in *.
    2:{ destruct r as [m|e'|]; split; intros H; try discriminate.
        - destruct H as (d' & H & _). rewrite RU in H. cbn [after] in H. destruct H; discriminate.
        - destruct H as (d' & H). rewrite RU in H. destruct H as [H _]. now injection H as ->.
        - exists d. rewrite RU. injection H as ->. now split.
        - destruct H as (d' & H). rewrite RU in H. cbn [after] in H. destruct H; discriminate. }
    2:{ destruct r as [m|e'|]; split; intros H; try discriminate.
        - destruct H as (d' & H & _). rewrite RU in H. cbn [after] in H. discriminate.
        - destruct H as (d' & H). rewrite RU in H. cbn [after] in H. discriminate.
        - reflexivity.
        - exists d. rewrite RU. reflexivity. }
    destruct (labelled_docs (columns x) y) as [docs|e|] eqn:LD; cbn [bind] in *.
    2:{ destruct r as [m|e'|]; split; intros H; try discriminate.
        - destruct H as (d' & H & _). rewrite RU in H. cbn [after] in H. destruct H; discriminate.
        - destruct H as (d' & H). rewrite RU in H. destruct H as [H _]. now injection H as ->.
        - exists d. rewrite RU. injection H as ->. now split.
        - destruct H as (d' & H). rewrite RU in H. cbn [after] in H. destruct H; discriminate. }
    2:{ destruct r as [m|e'|]; split; intros H; try discriminate.
        - destruct H as (d' & H & _). rewrite RU in H. cbn [after] in H. discriminate.
        - destruct H as (d' & H). rewrite RU in H. cbn [after] in H. discriminate.
        - reflexivity.
        - exists d. rewrite RU. reflexivity. }
    assert (HD : docs <> []).
    { intros ->. destruct (labelled_documents _ _ _ LD) as [L _]. apply (f_equal (@List.length _)) in L. rewrite columns_length in L. cbn in L. lia. }
    pose proof (root_size _ _ _ _ _ _ _ _ AS B) as HS.
    assert (RR : forall r d', root_train_main to_bytes of_bytes dfuel ofuel args stol stof document_draws hw jk good_device d r d' <-> exists m, object_fit dfuel ofuel o docs m /\ ends_with K V C path d m r d').
    { intros r0 d'. rewrite RU. cbn [after]. exact (object_train_exact o docs K V C path d r0 d' HD HS S1 S2 A). }
    clear RU. split.
    - destruct r as [m|e|]; intros H.
      + destruct H as (d' & H & MA). apply RR in H. destruct H as (m' & FC & H). destruct m' as [m'|e|]; [|destruct H; discriminate|discriminate].
        destruct H as (_ & HM & w & EW & ->). rewrite (model_found to_bytes of_bytes round width jk K V C m' w _ path jk HM S1 S2 EW) in MA by apply (saved_last []). now injection MA as <-.
      + destruct H as (d' & H). apply RR in H. destruct H as (m' & FC & H). destruct m' as [m'|e0|]; [destruct H; discriminate|destruct H as [H _]; now injection H as <-|discriminate].
      + destruct H as (d' & H). apply RR in H. destruct H as (m' & FC & H). destruct m' as [m'|e0|]; [destruct H; discriminate|destruct H; discriminate|exact FC].
    - intros FC. destruct r as [m|e|].
      + assert (HM : has_size K V C m).
        { unfold object_fit, fit_with in FC. destruct (ob_m o); destruct FC as (st & p & F & E); destruct st as [st| |]; cbn [bind] in E; try discriminate; injection E as ->;
            refine (proj2 (fit_keeps_size dfuel K V C _ _ _ _ _ docs _ _ _ _ _ _ (proj1 S1) HD HS F)); constructor. }
        destruct (model_saved to_bytes width jk K V C m HM S1 S2) as (w & EW & _).
        exists (saved_all d [(bytes path, w)]). split; [|apply (model_found to_bytes of_bytes round width jk K V C m w _ path jk HM S1 S2 EW), (saved_last [])].
        apply RR. exists (Ok m). split; [exact FC|]. split; [reflexivity|]. split; [exact HM|]. now exists w.
      + exists d. apply RR. exists (Throw e). split; [exact FC|]. now split.
      + exists d. apply RR. exists UB. split; [exact FC|reflexivity].
  Qed.
End Root.
