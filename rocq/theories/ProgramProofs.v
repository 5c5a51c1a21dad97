(** Lemmas about the commands as programs of the library. *)
Require Import ZArith List Bool Arith Lia Ascii String.
Require Import Verif.Base Verif.Scalar Verif.Mat Verif.NumpyModel Verif.NumpySpec Verif.NumpyProofs Verif.HostModel Verif.HostProofs Verif.DiskModel Verif.DiskProofs
  Verif.UtilsModel Verif.BuilderModel Verif.CorpusModel Verif.EStepModel Verif.EStepStop Verif.OptModel Verif.MStepModel Verif.MStepSpec Verif.PoolModel Verif.LdaModel Verif.InferProofs Verif.TrainSizes
  Verif.SettingsModel Verif.AppsModel Verif.AppsProofs Verif.AppsOptions Verif.ShapeSpec Verif.ShapeProofs Verif.CommandModel Verif.CommandSpec Verif.CommandProofs Verif.CommandFiles
  Verif.OwnerSpec Verif.OwnerFit Verif.ProgramSpec.
Import ListNotations.
Local Open Scope nat_scope.
Local Open Scope list_scope.

Section Program.
  Context {T : Type} {O : ops T}.
  Variable to_bytes : T -> elem.
  Variable of_bytes : elem -> T.
  Hypothesis round : forall x, of_bytes (to_bytes x) = x.
  Hypothesis width : forall x, List.length (to_bytes x) = 8.
  Variables dfuel ofuel : nat.
  Variable args : string -> value.
  Variable stol : string -> outcome Z.
  Variable stof : string -> outcome T.
  Variable uniform_draws : Z -> nat -> nat -> T.
  Variable document_draws : Z -> nat -> nat -> nat.
  Variable hw : nat.
  Variable jk : nat -> junk.
  Notation long_arg := (long_arg args stol).
  Notation float_arg := (float_arg args stof).
  Notation run := (command_main to_bytes of_bytes dfuel ofuel args stol stof uniform_draws document_draws hw jk good_device).
  Notation model_at := (model_at of_bytes jk).
  Notation started := (CommandSpec.built of_bytes args stol stof uniform_draws document_draws hw jk).

  Definition follow (sp : settings T * params T) (l : list (scall T)) : outcome (settings T * params T) :=
    fold_left (fun o x => let* sp := o in scall_caught sp x) l (Ok sp).

  Lemma seeded_no_throw X K N draw (p : params T) e : topics_seeded X K N draw p <> Throw e.
  Proof.
    destruct X as [|x X]; cbn [topics_seeded]; [discriminate|]. cbn zeta.
    assert (A : forall l e, seqM (map (fun k => seeded_row (O := O) (x :: X) N (draw k) (List.length x)) l) <> Throw e).
    { induction l as [|k l IH]; intros e'; cbn [map seqM]; [discriminate|].
      assert (B : forall l acc e, acc <> Throw e -> fold_left (fun acc r => let* row := acc in
        if List.length (nth (draw k r mod List.length (x :: X)) (x :: X) []) =? List.length x
        then Ok (vtab (List.length x) (fun w => add (vget row w) (ofZ (nth w (nth (draw k r mod List.length (x :: X)) (x :: X) []) 0%Z)))) else UB) l acc <> Throw e).
      { induction l0 as [|r l0 IH0]; intros acc e0 HA; cbn [fold_left]; [exact HA|]. apply IH0. destruct acc; cbn [bind]; [|exact HA|exact HA]. destruct (_ =? _); discriminate. }
      unfold seeded_row at 1. specialize (B (seq 0 N) (Ok (vtab (List.length x) (fun _ => one))) e' ltac:(discriminate)).
      destruct (fold_left _ _ _) as [row|e0|]; cbn [bind]; [|intros E; injection E as ->; now apply B|discriminate].
      specialize (IH e'). destruct (seqM _); cbn [bind]; [discriminate|exact IH|discriminate]. }
    specialize (A (seq 0 K) e). destruct (seqM _) as [|e0|]; cbn [bind]; [discriminate|congruence|discriminate].
  Qed.

  (** operator LDA() *)
  Definition finish (s : settings T) (p : params T) : outcome (object T) :=
    if Nat.eqb (mrows (p_beta p)) 0 then Throw ERuntime
    else if (Nat.eqb (mrows (p_eta p)) 0 && (s_e_requires_eta s || s_m_requires_eta s))%bool then Throw ERuntime
    else Ok (mk_object p (s_e s) (s_m s) (s_iterations s) (s_workers s)).
  (** The initialisation of a command *)
  Definition init (c : command) (d : disk) (x : emat) (y : list Z) (b : bstate (T := T)) : outcome bstate :=
    match c with
    | LdaTrain =>
        let* b := if given (args "--continue")
                  then let* f := asString (args "--continue") in let* m := model_at d f in call b (TopicsFromModel m)
                  else fresh_topics args stol uniform_draws document_draws (em_rows x) (columns x) b in
        call b (EtaZeros 1)
    | _ => supervised_init args stol (model_at d) uniform_draws document_draws (em_rows x) (columns x) y b
    end.

  Lemma zeros_end s p C :
    (let* (s', p') := scall_caught (s, p) (Zeros C) in finish s' p') = (let* q := eta_zeros C p in finish s q).
  Proof.
    unfold scall_caught, scall_step, eta_zeros. destruct (mrows (p_beta p) =? 0) eqn:E; cbn [bind]; [|reflexivity]. unfold finish. now rewrite E.
  Qed.
  Lemma beginning_same c d x y start : trains c -> beginning of_bytes args stol uniform_draws document_draws jk c d x y start ->
    exists F : params T -> outcome (params T),
      (forall b, init c d x y b = let* q := F (snd b) in Ok (fst b, q)) /\
      (forall s p, (let* (s', p') := follow (s, p) start in finish s' p') = (let* q := F p in finish s q)).
  Proof.
    intros HC H. destruct H as [f m A B|k seed C A A2 A3 A4 A5 A6|k seed C A A2 A3 A4 A5 A6].
    - destruct c; try contradiction; unfold init, supervised_init; rewrite A; cbn [given asString bind]; rewrite B; cbn [bind].
      2-4: (exists (fun p => Ok (eta_from_model m (topics_from_model m p))); split; [intros [cc p]; reflexivity|intros s p; reflexivity]).
      exists (fun p => eta_zeros 1 (topics_from_model m p)). split; [intros [cc p]; reflexivity|]. intros s p. exact (zeros_end s (topics_from_model m p) 1).
    - exists (fun p => eta_zeros C (topics_random (em_rows x) (size k) (uniform_draws seed) p)). split; [|intros s p; exact (zeros_end s _ C)].
      intros [cc p]. destruct c; try contradiction; cbn [columns_of_eta] in A6; unfold init, supervised_init, fresh_topics; rewrite A, ?A2, A3; cbn [given asBool bind]; rewrite A4; cbn [bind];
        rewrite A5; cbn [bind call]; [subst C|rewrite A6..]; reflexivity.
    - exists (fun p => let* q := topics_seeded (columns x) (size k) 30 (document_draws seed) p in eta_zeros C q). split.
      + intros [cc p]. destruct c; try contradiction; cbn [columns_of_eta] in A6; unfold init, supervised_init, fresh_topics; rewrite A, ?A2, A3; cbn [given asBool bind]; rewrite A4; cbn [bind];
          rewrite A5; cbn [bind call fst snd]; [subst C|..]; destruct (topics_seeded _ _ _ _ p); cbn [bind]; try reflexivity; try (rewrite A6; reflexivity).
      + intros s p. unfold follow. cbn [fold_left bind]. replace (scall_caught (s, p) (Seeded (columns x) (size k) 30 (document_draws seed))) with
          (let* q := topics_seeded (columns x) (size k) 30 (document_draws seed) p in Ok (s, q)).
        2:{ unfold scall_caught. cbn [scall_step]. pose proof (seeded_no_throw (columns x) (size k) 30 (document_draws seed) p) as N. destruct (topics_seeded _ _ _ _ p) as [q|e|]; cbn [bind]; [reflexivity|now destruct (N e)|reflexivity]. }
        pose proof (seeded_no_throw (columns x) (size k) 30 (document_draws seed) p) as N.
        destruct (topics_seeded _ _ _ _ p) as [q|e|]; cbn [bind]; [exact (zeros_end s q C)|now destruct (N e)|reflexivity].
  Qed.

  (** A command and the program have the same parts. *)
  Definition setup (F : params T -> outcome (params T)) (cfg : config) (corpus : outcome (list (doc T))) : outcome (params T * list (doc T)) :=
    let* q := F empty_params in let* _ := check_build cfg q in let* docs := corpus in Ok (q, docs).
  Lemma setup_finish F cfg s corpus (Q : object T * list (doc T) -> Prop) (QE : exn -> Prop) (QU : Prop) :
    c_e_requires_eta cfg = s_e_requires_eta s -> c_m_requires_eta cfg = s_m_requires_eta s ->
    match (let* o := (let* q := F empty_params in finish s q) in let* docs := corpus in Ok (o, docs)) with Ok a => Q a | Throw e => QE e | UB => QU end <->
    match setup F cfg corpus with Ok (q, docs) => Q (mk_object q (s_e s) (s_m s) (s_iterations s) (s_workers s), docs) | Throw e => QE e | UB => QU end.
  Proof.
    intros E1 E2. unfold setup, finish, check_build. rewrite E1, E2. destruct (F empty_params) as [q| |]; cbn [bind]; try reflexivity.
    destruct (_ =? 0); cbn [bind]; [reflexivity|]. destruct (_ && _); cbn [bind]; [reflexivity|]. destruct corpus; reflexivity.
  Qed.
  Lemma after_bind {A B} (o : outcome A) (f : A -> outcome B) rest d r d' :
    after (let* a := o in f a) rest d r d' <-> match o with Ok a => after (f a) rest d r d' | Throw e => r = Throw e /\ d' = d | UB => r = UB end.
  Proof. destruct o; reflexivity. Qed.

  Lemma bind_assoc {A B C} (o : outcome A) (f : A -> outcome B) (g : B -> outcome C) : (let* b := (let* a := o in f a) in g b) = (let* a := o in let* b := f a in g b).
  Proof. now destruct o. Qed.
  Lemma init_check cfg (F : params T -> outcome (params T)) (i : outcome (bstate (T := T))) e : i = (let* q := F empty_params in Ok (cfg, q)) ->
    e = (let* b := i in let* _ := check_build (fst b) (snd b) in Ok b) -> e = (let* q := F empty_params in let* _ := check_build cfg q in Ok (cfg, q)).
  Proof. intros -> ->. now destruct (F empty_params). Qed.

  Lemma same_parts c d x y h : trains c -> reads args jk c d x y -> asks of_bytes args stol stof uniform_draws document_draws jk c d x y h ->
    listeners args stol = Ok None ->
    exists F cfg St (M : maximizer T St) new k, library_step St M new /\
      started c d x y = (let* q := F empty_params in let* _ := check_build cfg q in Ok (cfg, q)) /\
      (forall r d', run c d r d' <-> after (setup F cfg (corpus_of c x y)) (fun '(q, docs) => train_with to_bytes dfuel args good_device M new k docs (cfg, q) None d r d') d r d') /\
      (forall r, program dfuel ofuel hw h (corpus_of c x y) r <->
         match setup F cfg (corpus_of c x y) with
         | Ok (q, docs) => fit_with dfuel M new k (c_workers cfg) docs (c_iterations cfg) q r
         | Throw e => r = Throw e
         | UB => r = UB
         end).
  Proof.
    intros HC R (n & w & seed & steps & start & E1 & E2 & E3 & CH & BE & ->) LI. destruct (beginning_same _ _ _ _ _ HC BE) as (F & FI & FF). exists F.
    destruct CH as [y ei et l O1 O2 O3|y ei et l f mi mt L O1 O2 O3 O4 O5 O6 O7|y ei et l wt mi mt L O1 O2 O3 O4 O5 O6 O7|y ei et l wt L ba mo lr bw cw O1 O2 O3 O4 O5 O6 O7 O8 O9 O10].
    - set (cfg := mk_config (size n) (size w) EClassic MClassic false false).
      set (s0 := mk_settings (size n) (size w) (Classic (mk_econf (size ei) et l)) (ClassicM (T := T)) false false).
      exists cfg, _, unsupervised_maximizer, empty_mat, (Classic (mk_econf (size ei) et l)). split; [constructor|].
      assert (SB : started LdaTrain d x y = (let* q := F empty_params in let* _ := check_build cfg q in Ok (cfg, q))).
      { cbn [CommandSpec.built]. unfold lda_train, set_counts. rewrite E1; cbn [bind call]. rewrite E2; cbn [bind call]. rewrite O1, O2, O3, E3. cbn [bind call].
        apply (init_check cfg F (init LdaTrain d x y (cfg, empty_params))); [apply FI|]. unfold init. now rewrite bind_assoc. }
      split; [exact SB|]. split.
      + intros r d'. cbn [command_main corpus_of]. unfold lda_train_main. destruct R as [R ->]. rewrite R. cbn [bind]. cbn [CommandSpec.built] in SB. rewrite SB.
        unfold setup, e_options. rewrite O1, O2, O3, LI. cbn [bind]. destruct (F empty_params) as [q| |]; cbn [bind]; try reflexivity. destruct (check_build cfg q); cbn [bind]; reflexivity.
      + intros r. unfold program. replace (SettingsModel.built hw _) with (let* q := F empty_params in finish s0 q).
        2:{ rewrite <- (FF s0 empty_params). reflexivity. }
        rewrite (setup_finish F cfg s0) by reflexivity. reflexivity.
    - set (cfg := mk_config (size n) (size w) ESupervised MSupervised true true).
      set (s0 := mk_settings (size n) (size w) (Slda (mk_econf (size ei) et l) (size f)) (SldaM (size mi) mt L) true true).
      exists cfg, _, (sup_maximizer ofuel (size mi) mt L), new_sup, (Slda (mk_econf (size ei) et l) (size f)). split; [constructor|].
      assert (SB : started SldaTrain d x y = (let* q := F empty_params in let* _ := check_build cfg q in Ok (cfg, q))).
      { cbn [CommandSpec.built]. unfold slda_train, set_counts. rewrite E1; cbn [bind call]. rewrite E2; cbn [bind call]. rewrite O1, O2, O3, O4, O5, O6, O7, E3. cbn [bind call].
        apply (init_check cfg F (init SldaTrain d x y (cfg, empty_params))); [apply FI|]. reflexivity. }
      split; [exact SB|]. split.
      + intros r d'. cbn [command_main corpus_of]. unfold slda_train_main. destruct R as (y0 & R1 & R2). rewrite R1. cbn [bind]. rewrite R2. cbn [bind]. cbn [CommandSpec.built] in SB. rewrite SB.
        unfold setup, e_options. rewrite O1, O2, O3, O4, O5, O6, O7, LI. cbn [bind]. destruct (F empty_params) as [q| |]; cbn [bind]; try reflexivity. destruct (check_build cfg q); cbn [bind]; try reflexivity.
        destruct (labelled_docs (columns x) y); cbn [bind]; reflexivity.
      + intros r. unfold program. replace (SettingsModel.built hw _) with (let* q := F empty_params in finish s0 q).
        2:{ rewrite <- (FF s0 empty_params). reflexivity. }
        rewrite (setup_finish F cfg s0) by reflexivity. reflexivity.
    - set (cfg := mk_config (size n) (size w) EFastSupervised MFastSupervised true true).
      set (s0 := mk_settings (size n) (size w) (FastSupervised (mk_econf (size ei) et l) false wt) (FastM (size mi) mt L) true true).
      exists cfg, _, (fast_maximizer ofuel (size mi) mt L), new_fast, (FastSupervised (mk_econf (size ei) et l) false wt). split; [constructor|].
      assert (SB : started FsldaTrain d x y = (let* q := F empty_params in let* _ := check_build cfg q in Ok (cfg, q))).
      { cbn [CommandSpec.built]. unfold fslda_train, fslda_e_step, set_counts. rewrite E1; cbn [bind call]. rewrite E2; cbn [bind call]. rewrite O1, O2, O3, O4, O5, O6, O7, E3. cbn [bind call].
        apply (init_check cfg F (init FsldaTrain d x y (cfg, empty_params))); [apply FI|]. reflexivity. }
      split; [exact SB|]. split.
      + intros r d'. cbn [command_main corpus_of]. unfold fslda_train_main. destruct R as (y0 & R1 & R2). rewrite R1. cbn [bind]. rewrite R2. cbn [bind]. cbn [CommandSpec.built] in SB. rewrite SB.
        unfold setup, e_options. rewrite O1, O2, O3, O4, O5, O6, O7, LI. cbn [bind]. destruct (F empty_params) as [q| |]; cbn [bind]; try reflexivity. destruct (check_build cfg q); cbn [bind]; try reflexivity.
        destruct (labelled_docs (columns x) y); cbn [bind]; reflexivity.
      + intros r. unfold program. replace (SettingsModel.built hw _) with (let* q := F empty_params in finish s0 q).
        2:{ rewrite <- (FF s0 empty_params). reflexivity. }
        rewrite (setup_finish F cfg s0) by reflexivity. reflexivity.
    - set (cfg := mk_config (size n) (size w) EFastSupervised MFastOnline true true).
      set (s0 := mk_settings (size n) (size w) (FastSupervised (mk_econf (size ei) et l) false wt) (OnlineM (mk_oconf cw L (size ba) mo lr bw)) true true).
      exists cfg, _, (online_maximizer (mk_oconf cw L (size ba) mo lr bw)), new_online, (FastSupervised (mk_econf (size ei) et l) false wt). split; [constructor|].
      assert (SB : started FsldaOnlineTrain d x y = (let* q := F empty_params in let* _ := check_build cfg q in Ok (cfg, q))).
      { cbn [CommandSpec.built]. unfold fslda_online_train, fslda_e_step, set_counts. rewrite E1; cbn [bind call]. rewrite E2; cbn [bind call]. rewrite O1, O2, O3, O4, O5, O6, O7, O8, O9, E3. cbn [bind call].
        apply (init_check cfg F (init FsldaOnlineTrain d x y (cfg, empty_params))); [apply FI|]. reflexivity. }
      split; [exact SB|]. split.
      + intros r d'. cbn [command_main corpus_of]. unfold fslda_online_train_main. destruct R as (y0 & R1 & R2). rewrite R1. cbn [bind]. rewrite R2. cbn [bind]. rewrite O10. cbn [bind]. cbn [CommandSpec.built] in SB. rewrite SB.
        unfold setup, e_options. rewrite O1, O2, O3, O4, O5, O6, O7, O8, O9, LI. cbn [bind]. destruct (F empty_params) as [q| |]; cbn [bind]; try reflexivity. destruct (check_build cfg q); cbn [bind]; try reflexivity.
        destruct (labelled_docs (columns x) y); cbn [bind]; reflexivity.
      + intros r. unfold program. replace (SettingsModel.built hw _) with (let* q := F empty_params in finish s0 q).
        2:{ rewrite <- (FF s0 empty_params). reflexivity. }
        rewrite (setup_finish F cfg s0) by reflexivity. reflexivity.
  Qed.

  (** fit and save_lda, without snapshots *)
  Lemma train_with_exact St (M : maximizer T St) new k docs cfg q K V C path d r d' : library_step St M new -> docs <> [] ->
    has_size K V C q -> storable K V -> storable K C -> args "MODEL"%string = VString path ->
    train_with to_bytes dfuel args good_device M new k docs (cfg, q) None d r d' <->
    exists st p, fit_call dfuel M k (c_workers cfg) docs (c_iterations cfg) (Ok new) (q, 0) st p /\
      match st with
      | Ok _ => r = Ok tt /\ has_size K V C (fst p) /\ exists w, save_lda false (file_of to_bytes (fst p)) = Ok w /\ d' = saved_all d [(bytes path, w)]
      | Throw e => r = Throw e /\ d' = d
      | UB => r = UB
      end.
  Proof.
    intros L HD HS S1 S2 A. unfold train_with. cbn [fst snd]. split.
    - intros (tr & ms & st & p & F & LM & H). apply fit_heard_fit in F. rewrite LM in F. exists st, p. split; [exact F|].
      destruct st as [st|e|]; [|destruct H as (n & ws & E & -> & G); cbn [snapshots] in E; injection E as <-; unfold good_device in G; now subst d'|exact H].
      destruct p as [m ep]. destruct (fit_keeps_size dfuel K V C St M new k _ docs _ _ _ _ _ L (proj1 S1) HD HS F) as [_ HM]. cbn [fst] in *.
      destruct (model_saved to_bytes width jk K V C m HM S1 S2) as (w & E & _).
      cbn [snapshots bind] in H. rewrite A in H. cbn [asString bind] in H. rewrite E in H. cbn [bind after app] in H. destruct H as [-> G]. split; [reflexivity|]. split; [exact HM|]. now exists w.
    - intros (st & p & F & H). destruct (from_heard _ _ _ _ _ _ _ _ _ _ (proj1 (fit_is_from dfuel M k true _ _ _ _ _ _ _) F)) as (tr & ms & FH & LM).
      exists tr, ms, st, p. split; [exact FH|]. split; [exact LM|]. destruct st as [st|e|]; [|exists 0, []; destruct H as [-> ->]; repeat split|exact H].
      destruct H as (-> & _ & w & E & ->). cbn [snapshots bind]. rewrite A. cbn [asString bind]. rewrite E. cbn [bind after app]. split; reflexivity.
  Qed.
  Lemma corpus_nonempty c x y docs : trains c -> 1 <= em_cols x -> corpus_of (T := T) c x y = Ok docs -> docs <> [].
  Proof.
    intros HC N E ->. assert (L : map (d_words (T := T)) [] = columns x).
    { destruct c; try contradiction; cbn [corpus_of] in E; try (exact (proj1 (labelled_documents _ _ _ E))). injection E as E. rewrite <- E. apply unlabelled_documents. }
    apply (f_equal (@List.length _)) in L. rewrite columns_length in L. cbn in L. lia.
  Qed.

  Lemma trained_is_program c d path x y K V C h q n r : trains c -> args "MODEL"%string = VString path -> reads args jk c d x y -> 1 <= em_cols x ->
    starts of_bytes args stol jk c d x y K V C -> storable K V -> storable K C ->
    asks of_bytes args stol stof uniform_draws document_draws jk c d x y h -> args "--quiet"%string = VBool q -> long_arg "--snapshot_every" = Ok n -> (n <= 0)%Z ->
    trained to_bytes of_bytes dfuel ofuel args stol stof uniform_draws document_draws hw jk c d path r <-> program dfuel ofuel hw h (corpus_of c x y) r.
  Proof.
    intros HC A R NE ST S1 S2 AS Q SN HN.
    assert (LI : listeners args stol = Ok None).
    { unfold listeners, snapshot_option. rewrite Q. cbn [asBool bind]. rewrite SN. cbn [bind]. destruct (Z.ltb_spec 0 n); [lia|reflexivity]. }
    destruct (same_parts c d x y h HC R AS LI) as (F & cfg & St & M & new & k & LS & SB & RU & PR). rewrite PR. clear PR.
    unfold trained.
    destruct (setup F cfg (corpus_of c x y)) as [[p docs]|e|] eqn:SE.
    2:{ destruct r as [m|e'|]; split; intros H; try discriminate.
        - destruct H as (d' & H & _). rewrite RU in H. cbn [after] in H. destruct H; discriminate.
        - destruct H as (d' & H). rewrite RU in H. destruct H as [H _]. now injection H as ->.
        - exists d. rewrite RU. injection H as ->. now split.
        - destruct H as (d' & H). rewrite RU in H. cbn [after] in H. destruct H; discriminate. }
    2:{ destruct r as [m|e'|]; split; intros H; try discriminate.
        - destruct H as (d' & H & _). rewrite RU in H. cbn [after] in H. discriminate.
        - destruct H as (d' & H). rewrite RU in H. cbn [after] in H. discriminate.
        - reflexivity.
        - exists d. rewrite RU. reflexivity. }
    unfold setup in SE. destruct (bind_ok _ _ _ SE) as (p' & E1 & SE1). destruct (bind_ok _ _ _ SE1) as ([] & E2 & SE2). destruct (bind_ok _ _ _ SE2) as (docs' & E3 & SE3).
    injection SE3 as -> ->. assert (HD : docs <> []) by exact (corpus_nonempty c x y docs HC NE E3).
    assert (HS : has_size K V C p).
    { apply (built_exact of_bytes args stol stof uniform_draws document_draws hw jk c d x y K V C (cfg, p) HC ST). rewrite SB, E1. cbn [bind]. now rewrite E2. }
    assert (RR : forall r d', run c d r d' <-> exists st p', fit_call dfuel M k (c_workers cfg) docs (c_iterations cfg) (Ok new) (p, 0) st p' /\
      match st with
      | Ok _ => r = Ok tt /\ has_size K V C (fst p') /\ exists w, save_lda false (file_of to_bytes (fst p')) = Ok w /\ d' = saved_all d [(bytes path, w)]
      | Throw e => r = Throw e /\ d' = d
      | UB => r = UB
      end).
    { intros r0 d'. rewrite RU. cbn [after]. exact (train_with_exact St M new k docs cfg p K V C path d r0 d' LS HD HS S1 S2 A). }
    clear RU SE SE1 SE2. unfold fit_with. split.
    - destruct r as [m|e|]; intros H.
      + destruct H as (d' & H & MA). apply RR in H. destruct H as (st & p' & FC & H). exists st, p'. split; [exact FC|].
        destruct st as [st|e|]; [|destruct H; discriminate|discriminate]. destruct H as (_ & HM & w & EW & ->). cbn [bind]. f_equal.
        rewrite (model_found to_bytes of_bytes round width jk K V C (fst p') w _ path jk HM S1 S2 EW) in MA by apply (saved_last []). now injection MA.
      + destruct H as (d' & H). apply RR in H. destruct H as (st & p' & FC & H). exists st, p'. split; [exact FC|].
        destruct st as [st|e0|]; [destruct H; discriminate|destruct H as [H _]; now injection H as <-|discriminate].
      + destruct H as (d' & H). apply RR in H. destruct H as (st & p' & FC & H). exists st, p'. split; [exact FC|].
        destruct st as [st|e0|]; [destruct H; discriminate|destruct H; discriminate|reflexivity].
    - intros (st & p' & FC & ->). destruct st as [st|e|]; cbn [bind].
      + assert (HM : has_size K V C (fst p')) by exact (proj2 (fit_keeps_size dfuel K V C St M new k _ docs _ _ _ _ _ LS (proj1 S1) HD HS FC)).
        destruct (model_saved to_bytes width jk K V C (fst p') HM S1 S2) as (w & EW & _).
        exists (saved_all d [(bytes path, w)]). split; [|apply (model_found to_bytes of_bytes round width jk K V C (fst p') w _ path jk HM S1 S2 EW), (saved_last [])].
        apply RR. exists (Ok st), p'. split; [exact FC|]. split; [reflexivity|]. split; [exact HM|]. now exists w.
      + exists d. apply RR. exists (Throw e), p'. split; [exact FC|]. now split.
      + exists d. apply RR. exists UB, p'. split; [exact FC|reflexivity].
  Qed.

  (** transform *)
  Lemma transformed_is_program (supervised : bool) d x f out m n e t q r :
    (if supervised then exists y, data_xy args jk d = Ok (x, y) else data_x args jk d = Ok x) ->
    args "MODEL"%string = VString f -> model_at d f = Ok m -> args "OUTPUT"%string = VString out ->
    long_arg "--workers" = Ok n -> long_arg "--e_step_iterations" = Ok e -> float_arg "--e_step_tolerance" = Ok t -> args "--quiet"%string = VBool q ->
    storable (mrows (p_beta m)) (em_cols x) ->
    transformed to_bytes of_bytes dfuel args stol stof hw jk supervised d out r <->
    transform_program dfuel hw (transform_calls supervised n e t m) (columns x) r.
  Proof.
    intros D A B A2 E1 E2 E3 E4 (S1 & S2 & S3).
    assert (BU : exists o, SettingsModel.built hw (transform_calls supervised n e t m) = Ok o /\ ob_workers o = size n /\ ob_e o = Classic (mk_econf (size e) t zero) /\
      mrows (p_beta (ob_params o)) = mrows (p_beta m) /\ exists c, transform_setup of_bytes args stol stof hw jk supervised d = Ok (columns x, (c, ob_params o), ob_e o) /\ c_workers c = size n).
    { assert (NZ : (mrows (p_beta m) =? 0) = false) by (apply Nat.eqb_neq; lia).
      exists (mk_object (if supervised then eta_from_model m (topics_from_model m empty_params) else topics_from_model m empty_params) (Classic (mk_econf (size e) t zero)) ClassicM 20 (size n)).
      split; [destruct supervised; unfold SettingsModel.built, configure, transform_calls; cbn [app fold_left bind]; cbn; rewrite NZ, ?andb_false_r; reflexivity|].
      split; [reflexivity|]. split; [reflexivity|]. split; [destruct supervised; reflexivity|].
      exists (mk_config 20 (size n) EClassic MClassic false false). split; [|reflexivity]. unfold transform_setup.
      match goal with |- context [bind ?o _] => replace o with (Ok x) by (destruct supervised; [destruct D as (y & ->); reflexivity|symmetry; exact D]) end. cbn [bind].
      unfold transform_command, transform_builder. rewrite A. cbn [asString bind]. rewrite B. cbn [bind]. rewrite E1, E2, E3. cbn [bind call]. rewrite E4. cbn [asBool].
      destruct supervised; cbn [bind call]; unfold check_build; cbn [fst snd topics_from_model eta_from_model empty_params p_beta p_eta p_alpha]; rewrite NZ; cbn; rewrite ?andb_false_r; reflexivity. }
    destruct BU as (o & BO & W & EO & RO & c & SE & CW). unfold transform_program. rewrite BO. unfold object_transform. rewrite W, EO.
    set (k := Classic (mk_econf (size e) t zero)) in *.
      assert (GG : forall g, transform_call dfuel k 0 (size n) (ob_params o) (columns x) (Ok g) ->
        exists w, save false F8 (emat_of to_bytes g) = Ok w /\ mat_of of_bytes (emat_of to_bytes g) = g /\
          forall j, NumpyModel.load false F8 false false j (mk_stream w true) = Ok (emat_of to_bytes g, mk_stream [] true)).
      { intros g TC. apply transform_unique in TC. symmetry in TC. destruct (gammas_sizes _ _ _ _ _ _ TC) as [G1 G2]. rewrite RO in G1.
        rewrite columns_length in G2.
        assert (TB : tabulated g).
        { unfold gammas, gather in TC. destruct (bind_ok _ _ _ TC) as (cols & _ & TC1). cbn beta in TC1. destruct (forallb _ cols) eqn:FB; [|discriminate]. injection TC1 as <-.
          unfold tabulated. cbn [mrows mcols]. rewrite forallb_forall in FB. apply Forall_forall. intros cc I. now apply Nat.eqb_eq, FB. }
        assert (VM : valid_matrix F8 (emat_of to_bytes g)) by (apply emat_valid; [exact width|lia|lia|rewrite G1, G2; exact S3]).
        destruct (matrix_roundtrip_same F8 (emat_of to_bytes g) false (jk 0) [] ltac:(repeat constructor) VM ltac:(discriminate)) as (w & SV & _).
        exists w. split; [exact SV|]. split; [exact (emat_round to_bytes of_bytes round g TB)|]. intros j.
        destruct (matrix_roundtrip_same F8 (emat_of to_bytes g) false j [] ltac:(repeat constructor) VM ltac:(discriminate)) as (w' & SV' & LD).
        rewrite SV in SV'. injection SV' as <-. now rewrite app_nil_r in LD. }
    assert (RR : forall r d', transform_main to_bytes of_bytes dfuel args stol stof hw jk good_device supervised d r d' <-> exists g, transform_call dfuel k 0 (size n) (ob_params o) (columns x) g /\
      match g with
      | Ok g => r = Ok tt /\ exists w, save false F8 (emat_of to_bytes g) = Ok w /\ d' = saved_all d [(bytes out, w)] /\ mat_of of_bytes (emat_of to_bytes g) = g /\
          forall j, NumpyModel.load false F8 false false j (mk_stream w true) = Ok (emat_of to_bytes g, mk_stream [] true)
      | Throw e => r = Throw e /\ d' = d
      | UB => r = UB
      end).
    { intros r0 d'. unfold transform_main. rewrite SE. cbn [after fst snd]. rewrite CW, EO.
      split; intros (g & TC & H); exists g; (split; [exact TC|]).
      - destruct g as [g|e0|]; cbn [bind after] in H; [|exact H|exact H]. destruct (GG g TC) as (w & SV & MR & LD).
        rewrite A2 in H. cbn [asString bind] in H. rewrite SV in H. cbn [bind after] in H. destruct H as [-> G]. split; [reflexivity|]. now exists w.
      - destruct g as [g|e0|]; cbn [bind after]; [|exact H|exact H]. destruct (GG g TC) as (w & SV & MR & LD). destruct H as (-> & w' & SV' & -> & _).
        rewrite SV in SV'. injection SV' as <-. rewrite A2. cbn [asString bind]. rewrite SV. cbn [bind after]. split; reflexivity. }
    clear BO. unfold transformed. cbv zeta. split.
    - destruct r as [g|e0|]; intros H.
      + destruct H as (d' & w & a & H & DW & <- & LD). apply RR in H. destruct H as (g & TC & H). destruct g as [g|e0|]; [|destruct H; discriminate|discriminate].
        destruct H as (_ & w' & _ & -> & MR & LD'). change (saved_all d [(bytes out, w')] (bytes out)) with (saved_all d ([] ++ [(bytes out, w')]) (bytes out)) in DW. rewrite saved_last in DW. injection DW as <-.
        specialize (LD (jk 0)). rewrite LD' in LD. injection LD as <-. now rewrite MR.
      + destruct H as (d' & H). apply RR in H. destruct H as (g & TC & H). destruct g as [g|e1|]; [destruct H; discriminate|destruct H as [H _]; now injection H as ->|discriminate].
      + destruct H as (d' & H). apply RR in H. destruct H as (g & TC & H). destruct g as [g|e1|]; [destruct H; discriminate|destruct H; discriminate|exact TC].
    - intros TC. destruct r as [g|e0|].
      + destruct (GG g TC) as (w & SV & MR & LD). exists (saved_all d [(bytes out, w)]), w, (emat_of to_bytes g). split; [|split; [apply (saved_last [])|split; [exact MR|exact LD]]].
        apply RR. exists (Ok g). split; [exact TC|]. split; [reflexivity|]. exists w. auto.
      + exists d. apply RR. exists (Throw e0). split; [exact TC|]. now split.
      + exists d. apply RR. exists UB. split; [exact TC|reflexivity].
  Qed.
End Program.
