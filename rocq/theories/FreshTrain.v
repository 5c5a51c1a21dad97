(** lda train from scratch and lda transform in double precision. *)
Require Import Reals ZArith List Bool Arith Lia Lra String.
From Flocq Require Import Core.Core IEEE754.BinarySingleNaN.
Require Import Verif.Base Verif.Scalar Verif.Mat Verif.NumpyModel Verif.HostModel Verif.HostProofs Verif.DiskModel Verif.UtilsModel Verif.BuilderModel Verif.EStepModel Verif.EStepStop Verif.OptModel
  Verif.MStepModel Verif.MStepSpec Verif.PoolModel Verif.LdaModel Verif.TrainSizes Verif.AppsModel Verif.AppsSpec Verif.AppsProofs Verif.ShapeSpec Verif.ShapeProofs Verif.CommandModel Verif.CommandSpec
  Verif.CommandProofs Verif.CommandFiles Verif.OwnerSpec Verif.OwnerFit.
Require Import Verif.TrainFit Verif.DoubleSpec Verif.DoubleTrainSpec Verif.DoubleArith Verif.DoubleUtils Verif.DoubleProofs Verif.DoubleTrain Verif.FreshSpec Verif.FreshProofs.
Import ListNotations.
Local Open Scope nat_scope.
Local Open Scope list_scope.
Local Notation length := List.length.

Lemma seqM_all {A B} (f : A -> outcome B) l : Forall (fun a => exists b, f a = Ok b) l -> exists r, seqM (map f l) = Ok r.
Proof.
  induction 1 as [|a l (b & E) _ (r & IH)]; [now exists []|]. exists (b :: r). cbn. rewrite E. cbn. now rewrite IH.
Qed.

(** Each model an epoch leaves is one of fit. *)
Lemma heard_models {T} {O : ops T} dfuel {St} (M : maximizer T St) k W docs st p tr ms st' p' :
  fit_heard dfuel M k W docs st p tr ms st' p' -> Forall (fun m => exists n st'' ep, fit_call dfuel M k W docs n st p st'' (m, ep)) ms.
Proof.
  induction 1 as [|st p docs' s tr ms st' p' Hp Hr Hm _ IH]; constructor.
  - exists 1, (priv s), (snd (param s)). econstructor; [|rewrite <- surjective_pairing; constructor]. exists docs', true, s. auto.
  - eapply Forall_impl; [|exact IH]. intros m (n & st'' & ep & F). exists (S n), st'', ep. econstructor; [|exact F]. exists docs', true, s. auto.
Qed.

Section Save.
  Context {T : Type} {O : ops T}.
  Variable to_bytes : T -> elem.
  Variable of_bytes : elem -> T.
  Hypothesis round : forall x, of_bytes (to_bytes x) = x.
  Hypothesis width : forall x, List.length (to_bytes x) = 8.
  Variable dfuel : nat.
  Variable args : string -> value.
  Variable jk : nat -> junk.

  Definition usual_listener (listener : option snap) (n : nat) : Prop :=
    listener = None \/ exists path N, listener = Some (new_snap path (Z.of_nat N)) /\ 0 < N /\ (Z.of_nat N < 2 ^ 31)%Z /\ (Z.of_nat n < 2 ^ 31)%Z.

  Lemma snapshots_saved K V C listener St (M : maximizer T St) k W docs st p tr ms st' p' : storable K V -> storable K C -> usual_listener listener (length ms) ->
    fit_heard dfuel M k W docs st p tr ms st' p' -> Forall (has_size K V C) ms -> exists ws, snapshots to_bytes listener tr = Ok ws.
  Proof.
    intros S1 S2 [->|(path & N & -> & HN & HN31 & HL)] F HM; [now exists []|].
    destruct (snapshots_ok dfuel M k W docs st p tr ms st' p' path N F HN HN31 HL) as (l & files & E & (_ & SF) & _).
    cbn [snapshots]. rewrite E. cbn [bind]. apply seqM_all. apply Forall_forall. intros [name m] I. cbn [fst snd].
    apply In_nth_error in I. destruct I as (j & Hj). destruct (SF j name m Hj) as [Hm _]. apply nth_error_In in Hm. rewrite Forall_forall in HM.
    destruct (model_saved to_bytes width jk K V C m (HM m Hm) S1 S2) as (w & -> & _). cbn. now exists (name, w).
  Qed.

  (** A training all of whose fits end normally. *)
  Lemma train_with_ends St (M : maximizer T St) new k docs b listener K V C path d : library_step St M new -> docs <> [] ->
    has_size K V C (snd b) -> storable K V -> storable K C -> args "MODEL"%string = VString path -> usual_listener listener (c_iterations (fst b)) ->
    (forall st p, fit_call dfuel M k (c_workers (fst b)) docs (c_iterations (fst b)) (Ok new) (snd b, 0) st p -> exists s, st = Ok s) ->
    (forall r d', train_with to_bytes dfuel args good_device M new k docs b listener d r d' ->
      r = Ok tt /\ exists s m ep, fit_call dfuel M k (c_workers (fst b)) docs (c_iterations (fst b)) (Ok new) (snd b, 0) (Ok s) (m, ep) /\
        has_size K V C m /\ forall jk', CommandModel.model_at of_bytes jk' d' path = Ok m) /\
    ((exists st p, fit_call dfuel M k (c_workers (fst b)) docs (c_iterations (fst b)) (Ok new) (snd b, 0) st p) ->
      exists d', train_with to_bytes dfuel args good_device M new k docs b listener d (Ok tt) d').
  Proof.
    intros L HD HS S1 S2 A UL HF.
    assert (G : forall tr ms st p, fit_heard dfuel M k (c_workers (fst b)) docs (Ok new) (snd b, 0) tr ms st p -> length ms = c_iterations (fst b) ->
      exists s ws w, st = Ok s /\ snapshots to_bytes listener tr = Ok ws /\ save_lda false (file_of to_bytes (fst p)) = Ok w /\ has_size K V C (fst p)).
    { intros tr ms st p FH LM. pose proof (fit_heard_fit _ _ _ _ _ _ _ _ _ _ _ FH) as F. rewrite LM in F. destruct (HF st p F) as (s & ->).
      destruct (fit_keeps_size dfuel K V C St M new k _ docs _ _ _ _ _ L (proj1 S1) HD HS F) as [_ HM].
      destruct (snapshots_saved K V C listener St M k _ docs _ _ tr ms _ p S1 S2 ltac:(now rewrite LM) FH) as (ws & E).
      { eapply Forall_impl; [|exact (heard_models _ _ _ _ _ _ _ _ _ _ _ FH)]. intros m (n & st'' & ep & Fn). exact (proj2 (fit_keeps_size dfuel K V C St M new k _ docs _ _ _ _ _ L (proj1 S1) HD HS Fn)). }
      destruct (model_saved to_bytes width jk K V C (fst p) HM S1 S2) as (w & Ew & _). exists s, ws, w. auto. }
    split.
    - intros r d' (tr & ms & st & p & FH & LM & H). destruct (G tr ms st p FH LM) as (s & ws & w & -> & E & Ew & HM). rewrite E in H. cbn [bind] in H. rewrite A in H. cbn [asString bind] in H. rewrite Ew in H.
      cbn [bind after] in H. destruct H as [-> H]. split; [reflexivity|]. destruct p as [m ep]. cbn [fst] in *. pose proof (fit_heard_fit _ _ _ _ _ _ _ _ _ _ _ FH) as F. rewrite LM in F. exists s, m, ep. split; [exact F|]. split; [exact HM|].
      intros jk'. apply (model_found to_bytes of_bytes round width jk K V C m w d' path jk' HM S1 S2 Ew). unfold good_device in H. subst d'. apply saved_last.
    - intros (st & p & F). destruct (from_heard _ _ _ _ _ _ _ _ _ _ (proj1 (fit_is_from dfuel M k true _ _ _ _ _ _ _) F)) as (tr & ms & FH & LM).
      destruct (G tr ms st p FH LM) as (s & ws & w & -> & E & Ew & _). eexists. exists tr, ms, (Ok s), p. split; [exact FH|]. split; [exact LM|].
      rewrite E. cbn [bind]. rewrite A. cbn [asString bind]. rewrite Ew. cbn [bind after]. split; reflexivity.
  Qed.
End Save.

Section Command.
  Variables (lg ex lga : double -> double) (sum : list double -> double).
  Local Hint Extern 0 (ops _) => exact (DO lg ex lga sum) : typeclass_instances.
  Hypothesis Hlg : rough_log lg.
  Hypothesis Hex : rough_exp ex.
  Hypothesis Hsum : forall l, summed l (sum l).
  Variable ofuel : nat.
  Variable args : string -> value.
  Variable stol : string -> outcome Z.
  Variable stof : string -> outcome double.
  Variable uniform_draws : Z -> nat -> nat -> double.
  Variable document_draws : Z -> nat -> nat -> nat.
  Variable hw : nat.
  Variable jk : nat -> junk.
  Notation first_model := (first_model lg ex lga sum).

  Lemma lda_built path x K iterations workers at_model : plain_corpus (columns x) (em_rows x) -> fresh_options args stol stof uniform_draws path K (em_rows x) iterations workers ->
    exists cfg q, lda_train args stol stof at_model uniform_draws document_draws hw (em_rows x) (columns x) = Ok (cfg, q) /\
      c_iterations cfg = iterations /\ c_workers cfg = workers /\ first_model K (em_rows x) q /\ has_size K (em_rows x) 1 q.
  Proof.
    intros PC FO. pose proof (some_word _ _ PC) as V0.
    destruct (fo_topics _ _ _ _ _ _ _ _ _ FO) as (k & Ek & EK). destruct (fo_start _ _ _ _ _ _ _ _ _ FO) as (r & seed & Er & Es & Ud).
    destruct (fo_iterations _ _ _ _ _ _ _ _ _ FO) as (ni & En & EI). destruct (fo_workers _ _ _ _ _ _ _ _ _ FO) as (nw & Ew & EW).
    destruct (fo_e_step _ _ _ _ _ _ _ _ _ FO) as (ei & et & l & E1 & E2 & E3). pose proof (fo_few _ _ _ _ _ _ _ _ _ FO) as HK. pose proof (fo_continue _ _ _ _ _ _ _ _ _ FO) as EC.
    unfold lda_train, set_counts. rewrite En. cbn [bind call]. rewrite Ew. cbn [bind call]. rewrite E1. cbn [bind]. rewrite E2. cbn [bind]. rewrite E3. cbn [bind]. rewrite Es. cbn [bind call]. rewrite EC. cbn [given].
    unfold fresh_topics. rewrite Er. cbn [asBool bind]. rewrite Ek. cbn [bind]. rewrite Es. cbn [bind]. rewrite <- EK.
    assert (Z : forall cfg q, c_iterations cfg = iterations -> c_workers cfg = workers -> first_model K (em_rows x) q -> exact_size K (em_rows x) (p_beta q) ->
      exists cfg' q', (let* b := call (cfg, q) (EtaZeros 1) in let* _ := check_build (fst b) (snd b) in Ok b) = Ok (cfg', q') /\
        c_iterations cfg' = iterations /\ c_workers cfg' = workers /\ first_model K (em_rows x) q' /\ has_size K (em_rows x) 1 q').
    { intros cfg q CI CW (F1 & F2 & F3 & F4 & F5) ES. cbn [call]. unfold eta_zeros. rewrite F2. destruct (Nat.eqb_spec K 0) as [|_]; [lia|]. cbn [bind]. unfold check_build. cbn [fst snd p_beta p_eta mtab mrows]. rewrite F2.
      destruct (Nat.eqb_spec K 0) as [|_]; [lia|]. cbn [andb bind]. eexists _, _. split; [reflexivity|]. split; [exact CI|]. split; [exact CW|]. split; [exact (conj F1 (conj F2 (conj F3 (conj F4 F5))))|].
      split; [cbn [p_alpha]; rewrite F1; apply vtab_length|]. split; [exact ES|]. apply exact_tab. }
    destruct r.
    - cbn [call bind]. apply Z; [symmetry; exact EI|symmetry; exact EW|apply random_first; auto; apply (pc_words _ _ PC)|]. unfold topics_random. cbn [p_beta]. unfold normalize_rows. apply exact_tab'; [reflexivity|unfold ncols, mtab; cbn; apply vtab_length].
    - cbn [call bind]. destruct (seeded_first lg ex lga sum Hsum (columns x) (em_rows x) K 30 (document_draws seed) empty_params PC ltac:(lia)) as (q & Eq & Fq & _).
      rewrite Eq. cbn [bind]. apply Z; [symmetry; exact EI|symmetry; exact EW|exact Fq|]. apply (seeded_exact (columns x) K 30 (document_draws seed) empty_params q (em_rows x) Eq (columns_rows x)).
  Qed.

  Lemma listener_usual path K V iterations workers : fresh_options args stol stof uniform_draws path K V iterations workers ->
    exists l, listeners args stol = Ok l /\ usual_listener l iterations.
  Proof.
    intros FO. destruct (fo_quiet _ _ _ _ _ _ _ _ _ FO) as (q & Eq). destruct (fo_snapshots _ _ _ _ _ _ _ _ _ FO) as (n & En & Hn). pose proof (fo_model _ _ _ _ _ _ _ _ _ FO) as EM.
    unfold listeners, snapshot_option. rewrite Eq. cbn [asBool bind]. rewrite En. cbn [bind]. destruct (Z.ltb_spec 0 n) as [P|P].
    - destruct Hn as [Hn|[H1 H2]]; [lia|]. rewrite EM. cbn [asString bind]. eexists. split; [reflexivity|]. right. exists (bytes path), (Z.to_nat n).
      rewrite Z2Nat.id by lia. rewrite NumpyProofs.wrap32_small by lia. repeat split; lia.
    - eexists. split; [reflexivity|]. now left.
  Qed.

  Lemma fresh_train d path x K iterations workers : data_x args jk d = Ok x -> plain_corpus (columns x) (em_rows x) ->
    fresh_options args stol stof uniform_draws path K (em_rows x) iterations workers -> storable K (em_rows x) ->
    let run := command_main double_bytes double_of 7 ofuel args stol stof uniform_draws document_draws hw jk good_device LdaTrain d in
    (forall r d', run r d' -> r = Ok tt /\ exists m, (forall jk', model_at double_of jk' d' path = Ok m) /\ sound_model K (em_rows x) m /\ double_corpus (map unlabelled (columns x)) m) /\
    (0 < workers -> exists d', run (Ok tt) d').
  Proof.
    intros D PC FO S1 run. pose proof (fo_few _ _ _ _ _ _ _ _ _ FO) as HK. pose proof (fo_model _ _ _ _ _ _ _ _ _ FO) as EM.
    destruct (lda_built path x K iterations workers (model_at double_of jk d) PC FO) as (cfg & q & EB & CI & CW & FM & HS).
    destruct (listener_usual path K _ _ _ FO) as (l & El & Ul). destruct (fo_e_step _ _ _ _ _ _ _ _ _ FO) as (ei & et & li & E1 & E2 & E3).
    set (docs := map (unlabelled (T := double)) (columns x)). set (cf := mk_econf (size ei) et li).
    assert (ED : map d_words docs = columns x) by (apply (unlabelled_documents (columns x))).
    assert (HD : docs <> []). { intros E. rewrite E in ED. cbn in ED. destruct (pc_documents _ _ PC) as [A _]. rewrite <- ED in A. cbn in A. lia. }
    assert (DC : double_corpus docs q) by (exact (first_corpus lg ex lga sum K (em_rows x) (columns x) docs q HK PC ED FM)).
    assert (S2 : storable K 1) by (unfold storable; split; [lia|]; split; [lia|]; apply Z.le_lt_trans with 300%Z; lia).
    assert (RE : forall r d', run r d' <-> train_with double_bytes 7 args good_device unsupervised_maximizer empty_mat (Classic cf) docs (cfg, q) l d r d').
    { intros r d'. unfold run, command_main, lda_train_main. rewrite D. cbn [bind]. rewrite EB. cbn [bind]. unfold e_options. rewrite E1. cbn [bind]. rewrite E2. cbn [bind]. rewrite E3. cbn [bind]. rewrite El. cbn [bind after]. reflexivity. }
    assert (HF : forall st p, fit_call 7 unsupervised_maximizer (Classic cf) (c_workers cfg) docs (c_iterations cfg) (Ok empty_mat) (q, 0) st p -> exists s, st = Ok s).
    { intros st p F. exact (proj1 (fit_double_empty lg ex lga sum Hlg Hex Hsum cf docs _ _ q 0 st p DC F)). }
    destruct (train_with_ends double_bytes double_of double_round double_bytes_length 7 args jk _ unsupervised_maximizer empty_mat (Classic cf) docs (cfg, q) l K (em_rows x) 1 path d
      (lib_unsupervised) HD HS S1 S2 EM) as [A B].
    { cbn [fst]. rewrite CI. exact Ul. }
    { exact HF. }
    split.
    - intros r d' H. apply RE in H. destruct (A r d' H) as (-> & s & m & ep & F & HM & MA). split; [reflexivity|]. exists m. split; [exact MA|].
      destruct (fit_double_empty lg ex lga sum Hlg Hex Hsum cf docs _ _ q 0 _ _ DC F) as (_ & _ & PA & _ & R1 & R2 & DC' & DT). cbn [fst] in *.
      destruct FM as (F1 & F2 & F3 & F4 & _). split; [|exact DC']. split; [congruence|]. split; [congruence|]. split; [congruence|].
      cbn [fst] in DT. destruct (Nat.eq_dec (c_iterations cfg) 0) as [Z|Z]; [|apply DT; lia]. rewrite Z in F. inversion F; subst. exact F4.
    - intros HW. destruct B as (d' & T).
      { cbn [fst snd]. rewrite CW. destruct (@fit_returns double (DO lg ex lga sum) 7 K (em_rows x) 0 _ _ _ _ _ _ (Classic cf) workers docs (c_iterations cfg) (@step_unsupervised double (DO lg ex lga sum) K (em_rows x) 0) HW (Ok empty_mat) (q, 0)) as (st & p & F). eauto. }
      exists d'. apply RE. exact T.
  Qed.

  (** *** transform afterwards *)
  Lemma known_input X V (m : params double) words : double_corpus (map unlabelled X) m -> X <> [] -> ncols (p_beta m) = V -> known_document X V words -> double_input (/ 300) words m.
  Proof.
    intros DC HX EV (L & C & S & KN). destruct X as [|x0 X]; [congruence|]. pose proof (dc_input _ _ DC (unlabelled x0) (or_introl eq_refl)) as DI.
    constructor; try apply DI; try assumption; [now rewrite L, EV|]. intros n Hn N. destruct (KN n N) as (y & Hy & Ny).
    pose proof (dc_input _ _ DC (unlabelled y) (in_map _ _ _ Hy)) as DY. exact (di_supported _ _ _ DY n Hn Ny).
  Qed.

  Lemma fresh_transform d x' path out m K V X n e t q : double_corpus (map unlabelled X) m -> X <> [] -> mrows (p_beta m) = K -> ncols (p_beta m) = V ->
    data_x args jk d = Ok x' -> Forall (known_document X V) (columns x') -> storable K (em_cols x') ->
    args "MODEL"%string = VString path -> model_at double_of jk d path = Ok m -> args "OUTPUT"%string = VString out ->
    long_arg args stol "--workers" = Ok n -> long_arg args stol "--e_step_iterations" = Ok e -> float_arg args stof "--e_step_tolerance" = Ok t -> asBool (args "--quiet"%string) = Ok q ->
    let run := command_main double_bytes double_of 7 ofuel args stol stof uniform_draws document_draws hw jk good_device LdaTransform d in
    (forall r d', run r d' -> r = Ok tt /\ exists w a gs, d' (bytes out) = Some w /\ (forall j, NumpyModel.load false F8 false false j (mk_stream w true) = Ok (a, mk_stream [] true)) /\
      mat_of double_of a = mk_mat K gs /\ Forall2 (fun words g => exists phi, double_posterior words m g phi) (columns x') gs) /\
    (0 < size n -> exists d', run (Ok tt) d').
  Proof.
    intros DC HX EK EV D KD S A1 MA A2 E1 E2 E3 E4 run.
    assert (G : exists gs, Forall2 (inferred 7 (size e) t m) (columns x') gs /\ Forall2 (fun words g => exists phi, double_posterior words m g phi) (columns x') gs).
    { clear - DC HX EV KD Hlg Hex Hsum. induction KD as [|words l KW _ (gs & I1 & I2)]; [exists []; split; constructor|].
      destruct (unsupervised_double lg ex lga sum Hlg Hex Hsum words m (known_input X V m words DC HX EV KW) (mk_econf (size e) t zero) false (unlabelled words) eq_refl) as (gamma & phi & ev & E & DP & _).
      exists (gamma :: gs). split; constructor; try assumption; [|now exists phi]. exists (mk_vparams gamma phi []). split; [|reflexivity].
      destruct (unsupervised_double lg ex lga sum Hlg Hex Hsum words m (known_input X V m words DC HX EV KW) (mk_econf (size e) t zero) true (unlabelled words) eq_refl) as (g1 & p1 & ev1 & E1 & _ & _).
      unfold posterior, doc_e_step. cbn [fst]. rewrite E, E1. reflexivity. }
    destruct G as (gs & I1 & I2).
    destruct (transform_writes double_bytes double_of double_round double_bytes_length 7 args stol stof hw jk false d x' path out m n e t q gs D A1 MA A2 E1 E2 E3 E4 ltac:(now rewrite EK) I1) as [P Q].
    split; [|exact Q]. intros r d' H. destruct (P r d' H) as (-> & _ & w & a & W & M & L). split; [reflexivity|]. exists w, a, gs. rewrite EK in M. auto.
  Qed.
End Command.

Section Both.
  Variables (lg ex lga : double -> double) (sum : list double -> double).
  Local Hint Extern 0 (ops _) => exact (DO lg ex lga sum) : typeclass_instances.
  Hypothesis Hlg : rough_log lg.
  Hypothesis Hex : rough_exp ex.
  Hypothesis Hsum : forall l, summed l (sum l).
  Lemma fresh_then_transform ofuel args stol stof uniform_draws document_draws hw jk d r d' path x K iterations workers args2 stol2 stof2 hw2 jk2 d2 x2 out n e t q :
    data_x args jk d = Ok x -> plain_corpus (columns x) (em_rows x) -> fresh_options args stol stof uniform_draws path K (em_rows x) iterations workers -> storable K (em_rows x) ->
    command_main double_bytes double_of 7 ofuel args stol stof uniform_draws document_draws hw jk good_device LdaTrain d r d' ->
    d2 (bytes path) = d' (bytes path) -> data_x args2 jk2 d2 = Ok x2 -> Forall (known_document (columns x) (em_rows x)) (columns x2) -> storable K (em_cols x2) ->
    args2 "MODEL"%string = VString path -> args2 "OUTPUT"%string = VString out ->
    long_arg args2 stol2 "--workers" = Ok n -> long_arg args2 stol2 "--e_step_iterations" = Ok e -> float_arg args2 stof2 "--e_step_tolerance" = Ok t -> asBool (args2 "--quiet"%string) = Ok q ->
    exists m, model_at double_of jk2 d' path = Ok m /\
    let run := command_main double_bytes double_of 7 ofuel args2 stol2 stof2 uniform_draws document_draws hw2 jk2 good_device LdaTransform d2 in
    (forall r2 d3, run r2 d3 -> r2 = Ok tt /\ exists w a gs, d3 (bytes out) = Some w /\ (forall j, NumpyModel.load false F8 false false j (mk_stream w true) = Ok (a, mk_stream [] true)) /\
      mat_of double_of a = mk_mat K gs /\ Forall2 (fun words g => exists phi, double_posterior words m g phi) (columns x2) gs) /\
    (0 < size n -> exists d3, run (Ok tt) d3).
  Proof.
    intros D PC FO S R ED D2 KD S2 A1 A2 E1 E2 E3 E4.
    destruct (fresh_train lg ex lga sum Hlg Hex Hsum ofuel args stol stof uniform_draws document_draws hw jk d path x K iterations workers D PC FO S) as [P _].
    destruct (P r d' R) as (_ & m & MA & (_ & M2 & M3 & _) & DC). exists m. split; [apply MA|].
    assert (HX : columns x <> []) by (intros E; destruct (pc_documents _ _ PC) as [L _]; rewrite E in L; cbn in L; lia).
    assert (MD : model_at double_of jk2 d2 path = Ok m) by (rewrite <- (MA jk2); unfold model_at, open_in; now rewrite ED).
    exact (fresh_transform lg ex lga sum Hlg Hex Hsum ofuel args2 stol2 stof2 uniform_draws document_draws hw2 jk2 d2 x2 path out m K (em_rows x) (columns x) n e t q DC HX M2 M3 D2 KD S2 A1 MD A2 E1 E2 E3 E4).
  Qed.
End Both.
