(** lda train with snapshots, and continued, in double precision. *)
Require Import Reals ZArith List Bool Arith Lia Lra Ascii String.
From Flocq Require Import Core.Core IEEE754.BinarySingleNaN.
Require Import Verif.Base Verif.Scalar Verif.Mat Verif.NumpyModel Verif.NumpySpec Verif.HostModel Verif.HostProofs Verif.DiskModel Verif.UtilsModel Verif.BuilderModel Verif.EStepModel Verif.EStepStop Verif.OptModel
  Verif.MStepModel Verif.MStepSpec Verif.PoolModel Verif.LdaModel Verif.TrainSizes Verif.AppsModel Verif.AppsSpec Verif.AppsProofs Verif.ShapeSpec Verif.ShapeProofs Verif.CommandModel Verif.CommandSpec
  Verif.CommandProofs Verif.CommandFiles Verif.SnapshotProofs.
Require Import Verif.TrainFit Verif.DoubleSpec Verif.DoubleTrainSpec Verif.DoubleArith Verif.DoubleUtils Verif.DoubleProofs Verif.DoubleTrain Verif.FreshSpec Verif.FreshProofs Verif.FreshTrain Verif.MoreSpec.
Import ListNotations.
Local Open Scope nat_scope.
Local Open Scope list_scope.
Local Notation length := List.length.

Section More.
  Variables (lg ex lga : double -> double) (sum : list double -> double).
  Local Hint Extern 0 (ops _) => exact (DO lg ex lga sum) : typeclass_instances.
  Hypothesis Hlg : rough_log lg.
  Hypothesis Hex : rough_exp ex.
  Hypothesis Hsum : forall l, summed l (sum l).
  Variable ofuel : nat.
  Variable args : string -> value.
  Variable stol : string -> outcome Z.
  Variable stof : string -> outcome double.
  Variable uniform_draws : Z -> nat -> nat -> double.
  Variable document_draws : Z -> nat -> nat -> nat.
  Variable hw : nat.
  Variable jk : nat -> junk.
  Notation run c d := (command_main double_bytes double_of 7 ofuel args stol stof uniform_draws document_draws hw jk good_device c d).

  (** The training of an object with a usable model *)
  Lemma lda_trained d path x K cfg q l ei et li : data_x args jk d = Ok x -> columns x <> [] ->
    lda_train args stol stof (model_at double_of jk d) uniform_draws document_draws hw (em_rows x) (columns x) = Ok (cfg, q) ->
    has_size K (em_rows x) 1 q -> sound_model K (em_rows x) q -> double_corpus (map unlabelled (columns x)) q -> storable K (em_rows x) ->
    args "MODEL"%string = VString path -> listeners args stol = Ok l -> usual_listener l (c_iterations cfg) ->
    long_arg args stol "--e_step_iterations" = Ok ei -> float_arg args stof "--e_step_tolerance" = Ok et -> float_arg args stof "--compute_likelihood" = Ok li ->
    (forall r d', run LdaTrain d r d' -> r = Ok tt /\ exists m, (forall jk', model_at double_of jk' d' path = Ok m) /\ sound_model K (em_rows x) m /\ double_corpus (map unlabelled (columns x)) m) /\
    (forall r d' N, run LdaTrain d r d' -> l = Some (new_snap (bytes path) (Z.of_nat N)) -> 0 < N -> (Z.of_nat N < 2 ^ 31)%Z -> (Z.of_nat (c_iterations cfg) < 2 ^ 31)%Z ->
      forall e, 1 <= e <= c_iterations cfg -> e mod N = 0 -> exists file digits m, bytes file = bytes path ++ text "_" ++ digits /\ is_numeral digits (Z.of_nat e) /\
        (forall jk', model_at double_of jk' d' file = Ok m) /\ sound_model K (em_rows x) m /\ double_corpus (map unlabelled (columns x)) m) /\
    (0 < c_workers cfg -> exists d', run LdaTrain d (Ok tt) d').
  Proof.
    intros D HX EB HS SM DC S1 EM El Ul E1 E2 E3. set (docs := map (unlabelled (T := double)) (columns x)) in *. set (cf := mk_econf (size ei) et li).
    assert (HD : docs <> []) by (unfold docs; destruct (columns x); [congruence|discriminate]).
    assert (S2 : storable K 1) by (destruct S1 as (A & B & C); unfold storable; split; [lia|]; split; [lia|]; nia).
    assert (RE : forall r d', run LdaTrain d r d' <-> train_with double_bytes 7 args good_device unsupervised_maximizer empty_mat (Classic cf) docs (cfg, q) l d r d').
    { intros r d'. unfold command_main, lda_train_main. rewrite D. cbn [bind]. rewrite EB. cbn [bind]. unfold e_options. rewrite E1. cbn [bind]. rewrite E2. cbn [bind]. rewrite E3. cbn [bind]. rewrite El. cbn [bind after]. reflexivity. }
    assert (HF : forall st p, fit_call 7 unsupervised_maximizer (Classic cf) (c_workers cfg) docs (c_iterations cfg) (Ok empty_mat) (q, 0) st p -> exists s, st = Ok s).
    { intros st p F. exact (proj1 (fit_double_empty lg ex lga sum Hlg Hex Hsum cf docs _ _ q 0 st p DC F)). }
    assert (GM : forall n st m ep, fit_call 7 unsupervised_maximizer (Classic cf) (c_workers cfg) docs n (Ok empty_mat) (q, 0) st (m, ep) -> sound_model K (em_rows x) m /\ double_corpus docs m).
    { intros n st m ep F. destruct (fit_double_empty lg ex lga sum Hlg Hex Hsum cf docs _ _ q 0 _ _ DC F) as (_ & _ & PA & _ & R1 & R2 & DC' & DT). cbn [fst] in *.
      destruct SM as (F1 & F2 & F3 & F4). split; [|exact DC']. split; [congruence|]. split; [congruence|]. split; [congruence|].
      destruct (Nat.eq_dec n 0) as [Z|Z]; [|apply DT; lia]. rewrite Z in F. inversion F; subst. exact F4. }
    destruct (train_with_ends double_bytes double_of double_round double_bytes_length 7 args jk _ unsupervised_maximizer empty_mat (Classic cf) docs (cfg, q) l K (em_rows x) 1 path d
      (lib_unsupervised) HD HS S1 S2 EM Ul HF) as [A B].
    split; [|split].
    - intros r d' H. apply RE in H. destruct (A r d' H) as (-> & s & m & ep & F & HM & MA). split; [reflexivity|]. exists m. split; [exact MA|]. exact (GM _ _ _ _ F).
    - intros r d' N H -> HN HN31 HI e He Hm. apply RE in H. destruct (A r d' H) as (-> & _).
      destruct (train_snapshots double_bytes double_of double_round double_bytes_length 7 args jk _ unsupervised_maximizer empty_mat (Classic cf) docs (cfg, q) K (em_rows x) 1 path N d d'
        (lib_unsupervised) HD HS S1 S2 EM HN HN31 HI H) as (st & m & ep & _ & _ & SN & _).
      destruct (SN e He Hm) as (file & digits & st_e & m_e & ep_e & B1 & B2 & B3 & B4 & _). exists file, digits, m_e. split; [exact B1|]. split; [exact B2|]. split; [exact B3|]. exact (GM _ _ _ _ B4).
    - intros HW. destruct B as (d' & T).
      { cbn [fst snd]. destruct (@fit_returns double (DO lg ex lga sum) 7 K (em_rows x) 0 _ _ _ _ _ _ (Classic cf) (c_workers cfg) docs (c_iterations cfg) (@step_unsupervised double (DO lg ex lga sum) K (em_rows x) 0) HW (Ok empty_mat) (q, 0)) as (st & p & F). eauto. }
      exists d'. apply RE. exact T.
  Qed.

  (** *** Snapshots of a training from scratch *)
  Lemma fresh_snapshots d path x K iterations workers N r d' : data_x args jk d = Ok x -> plain_corpus (columns x) (em_rows x) ->
    fresh_options args stol stof uniform_draws path K (em_rows x) iterations workers -> storable K (em_rows x) ->
    long_arg args stol "--snapshot_every" = Ok (Z.of_nat N) -> 0 < N -> run LdaTrain d r d' ->
    forall e, 1 <= e <= iterations -> e mod N = 0 -> exists file digits m, bytes file = bytes path ++ text "_" ++ digits /\ is_numeral digits (Z.of_nat e) /\
      (forall jk', model_at double_of jk' d' file = Ok m) /\ sound_model K (em_rows x) m /\ double_corpus (map unlabelled (columns x)) m.
  Proof.
    intros D PC FO S1 EN HN H e He Hm. pose proof (fo_few _ _ _ _ _ _ _ _ _ FO) as HK. pose proof (fo_model _ _ _ _ _ _ _ _ _ FO) as EM.
    destruct (lda_built lg ex lga sum Hsum args stol stof uniform_draws document_draws hw path x K iterations workers (model_at double_of jk d) PC FO) as (cfg & q & EB & CI & CW & FM & HS).
    destruct (listener_usual args stol stof uniform_draws path K _ _ _ FO) as (l & El & Ul). destruct (fo_e_step _ _ _ _ _ _ _ _ _ FO) as (ei & et & li & E1 & E2 & E3).
    assert (HX : columns x <> []) by (intros E; destruct (pc_documents _ _ PC) as [L _]; rewrite E in L; cbn in L; lia).
    assert (DC : double_corpus (map unlabelled (columns x)) q) by (exact (first_corpus lg ex lga sum K (em_rows x) (columns x) _ q HK PC (proj1 (unlabelled_documents (columns x))) FM)).
    assert (SM : sound_model K (em_rows x) q) by (destruct FM as (F1 & F2 & F3 & F4 & _); exact (conj F1 (conj F2 (conj F3 F4)))).
    rewrite <- CI in Ul. destruct (lda_trained d path x K cfg q l ei et li D HX EB HS SM DC S1 EM El Ul E1 E2 E3) as (_ & SN & _).
    destruct (fo_snapshots _ _ _ _ _ _ _ _ _ FO) as (n & En & Hn). rewrite EN in En. injection En as <-. destruct Hn as [Hn|[H1 H2]]; [lia|].
    apply (SN r d' N H); try assumption; [|now rewrite CI|now rewrite CI].
    unfold listeners in El. destruct (fo_quiet _ _ _ _ _ _ _ _ _ FO) as (qq & Eq). rewrite Eq in El. cbn [asBool bind] in El. unfold snapshot_option in El. rewrite EN in El. cbn [bind] in El.
    destruct (Z.ltb_spec 0 (Z.of_nat N)); [|lia]. rewrite EM in El. cbn [asString bind] in El. rewrite NumpyProofs.wrap32_small in El by lia. now injection El as <-.
  Qed.

  (** *** Continued training *)
  Lemma extended_corpus X V X' (m : params double) : double_corpus (map unlabelled X) m -> ncols (p_beta m) = V -> extends X V X' -> double_corpus (map unlabelled X') m.
  Proof.
    intros DC EV (I & KD & L). assert (HX : X <> []) by (intros ->; now apply (dc_some _ _ DC)). rewrite Forall_forall in KD. constructor.
    - intros E. apply map_eq_nil in E. subst X'. destruct X as [|a X]; [congruence|]. exact (I a (or_introl eq_refl)).
    - now rewrite map_length.
    - intros d Hd. apply in_map_iff in Hd. destruct Hd as (w & <- & Hw). exact (known_input lg ex lga sum X V m w DC HX EV (KD w Hw)).
    - intros i Hi. destruct (dc_alive _ _ DC i Hi) as (d & n & Hd & R). apply in_map_iff in Hd. destruct Hd as (w & <- & Hw). exists (unlabelled w), n. split; [apply in_map; now apply I|exact R].
  Qed.

  Lemma more_train d from path x X K iterations workers m : data_x args jk d = Ok x -> more_options args stol stof from path iterations workers ->
    model_at double_of jk d from = Ok m -> sound_model K (em_rows x) m -> double_corpus (map unlabelled X) m -> extends X (em_rows x) (columns x) -> storable K (em_rows x) ->
    (forall r d', run LdaTrain d r d' -> r = Ok tt /\ exists m', (forall jk', model_at double_of jk' d' path = Ok m') /\ sound_model K (em_rows x) m' /\ double_corpus (map unlabelled (columns x)) m') /\
    (0 < workers -> exists d', run LdaTrain d (Ok tt) d').
  Proof.
    intros D MO MA SM DC EX S1. destruct SM as (F1 & F2 & F3 & F4).
    pose proof (extended_corpus X _ _ m DC F3 EX) as DC'.
    assert (HX : columns x <> []) by (intros E; rewrite E in DC'; now apply (dc_some _ _ DC')).
    pose proof (mo_model _ _ _ _ _ _ _ MO) as EM. pose proof (mo_continue _ _ _ _ _ _ _ MO) as EC. destruct (mo_seed _ _ _ _ _ _ _ MO) as (seed & Es).
    destruct (mo_iterations _ _ _ _ _ _ _ MO) as (ni & En & EI). destruct (mo_workers _ _ _ _ _ _ _ MO) as (nw & Ew & EW). destruct (mo_e_step _ _ _ _ _ _ _ MO) as (ei & et & li & E1 & E2 & E3).
    set (q := mk_params (p_alpha m) (p_beta m) (mtab K 1 (fun _ _ => zero))).
    assert (B : exists cfg, lda_train args stol stof (model_at double_of jk d) uniform_draws document_draws hw (em_rows x) (columns x) = Ok (cfg, q) /\ c_iterations cfg = iterations /\ c_workers cfg = workers).
    { unfold lda_train, set_counts. rewrite En. cbn [bind call]. rewrite Ew. cbn [bind call]. rewrite E1. cbn [bind]. rewrite E2. cbn [bind]. rewrite E3. cbn [bind]. rewrite Es. cbn [bind call]. rewrite EC. cbn [given asString bind].
      rewrite MA. cbn [bind call]. unfold eta_zeros, topics_from_model. cbn [p_beta p_alpha p_eta]. rewrite F2. destruct S1 as (K1 & _). destruct (Nat.eqb_spec K 0) as [|_]; [lia|]. cbn [bind]. unfold check_build. cbn [fst snd p_beta p_eta mtab mrows]. rewrite F2.
      destruct (Nat.eqb_spec K 0) as [|_]; [lia|]. cbn [andb bind]. eexists. split; [reflexivity|]. split; symmetry; [exact EI|exact EW]. }
    destruct B as (cfg & EB & CI & CW).
    assert (HS : has_size K (em_rows x) 1 q).
    { split; [cbn [p_alpha q]; rewrite F1; apply vtab_length|]. split; [|apply exact_tab]. destruct (model_at_exact double_of jk d from m MA) as [T _]. now apply exact_of. }
    assert (DQ : double_corpus (map unlabelled (columns x)) q).
    { destruct DC' as [C1 C2 C3 C4]. constructor; try assumption. intros dd Hd. destruct (C3 dd Hd). constructor; assumption. }
    assert (LU : exists l, listeners args stol = Ok l /\ usual_listener l (c_iterations cfg)).
    { destruct (mo_quiet _ _ _ _ _ _ _ MO) as (qq & Eq). destruct (mo_snapshots _ _ _ _ _ _ _ MO) as (n & Enn & Hn). unfold listeners, snapshot_option. rewrite Eq. cbn [asBool bind]. rewrite Enn. cbn [bind].
      destruct (Z.ltb_spec 0 n) as [P|P].
      - destruct Hn as [Hn|[H1 H2]]; [lia|]. rewrite EM. cbn [asString bind]. eexists. split; [reflexivity|]. right. exists (bytes path), (Z.to_nat n).
        rewrite Z2Nat.id by lia. rewrite NumpyProofs.wrap32_small by lia. rewrite CI. repeat split; lia.
      - eexists. split; [reflexivity|]. now left. }
    destruct LU as (l & El & Ul).
    destruct (lda_trained d path x K cfg q l ei et li D HX EB HS (conj F1 (conj F2 (conj F3 F4))) DQ S1 EM El Ul E1 E2 E3) as (P & _ & Q). rewrite CW in Q. split; assumption.
  Qed.
End More.
