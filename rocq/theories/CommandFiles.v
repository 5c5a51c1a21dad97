(** Lemmas about what the commands' files hold. *)
Require Import ZArith List Bool Arith Lia Ascii String.
Require Import Verif.Base Verif.Scalar Verif.Mat Verif.NumpyModel Verif.NumpySpec Verif.NumpyProofs Verif.HostModel Verif.HostProofs Verif.DiskModel Verif.DiskProofs
  Verif.UtilsModel Verif.BuilderModel Verif.CorpusModel Verif.EStepModel Verif.EStepStop Verif.OptModel Verif.MStepModel Verif.MStepSpec Verif.PoolModel Verif.LdaModel Verif.InferProofs Verif.TrainSizes
  Verif.ReproModel Verif.AppsModel Verif.AppsProofs Verif.AppsOptions Verif.ShapeSpec Verif.ShapeProofs Verif.CommandModel Verif.CommandSpec Verif.CommandProofs.
Import ListNotations.
Local Open Scope nat_scope.
Local Open Scope list_scope.

Lemma asString_ok v s : asString v = Ok s -> v = VString s.
Proof. destruct v; cbn; congruence. Qed.
Lemma exact_of {T} {O : ops T} r c (m : mat T) : tabulated m -> mrows m = r -> ncols m = c -> exact_size r c m.
Proof. intros H <- <-. split; [reflexivity|]. split; [reflexivity|exact H]. Qed.

Lemma forall2_length {A B} {P : A -> B -> Prop} {l l'} : Forall2 P l l' -> List.length l = List.length l'.
Proof. induction 1; cbn; congruence. Qed.

Section Files.
  Context {T : Type} {O : ops T}.
  Variable to_bytes : T -> elem.
  Variable of_bytes : elem -> T.
  Hypothesis round : forall x, of_bytes (to_bytes x) = x.
  Hypothesis width : forall x, List.length (to_bytes x) = 8.
  Variables dfuel ofuel : nat.
  Variable args : string -> value.
  Variable stol : string -> outcome Z.
  Variable stof : string -> outcome T.
  Variable uniform_draws : Z -> nat -> nat -> T.
  Variable document_draws : Z -> nat -> nat -> nat.
  Variable hw : nat.
  Variable jk : nat -> junk.
  Notation long_arg := (long_arg args stol).
  Notation float_arg := (float_arg args stof).
  Notation device_main dev := (command_main to_bytes of_bytes dfuel ofuel args stol stof uniform_draws document_draws hw jk dev).
  Notation model_at := (model_at of_bytes jk).

  (** *** transform *)
  Lemma classic_any cf q m epochs x : p_alpha q = p_alpha m -> p_beta q = p_beta m ->
    posterior (O := O) dfuel (Classic cf) epochs x q = posterior dfuel (Classic cf) epochs x m.
  Proof.
    intros A B. unfold posterior. cbn [doc_e_step]. destruct q as [a b e], m as [a' b' e']. cbn [p_alpha p_beta] in *. subst. reflexivity.
  Qed.
  Lemma gammas_ok e t m q X gs : p_alpha q = p_alpha m -> p_beta q = p_beta m -> Forall2 (inferred dfuel e t m) X gs ->
    gammas dfuel (Classic (mk_econf e t zero)) 0 q X = Ok (mk_mat (mrows (p_beta m)) gs) /\ Forall (fun g => List.length g = mrows (p_beta m)) gs.
  Proof.
    intros A B H. assert (L : Forall (fun g => List.length g = mrows (p_beta m)) gs).
    { induction H as [|x g X gs (v & E & <-) _ IH]; constructor; [|exact IH]. apply posterior_sized in E. exact (proj2 (proj2 (proj2 E))). }
    split; [|exact L]. unfold gammas, gather. rewrite B.
    rewrite (seqM_of (fun x => let* v := posterior dfuel (Classic (mk_econf e t zero)) 0 (unlabelled x) q in Ok (v_gamma v)) X gs).
    - cbn [bind]. replace (forallb _ gs) with true; [reflexivity|]. symmetry. apply forallb_forall. rewrite Forall_forall in L. intros g I. apply Nat.eqb_eq. now apply L.
    - clear L. induction H as [|x g X gs (v & E & <-) _ IH]; constructor; [|exact IH]. rewrite (classic_any _ q m 0 _ A B), E. reflexivity.
  Qed.
  Lemma columns_length x : List.length (columns x) = em_cols x.
  Proof. apply vtab_length. Qed.

  Lemma setup_ok (supervised : bool) d x f m n e t q :
    (if supervised then exists y, data_xy args jk d = Ok (x, y) else data_x args jk d = Ok x) ->
    args "MODEL"%string = VString f -> model_at d f = Ok m -> mrows (p_beta m) <> 0 ->
    long_arg "--workers" = Ok n -> long_arg "--e_step_iterations" = Ok e -> float_arg "--e_step_tolerance" = Ok t -> asBool (args "--quiet"%string) = Ok q ->
    exists b : bstate (T := T), transform_setup of_bytes args stol stof hw jk supervised d = Ok (columns x, b, Classic (mk_econf (size e) t zero)) /\
      c_workers (fst b) = size n /\ p_alpha (snd b) = p_alpha m /\ p_beta (snd b) = p_beta m.
  Proof.
    intros D A B N E1 E2 E3 E4. unfold transform_setup.
    match goal with |- context [bind ?o _] => replace o with (Ok x) by (destruct supervised; [destruct D as (y & ->); reflexivity|symmetry; exact D]) end. cbn [bind].
    assert (TC : exists b : bstate (T := T), transform_command args stol stof (model_at d) hw supervised = Ok b /\ c_workers (fst b) = size n /\ p_alpha (snd b) = p_alpha m /\ p_beta (snd b) = p_beta m).
    { unfold transform_command, transform_builder. rewrite A. cbn [asString bind]. rewrite B. cbn [bind]. rewrite E1, E2, E3. cbn [bind call].
      destruct supervised; cbn [bind call]; unfold check_build; cbn [fst snd topics_from_model eta_from_model empty_params p_beta p_eta p_alpha];
        destruct (Nat.eqb_spec (mrows (p_beta m)) 0) as [Z0|_]; try contradiction.
      - cbn. rewrite Bool.andb_false_r. cbn. eexists. repeat split.
      - cbn. eexists. repeat split. }
    destruct TC as (b & -> & W & PA & PB). cbn [bind]. rewrite E2, E3, E4. cbn [bind]. exists b. auto.
  Qed.
  Lemma transform_result (supervised : bool) d x f out m n e t q gs :
    (if supervised then exists y, data_xy args jk d = Ok (x, y) else data_x args jk d = Ok x) ->
    args "MODEL"%string = VString f -> model_at d f = Ok m -> args "OUTPUT"%string = VString out ->
    long_arg "--workers" = Ok n -> long_arg "--e_step_iterations" = Ok e -> float_arg "--e_step_tolerance" = Ok t -> asBool (args "--quiet"%string) = Ok q ->
    storable (mrows (p_beta m)) (em_cols x) ->
    Forall2 (inferred dfuel (size e) t m) (columns x) gs ->
    exists w, save false F8 (emat_of to_bytes (mk_mat (mrows (p_beta m)) gs)) = Ok w /\
      (forall j rest, NumpyModel.load false F8 false false j (mk_stream (w ++ rest) true) = Ok (emat_of to_bytes (mk_mat (mrows (p_beta m)) gs), mk_stream rest true)) /\
      mat_of of_bytes (emat_of to_bytes (mk_mat (mrows (p_beta m)) gs)) = mk_mat (mrows (p_beta m)) gs /\
      (forall dev r d', transform_main to_bytes of_bytes dfuel args stol stof hw jk dev supervised d r d' -> r = Ok tt /\ dev d [(bytes out, w)] d') /\
      (forall (dev : disk -> list (list byte * list byte) -> disk -> Prop) d', 0 < size n -> dev d [(bytes out, w)] d' -> transform_main to_bytes of_bytes dfuel args stol stof hw jk dev supervised d (Ok tt) d').
  Proof.
    intros D A B A2 E1 E2 E3 E4 (S1 & S2 & S3) F.
    destruct (setup_ok supervised d x f m n e t q D A B ltac:(lia) E1 E2 E3 E4) as (b & SE & W & PA & PB).
    destruct (gammas_ok (size e) t m (snd b) (columns x) gs PA PB F) as (G & L).
    assert (LG : List.length gs = em_cols x) by (rewrite <- columns_length; symmetry; exact (forall2_length F)).
    set (g := mk_mat (mrows (p_beta m)) gs) in *.
    assert (TB : tabulated g) by exact L.
    assert (VM : valid_matrix F8 (emat_of to_bytes g)).
    { apply emat_valid; [exact width|exact S1|unfold ncols, g; cbn; lia|]. unfold ncols, g. cbn [mrows mcols]. rewrite LG. exact S3. }
    destruct (matrix_roundtrip_same F8 (emat_of to_bytes g) false (jk 0) [] ltac:(repeat constructor) VM ltac:(discriminate)) as (w & SV & _).
    exists w. split; [exact SV|]. split; [|split; [|split]].
    - intros j rest. destruct (matrix_roundtrip_same F8 (emat_of to_bytes g) false j rest ltac:(repeat constructor) VM ltac:(discriminate)) as (w' & SV' & LD).
      rewrite SV in SV'. injection SV' as <-. exact LD.
    - exact (emat_round to_bytes of_bytes round g TB).
    - intros dev r d' H. unfold transform_main in H. rewrite SE in H. cbn [after] in H. destruct H as (g' & TC & H). apply transform_unique in TC.
      rewrite G in TC. subst g'. cbn [bind] in H. rewrite A2 in H. cbn [bind asString] in H. rewrite SV in H. exact H.
    - intros dev d' HW H. unfold transform_main. rewrite SE. cbn [after]. exists (Ok g). split; [rewrite <- G; apply transform_exists; now rewrite W|].
      cbn [bind]. rewrite A2. cbn [bind asString]. rewrite SV. cbn. split; [reflexivity|exact H].
  Qed.

  Lemma transform_writes (supervised : bool) d x f out m n e t q gs :
    (if supervised then exists y, data_xy args jk d = Ok (x, y) else data_x args jk d = Ok x) ->
    args "MODEL"%string = VString f -> model_at d f = Ok m -> args "OUTPUT"%string = VString out ->
    long_arg "--workers" = Ok n -> long_arg "--e_step_iterations" = Ok e -> float_arg "--e_step_tolerance" = Ok t -> asBool (args "--quiet"%string) = Ok q ->
    storable (mrows (p_beta m)) (em_cols x) ->
    Forall2 (inferred dfuel (size e) t m) (columns x) gs ->
    (forall r d', transform_main to_bytes of_bytes dfuel args stol stof hw jk good_device supervised d r d' ->
       r = Ok tt /\ (forall name, name <> bytes out -> d' name = d name) /\
       exists w a, d' (bytes out) = Some w /\ mat_of of_bytes a = mk_mat (mrows (p_beta m)) gs /\
         forall j, NumpyModel.load false F8 false false j (mk_stream w true) = Ok (a, mk_stream [] true)) /\
    (0 < size n -> exists d', transform_main to_bytes of_bytes dfuel args stol stof hw jk good_device supervised d (Ok tt) d').
  Proof.
    intros D A B A2 E1 E2 E3 E4 S F. destruct (transform_result supervised d x f out m n e t q gs D A B A2 E1 E2 E3 E4 S F) as (w & _ & LD & RT & X1 & X2). split.
    - intros r d' H. destruct (X1 _ _ _ H) as [-> G]. split; [reflexivity|]. unfold good_device in G. subst d'. split.
      + intros name N. cbn [saved_all]. unfold written_to. now apply put_other.
      + exists w, (emat_of to_bytes (mk_mat (mrows (p_beta m)) gs)). split; [apply (saved_last [])|]. split; [exact RT|]. intros j. specialize (LD j []). now rewrite app_nil_r in LD.
    - intros W. eexists. apply X2; [exact W|reflexivity].
  Qed.

  (** *** train *)
  Lemma model_saved K V C (m : params T) : has_size K V C m -> storable K V -> storable K C ->
    exists w, save_lda false (file_of to_bytes m) = Ok w /\ forall j1 j2 j3 rest, load_lda false j1 j2 j3 (mk_stream (w ++ rest) true) = Ok (file_of to_bytes m).
  Proof.
    intros (A & (B1 & B2 & B3) & E1 & E2 & E3) (S1 & S2 & S3) (_ & S4 & S5).
    assert (VA : valid_matrix F8 (ecol_of to_bytes (p_alpha m))) by (apply ecol_valid; [exact width|lia|nia]).
    assert (VB : valid_matrix F8 (emat_of to_bytes (p_beta m))) by (apply emat_valid; [exact width|lia|lia|now rewrite B1, B2]).
    assert (VE : valid_matrix F8 (emat_of to_bytes (p_eta m))) by (apply emat_valid; [exact width|lia|lia|now rewrite E1, E2]).
    destruct (model_roundtrip (file_of to_bytes m) (jk 0) (jk 0) (jk 0) [] VA eq_refl eq_refl VB eq_refl VE eq_refl) as (w & SV & _).
    exists w. split; [exact SV|]. intros j1 j2 j3 rest.
    destruct (model_roundtrip (file_of to_bytes m) j1 j2 j3 rest VA eq_refl eq_refl VB eq_refl VE eq_refl) as (w' & SV' & LD). rewrite SV in SV'. now injection SV' as <-.
  Qed.
  Lemma model_found K V C (m : params T) w d f jk' : has_size K V C m -> storable K V -> storable K C -> save_lda false (file_of to_bytes m) = Ok w -> d (bytes f) = Some w ->
    CommandModel.model_at of_bytes jk' d f = Ok m.
  Proof.
    intros H S1 S2 E D. destruct (model_saved K V C m H S1 S2) as (w' & E' & L). rewrite E in E'. injection E' as <-.
    unfold CommandModel.model_at, open_in. rewrite D. rewrite <- (app_nil_r w). rewrite L. cbn [bind]. rewrite file_round; [reflexivity|exact round| |];
      destruct H as (_ & (B1 & _ & B3) & E1 & _ & E3); unfold tabulated; [rewrite B1; exact B3|rewrite E1; exact E3].
  Qed.
  Lemma train_saved St (M : maximizer T St) new k docs b listener K V C path d d' : library_step St M new -> docs <> [] ->
    has_size K V C (snd b) -> storable K V -> storable K C -> args "MODEL"%string = VString path ->
    train_with to_bytes dfuel args good_device M new k docs b listener d (Ok tt) d' ->
    exists st m ep, fit_call dfuel M k (c_workers (fst b)) docs (c_iterations (fst b)) (Ok new) (snd b, 0) (Ok st) (m, ep) /\
      has_size K V C m /\ p_alpha m = p_alpha (snd b) /\ forall jk', CommandModel.model_at of_bytes jk' d' path = Ok m.
  Proof.
    intros L HD HS S1 S2 A (tr & ms & st & [m ep] & F & LM & H). apply fit_heard_fit in F. rewrite LM in F.
    destruct st as [st| |]; [|destruct H as (? & ? & _ & X & _); discriminate X|discriminate].
    destruct (after_ok _ _ _ _ H) as (ws & E & _ & G). exists st, m, ep. split; [exact F|].
    destruct (fit_keeps_size dfuel K V C St M new k _ docs _ _ _ _ _ L (proj1 S1) HD HS F) as [PA HM]. cbn [fst] in *. split; [exact HM|]. split; [exact PA|]. intros jk'.
    destruct (bind_ok _ _ _ E) as (ws0 & _ & E1). cbn in E1. rewrite A in E1. cbn [asString bind] in E1. destruct (bind_ok _ _ _ E1) as (w & E2 & E3). injection E3 as <-.
    apply (model_found K V C m w d' path jk' HM S1 S2 E2). unfold good_device in G. subst d'. apply saved_last.
  Qed.

  (** The starting model's sizes *)
  Lemma seeded_exact X K N draw (p p' : params T) V : topics_seeded X K N draw p = Ok p' -> Forall (fun x => List.length x = V) X ->
    List.length (p_alpha p') = K /\ exact_size K V (p_beta p') /\ p_eta p' = p_eta p.
  Proof.
    destruct X as [|x X]; cbn; [discriminate|]. intros H F. destruct (bind_ok _ _ _ H) as (rows & _ & E). cbn in E. injection E as <-. cbn [p_alpha p_beta p_eta].
    rewrite vtab_length. inversion F; subst. split; [reflexivity|]. split; [|reflexivity]. apply exact_tab.
  Qed.
  Lemma fresh_exact words X b b' K : fresh_topics args stol uniform_draws document_draws words X b = Ok b' -> Forall (fun x => List.length x = words) X ->
    (exists k, long_arg "--topics" = Ok k /\ K = size k) -> List.length (p_alpha (snd b')) = K /\ exact_size K words (p_beta (snd b')).
  Proof.
    intros H F (k & EK & ->). unfold fresh_topics in H. destruct (bind_ok _ _ _ H) as (r & _ & H1). cbn beta in H1. rewrite EK in H1. cbn [bind] in H1.
    destruct (bind_ok _ _ _ H1) as (seed & _ & H2). cbn beta in H2. destruct b as [c p]. destruct r; cbn [call] in H2.
    - injection H2 as <-. cbn [snd topics_random p_alpha p_beta]. rewrite vtab_length. split; [reflexivity|]. apply normalize_rows_size; [reflexivity|apply ncols_tab].
    - destruct (bind_ok _ _ _ H2) as (p' & E & H3). cbn in H3. injection H3 as <-. cbn [snd]. destruct (seeded_exact _ _ _ _ _ _ words E F) as (A & B & _). now split.
  Qed.
  Lemma columns_rows x : Forall (fun c => List.length c = em_rows x) (columns x).
  Proof. unfold columns, vtab. apply Forall_forall. intros c I. apply in_map_iff in I. destruct I as (i & <- & _). rewrite map_length. apply seq_length. Qed.
  Lemma model_at_exact d f m : model_at d f = Ok m -> tabulated (p_beta m) /\ tabulated (p_eta m).
  Proof. intros H. unfold CommandModel.model_at in H. destruct (bind_ok _ _ _ H) as (g & _ & E). injection E as <-. split; apply tabulated_tab. Qed.
  Lemma zeros_exact b b' C K V : call b (EtaZeros C) = Ok b' -> List.length (p_alpha (snd b)) = K -> exact_size K V (p_beta (snd b)) -> has_size K V C (snd b').
  Proof.
    destruct b as [c p]. cbn [call snd]. intros H A B. destruct (bind_ok _ _ _ H) as (q & E & H1). injection H1 as <-. cbn [snd]. unfold eta_zeros in E.
    destruct (_ =? 0); [discriminate|]. injection E as <-. split; [exact A|]. split; [exact B|]. cbn [p_eta]. apply exact_tab'; [apply B|reflexivity].
  Qed.
  Lemma supervised_exact c d x y K V C b b' : match c with LdaTrain => False | _ => True end -> starts of_bytes args stol jk c d x y K V C ->
    supervised_init args stol (model_at d) uniform_draws document_draws (em_rows x) (columns x) y b = Ok b' -> has_size K V C (snd b').
  Proof.
    intros HC S H. unfold supervised_init in H. destruct S as [(f & m & A & B & L1 & L2 & L3 & L4)|(A & EK & -> & EC)].
    - rewrite A in H. cbn [given asString bind] in H. rewrite B in H. cbn [bind] in H. destruct b as [cc p]. cbn [call bind] in H. injection H as <-.
      destruct (model_at_exact _ _ _ B) as [T1 T2]. cbn [snd eta_from_model topics_from_model]. split; [exact L1|]. cbn [p_beta p_eta].
      split; [now apply exact_of|]. destruct c; try contradiction; now apply exact_of.
    - rewrite A in H. cbn [given] in H. destruct (given (args "--continue_from_unsupervised"%string)); [cbn in H; discriminate H|].
      destruct (bind_ok _ _ _ H) as (b1 & E1 & H1). cbn beta in H1. destruct (fresh_exact _ _ _ _ K E1 (columns_rows x) EK) as [X1 X2].
      assert (EC' : classes_of y = Ok C) by (destruct c; try contradiction; exact EC). rewrite EC' in H1. cbn [bind] in H1. exact (zeros_exact _ _ _ _ _ H1 X1 X2).
  Qed.
  Lemma built_exact c d x y K V C b : trains c -> starts of_bytes args stol jk c d x y K V C ->
    built of_bytes args stol stof uniform_draws document_draws hw jk c d x y = Ok b -> has_size K V C (snd b).
  Proof.
    intros HC S H. destruct c; cbn [built] in H; try contradiction.
    - unfold lda_train in H. destruct (bind_ok _ _ _ H) as (b0 & _ & H1); clear H. do 4 (destruct (bind_ok _ _ _ H1) as (? & _ & H2); clear H1; rename H2 into H1).
      destruct (bind_ok _ _ _ H1) as (b1 & _ & H2); clear H1. destruct (bind_ok _ _ _ H2) as (b2 & E & H3); clear H2. destruct (bind_ok _ _ _ H3) as (b3 & E3 & H4); clear H3.
      destruct (bind_ok _ _ _ H4) as (? & _ & H5). injection H5 as <-.
      destruct S as [(f & m & A & B & L1 & L2 & L3 & ->)|(A & EK & -> & ->)]; rewrite A in E; cbn [given] in E.
      + cbn [asString bind] in E. rewrite B in E. cbn [bind] in E. destruct b1 as [cc p]. cbn [call] in E. injection E as <-. apply (zeros_exact _ _ _ _ _ E3); [exact L1|].
        cbn [snd topics_from_model p_beta]. apply exact_of; try assumption. apply (model_at_exact _ _ _ B).
      + destruct (fresh_exact _ _ _ _ K E (columns_rows x) EK) as [X1 X2]. exact (zeros_exact _ _ _ _ _ E3 X1 X2).
    - unfold slda_train in H. destruct (bind_ok _ _ _ H) as (b0 & _ & H1); clear H. do 5 (destruct (bind_ok _ _ _ H1) as (? & _ & H2); clear H1; rename H2 into H1).
      destruct (bind_ok _ _ _ H1) as (b1 & _ & H2); clear H1. do 3 (destruct (bind_ok _ _ _ H2) as (? & _ & H1); clear H2; rename H1 into H2).
      destruct (bind_ok _ _ _ H2) as (b2 & _ & H3); clear H2. destruct (bind_ok _ _ _ H3) as (b3 & E & H4); clear H3. destruct (bind_ok _ _ _ H4) as (? & _ & H5). injection H5 as <-.
      exact (supervised_exact SldaTrain d x y K V C _ _ I S E).
    - unfold fslda_train in H. destruct (bind_ok _ _ _ H) as (b0 & _ & H1); clear H. do 3 (destruct (bind_ok _ _ _ H1) as (? & _ & H2); clear H1; rename H2 into H1).
      destruct (bind_ok _ _ _ H1) as (b1 & _ & H2); clear H1. destruct (bind_ok _ _ _ H2) as (b3 & E & H4); clear H2. destruct (bind_ok _ _ _ H4) as (? & _ & H5). injection H5 as <-.
      exact (supervised_exact FsldaTrain d x y K V C _ _ I S E).
    - unfold fslda_online_train in H. destruct (bind_ok _ _ _ H) as (b0 & _ & H1); clear H. do 5 (destruct (bind_ok _ _ _ H1) as (? & _ & H2); clear H1; rename H2 into H1).
      destruct (bind_ok _ _ _ H1) as (b1 & _ & H2); clear H1. destruct (bind_ok _ _ _ H2) as (b3 & E & H4); clear H2. destruct (bind_ok _ _ _ H4) as (? & _ & H5). injection H5 as <-.
      exact (supervised_exact FsldaOnlineTrain d x y K V C _ _ I S E).
  Qed.

  Lemma labelled_documents X y docs : labelled_docs (T := T) X y = Ok docs -> map d_words docs = X /\ forall i e, nth_error docs i = Some e -> d_class e = nth_error y i.
  Proof.
    unfold labelled_docs. intros H. destruct (bind_ok _ _ _ H) as (cc & _ & H1). cbn beta in H1. destruct (Nat.ltb_spec (List.length y) (List.length X)) as [|LY]; [discriminate|]. injection H1 as <-.
    split.
    - unfold vtab. rewrite map_map. cbn [labelled_at d_words]. apply nth_ext with (d := []) (d' := []); [now rewrite map_length, seq_length|].
      rewrite map_length, seq_length. intros i Hi. exact (vtab_nth (List.length X) (fun i => nth i X []) i [] Hi).
    - intros i e E. assert (Hi : i < List.length X).
      { assert (N : nth_error (vtab (List.length X) (labelled_at X y (cc_priors cc))) i <> None) by congruence. apply nth_error_Some in N. now rewrite vtab_length in N. }
      unfold vtab in E. rewrite nth_error_map in E. rewrite (nth_error_nth' _ 0) in E by (now rewrite seq_length). rewrite seq_nth in E by exact Hi. cbn in E. injection E as <-.
      cbn [labelled_at d_class]. symmetry. apply nth_error_nth'. lia.
  Qed.
  Lemma unlabelled_documents (X : list (list Z)) : map d_words (map (unlabelled (T := T)) X) = X /\ forall i e, nth_error (map (unlabelled (T := T)) X) i = Some e -> d_class e = None.
  Proof.
    split; [rewrite map_map; cbn; apply map_id|]. intros i e E. rewrite nth_error_map in E. destruct (nth_error X i); cbn in E; [|discriminate]. now injection E as <-.
  Qed.

  (** A training that ended normally is the training it should be. *)
  Lemma training_heard dev c d d' : trains c -> device_main dev c d (Ok tt) d' ->
    exists x y b St (M : maximizer T St) new k docs listener,
      reads args jk c d x y /\ built of_bytes args stol stof uniform_draws document_draws hw jk c d x y = Ok b /\
      steps ofuel args stol stof c y St M new k /\ documents_of c x y docs /\ listeners args stol = Ok listener /\
      train_with to_bytes dfuel args dev M new k docs b listener d (Ok tt) d'.
  Proof.
    intros HC H. destruct c; cbn [command_main] in H; try contradiction.
    - unfold lda_train_main in H. destruct (after_ok _ _ _ _ H) as ([[[X b] cf] l] & E & H1).
      destruct (bind_ok _ _ _ E) as (x & Ex & E1); clear E. destruct (bind_ok _ _ _ E1) as (b' & Eb & E2); clear E1. destruct (bind_ok _ _ _ E2) as (cf' & Ec & E3); clear E2.
      destruct (bind_ok _ _ _ E3) as (l' & El & E4); clear E3. injection E4 as <- -> -> ->.
      exists x, [], b, _, unsupervised_maximizer, empty_mat, (Classic cf), (map unlabelled (columns x)), l. split; [split; [exact Ex|reflexivity]|]. split; [exact Eb|]. split; [|split; [apply unlabelled_documents|split; [exact El|exact H1]]].
      unfold e_options in Ec. destruct (bind_ok _ _ _ Ec) as (? & O1 & Ec1). destruct (bind_ok _ _ _ Ec1) as (? & O2 & Ec2). destruct (bind_ok _ _ _ Ec2) as (? & O3 & Ec3). injection Ec3 as <-.
      now constructor.
    - unfold slda_train_main in H. destruct (after_ok _ _ _ _ H) as ([[[[[[[docs b] cf] fp] li] tl] L] l] & E & H1).
      destruct (bind_ok _ _ _ E) as ([x y0] & Ex & E1); clear E. destruct (bind_ok _ _ _ E1) as (y & Ey & E); clear E1. destruct (bind_ok _ _ _ E) as (b' & Eb & E1); clear E. destruct (bind_ok _ _ _ E1) as (cf' & Ec & E); clear E1.
      destruct (bind_ok _ _ _ E) as (? & Q1 & E1); clear E. destruct (bind_ok _ _ _ E1) as (? & Q2 & E); clear E1. destruct (bind_ok _ _ _ E) as (? & Q3 & E1); clear E. destruct (bind_ok _ _ _ E1) as (? & Q4 & E); clear E1.
      destruct (bind_ok _ _ _ E) as (? & El & E1); clear E. destruct (bind_ok _ _ _ E1) as (? & Ed & E); clear E1. injection E; intros; subst; clear E.
      eexists x, y, b, _, _, _, _, docs, l. split; [exists y0; split; [exact Ex|exact Ey]|]. split; [exact Eb|]. split; [|split; [exact (labelled_documents _ _ _ Ed)|split; [exact El|exact H1]]].
      unfold e_options in Ec. destruct (bind_ok _ _ _ Ec) as (? & O1 & Ec1). destruct (bind_ok _ _ _ Ec1) as (? & O2 & Ec2). destruct (bind_ok _ _ _ Ec2) as (? & O3 & Ec3). injection Ec3 as <-.
      now constructor.
    - unfold fslda_train_main in H. destruct (after_ok _ _ _ _ H) as ([[[[[[[docs b] cf] fp] li] tl] L] l] & E & H1).
      destruct (bind_ok _ _ _ E) as ([x y0] & Ex & E1); clear E. destruct (bind_ok _ _ _ E1) as (y & Ey & E); clear E1. destruct (bind_ok _ _ _ E) as (b' & Eb & E1); clear E. destruct (bind_ok _ _ _ E1) as (cf' & Ec & E); clear E1.
      destruct (bind_ok _ _ _ E) as (? & Q1 & E1); clear E. destruct (bind_ok _ _ _ E1) as (? & Q2 & E); clear E1. destruct (bind_ok _ _ _ E) as (? & Q3 & E1); clear E. destruct (bind_ok _ _ _ E1) as (? & Q4 & E); clear E1.
      destruct (bind_ok _ _ _ E) as (? & El & E1); clear E. destruct (bind_ok _ _ _ E1) as (? & Ed & E); clear E1. injection E; intros; subst; clear E.
      eexists x, y, b, _, _, _, _, docs, l. split; [exists y0; split; [exact Ex|exact Ey]|]. split; [exact Eb|]. split; [|split; [exact (labelled_documents _ _ _ Ed)|split; [exact El|exact H1]]].
      unfold e_options in Ec. destruct (bind_ok _ _ _ Ec) as (? & O1 & Ec1). destruct (bind_ok _ _ _ Ec1) as (? & O2 & Ec2). destruct (bind_ok _ _ _ Ec2) as (? & O3 & Ec3). injection Ec3 as <-.
      now constructor.
    - unfold fslda_online_train_main in H. destruct (after_ok _ _ _ _ H) as ([[[[[docs b] cf] w] oc] l] & E & H1).
      destruct (bind_ok _ _ _ E) as ([x y0] & Ex & E1); clear E. destruct (bind_ok _ _ _ E1) as (y & Ey & E); clear E1. destruct (bind_ok _ _ _ E) as (cw & Ew & E1); clear E. destruct (bind_ok _ _ _ E1) as (b' & Eb & E); clear E1. destruct (bind_ok _ _ _ E) as (cf' & Ec & E1); clear E.
      destruct (bind_ok _ _ _ E1) as (? & Q1 & E); clear E1. destruct (bind_ok _ _ _ E) as (? & Q2 & E1); clear E. destruct (bind_ok _ _ _ E1) as (? & Q3 & E); clear E1. destruct (bind_ok _ _ _ E) as (? & Q4 & E1); clear E.
      destruct (bind_ok _ _ _ E1) as (? & Q5 & E); clear E1. destruct (bind_ok _ _ _ E) as (? & Q6 & E1); clear E.
      destruct (bind_ok _ _ _ E1) as (? & El & E); clear E1. destruct (bind_ok _ _ _ E) as (? & Ed & E1); clear E. injection E1; intros; subst; clear E1.
      eexists x, y, b, _, _, _, _, docs, l. split; [exists y0; split; [exact Ex|exact Ey]|]. split; [exact Eb|]. split; [|split; [exact (labelled_documents _ _ _ Ed)|split; [exact El|exact H1]]].
      unfold e_options in Ec. destruct (bind_ok _ _ _ Ec) as (? & O1 & Ec1). destruct (bind_ok _ _ _ Ec1) as (? & O2 & Ec2). destruct (bind_ok _ _ _ Ec2) as (? & O3 & Ec3). injection Ec3 as <-.
      now constructor.
  Qed.
  Lemma training_run dev c d d' : trains c -> device_main dev c d (Ok tt) d' ->
    exists x y b St (M : maximizer T St) new k docs listener,
      reads args jk c d x y /\ built of_bytes args stol stof uniform_draws document_draws hw jk c d x y = Ok b /\
      steps ofuel args stol stof c y St M new k /\ documents_of c x y docs /\
      train_with to_bytes dfuel args dev M new k docs b listener d (Ok tt) d'.
  Proof.
    intros HC H. destruct (training_heard dev c d d' HC H) as (x & y & b & St & M & new & k & docs & l & A1 & A2 & A3 & A4 & _ & A5).
    exists x, y, b, St, M, new, k, docs, l. auto.
  Qed.
  Lemma steps_library c y St (M : maximizer T St) new k : steps ofuel args stol stof c y St M new k -> library_step St M new.
  Proof. intros H. destruct H; constructor. Qed.
  Lemma reads_unique c d x y x' y' : trains c -> reads args jk c d x y -> reads args jk c d x' y' -> x = x' /\ y = y'.
  Proof.
    intros HC A B. destruct c; try contradiction; cbn [reads] in *.
    - destruct A as [A ->], B as [B ->]. split; congruence.
    - destruct A as (z & A1 & A2), B as (z' & B1 & B2). rewrite A1 in B1. injection B1 as <- <-. split; congruence.
    - destruct A as (z & A1 & A2), B as (z' & B1 & B2). rewrite A1 in B1. injection B1 as <- <-. split; congruence.
    - destruct A as (z & A1 & A2), B as (z' & B1 & B2). rewrite A1 in B1. injection B1 as <- <-. split; congruence.
  Qed.
  Lemma training_saved c d d' path x y K V C : trains c -> args "MODEL"%string = VString path -> reads args jk c d x y -> 1 <= em_cols x ->
    starts of_bytes args stol jk c d x y K V C -> storable K V -> storable K C ->
    device_main good_device c d (Ok tt) d' ->
    exists b St (M : maximizer T St) new k docs st m ep,
      built of_bytes args stol stof uniform_draws document_draws hw jk c d x y = Ok b /\ steps ofuel args stol stof c y St M new k /\ documents_of c x y docs /\
      fit_call dfuel M k (c_workers (fst b)) docs (c_iterations (fst b)) (Ok new) (snd b, 0) (Ok st) (m, ep) /\
      has_size K V C m /\ p_alpha m = p_alpha (snd b) /\ forall jk', CommandModel.model_at of_bytes jk' d' path = Ok m.
  Proof.
    intros HC A R NE S S1 S2 H. destruct (training_run _ c d d' HC H) as (x' & y' & b & St & M & new & k & docs & l & R' & B & ST & DC & TW).
    destruct (reads_unique _ _ _ _ _ _ HC R R') as [<- <-].
    assert (HD : docs <> []).
    { intros ->. destruct DC as [DC _]. cbn in DC. apply (f_equal (@List.length _)) in DC. rewrite columns_length in DC. cbn in DC. lia. }
    destruct (train_saved St M new k docs b l K V C path d d' (steps_library _ _ _ _ _ _ ST) HD (built_exact c d x y K V C b HC S B) S1 S2 A TW) as (st & m & ep & F & X).
    exists b, St, M, new, k, docs, st, m, ep. auto.
  Qed.
End Files.
