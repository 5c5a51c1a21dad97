(** Lemmas about the commands and their files. *)
Require Import ZArith List Bool Arith Lia Ascii String.
Require Import Verif.Base Verif.Scalar Verif.Mat Verif.NumpyModel Verif.NumpySpec Verif.NumpyProofs Verif.HostModel Verif.HostProofs Verif.DiskModel Verif.DiskProofs
  Verif.UtilsModel Verif.BuilderModel Verif.CorpusModel Verif.EStepModel Verif.EStepStop Verif.OptModel Verif.MStepModel Verif.PoolModel Verif.LdaModel Verif.InferProofs Verif.TrainSizes
  Verif.ReproModel Verif.AppsModel Verif.AppsProofs Verif.AppsOptions Verif.ShapeSpec Verif.ShapeProofs Verif.CommandModel Verif.CommandSpec.
Import ListNotations.
Local Open Scope nat_scope.
Local Open Scope list_scope.

(** *** Devices *)
Lemma some_nothing ws : forall d, some_device d ws d.
Proof. induction ws as [|[n b] ws IH]; intros d; [constructor|]. econstructor; [apply saved_nothing|apply IH]. Qed.
Lemma good_some d ws d' : good_device d ws d' -> some_device d ws d'.
Proof.
  intros ->. revert d. induction ws as [|[n b] ws IH]; intros d; [constructor|]. cbn [saved_all]. econstructor; [apply saved_first|apply IH].
Qed.
Lemma some_changes d ws d' name : some_device d ws d' -> d' name <> d name -> In name (map fst ws).
Proof.
  induction 1 as [d|d n b d1 ws d2 H _ IH]; intros N; [now contradiction N|]. cbn [map fst In].
  destruct (list_eq_dec ascii_dec n name) as [->|E]; [now left|]. right. apply IH. intros X. apply N. rewrite X.
  destruct H; [|reflexivity]. unfold written_to. apply put_other. congruence.
Qed.
Lemma saved_last ws n b : forall d, saved_all d (ws ++ [(n, b)]) n = Some b.
Proof.
  induction ws as [|[n1 b1] ws IH]; intros d; [|apply IH]. cbn. unfold written_to. rewrite firstn_all. apply put_same.
Qed.

Lemma after_ok {A} (o : outcome A) rest d d' : after o rest d (Ok tt) d' -> exists a, o = Ok a /\ rest a.
Proof. destruct o; cbn; intros H; [eauto|destruct H; discriminate|discriminate]. Qed.
Lemma after_mono {A} (o : outcome A) (P Q : A -> Prop) d r d' : (forall a, o = Ok a -> P a -> Q a) -> after o P d r d' -> after o Q d r d'.
Proof. destruct o; cbn; auto. Qed.

(** *** Snapshots *)
Lemma snap_names {T} (tr : list (notice T)) : forall l l' files, hear snap_event l tr = Ok (l', files) ->
  Forall (fun f => exists n, fst f = snapshot_name (sn_path l) n) files.
Proof.
  induction tr as [|e tr IH]; intros l l' files H; cbn [hear] in H; [injection H as <- <-; constructor|].
  destruct (bind_ok _ _ _ H) as ([l1 a] & E1 & H1). cbn in H1. destruct (bind_ok _ _ _ H1) as ([l2 b] & E2 & H2). cbn in H2. injection H2 as <- <-.
  assert (X : sn_path l1 = sn_path l /\ Forall (fun f => exists n, fst f = snapshot_name (sn_path l) n) a).
  { destruct e; cbn [snap_event] in E1; try (injection E1 as <- <-; split; [reflexivity|constructor]).
    destruct (bind_ok _ _ _ E1) as (n & _ & E3). cbn in E3. destruct (sn_every l =? 0)%Z; [discriminate|]. injection E3 as <- <-. split; [reflexivity|].
    destruct (_ =? 0)%Z; repeat constructor. cbn. eauto. }
  destruct X as [X1 X2]. apply Forall_app. split; [exact X2|]. specialize (IH _ _ _ E2). now rewrite X1 in IH.
Qed.
Lemma seqM_map {A B} (f : A -> outcome B) l : forall r, seqM (map f l) = Ok r -> Forall2 (fun a b => f a = Ok b) l r.
Proof.
  induction l as [|a l IH]; intros r H; cbn in H; [injection H as <-; constructor|].
  destruct (bind_ok _ _ _ H) as (b & E & H1). cbn in H1. destruct (bind_ok _ _ _ H1) as (bs & E2 & H2). cbn in H2. injection H2 as <-. constructor; auto.
Qed.
Lemma seqM_of {A B} (f : A -> outcome B) l r : Forall2 (fun a b => f a = Ok b) l r -> seqM (map f l) = Ok r.
Proof. induction 1 as [|a b l r E _ IH]; [reflexivity|]. cbn [map seqM]. rewrite E. cbn [bind]. rewrite IH. reflexivity. Qed.
Lemma snapshot_name_longer path n : snapshot_name path n <> path.
Proof.
  intros E. apply (f_equal (@List.length _)) in E. unfold snapshot_name in E. rewrite !app_length in E. cbn [List.length] in E. lia.
Qed.

Section Commands.
  Context {T : Type} {O : ops T}.
  Variable to_bytes : T -> elem.
  Variable of_bytes : elem -> T.
  Variables dfuel ofuel : nat.
  Variable args : string -> value.
  Variable stol : string -> outcome Z.
  Variable stof : string -> outcome T.
  Variable uniform_draws : Z -> nat -> nat -> T.
  Variable document_draws : Z -> nat -> nat -> nat.
  Variable hw : nat.
  Variable jk : nat -> junk.
  Notation device_main dev := (command_main to_bytes of_bytes dfuel ofuel args stol stof uniform_draws document_draws hw jk dev).
  Notation long_arg := (long_arg args stol).
  Notation float_arg := (float_arg args stof).

  Lemma snapshots_named listener tr ws l : snapshots to_bytes listener tr = Ok ws -> listener = Some l ->
    forall name, In name (map fst ws) -> exists n, name = snapshot_name (sn_path l) n.
  Proof.
    intros H -> name I. cbn [snapshots] in H. destruct (bind_ok _ _ _ H) as ([l' files] & E & H1). cbn in H1.
    apply snap_names in E. unfold snapshot_bytes in H1. apply seqM_map in H1. clear H.
    induction H1 as [|f w files ws E1 _ IH]; [destruct I|]. inversion E as [|? ? E2 E3]; subst. destruct I as [<-|I]; [|now apply IH].
    destruct (bind_ok _ _ _ E1) as (b & _ & E4). cbn in E4. injection E4 as <-. exact E2.
  Qed.
  Lemma no_snapshots tr : snapshots to_bytes None tr = Ok []. Proof. reflexivity. Qed.
  Lemma listeners_path l : listeners args stol = Ok (Some l) -> exists f, args "MODEL"%string = VString f /\ sn_path l = bytes f.
  Proof.
    intros H. unfold listeners in H. destruct (bind_ok _ _ _ H) as (q & _ & H1). unfold snapshot_option in H1. cbn in H1.
    destruct (bind_ok _ _ _ H1) as (n & _ & H2). cbn in H2. destruct (0 <? n)%Z; [|discriminate].
    destruct (args "MODEL"%string) as [| | |f]; cbn in H2; try discriminate. injection H2 as <-. exists f. split; reflexivity.
  Qed.

  (** *** A failing device *)
  Lemma train_lost {St} (M : maximizer T St) new k docs b listener d d' :
    train_with to_bytes dfuel args good_device M new k docs b listener d (Ok tt) d' ->
    train_with to_bytes dfuel args some_device M new k docs b listener d (Ok tt) d.
  Proof.
    intros (tr & ms & st & p & F & L & H). exists tr, ms, st, p. split; [exact F|]. split; [exact L|].
    destruct st; [|destruct H as (? & ? & _ & ? & _); discriminate|discriminate].
    destruct (after_ok _ _ _ _ H) as (ws & E & _). rewrite E. cbn. split; [reflexivity|apply some_nothing].
  Qed.
  Lemma transform_lost s d d' : transform_main to_bytes of_bytes dfuel args stol stof hw jk good_device s d (Ok tt) d' ->
    transform_main to_bytes of_bytes dfuel args stol stof hw jk some_device s d (Ok tt) d.
  Proof.
    intros H. unfold transform_main in *. destruct (after_ok _ _ _ _ H) as ([[X b] k] & E & g & H1 & H2). rewrite E. cbn [after].
    exists g. split; [exact H1|]. destruct (after_ok _ _ _ _ H2) as ([f w] & E2 & _). rewrite E2. cbn. split; [reflexivity|apply some_nothing].
  Qed.
  Lemma command_lost c d d' : device_main good_device c d (Ok tt) d' -> device_main some_device c d (Ok tt) d.
  Proof.
    destruct c; cbn [command_main].
    - unfold lda_train_main. intros H. destruct (after_ok _ _ _ _ H) as ([[[X b] cf] l] & E & H1). rewrite E. exact (train_lost _ _ _ _ _ _ _ _ H1).
    - unfold slda_train_main. intros H. destruct (after_ok _ _ _ _ H) as ([[[[[[[? ?] ?] ?] ?] ?] ?] ?] & E & H1). rewrite E. exact (train_lost _ _ _ _ _ _ _ _ H1).
    - unfold fslda_train_main. intros H. destruct (after_ok _ _ _ _ H) as ([[[[[[[? ?] ?] ?] ?] ?] ?] ?] & E & H1). rewrite E. exact (train_lost _ _ _ _ _ _ _ _ H1).
    - unfold fslda_online_train_main. intros H. destruct (after_ok _ _ _ _ H) as ([[[[[? ?] ?] ?] ?] ?] & E & H1). rewrite E. exact (train_lost _ _ _ _ _ _ _ _ H1).
    - apply transform_lost.
    - apply transform_lost.
  Qed.

  (** *** Only the outputs change *)
  Definition touched (c : command) (r : outcome unit) (name : list byte) : Prop :=
    (r = Ok tt /\ exists f, args (output_of c) = VString f /\ name = bytes f) \/
    (trains c /\ exists f n, args "MODEL"%string = VString f /\ name = snapshot_name (bytes f) n).
  Lemma train_touches {St} (M : maximizer T St) new k docs b listener d r d' c name : trains c -> listeners args stol = Ok listener ->
    train_with to_bytes dfuel args some_device M new k docs b listener d r d' -> r <> UB -> d' name <> d name -> touched c r name.
  Proof.
    intros C HL (tr & ms & st & p & _ & _ & H) NU N.
    assert (Snap : forall tr ws, snapshots to_bytes listener tr = Ok ws -> In name (map fst ws) -> touched c r name).
    { intros tr' ws E I. right. split; [exact C|]. destruct listener as [l|]; [|cbn in E; injection E as <-; destruct I].
      destruct (listeners_path _ HL) as (f & A & P). destruct (snapshots_named _ _ _ _ E eq_refl _ I) as (n & ->). exists f, n. now rewrite P. }
    destruct st as [s|e|]; [|destruct H as (n & ws & E & -> & S)|congruence].
    - match type of H with after ?o _ _ _ _ => destruct o as [ws|e|] eqn:E end; cbn in H; [|destruct H as [_ ->]; now contradiction N|congruence].
      destruct H as [-> S]. apply (some_changes _ _ _ _ S) in N.
      destruct (bind_ok _ _ _ E) as (ws0 & E1 & E2). cbn in E2. destruct (bind_ok _ _ _ E2) as (f & E3 & E4). cbn in E4. destruct (bind_ok _ _ _ E4) as (w & _ & E5). cbn in E5.
      injection E5 as <-. rewrite map_app in N. apply in_app_or in N. destruct N as [N|[<-|[]]]; [exact (Snap _ _ E1 N)|].
      left. split; [reflexivity|]. exists f. split; [|reflexivity]. destruct c; try contradiction; cbn [output_of]; destruct (args "MODEL"%string); cbn in E3; try discriminate; congruence.
    - apply (some_changes _ _ _ _ S) in N. exact (Snap _ _ E N).
  Qed.
  Lemma transform_touches s c d r d' name : output_of c = "OUTPUT"%string ->
    transform_main to_bytes of_bytes dfuel args stol stof hw jk some_device s d r d' -> r <> UB -> d' name <> d name -> touched c r name.
  Proof.
    intros C H NU N. unfold transform_main in H.
    destruct (transform_setup _ _ _ _ _ _ _ _) as [[[X b] k]|e|]; cbn in H; [|destruct H as [_ ->]; now contradiction N|congruence].
    destruct H as (g & _ & H). match type of H with after ?o _ _ _ _ => destruct o as [[f w]|e|] eqn:E end; cbn in H; [|destruct H as [_ ->]; now contradiction N|congruence].
    destruct H as [-> S]. apply (some_changes _ _ _ _ S) in N. cbn in N. destruct N as [<-|[]]. left. split; [reflexivity|]. exists f. split; [|reflexivity].
    destruct (bind_ok _ _ _ E) as (g' & _ & E2). cbn in E2. destruct (bind_ok _ _ _ E2) as (f' & E3 & E4). cbn in E4. destruct (bind_ok _ _ _ E4) as (w' & _ & E5). cbn in E5.
    injection E5 as -> ->. rewrite C. destruct (args "OUTPUT"%string); cbn in E3; try discriminate; congruence.
  Qed.
  Lemma command_touches c d r d' name : device_main some_device c d r d' -> r <> UB -> d' name <> d name -> touched c r name.
  Proof.
    intros H NU N. destruct c; cbn [command_main] in H.
    - unfold lda_train_main in H. match type of H with after ?o _ _ _ _ => destruct o as [[[[X b] cf] l]|e|] eqn:E end; [|cbn in H; destruct H as [_ ->]; now contradiction N|cbn in H; congruence].
      refine (train_touches _ _ _ _ _ _ _ _ _ LdaTrain name I _ H NU N).
      destruct (bind_ok _ _ _ E) as (? & _ & E1); clear E. destruct (bind_ok _ _ _ E1) as (? & _ & E2); clear E1. destruct (bind_ok _ _ _ E2) as (? & _ & E3); clear E2.
      destruct (bind_ok _ _ _ E3) as (? & E4 & E5); clear E3. injection E5 as _ _ _ <-. exact E4.
    - unfold slda_train_main in H. match type of H with after ?o _ _ _ _ => destruct o as [[[[[[[[? ?] ?] ?] ?] ?] ?] ?]|e|] eqn:E end; [|cbn in H; destruct H as [_ ->]; now contradiction N|cbn in H; congruence].
      refine (train_touches _ _ _ _ _ _ _ _ _ SldaTrain name I _ H NU N).
      destruct (bind_ok _ _ _ E) as ([x y] & _ & E1); clear E.
      do 7 (destruct (bind_ok _ _ _ E1) as (? & _ & E2); clear E1; rename E2 into E1).
      destruct (bind_ok _ _ _ E1) as (? & E4 & E5); clear E1. destruct (bind_ok _ _ _ E5) as (? & _ & E6). injection E6; intros; subst. exact E4.
    - unfold fslda_train_main in H. match type of H with after ?o _ _ _ _ => destruct o as [[[[[[[[? ?] ?] ?] ?] ?] ?] ?]|e|] eqn:E end; [|cbn in H; destruct H as [_ ->]; now contradiction N|cbn in H; congruence].
      refine (train_touches _ _ _ _ _ _ _ _ _ FsldaTrain name I _ H NU N).
      destruct (bind_ok _ _ _ E) as ([x y] & _ & E1); clear E.
      do 7 (destruct (bind_ok _ _ _ E1) as (? & _ & E2); clear E1; rename E2 into E1).
      destruct (bind_ok _ _ _ E1) as (? & E4 & E5); clear E1. destruct (bind_ok _ _ _ E5) as (? & _ & E6). injection E6; intros; subst. exact E4.
    - unfold fslda_online_train_main in H. match type of H with after ?o _ _ _ _ => destruct o as [[[[[[? ?] ?] ?] ?] ?]|e|] eqn:E end; [|cbn in H; destruct H as [_ ->]; now contradiction N|cbn in H; congruence].
      refine (train_touches _ _ _ _ _ _ _ _ _ FsldaOnlineTrain name I _ H NU N).
      destruct (bind_ok _ _ _ E) as ([x y] & _ & E1); clear E.
      do 10 (destruct (bind_ok _ _ _ E1) as (? & _ & E2); clear E1; rename E2 into E1).
      destruct (bind_ok _ _ _ E1) as (? & E4 & E5); clear E1. destruct (bind_ok _ _ _ E5) as (? & _ & E6). injection E6; intros; subst. exact E4.
    - exact (transform_touches false LdaTransform d r d' name eq_refl H NU N).
    - exact (transform_touches true SupervisedTransform d r d' name eq_refl H NU N).
  Qed.
End Commands.

(** *** A working device *)
Lemma save_starts d m w : save false d m = Ok w -> firstn 8 w = npy_magic "001" "000".
Proof. unfold save, write_npy. cbv zeta. destruct (Nat.leb _ _); [|discriminate]. intros E. injection E as <-. reflexivity. Qed.
Section Good.
  Context {T : Type} {O : ops T}.
  Variable to_bytes : T -> elem.
  Variable of_bytes : elem -> T.
  Variables dfuel ofuel : nat.
  Variable args : string -> value.
  Variable stol : string -> outcome Z.
  Variable stof : string -> outcome T.
  Variable uniform_draws : Z -> nat -> nat -> T.
  Variable document_draws : Z -> nat -> nat -> nat.
  Variable hw : nat.
  Variable jk : nat -> junk.
  Definition written_out (c : command) (d' : disk) : Prop :=
    exists f w, args (output_of c) = VString f /\ d' (bytes f) = Some w /\ firstn 8 w = npy_magic "001" "000".
  Lemma train_written {St} (M : maximizer T St) new k docs b listener d d' c : trains c ->
    train_with to_bytes dfuel args good_device M new k docs b listener d (Ok tt) d' -> written_out c d'.
  Proof.
    intros C (tr & ms & st & p & _ & _ & H). destruct st; [|destruct H as (? & ? & _ & ? & _); discriminate|discriminate].
    destruct (after_ok _ _ _ _ H) as (ws & E & _ & G). unfold good_device in G. subst d'.
    destruct (bind_ok _ _ _ E) as (ws0 & _ & E1). cbn in E1. destruct (bind_ok _ _ _ E1) as (f & E2 & E3). cbn in E3. destruct (bind_ok _ _ _ E3) as (w & E4 & E5). injection E5 as <-.
    exists f, w. split; [|split; [apply saved_last|]].
    - destruct c; try contradiction; cbn [output_of]; destruct (args "MODEL"%string); cbn in E2; try discriminate; congruence.
    - unfold save_lda in E4. destruct (bind_ok _ _ _ E4) as (wa & E6 & E7). destruct (bind_ok _ _ _ E7) as (wb & _ & E8). destruct (bind_ok _ _ _ E8) as (we & _ & E9). injection E9 as <-.
      pose proof (save_starts _ _ _ E6) as S8. rewrite firstn_app, S8. assert (L : 8 <= List.length wa).
      { apply (f_equal (@List.length _)) in S8. rewrite firstn_length in S8. match type of S8 with _ = ?n => change n with 8 in S8 end. lia. }
      replace (8 - List.length wa) with 0 by lia. cbn [firstn]. now rewrite app_nil_r.
  Qed.
  Lemma command_written c d d' : command_main to_bytes of_bytes dfuel ofuel args stol stof uniform_draws document_draws hw jk good_device c d (Ok tt) d' -> written_out c d'.
  Proof.
    destruct c; cbn [command_main].
    - unfold lda_train_main. intros H. destruct (after_ok _ _ _ _ H) as ([[[X b] cf] l] & E & H1). exact (train_written _ _ _ _ _ _ _ _ LdaTrain I H1).
    - unfold slda_train_main. intros H. destruct (after_ok _ _ _ _ H) as ([[[[[[[? ?] ?] ?] ?] ?] ?] ?] & E & H1). exact (train_written _ _ _ _ _ _ _ _ SldaTrain I H1).
    - unfold fslda_train_main. intros H. destruct (after_ok _ _ _ _ H) as ([[[[[[[? ?] ?] ?] ?] ?] ?] ?] & E & H1). exact (train_written _ _ _ _ _ _ _ _ FsldaTrain I H1).
    - unfold fslda_online_train_main. intros H. destruct (after_ok _ _ _ _ H) as ([[[[[? ?] ?] ?] ?] ?] & E & H1). exact (train_written _ _ _ _ _ _ _ _ FsldaOnlineTrain I H1).
    - unfold transform_main. intros H. destruct (after_ok _ _ _ _ H) as ([[X b] k] & _ & g & _ & H2). destruct (after_ok _ _ _ _ H2) as ([f w] & E2 & _ & G). unfold good_device in G. subst d'.
      destruct (bind_ok _ _ _ E2) as (g' & _ & E3). destruct (bind_ok _ _ _ E3) as (f' & E4 & E5). destruct (bind_ok _ _ _ E5) as (w' & E6 & E7). injection E7 as -> ->.
      exists f, w. split; [destruct (args "OUTPUT"%string) eqn:A; cbn in E4; try discriminate; cbn [output_of]; congruence|]. split; [apply (saved_last [])|exact (save_starts _ _ _ E6)].
    - unfold transform_main. intros H. destruct (after_ok _ _ _ _ H) as ([[X b] k] & _ & g & _ & H2). destruct (after_ok _ _ _ _ H2) as ([f w] & E2 & _ & G). unfold good_device in G. subst d'.
      destruct (bind_ok _ _ _ E2) as (g' & _ & E3). destruct (bind_ok _ _ _ E3) as (f' & E4 & E5). destruct (bind_ok _ _ _ E5) as (w' & E6 & E7). injection E7 as -> ->.
      exists f, w. split; [destruct (args "OUTPUT"%string) eqn:A; cbn in E4; try discriminate; cbn [output_of]; congruence|]. split; [apply (saved_last [])|exact (save_starts _ _ _ E6)].
  Qed.
End Good.
