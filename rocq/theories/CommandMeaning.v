(** Lemmas about what the vocabulary of the commands means in terms of the files. *)
Require Import ZArith List Bool Arith Lia Ascii String.
Require Import Verif.Base Verif.Scalar Verif.Mat Verif.NumpyModel Verif.NumpySpec Verif.HostModel Verif.DiskModel Verif.UtilsModel Verif.BuilderModel
  Verif.EStepModel Verif.OptModel Verif.MStepModel Verif.LdaModel Verif.AppsModel Verif.CommandModel Verif.CommandSpec.
Import ListNotations.
Local Open Scope nat_scope.
Local Open Scope list_scope.

(** A file that does not exist holds no array. *)
Lemma load_missing big d rm vec j : NumpyModel.load big d rm vec j (mk_stream [] false) = Throw ERuntime.
Proof. unfold NumpyModel.load, read_npy, sread. cbn. destruct (_ >? 1)%Z; reflexivity. Qed.

Section Meaning.
  Context {T : Type} {O : ops T}.
  Variable of_bytes : elem -> T.
  Variable args : string -> value.
  Variable jk : nat -> junk.

  Lemma data_x_means d x : data_x args jk d = Ok x <->
    exists f w rest, args "DATA"%string = VString f /\ d (bytes f) = Some w /\ NumpyModel.load false I4 false false (jk 0) (mk_stream w true) = Ok (x, rest).
  Proof.
    unfold data_x, parse_input_data_x, open_in. split.
    - destruct (args "DATA"%string) as [| | |f]; cbn [asString bind]; try discriminate. destruct (d (bytes f)) as [w|] eqn:E; [|now rewrite load_missing].
      destruct (NumpyModel.load _ _ _ _ _ _) as [[x' s]| |] eqn:L; cbn [bind]; intros H; try discriminate. injection H as ->. exists f, w, s. auto.
    - intros (f & w & rest & -> & A & B). cbn [asString bind]. rewrite A, B. reflexivity.
  Qed.
  Lemma data_xy_means d x y : data_xy args jk d = Ok (x, y) <->
    exists f w s rest, args "DATA"%string = VString f /\ d (bytes f) = Some w /\ NumpyModel.load false I4 false false (jk 0) (mk_stream w true) = Ok (x, s) /\
      NumpyModel.load false I4 false false (jk 1) s = Ok (y, rest).
  Proof.
    unfold data_xy, parse_input_data, open_in. split.
    - destruct (args "DATA"%string) as [| | |f]; cbn [asString bind]; try discriminate. destruct (d (bytes f)) as [w|] eqn:E; [|now rewrite load_missing].
      destruct (NumpyModel.load false I4 false false (jk 0) (mk_stream w true)) as [[x' s]| |] eqn:L; cbn [bind]; try discriminate.
      destruct (NumpyModel.load false I4 false false (jk 1) s) as [[y' s']| |] eqn:L'; cbn [bind]; intros H; try discriminate. injection H as -> ->. exists f, w, s, s'. auto.
    - intros (f & w & s & rest & -> & A & B & D). cbn [asString bind]. rewrite A, B. cbn [bind]. rewrite D. reflexivity.
  Qed.
  Lemma model_at_means d name (m : params T) : model_at of_bytes jk d name = Ok m <->
    exists w a b e s1 s2 s3, d (bytes name) = Some w /\ NumpyModel.load false F8 false true (jk 2) (mk_stream w true) = Ok (a, s1) /\
      NumpyModel.load false F8 false false (jk 3) s1 = Ok (b, s2) /\ NumpyModel.load false F8 false false (jk 4) s2 = Ok (e, s3) /\
      p_alpha m = col_of of_bytes a /\ p_beta m = mat_of of_bytes b /\ p_eta m = mat_of of_bytes e.
  Proof.
    unfold model_at, load_lda, open_in. split.
    - destruct (d (bytes name)) as [w|] eqn:E; [|now rewrite load_missing].
      destruct (NumpyModel.load false F8 false true (jk 2) (mk_stream w true)) as [[a s1]| |] eqn:L1; cbn [bind]; try discriminate.
      destruct (NumpyModel.load false F8 false false (jk 3) s1) as [[b s2]| |] eqn:L2; cbn [bind]; try discriminate.
      destruct (NumpyModel.load false F8 false false (jk 4) s2) as [[e s3]| |] eqn:L3; cbn [bind]; try discriminate.
      intros H. injection H as <-. exists w, a, b, e, s1, s2, s3. auto 10.
    - intros (w & a & b & e & s1 & s2 & s3 & -> & -> & B & D & E1 & E2 & E3). cbn [bind]. rewrite B. cbn [bind]. rewrite D. cbn [bind]. unfold params_of. cbn [mf_alpha mf_beta mf_eta].
      rewrite <- E1, <- E2, <- E3. now destruct m.
  Qed.

  Lemma max_fold (l : list Z) a : (In (fold_left Z.max l a) (a :: l)) /\ Forall (fun b => (b <= fold_left Z.max l a)%Z) (a :: l).
  Proof.
    revert a. induction l as [|b l IH]; intros a; cbn [fold_left]; [split; [now left|repeat constructor; lia]|].
    destruct (IH (Z.max a b)) as [A B]. inversion B as [|? ? B1 B2]; subst. split.
    - destruct A as [A|A]; [|right; now right]. rewrite <- A. destruct (Z.max_spec a b) as [[_ ->]|[_ ->]]; [right; now left|now left].
    - constructor; [lia|]. constructor; [lia|exact B2].
  Qed.
  Lemma classes_of_means (y : list Z) C : classes_of y = Ok C <-> exists a, In a y /\ Forall (fun b => (b <= a)%Z) y /\ C = size (a + 1).
  Proof.
    destruct y as [|c r]; cbn [classes_of]; [split; [discriminate|intros (a & [] & _)]|]. destruct (max_fold r c) as [A B]. split.
    - intros H. injection H as <-. exists (fold_left Z.max r c). auto.
    - intros (a & I & F & ->). do 3 f_equal. rewrite Forall_forall in B, F. apply B in I. apply F in A. lia.
  Qed.
End Meaning.

Lemma le_value_unsigned l : le_value l = unsigned_value false l.
Proof.
  unfold unsigned_value, be_value. induction l as [|c l IH]; [reflexivity|]. cbn [le_value rev].
  rewrite fold_left_app. cbn [fold_left]. rewrite <- IH. unfold nat_of_ascii. rewrite N_nat_Z. ring.
Qed.
Lemma int_of_holds e v : int_of e = v <-> holds_int e v.
Proof.
  unfold int_of, holds_int. rewrite le_value_unsigned. split.
  - intros <-. unfold wrap32. split; [pose proof (Z.mod_pos_bound (unsigned_value false e + 2 ^ 31) (2 ^ 32)); lia|].
    rewrite Zminus_mod_idemp_l. f_equal. ring.
  - intros [B E]. unfold wrap32. rewrite <- Z.add_mod_idemp_l, <- E, Z.add_mod_idemp_l by lia. rewrite Z.mod_small by lia. ring.
Qed.
Lemma vtab_iff {A} n (f : nat -> A) (l : list A) d : vtab n f = l <-> List.length l = n /\ forall i, i < n -> f i = nth i l d.
Proof.
  split.
  - intros <-. split; [apply vtab_length|]. intros i Hi. now rewrite vtab_nth.
  - intros [L E]. rewrite (vtab_ext n f (fun i => nth i l d)) by assumption. rewrite <- L. apply vtab_eta.
Qed.
Lemma columns_means x docs : columns x = docs <-> List.length docs = em_cols x /\
  forall i, i < em_cols x -> List.length (nth i docs []) = em_rows x /\ forall j, j < em_rows x -> holds_int (em_get x j i) (nth j (nth i docs []) 0%Z).
Proof.
  unfold columns. rewrite (vtab_iff _ _ docs []). split; intros [L H]; (split; [exact L|]); intros i Hi; specialize (H i Hi).
  - rewrite (vtab_iff _ _ _ 0%Z) in H. destruct H as [A B]. split; [exact A|]. intros j Hj. apply int_of_holds. auto.
  - apply (vtab_iff _ _ _ 0%Z). destruct H as [A B]. split; [exact A|]. intros j Hj. apply int_of_holds. auto.
Qed.
Lemma labels_means y l : labels y = Ok l <-> em_cols y = 1 /\ List.length l = em_rows y /\ forall j, j < em_rows y -> holds_int (em_get y j 0) (nth j l 0%Z).
Proof.
  unfold labels. destruct (Nat.eqb_spec (em_cols y) 1) as [E|E]; [|split; [discriminate|tauto]]. split.
  - intros H. injection H as H. apply (vtab_iff _ _ _ 0%Z) in H. destruct H as [A B]. split; [exact E|]. split; [exact A|].
    intros j Hj. apply int_of_holds. auto.
  - intros (_ & A & B). f_equal. apply (vtab_iff _ _ _ 0%Z). split; [exact A|]. intros j Hj. apply int_of_holds. auto.
Qed.
