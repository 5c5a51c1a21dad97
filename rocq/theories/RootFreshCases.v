(** Options for the training from scratch of the root directory's application. *)
Require Import Reals ZArith List Bool Arith Lia Lra Ascii String.
From Flocq Require Import Core.Core IEEE754.BinarySingleNaN.
Require Import Verif.Base Verif.Scalar Verif.Mat Verif.NumpyModel Verif.HostModel Verif.HostProofs Verif.DiskModel Verif.UtilsModel Verif.BuilderModel Verif.CorpusModel Verif.EStepModel
  Verif.SettingsModel Verif.AppsModel Verif.CommandModel Verif.CommandSpec Verif.DoubleUtils Verif.FreshSpec Verif.RootModel Verif.RootSpec Verif.RootCases Verif.RootSnapCases Verif.RootFreshSpec.
Import ListNotations.
Local Open Scope nat_scope.
Local Open Scope list_scope.
Local Notation length := List.length.

(** Two topics for the documents of RootCases.v; one of the variants with distributions of classes *)
Definition scratch_args (multinomial : bool) (key : string) : value :=
  if String.eqb key "DATA" then VString "data.npy" else if String.eqb key "MODEL" then VString "model.npy" else if String.eqb key "--continue" then VEmpty
  else if existsb (String.eqb key) ["--topics"; "--e_step_iterations"; "--workers"; "--iterations"]%string then VLong 2
  else if String.eqb key "--snapshot_every" then VLong 1
  else if String.eqb key "--multinomial" then VBool multinomial
  else if existsb (String.eqb key) ["--quiet"; "--correspondence"; "--show_likelihood"]%string then VBool true
  else if existsb (String.eqb key) ["--semi_supervised"; "--unsupervised_e_step"; "--fast_e_step"; "--online_m_step"; "--second_order_m_step"]%string then VBool false
  else VString "2".

Lemma scratch_plain : plain_corpus (columns root_x) (em_rows root_x).
Proof.
  rewrite root_columns. split.
  - cbn. lia.
  - cbn. lia.
  - intros x [<-|[<-|[]]]; (split; [reflexivity|]); (split; [|cbn; lia]); intros c Hc; cbn in Hc; lia.
  - exists [3; 0; 1]%Z, 3%Z. split; [now left|]. split; [now left|lia].
Qed.
Lemma scratch_labels : labels_below 2 [0; 1]%Z.
Proof. split; [intros c [<-|[<-|[]]]; lia|right; now left]. Qed.
Lemma scratch_words : all_words (columns root_x) = 6%Z.
Proof. rewrite root_columns. reflexivity. Qed.

Section Cases.
  Variables (lg ex lga : double -> double) (sum : list double -> double).
  Local Hint Extern 0 (ops _) => exact (double_ops lg ex lga sum) : typeclass_instances.
  Lemma scratch_reads m d : root_disk lg ex lga sum d -> data_xy (scratch_args m) root_junk d = Ok (root_x, root_y).
  Proof.
    intros [D _]. unfold data_xy. change (scratch_args m "DATA"%string) with (VString "data.npy"). cbn [asString bind]. unfold open_in. rewrite D. vm_compute. reflexivity.
  Qed.
  Lemma scratch_documents : exists D : list (doc double), labelled_docs (columns root_x) [0; 1]%Z = Ok D.
  Proof.
    destruct (labelled_docs (columns root_x) [0; 1]%Z) as [D|e|] eqn:E.
    - now exists D.
    - exfalso. unfold labelled_docs in E. rewrite root_columns in E. cbn in E. discriminate E.
    - exfalso. unfold labelled_docs in E. rewrite root_columns in E. cbn in E. discriminate E.
  Qed.
  Lemma scratch_case m : scratch_options (scratch_args m) root_stol (snap_stof lg ex lga sum) "model.npy" 2 2 2.
  Proof.
    split; try reflexivity.
    - exists 2%Z. split; reflexivity.
    - repeat split; reflexivity.
    - exists 2%Z. split; reflexivity.
    - exists 2%Z. split; reflexivity.
    - exists 2%Z, (ofZ 2), one. split; [reflexivity|]. split; [reflexivity|]. left. split; reflexivity.
    - exists true. reflexivity.
    - exists 1%Z. split; [reflexivity|]. right. lia.
  Qed.
  Lemma two_mu : usual_mu (ofZ 2) /\ B2R (ofZ 2 : double) = 2%R.
  Proof. destruct (int_d lg ex lga sum 2 ltac:(lia)) as [F V]. split; [|exact V]. split; [exact F|]. change (B2R (ofZ 2 : double) = 2%R) in V. rewrite V. lra. Qed.
  Lemma scratch_corresponding : corresponding_bound (ofZ 2) (all_words (columns root_x)) 2.
  Proof. unfold corresponding_bound. rewrite scratch_words, (proj2 two_mu). cbn [INR]. lra. Qed.
  Lemma scratch_multinomial : multinomial_bound (ofZ 2) (ofZ 2) (all_words (columns root_x)) 2.
  Proof.
    split; [exact (proj1 (proj1 two_mu))|]. rewrite scratch_words, (proj2 two_mu). cbn [INR]. rewrite Rabs_pos_eq by lra.
    replace (2 * (6 + (1 + 1) * (2 - 1)) / (2 - 1))%R with (exp (ln 16))%R by (rewrite exp_ln; lra). rewrite ln_exp. replace 16%R with (2 ^ 4)%R by lra. rewrite ln_pow by lra.
    assert (ln 2 < 1)%R. { rewrite <- (ln_exp 1). apply ln_increasing; [lra|]. pose proof (exp_ineq1 1). lra. } cbn [INR]. lra.
  Qed.
End Cases.
