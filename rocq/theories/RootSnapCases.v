(** Files and options for the training with classes of the root directory's application. *)
Require Import Reals ZArith List Bool Arith Lia Ascii String.
From Flocq Require Import Core.Core IEEE754.BinarySingleNaN.
Require Import Verif.Base Verif.Scalar Verif.Mat Verif.NumpyModel Verif.HostModel Verif.HostProofs Verif.DiskModel Verif.UtilsModel Verif.BuilderModel Verif.CorpusModel Verif.EStepModel Verif.LdaModel
  Verif.SettingsModel Verif.AppsModel Verif.ShapeSpec Verif.CommandModel Verif.CommandSpec Verif.CommandFiles Verif.DoubleSpec Verif.DoubleTrainSpec Verif.DoubleUtils Verif.DoubleClassSpec Verif.DoubleMultiTrainSpec
  Verif.DoubleCorrTrainSpec Verif.DoubleCorrTrainRefute Verif.DoubleCorrTrainCases Verif.RootModel Verif.RootSpec Verif.RootSnapSpec Verif.RootCases.
Import ListNotations.
Local Open Scope nat_scope.
Local Open Scope list_scope.
Local Notation length := List.length.

(** Two documents of one word each, labelled 0 and 1. *)
Definition snap_x : emat := mk_emat 2 2 false (map int_bytes [1; 0; 0; 1]%Z).
Definition snap_data : list byte := match save false I4 snap_x, save false I4 root_y with Ok a, Ok b => a ++ b | _, _ => [] end.
Definition snap_args (key : string) : value :=
  if String.eqb key "DATA" then VString "data.npy" else if String.eqb key "MODEL" then VString "model.npy" else if String.eqb key "--continue" then VString "old.npy"
  else if existsb (String.eqb key) ["--e_step_iterations"; "--workers"; "--iterations"]%string then VLong 2
  else if String.eqb key "--snapshot_every" then VLong 1
  else if existsb (String.eqb key) ["--quiet"; "--correspondence"; "--show_likelihood"]%string then VBool true
  else if existsb (String.eqb key) ["--semi_supervised"; "--unsupervised_e_step"; "--multinomial"; "--fast_e_step"; "--online_m_step"; "--second_order_m_step"]%string then VBool false
  else VString "2".

(** Only the words and classes of the documents matter. *)
Lemma same_documents {A} (f : doc A -> list Z * option Z) D D' : map f D = map f D' -> forall d', In d' D' -> exists d, In d D /\ f d = f d'.
Proof. intros E d' I. apply (in_map f) in I. rewrite <- E in I. apply in_map_iff in I. destruct I as (d & E1 & I). eauto. Qed.
Lemma corresponding_same {O : ops double} mu D D' m : map (fun d => (d_words d, d_class d)) D = map (fun d => (d_words d, d_class d)) D' -> double_corresponding mu D m -> double_corresponding mu D' m.
Proof.
  intros E [[A1 A2 A3 A4] B1 B2 B3 B4 B5 B6]. pose proof (same_documents _ _ _ E) as S. pose proof (same_documents _ _ _ (eq_sym E)) as S'.
  assert (L : length D = length D') by (apply (f_equal (@List.length _)) in E; now rewrite !map_length in E).
  assert (W : corpus_words D = corpus_words D').
  { unfold corpus_words. f_equal. apply (f_equal (map (fun x => Zsum (fst x)))) in E. now rewrite !map_map in E. }
  split; [split|..].
  - intros ->. destruct D; [now apply A1|discriminate L].
  - now rewrite <- L.
  - intros d Hd. destruct (S d Hd) as (d0 & I & F). injection F as F1 F2. rewrite <- F1. auto.
  - intros i Hi. destruct (A4 i Hi) as (d & n & I & X1 & X2 & X3). destruct (S' d I) as (d0 & I0 & F). injection F as F1 F2. exists d0, n. rewrite F1. auto.
  - now rewrite <- L.
  - intros d Hd. destruct (S d Hd) as (d0 & I & F). injection F as F1 F2. rewrite <- F1, <- F2. auto.
  - intros i Hi. destruct (B3 i Hi) as (d & n & I & X1 & X2 & X3). destruct (S' d I) as (d0 & I0 & F). injection F as F1 F2. exists d0, n. rewrite F1. auto.
  - exact B4.
  - exact B5.
  - now rewrite <- W.
Qed.

Section Cases.
  Variables (lg ex lga : double -> double) (sum : list double -> double).
  Local Hint Extern 0 (ops _) => exact (double_ops lg ex lga sum) : typeclass_instances.
  Notation open_classes := (open_classes lg ex lga sum).
  Definition snap_stof (s : string) : outcome double := Ok (ofZ 2).
  Definition snap_disk (d : disk) : Prop := d (bytes "data.npy") = Some snap_data /\ exists w, save_lda false (file_of double_bytes open_classes) = Ok w /\ d (bytes "old.npy") = Some w.
  Lemma snap_size : has_size 2 2 2 open_classes.
  Proof. repeat split; repeat constructor. Qed.
  Lemma snap_storable : storable 2 2.
  Proof. repeat split; lia. Qed.
  Lemma snap_disk_exists : exists d, snap_disk d.
  Proof.
    destruct (model_saved double_bytes double_bytes_length root_junk 2 2 2 open_classes snap_size snap_storable snap_storable) as (w & E & _).
    exists (fun name => if list_eq_dec ascii_dec name (bytes "data.npy") then Some snap_data else Some w).
    split; [destruct (list_eq_dec _ _ _); [reflexivity|congruence]|]. exists w. split; [exact E|]. destruct (list_eq_dec _ _ _) as [D|_]; [discriminate D|reflexivity].
  Qed.
  Lemma snap_reads d : snap_disk d -> data_xy snap_args root_junk d = Ok (snap_x, root_y).
  Proof.
    intros [D _]. unfold data_xy. change (snap_args "DATA"%string) with (VString "data.npy"). cbn [asString bind]. unfold open_in. rewrite D. vm_compute. reflexivity.
  Qed.
  Lemma snap_columns : columns snap_x = [[1; 0]; [0; 1]]%Z.
  Proof. vm_compute. reflexivity. Qed.
  Lemma snap_loads d : snap_disk d -> model_at double_of root_junk d "old.npy" = Ok open_classes.
  Proof.
    intros (_ & w & E & D). exact (model_found double_bytes double_of double_round double_bytes_length root_junk 2 2 2 _ w d "old.npy" root_junk snap_size snap_storable snap_storable E D).
  Qed.
  Lemma snap_options : class_options snap_args root_stol snap_stof "old.npy" "model.npy" 2 2.
  Proof.
    split; try reflexivity.
    - repeat split; reflexivity.
    - exists 2%Z. split; reflexivity.
    - exists 2%Z. split; reflexivity.
    - exists 2%Z, (ofZ 2), one. split; [reflexivity|]. split; [reflexivity|]. left. split; reflexivity.
    - exists true. reflexivity.
    - exists 1%Z. split; [reflexivity|]. right. lia.
  Qed.
  Lemma snap_documents : exists D, labelled_docs (columns snap_x) [0; 1]%Z = Ok D /\ double_corresponding (ofZ 2) D open_classes.
  Proof.
    destruct (labelled_docs (columns snap_x) [0; 1]%Z) as [D|e|] eqn:E.
    - exists D. split; [reflexivity|]. apply (corresponding_same _ both); [|exact (open_corresponding lg ex lga sum)].
      destruct (labelled_documents _ _ _ E) as [W C]. rewrite snap_columns in W. destruct D as [|d1 [|d2 [|? ?]]]; try discriminate W. injection W as W1 W2.
      pose proof (C 0 d1 eq_refl) as C1. pose proof (C 1 d2 eq_refl) as C2. cbn [nth_error] in C1, C2. cbn [map]. rewrite W1, W2, C1, C2. reflexivity.
    - exfalso. unfold labelled_docs in E. rewrite snap_columns in E. cbn in E. discriminate E.
    - exfalso. unfold labelled_docs in E. rewrite snap_columns in E. cbn in E. discriminate E.
  Qed.
End Cases.
