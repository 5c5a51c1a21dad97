(** Files and options for the application in the root directory. *)
Require Import Reals ZArith List Bool Arith Lia Ascii String.
From Flocq Require Import Core.Core IEEE754.BinarySingleNaN.
Require Import Verif.Base Verif.Scalar Verif.Mat Verif.NumpyModel Verif.HostModel Verif.HostProofs Verif.DiskModel Verif.UtilsModel Verif.BuilderModel Verif.EStepModel Verif.LdaModel
  Verif.SettingsModel Verif.AppsModel Verif.ShapeSpec Verif.CommandModel Verif.CommandSpec Verif.CommandFiles Verif.DoubleSpec Verif.DoubleUtils Verif.DoubleCases Verif.DoubleInferSpec Verif.DoubleInferCases Verif.RootModel Verif.RootSpec.
Import ListNotations.
Local Open Scope nat_scope.
Local Open Scope list_scope.
Local Notation length := List.length.

(** Two documents of three words, labelled 0 and 1. *)
Definition root_x : emat := mk_emat 3 2 false (map int_bytes [3; 0; 1; 0; 2; 0]%Z).
Definition root_y : emat := mk_emat 2 1 false (map int_bytes [0; 1]%Z).
Definition root_data : list byte := match save false I4 root_x, save false I4 root_y with Ok a, Ok b => a ++ b | _, _ => [] end.
Definition root_args (key : string) : value :=
  if String.eqb key "DATA" then VString "data.npy" else if String.eqb key "MODEL" then VString "model.npy" else if String.eqb key "OUTPUT" then VString "topics.npy"
  else if existsb (String.eqb key) ["--topics"; "--e_step_iterations"; "--workers"; "--m_step_iterations"; "--fixed_point_iterations"]%string then VLong 2
  else if String.eqb key "--iterations" then VLong 1 else if String.eqb key "--snapshot_every" then VLong 0
  else if existsb (String.eqb key) ["--quiet"; "--fast_e_step"; "--show_likelihood"]%string then VBool true
  else if existsb (String.eqb key) ["--semi_supervised"; "--unsupervised_e_step"; "--multinomial"; "--correspondence"; "--online_m_step"; "--second_order_m_step"]%string then VBool false
  else if String.eqb key "--continue" then VEmpty else VString "0".
Definition root_stol (s : string) : outcome Z := Throw EOutOfRange.
Definition root_junk (i : nat) : junk := mk_junk Ascii.zero Ascii.zero Ascii.zero.

Section Cases.
  Variables (lg ex lga : double -> double) (sum : list double -> double).
  Local Hint Extern 0 (ops _) => exact (double_ops lg ex lga sum) : typeclass_instances.
  Definition root_stof (s : string) : outcome double := Ok zero.
  (** A disk with these data, and the model of DoubleInferCases.v *)
  Definition root_disk (d : disk) : Prop := d (bytes "data.npy") = Some root_data /\
    exists w, save_lda false (file_of double_bytes (ok_classes lg ex lga sum)) = Ok w /\ d (bytes "model.npy") = Some w.
  Lemma root_classes_size : has_size 2 3 2 (ok_classes lg ex lga sum).
  Proof. repeat split; repeat constructor. Qed.
  Lemma root_storable : storable 2 3 /\ storable 2 2.
  Proof. repeat split; lia. Qed.
  Lemma root_disk_exists : exists d, root_disk d.
  Proof.
    destruct (model_saved double_bytes double_bytes_length root_junk 2 3 2 (ok_classes lg ex lga sum) root_classes_size (proj1 root_storable) (proj2 root_storable)) as (w & E & _).
    exists (fun name => if list_eq_dec ascii_dec name (bytes "data.npy") then Some root_data else Some w).
    split; [destruct (list_eq_dec _ _ _); [reflexivity|congruence]|]. exists w. split; [exact E|]. destruct (list_eq_dec _ _ _) as [D|_]; [discriminate D|reflexivity].
  Qed.
  Lemma root_reads d : root_disk d -> data_xy root_args root_junk d = Ok (root_x, root_y).
  Proof.
    intros [D _]. unfold data_xy. change (root_args "DATA"%string) with (VString "data.npy"). cbn [asString bind]. unfold open_in. rewrite D. vm_compute. reflexivity.
  Qed.
  Lemma root_labels : labels root_y = Ok [0; 1]%Z.
  Proof. vm_compute. reflexivity. Qed.
  Lemma root_columns : columns root_x = [[3; 0; 1]; [0; 2; 0]]%Z.
  Proof. vm_compute. reflexivity. Qed.
  Lemma root_loads d : root_disk d -> model_at double_of root_junk d "model.npy" = Ok (ok_classes lg ex lga sum).
  Proof.
    intros (_ & w & E & D). exact (model_found double_bytes double_of double_round double_bytes_length root_junk 2 3 2 _ w d "model.npy" root_junk root_classes_size (proj1 root_storable) (proj2 root_storable) E D).
  Qed.
  (** train: the fast E step with likelihoods, the fast M step, two seeded topics *)
  Definition root_calls (picks : Z -> nat -> nat -> nat) : list (scall double) :=
    [Iterations 1; Workers 2; SetFastE (Some 2) (Some zero) (Some zero) (Some one); SetFastM (Some 2) (Some zero) (Some zero); Seeded (columns root_x) 2 30 (picks 0%Z); Zeros 2].
  Lemma root_case_asks picks d : root_asks double_of root_args root_stol root_stof picks root_junk d root_x [0; 1]%Z 2 3 2 (root_calls picks).
  Proof.
    exists 1%Z, 2%Z, (SetFastE (Some 2) (Some zero) (Some zero) (Some one)), (SetFastM (Some 2) (Some zero) (Some zero)), [Seeded (columns root_x) 2 30 (picks 0%Z); Zeros 2].
    split; [reflexivity|]. split; [reflexivity|]. split; [|split; [|split; [|reflexivity]]].
    - apply (e_fast root_args root_stol root_stof 2 zero zero one); try reflexivity. left. split; reflexivity.
    - apply (m_fast root_args root_stol root_stof [0; 1]%Z 2 zero zero); reflexivity.
    - apply (start_zeros double_of root_args root_stol picks root_junk d root_x [0; 1]%Z 2 2); reflexivity.
  Qed.
End Cases.
