(** lda train and lda transform on two small documents. *)
Require Import ZArith List Bool Arith Lia Ascii String.
From Flocq Require Import Core IEEE754.BinarySingleNaN.
Require Import Verif.Base Verif.Scalar Verif.Mat Verif.NumpyModel Verif.HostModel Verif.DiskModel Verif.UtilsModel Verif.BuilderModel Verif.EStepModel Verif.OptModel Verif.MStepModel
  Verif.PoolModel Verif.PoolSpec Verif.PoolProofs Verif.PoolDone Verif.LdaModel Verif.AppsModel Verif.ShapeSpec Verif.CommandModel Verif.CommandSpec.
Import ListNotations.
Local Open Scope nat_scope.
Local Open Scope list_scope.

(** Some functions in the place of log, exp and lgamma; sums from left to right. *)
Definition a_log (x : double) : double := x.
Definition a_exp (x : double) : double := Babs x.
Definition case_sum (l : list double) : double := fold_left (@Bplus 53 1024 eq_refl eq_refl mode_NE) l (B754_zero false).
Definition case_ops : ops double := double_ops a_log a_exp a_log case_sum.
#[local] Hint Extern 0 (ops _) => exact case_ops : typeclass_instances.

(** Two documents of three words. *)
Definition case_x : emat := mk_emat 3 2 false (map int_bytes [2; 0; 1; 0; 3; 1]%Z).
Definition case_data : list byte := match save false I4 case_x with Ok b => b | _ => [] end.
Definition case_disk : disk := fun name => if list_eq_dec ascii_dec name (bytes "docs.npy") then Some case_data else None.
Definition case_args (key : string) : value :=
  if String.eqb key "DATA" then VString "docs.npy" else if String.eqb key "MODEL" then VString "model.npy" else if String.eqb key "OUTPUT" then VString "topics.npy"
  else if String.eqb key "--topics" then VLong 2 else if String.eqb key "--iterations" then VLong 1 else if String.eqb key "--workers" then VLong 2
  else if String.eqb key "--e_step_iterations" then VLong 2 else if String.eqb key "--e_step_tolerance" then VString "0"
  else if String.eqb key "--compute_likelihood" then VString "0" else if String.eqb key "--random_state" then VLong 0
  else if String.eqb key "--initialize_random" then VBool true else if String.eqb key "--quiet" then VBool true
  else if String.eqb key "--snapshot_every" then VLong 1 else VEmpty.
Definition case_stol (s : string) : outcome Z := Throw EOutOfRange.
Definition case_stof (s : string) : outcome double := Ok zero.
Definition case_draws (seed : Z) (k w : nat) : double := ofZ (1 + Z.of_nat (k + 2 * w)).
Definition case_picks (seed : Z) (k r : nat) : nat := 0.
Definition case_junk (i : nat) : junk := mk_junk Ascii.zero Ascii.zero Ascii.zero.

Definition case_docs : list (doc double) := map (fun w => unlabelled w) (columns case_x).
Definition case_start : outcome bstate :=
  lda_train case_args case_stol case_stof (model_at double_of case_junk case_disk) case_draws case_picks 1 3 (columns case_x).
Definition case_first : params double := match case_start with Ok b => snd b | _ => empty_params end.
Definition case_e : e_step double := Classic (mk_econf 2 zero zero).
(** A schedule of one epoch. *)
Definition case_schedule : list (label (option double)) :=
  repeat LMain 8 ++ repeat (LWorker 0 None) 4 ++ List.concat (repeat [LMain; LWorker 0 None] 40) ++ List.concat (repeat [LMain; LWorker 1 None] 40) ++ repeat LMain 20.
Definition case_end : state (outcome (vparams double)) (shared (T := double)) (outcome (mat double)) (option double) double :=
  play (train_estep 7 case_e case_docs) (train_feed unsupervised_maximizer case_docs) train_e_end (train_m_end unsupervised_maximizer) Fit true 2 case_schedule
    (initial 2 (Ok empty_mat) (case_first, 0)).
