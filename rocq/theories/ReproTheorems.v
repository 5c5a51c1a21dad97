(** Property C58: training with one worker is reproducible. *)
Require Import ZArith List Bool Arith Lia Permutation.
From Flocq Require Import IEEE754.BinarySingleNaN.
Require Import Verif.Base Verif.Scalar Verif.Mat Verif.UtilsModel Verif.BuilderModel Verif.EStepModel Verif.OptModel Verif.MStepModel Verif.MStepSpec
  Verif.LdaModel Verif.CorpusModel Verif.ReproModel Verif.ReproSpec Verif.ReproProofs Verif.ReproFloat.
Import ListNotations.
Local Open Scope nat_scope.

(** C58.  For every scalar type, so bit for bit also in floating point, every batch M step, E step, corpus and starting point: two
    trainings with one worker and the same random draws for the shuffles end with the same M step object (or failure), model and epoch count,
    whatever the schedules of the two threads and the E steps' draws.  ([fit_seeded W at_ ds idx st p st' p'], ReproModel.v: some execution of fit with W workers and
    one epoch for each element of [ds], which holds the draws of its shuffle, on the corpus whose column i is document [at_ i] and
    whose order is [idx], leads from [st], [p] to [st'], [p'].) *)
Theorem C58_reproducible {T} {O : ops T} dfuel K V C St (M : maximizer T St) new a P Q k at_ ds idx st p st1 p1 st2 p2 :
  batch_step K V C St M new a P Q ->
  fit_seeded dfuel M k 1 at_ ds idx st p st1 p1 -> fit_seeded dfuel M k 1 at_ ds idx st p st2 p2 ->
  st1 = st2 /\ p1 = p2.
Proof. intros B. exact (seeded_det dfuel M k (batch_keeps_any K V C St M new a P Q B) at_ ds idx st p st1 p1 st2 p2). Qed.
(** The result, or failure, is that of the loop without threads ([plain_fit], ReproSpec.v) over the orders of the corpus. *)
Theorem C58_sequential {T} {O : ops T} dfuel K V C St (M : maximizer T St) new a P Q k at_ ds idx s m n st' p' :
  batch_step K V C St M new a P Q ->
  fit_seeded dfuel M k 1 at_ ds idx (Ok s) (m, n) st' p' ->
  match plain_fit dfuel M k (orders_of shuffle at_ ds idx) n m s with
  | Ok (m', s') => st' = Ok s' /\ p' = (m', n + length ds)
  | Throw e => st' = Throw e
  | UB => st' = UB
  end.
Proof. intros B. exact (seeded_plain dfuel M k (batch_keeps_any K V C St M new a P Q B) at_ ds idx s m n st' p'). Qed.
(** With any number of workers: such executions exist, and they are executions of fit as in C19. *)
Theorem C58_is_fit {T} {O : ops T} dfuel K V C St (M : maximizer T St) new a P Q k W at_ ds idx st p :
  batch_step K V C St M new a P Q -> 0 < W ->
  (exists st' p', fit_seeded dfuel M k W at_ ds idx st p st' p') /\
  (forall st' p', fit_seeded dfuel M k W at_ ds idx st p st' p' -> fit_call dfuel M k W (map at_ idx) (length ds) st p st' p').
Proof.
  intros B HW. split; [exact (seeded_returns dfuel K V C St M new a P Q k W at_ ds B HW idx st p)|].
  intros st' p'. exact (seeded_fit dfuel M k W at_ ds idx (map at_ idx) st p st' p' (Permutation_refl _)).
Qed.
(** With two workers it is false in single precision: one epoch of the classic E step and the unsupervised M step on three documents in the
    same order, with two results; the probability of the first word is 1 in one and less than 1 in the other. *)
Theorem C58_two_workers_refuted (lg ex lga : F32 -> F32) : let O := Fops 24 128 lg ex lga left_sum in
  let at_ := unlabelled_at [[16777216; 1]; [1; 0]; [1; 0]]%Z in
  let k := Classic (mk_econf 0 zero zero) in
  let m := mk_params [one] (mk_mat 1 [[one]; [one]]) empty_mat in
  exists st p st' p',
    fit_seeded 7 unsupervised_maximizer k 2 at_ [fun i => i] [0; 1; 2] (Ok empty_mat) (m, 0) st p /\
    fit_seeded 7 unsupervised_maximizer k 2 at_ [fun i => i] [0; 1; 2] (Ok empty_mat) (m, 0) st' p' /\
    (exists s s', st = Ok s /\ st' = Ok s') /\
    eqb (mget (p_beta (fst p)) 0 0) one = true /\ ltb (mget (p_beta (fst p')) 0 0) one = true.
Proof.
  intros O at_ k m. destruct (two_results lg ex lga) as (st & p & st' & p' & A & B & H). exists st, p, st', p'.
  split; [|split; [|exact H]]; (econstructor; [|constructor]); assumption.
Qed.

(** Three labelled documents and two epochs; the orders are those of the shuffles. *)
Example C58_case {T} {O : ops T} dfuel k fuel limit tolerance L m :
  let at_ := labelled_at [[2; 0]; [0; 3]; [1; 1]]%Z [0; 1; 1]%Z [] in
  let d0 := mk_doc [2; 0]%Z (Some 0%Z) 3 [] in let d1 := mk_doc [0; 3]%Z (Some 1%Z) 3 [] in let d2 := mk_doc [1; 1]%Z (Some 1%Z) 3 [] in
  orders_of shuffle at_ [fun _ => 0; fun i => i] [0; 1; 2] = [[d2; d0; d1]; [d2; d0; d1]] /\
  exists st p, fit_seeded dfuel (fast_maximizer fuel limit tolerance L) k 1 at_ [fun _ => 0; fun i => i] [0; 1; 2] (Ok new_fast) (m, 0) st p.
Proof. intros at_ d0 d1 d2. split; [reflexivity|]. apply (C58_is_fit dfuel 1 2 2 _ _ _ _ _ _ k 1 at_ _ _ _ _ (step_fast 1 2 2 fuel limit tolerance L)). lia. Qed.
Print Assumptions C58_reproducible. Print Assumptions C58_sequential. Print Assumptions C58_is_fit. Print Assumptions C58_two_workers_refuted.
