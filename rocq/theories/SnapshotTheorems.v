(** C95: the snapshots of the training commands; C96: continuing from them in double precision. *)
Require Import Reals ZArith List Bool Arith Lia String.
From Flocq Require Import Core.Core IEEE754.BinarySingleNaN.
Require Import Verif.Base Verif.Scalar Verif.Mat Verif.NumpyModel Verif.NumpySpec Verif.HostModel Verif.HostProofs Verif.DiskModel Verif.BuilderModel Verif.EStepModel Verif.OptModel Verif.MStepModel Verif.LdaModel
  Verif.AppsModel Verif.CommandModel Verif.CommandSpec Verif.CommandCases Verif.SnapshotProofs Verif.DoubleSpec Verif.DoubleTrainSpec Verif.DoubleCases Verif.FreshSpec Verif.FreshCases Verif.FreshTheorems
  Verif.MoreSpec Verif.MoreTrain.
Import ListNotations.
Local Open Scope nat_scope.
Local Open Scope list_scope.

(** C95.  A training command with --snapshot_every N that ended normally on a device without errors has left, for every multiple e of N up to the number of
    epochs n, a file named MODEL, an underscore and e in decimal (perhaps with leading zeros).  It reads back as the model after the first e of the epochs of that very run: the remaining n - e
    epochs lead from it to the model at MODEL.  No file other than these and MODEL has changed. *)
Theorem C95_snapshots lg ex lga sum dfuel ofuel args stol stof uniform_draws document_draws hw jk c d d' path x y K V C N : let O := double_ops lg ex lga sum in
  trains c -> args "MODEL"%string = VString path -> reads args jk c d x y -> 1 <= em_cols x ->
  starts double_of args stol jk c d x y K V C -> storable K V -> storable K C ->
  long_arg args stol "--snapshot_every" = Ok (Z.of_nat N) -> 0 < N -> (Z.of_nat N < 2 ^ 31)%Z ->
  command_main double_bytes double_of dfuel ofuel args stol stof uniform_draws document_draws hw jk good_device c d (Ok tt) d' ->
  exists b St (M : maximizer double St) new k docs,
    built double_of args stol stof uniform_draws document_draws hw jk c d x y = Ok b /\ steps ofuel args stol stof c y St M new k /\ documents_of c x y docs /\
    let n := c_iterations (fst b) in let fit := fit_call dfuel M k (c_workers (fst b)) docs in
    ((Z.of_nat n < 2 ^ 31)%Z ->
     exists st m ep, fit n (Ok new) (snd b, 0) (Ok st) (m, ep) /\ (forall jk', model_at double_of jk' d' path = Ok m) /\
      (forall e, 1 <= e <= n -> e mod N = 0 -> exists file digits st_e m_e ep_e,
        bytes file = bytes path ++ text "_" ++ digits /\ is_numeral digits (Z.of_nat e) /\ (forall jk', model_at double_of jk' d' file = Ok m_e) /\
        fit e (Ok new) (snd b, 0) st_e (m_e, ep_e) /\ fit (n - e) st_e (m_e, ep_e) (Ok st) (m, ep)) /\
      (forall name, d' name <> d name -> name = bytes path \/
        exists e digits, 1 <= e <= n /\ e mod N = 0 /\ is_numeral digits (Z.of_nat e) /\ name = bytes path ++ text "_" ++ digits)).
Proof.
  intros O. exact (training_snapshots double_bytes double_of double_round double_bytes_length dfuel ofuel args stol stof uniform_draws document_draws hw jk c d d' path x y K V C N).
Qed.
Print Assumptions C95_snapshots.

(** The snapshots of a lda train from scratch within the limits of C94 are usable models as well. *)
Theorem C95_usable lg ex lga sum ofuel args stol stof uniform_draws document_draws hw jk d path x K iterations workers N r d' : let O := double_ops lg ex lga sum in
  rough_log lg -> rough_exp ex -> (forall l, summed l (sum l)) ->
  data_x args jk d = Ok x -> plain_corpus (columns x) (em_rows x) -> fresh_options args stol stof uniform_draws path K (em_rows x) iterations workers -> storable K (em_rows x) ->
  long_arg args stol "--snapshot_every" = Ok (Z.of_nat N) -> 0 < N ->
  command_main double_bytes double_of 7 ofuel args stol stof uniform_draws document_draws hw jk good_device LdaTrain d r d' ->
  forall e, 1 <= e <= iterations -> e mod N = 0 -> exists file digits m, bytes file = bytes path ++ text "_" ++ digits /\ is_numeral digits (Z.of_nat e) /\
    (forall jk', model_at double_of jk' d' file = Ok m) /\ sound_model K (em_rows x) m /\ double_corpus (map unlabelled (columns x)) m.
Proof. intros O Hlg Hex Hsum. exact (fresh_snapshots lg ex lga sum Hlg Hex Hsum ofuel args stol stof uniform_draws document_draws hw jk d path x K iterations workers N r d'). Qed.
Print Assumptions C95_usable.

(** C96.  lda train --continue, from a file with a model that a training on the documents [X] left (as C94_train, C95_usable or this theorem describe it), on documents that
    extend [X] by documents with the same words: every run ends normally and leaves such a model again. *)
Theorem C96_continue lg ex lga sum ofuel args stol stof uniform_draws document_draws hw jk d from path x X K iterations workers m : let O := double_ops lg ex lga sum in
  rough_log lg -> rough_exp ex -> (forall l, summed l (sum l)) ->
  data_x args jk d = Ok x -> more_options args stol stof from path iterations workers ->
  model_at double_of jk d from = Ok m -> sound_model K (em_rows x) m -> double_corpus (map unlabelled X) m -> extends X (em_rows x) (columns x) -> storable K (em_rows x) ->
  let run := command_main double_bytes double_of 7 ofuel args stol stof uniform_draws document_draws hw jk good_device LdaTrain d in
  (forall r d', run r d' -> r = Ok tt /\ exists m', (forall jk', model_at double_of jk' d' path = Ok m') /\ sound_model K (em_rows x) m' /\ double_corpus (map unlabelled (columns x)) m') /\
  (0 < workers -> exists d', run (Ok tt) d').
Proof. intros O Hlg Hex Hsum. exact (more_train lg ex lga sum Hlg Hex Hsum ofuel args stol stof uniform_draws document_draws hw jk d from path x X K iterations workers m). Qed.
Print Assumptions C96_continue.

(** The training of C94_case, with a snapshot after every epoch: C95 applies, and a training can continue from the snapshot. *)
Example C95_case random lga : let O := double_ops lib_log lib_exp lga lib_sum in
  reads (fresh_args random) case_junk LdaTrain case_disk case_x [] /\ 1 <= em_cols case_x /\
  starts double_of (fresh_args random) case_stol case_junk LdaTrain case_disk case_x [] 2 3 1 /\ storable 2 3 /\ storable 2 1 /\ long_arg (fresh_args random) case_stol "--snapshot_every" = Ok 1%Z /\
  exists d' file m d3, command_main double_bytes double_of 7 0 (fresh_args random) case_stol case_stof fresh_draws case_picks 1 case_junk good_device LdaTrain case_disk (Ok tt) d' /\
    model_at double_of case_junk d' file = Ok m /\ sound_model 2 3 m /\ more_options (more_args file) case_stol case_stof file "model.npy" 1 2 /\
    let d2 := fun name => if list_eq_dec Ascii.ascii_dec name (bytes file) then d' name else case_disk name in
    command_main double_bytes double_of 7 0 (more_args file) case_stol case_stof fresh_draws case_picks 1 case_junk good_device LdaTrain d2 (Ok tt) d3.
Proof.
  intros O. assert (S : storable 2 3) by (repeat split; cbn; lia). split; [split; [exact (case_read random)|reflexivity]|]. split; [cbn; lia|].
  split; [right; split; [reflexivity|]; split; [exists 2%Z; split; reflexivity|]; split; reflexivity|]. split; [exact S|]. split; [repeat split; cbn; lia|]. split; [reflexivity|].
  destruct (proj2 (C94_train lib_log lib_exp lga lib_sum 0 (fresh_args random) case_stol case_stof fresh_draws case_picks 1 case_junk case_disk "model.npy" case_x 2 1 2
    lib_log_rough lib_exp_rough lib_sum_summed (case_read random) case_plain (case_options random) S) ltac:(lia)) as (d' & R).
  destruct (C95_usable lib_log lib_exp lga lib_sum 0 (fresh_args random) case_stol case_stof fresh_draws case_picks 1 case_junk case_disk "model.npy" case_x 2 1 2 1 (Ok tt) d'
    lib_log_rough lib_exp_rough lib_sum_summed (case_read random) case_plain (case_options random) S eq_refl ltac:(lia) R 1 ltac:(lia) eq_refl) as (file & digits & m & NM & _ & MA & SM & DC).
  pose proof (case_more file) as MO.
  set (d2 := fun name => if list_eq_dec Ascii.ascii_dec name (bytes file) then d' name else case_disk name).
  assert (N : bytes file <> bytes "docs.npy") by (rewrite NM; discriminate).
  assert (RD : data_x (more_args file) case_junk d2 = Ok case_x).
  { rewrite <- (case_read random). unfold data_x. change (more_args file "DATA"%string) with (VString "docs.npy"). change (fresh_args random "DATA"%string) with (VString "docs.npy"). cbn [asString bind].
    unfold open_in, d2. destruct (list_eq_dec Ascii.ascii_dec (bytes "docs.npy") (bytes file)) as [E|_]; [exfalso; apply N; symmetry; exact E|reflexivity]. }
  assert (MD : model_at double_of case_junk d2 file = Ok m).
  { rewrite <- (MA case_junk). unfold model_at, open_in, d2. destruct (list_eq_dec Ascii.ascii_dec (bytes file) (bytes file)) as [_|X]; [reflexivity|exfalso; apply X; reflexivity]. }
  destruct (proj2 (C96_continue lib_log lib_exp lga lib_sum 0 (more_args file) case_stol case_stof fresh_draws case_picks 1 case_junk d2 file "model.npy" case_x (columns case_x) 2 1 2 m
    lib_log_rough lib_exp_rough lib_sum_summed RD MO MD SM DC case_extends S) ltac:(lia)) as (d3 & R3).
  exists d', file, m, d3. split; [exact R|]. split; [apply MA|]. split; [exact SM|]. split; [exact MO|]. exact R3.
Qed.
