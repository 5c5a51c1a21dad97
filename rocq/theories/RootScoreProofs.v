(** The model of a training from scratch of the root directory's application suits documents with known words. *)
Require Import Reals ZArith List Bool Arith Lia Ascii String.
From Flocq Require Import Core.Core IEEE754.BinarySingleNaN.
Require Import Verif.Base Verif.Scalar Verif.Mat Verif.NumpyModel Verif.NumpySpec Verif.HostModel Verif.HostProofs Verif.DiskModel Verif.BuilderModel Verif.EStepModel Verif.OptModel
  Verif.LdaModel Verif.SettingsModel Verif.AppsModel Verif.ShapeSpec Verif.CommandModel Verif.CommandSpec Verif.CommandFiles Verif.FreshSpec
  Verif.DoubleSpec Verif.DoubleTrainSpec Verif.DoubleClassSpec Verif.DoubleMultiTrainSpec Verif.DoubleCorrTrainSpec Verif.DoubleInferSpec
  Verif.RootModel Verif.RootSpec Verif.RootCases Verif.RootTheorems Verif.RootSnapCases Verif.RootFreshSpec Verif.RootFreshProofs Verif.RootFreshCases Verif.RootFreshTheorems.
Import ListNotations.
Local Open Scope nat_scope.
Local Open Scope list_scope.
Local Notation length := List.length.


Lemma scratch_model lg ex lga sum ofuel args stol (stof : string -> outcome double) document_draws hw jk d path n w x y0 y D K C mu r d' jk2 d2 X2 : let O := double_ops lg ex lga sum in
  rough_log lg -> rough_log_below lg -> rough_exp ex -> (forall l, summed l (sum l)) ->
  scratch_options args stol stof path K n w -> float_arg args stof "--mu" = Ok mu -> class_variant args stof K C (columns x) mu ->
  data_xy args jk d = Ok (x, y0) -> labels y0 = Ok y -> labelled_docs (columns x) y = Ok D ->
  plain_corpus (columns x) (em_rows x) -> labels_below C y -> 1 <= K -> storable K (em_rows x) -> storable K C -> usual_mu mu -> 0 < n ->
  root_train_main double_bytes double_of 7 ofuel args stol stof document_draws hw jk good_device d r d' ->
  d2 (bytes path) = d' (bytes path) ->
  Forall (fun words => known_document (columns x) (em_rows x) words /\ (0 < fold_right Z.add 0 words)%Z) X2 ->
  exists m, model_at double_of jk2 d2 path = Ok m /\ mrows (p_beta m) = K /\ Forall (fun words => double_query 1 words m) X2.
Proof.
  intros O R1 R2 R3 R4 SO MU CV DX LY LD PC LB HK S1 S2 UM HN RUN ED KD.
  assert (T : K <= 139 /\ exists m, (forall jk', model_at double_of jk' d' path = Ok m) /\ has_size K (em_rows x) C m /\ p_alpha m = vtab K (fun _ => inverse K) /\ double_corpus D m /\ double_topics (p_eta m)).
  { destruct CV as [F1 F2 K1 SZ CB|weight F1 WE K1 HC CB].
    - split; [exact K1|]. destruct (proj1 (C102_correspondence lg ex lga sum ofuel args stol stof document_draws hw jk d path n w x y0 y D K C mu R1 R2 R3 R4 SO F1 F2 MU DX LY LD PC SZ LB (conj HK K1) S1 S2 UM CB) r d' RUN)
        as (_ & m & MA & HS & EA & DC & DT). exists m. exact (conj MA (conj HS (conj EA (conj (dk_corpus _ _ _ DC) (proj2 (DT HN)))))).
    - split; [lia|]. destruct (proj1 (C102_multinomial lg ex lga sum ofuel args stol stof document_draws hw jk d path n w x y0 y D K C mu weight R1 R2 R3 R4 SO F1 MU WE DX LY LD PC LB HC (conj HK K1) S1 S2 UM CB) r d' RUN)
        as (_ & m & MA & HS & EA & DC & DT). exists m. exact (conj MA (conj HS (conj EA (conj (dl_corpus _ _ _ _ DC) (proj2 (DT HN)))))). }
  destruct T as (K1 & m & MA & HS & EA & DC & DT). pose proof (first_docs lg ex lga sum (columns x) y D LD) as EX. pose proof (class_some C y LB) as C1.
  assert (MD : model_at double_of jk2 d2 path = Ok m) by (rewrite <- (MA jk2); unfold model_at, open_in; now rewrite ED).
  assert (HQ : Forall (fun words => double_query 1 words m) X2).
  { eapply Forall_impl; [|exact KD]. intros words [KW W0]. exact (query_known lg ex lga sum K (em_rows x) C (columns x) D m words DC EX HS EA DT (conj HK K1) C1 (pc_words _ _ PC) KW W0). }
  exists m. split; [exact MD|]. split; [|exact HQ]. destruct HS as (_ & (EB & _) & _). exact EB.
Qed.
