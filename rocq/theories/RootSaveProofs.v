(** The snapshots of a training from scratch of the root directory's application. *)
Require Import Reals ZArith List Bool Arith Lia Ascii String.
From Flocq Require Import Core.Core IEEE754.BinarySingleNaN.
Require Import Verif.Base Verif.Scalar Verif.Mat Verif.NumpyModel Verif.NumpySpec Verif.HostModel Verif.HostProofs Verif.DiskModel Verif.BuilderModel Verif.EStepModel Verif.OptModel
  Verif.MStepModel Verif.MStepSpec Verif.PoolModel Verif.LdaModel Verif.TrainFit Verif.SettingsModel Verif.AppsModel Verif.ShapeSpec Verif.ShapeProofs Verif.CommandModel Verif.CommandSpec Verif.CommandFiles Verif.CommandProofs Verif.FreshSpec Verif.FreshTrain
  Verif.DoubleSpec Verif.DoubleTrainSpec Verif.DoubleClassSpec Verif.DoubleMultiTrainSpec Verif.DoubleCorrTrainSpec Verif.DoubleMultiTrainTheorems Verif.DoubleCorrTrainTheorems
  Verif.RootModel Verif.RootSpec Verif.RootProofs Verif.RootSnapSpec Verif.RootSnapProofs Verif.RootSnapTheorems Verif.RootFreshSpec Verif.RootFreshProofs Verif.RootFreshTheorems Verif.DoubleInferSpec.
Import ListNotations.
Local Open Scope nat_scope.
Local Open Scope list_scope.
Local Notation length := List.length.

Section Saved.
  Variables (lg ex lga : double -> double) (sum : list double -> double).
  Local Hint Extern 0 (ops _) => exact (double_ops lg ex lga sum) : typeclass_instances.
  Hypothesis R1 : rough_log lg.
  Hypothesis R2 : rough_log_below lg.
  Hypothesis R3 : rough_exp ex.
  Hypothesis R4 : forall l, summed l (sum l).

  Lemma maximizes_library ofuel ms St (M : maximizer double St) new : maximizes ofuel ms St M new -> library_step St M new.
  Proof. intros []; constructor. Qed.
  Lemma maximizes_correspondence ofuel ms St (M : maximizer double St) new mu cf D W n m st p : maximizes ofuel ms St M new -> ms = CorrespondenceM mu -> double_corresponding mu D m ->
    fit_call 7 M (Correspondence cf mu) W D n (Ok new) (m, 0) st p -> p_alpha (fst p) = p_alpha m /\ double_corresponding mu D (fst p) /\ (0 < n -> double_topics (p_beta (fst p)) /\ double_topics (p_eta (fst p))).
  Proof.
    intros U E DC. destruct U; try discriminate E. injection E as <-. intros F. destruct (C86_partial lg ex lga sum cf mu0 D W n 0 m st p R1 R2 R3 R4 DC F) as (_ & _ & A & _ & _ & _ & B & C). exact (conj A (conj B C)).
  Qed.
  Lemma maximizes_multinomial ofuel ms St (M : maximizer double St) new mu weight cf D W n m st p : maximizes ofuel ms St M new -> ms = MultinomialM mu -> double_labelled mu weight D m ->
    fit_call 7 M (Multinomial cf mu weight) W D n (Ok new) (m, 0) st p -> p_alpha (fst p) = p_alpha m /\ double_labelled mu weight D (fst p) /\ (0 < n -> double_topics (p_beta (fst p)) /\ double_topics (p_eta (fst p))).
  Proof.
    intros U E DC. destruct U; try discriminate E. injection E as <-. intros F. destruct (C85_partial lg ex lga sum cf mu0 weight D W n 0 m st p R1 R2 R3 R4 DC F) as (_ & _ & A & _ & _ & _ & B & C). exact (conj A (conj B C)).
  Qed.
  Lemma snapshots_counted args stol (stof : string -> outcome double) path K n w N : scratch_options args stol stof path K n w -> long_arg args stol "--snapshot_every" = Ok (Z.of_nat N) -> 0 < N ->
    (Z.of_nat N < 2 ^ 31)%Z /\ (Z.of_nat n < 2 ^ 31)%Z.
  Proof. intros SO E HN. destruct (so_snapshots _ _ _ _ _ _ _ SO) as (s & Es & [H|[H1 H2]]); rewrite E in Es; injection Es as <-; lia. Qed.
  Lemma columns_some x : plain_corpus (columns x) (em_rows x) -> 1 <= em_cols x.
  Proof. intros PC. pose proof (pc_documents _ _ PC) as [H _]. rewrite columns_length in H. lia. Qed.

  Variable ofuel : nat.
  Variable args : string -> value.
  Variable stol : string -> outcome Z.
  Variable stof : string -> outcome double.
  Variable document_draws : Z -> nat -> nat -> nat.
  Variable hw : nat.
  Variable jk : nat -> junk.

  Lemma saved_correspondence d path n w x y0 y D K C mu N e r d' :
    scratch_options args stol stof path K n w -> off args "--multinomial" -> on args "--correspondence" -> float_arg args stof "--mu" = Ok mu ->
    data_xy args jk d = Ok (x, y0) -> labels y0 = Ok y -> labelled_docs (columns x) y = Ok D ->
    plain_corpus (columns x) (em_rows x) -> (Z.of_nat (length (columns x)) <= 2 ^ 28)%Z -> labels_below C y -> 1 <= K <= 139 -> storable K (em_rows x) -> storable K C ->
    usual_mu mu -> corresponding_bound mu (all_words (columns x)) C ->
    long_arg args stol "--snapshot_every" = Ok (Z.of_nat N) -> 0 < N -> 1 <= e <= n -> e mod N = 0 ->
    root_train_main double_bytes double_of 7 ofuel args stol stof document_draws hw jk good_device d r d' ->
    exists file digits m, bytes file = bytes path ++ text "_" ++ digits /\ is_numeral digits (Z.of_nat e) /\ (forall jk', model_at double_of jk' d' file = Ok m) /\
      has_size K (em_rows x) C m /\ p_alpha m = vtab K (fun _ => inverse K) /\ double_corresponding mu D m /\ double_topics (p_beta m) /\ double_topics (p_eta m).
  Proof.
    intros SO F1 F2 MU DX LY LD PC SZ LB HK S1 S2 UM CB SE HN HE EM RUN. destruct (snapshots_counted _ _ _ _ _ _ _ _ SO SE HN) as [N31 n31]. pose proof (columns_some x PC) as NE.
    destruct (proj1 (C102_correspondence lg ex lga sum ofuel args stol stof document_draws hw jk d path n w x y0 y D K C mu R1 R2 R3 R4 SO F1 F2 MU DX LY LD PC SZ LB HK S1 S2 UM CB) r d' RUN) as (-> & _).
    assert (HC : (Z.of_nat C < 2 ^ 31)%Z) by (pose proof (classes_few (em_rows x) C (columns x) PC mu UM CB); lia).
    destruct (scratch_built lg ex lga sum R4 args stol stof document_draws hw jk d x y path n w K C mu SO ltac:(lia) PC LB HC MU) as (q & SD & X1 & _). destruct (X1 F1 F2) as (h & cf & AS & B).
    pose proof (first_corresponding lg ex lga sum R4 K (em_rows x) C (columns x) y (document_draws 0%Z) empty_params q D PC SD LB LD mu HK SZ UM CB) as DC.
    pose proof (proj1 (first_q lg ex lga sum R4 K (em_rows x) (columns x) (document_draws 0%Z) empty_params q PC SD)) as EA.
    pose proof (root_size double_of args stol stof document_draws hw jk d x y K (em_rows x) C h _ AS B) as HS.
    destruct (C98_snapshots lg ex lga sum 7 ofuel args stol stof document_draws hw jk d d' path x y0 y K (em_rows x) C h N (so_model _ _ _ _ _ _ _ SO) DX LY NE AS S1 S2 SE HN N31 RUN) as (o & docs & St & M & new & B' & LD' & U & Y).
    pose proof (eq_trans (eq_sym B) B') as BB. injection BB as <-. rewrite LD in LD'. injection LD' as <-. cbn [ob_iterations ob_m ob_e ob_workers ob_params] in *.
    destruct (Y n31) as (st & m & ep & _ & _ & Y1 & _). destruct (Y1 e HE EM) as (file & digits & st_e & m_e & ep_e & B1 & B2 & B3 & FE & _).
    exists file, digits, m_e. split; [exact B1|]. split; [exact B2|]. split; [exact B3|].
    split. { exact (proj2 (fit_keeps_size 7 K (em_rows x) C St M new _ _ D _ _ _ _ _ (maximizes_library _ _ _ _ _ U) (proj1 S1) (dc_some _ _ (dk_corpus _ _ _ DC)) HS FE)). }
    destruct (maximizes_correspondence _ _ _ _ _ _ _ _ _ _ _ _ _ U eq_refl DC FE) as (Q1 & Q2 & Q3). cbn [fst] in *. destruct (Q3 ltac:(lia)) as [Q4 Q5].
    exact (conj (eq_trans Q1 EA) (conj Q2 (conj Q4 Q5))).
  Qed.
  Lemma saved_multinomial d path n w x y0 y D K C mu weight N e r d' :
    scratch_options args stol stof path K n w -> on args "--multinomial" -> float_arg args stof "--mu" = Ok mu -> float_arg args stof "--eta_weight" = Ok weight ->
    data_xy args jk d = Ok (x, y0) -> labels y0 = Ok y -> labelled_docs (columns x) y = Ok D ->
    plain_corpus (columns x) (em_rows x) -> labels_below C y -> (Z.of_nat C <= 2 ^ 29)%Z -> 1 <= K <= 100 -> storable K (em_rows x) -> storable K C ->
    usual_mu mu -> multinomial_bound mu weight (all_words (columns x)) C ->
    long_arg args stol "--snapshot_every" = Ok (Z.of_nat N) -> 0 < N -> 1 <= e <= n -> e mod N = 0 ->
    root_train_main double_bytes double_of 7 ofuel args stol stof document_draws hw jk good_device d r d' ->
    exists file digits m, bytes file = bytes path ++ text "_" ++ digits /\ is_numeral digits (Z.of_nat e) /\ (forall jk', model_at double_of jk' d' file = Ok m) /\
      has_size K (em_rows x) C m /\ p_alpha m = vtab K (fun _ => inverse K) /\ double_labelled mu weight D m /\ double_topics (p_beta m) /\ double_topics (p_eta m).
  Proof.
    intros SO F1 MU WE DX LY LD PC LB HC HK S1 S2 UM CB SE HN HE EM RUN. destruct (snapshots_counted _ _ _ _ _ _ _ _ SO SE HN) as [N31 n31]. pose proof (columns_some x PC) as NE.
    destruct (proj1 (C102_multinomial lg ex lga sum ofuel args stol stof document_draws hw jk d path n w x y0 y D K C mu weight R1 R2 R3 R4 SO F1 MU WE DX LY LD PC LB HC HK S1 S2 UM CB) r d' RUN) as (-> & _).
    destruct (scratch_built lg ex lga sum R4 args stol stof document_draws hw jk d x y path n w K C mu SO ltac:(lia) PC LB ltac:(lia) MU) as (q & SD & _ & X1). destruct (X1 weight F1 WE) as (h & cf & AS & B).
    pose proof (first_labelled lg ex lga sum R4 K (em_rows x) C (columns x) y (document_draws 0%Z) empty_params q D PC SD LB LD mu weight HK HC UM CB) as DC.
    pose proof (proj1 (first_q lg ex lga sum R4 K (em_rows x) (columns x) (document_draws 0%Z) empty_params q PC SD)) as EA.
    pose proof (root_size double_of args stol stof document_draws hw jk d x y K (em_rows x) C h _ AS B) as HS.
    destruct (C98_snapshots lg ex lga sum 7 ofuel args stol stof document_draws hw jk d d' path x y0 y K (em_rows x) C h N (so_model _ _ _ _ _ _ _ SO) DX LY NE AS S1 S2 SE HN N31 RUN) as (o & docs & St & M & new & B' & LD' & U & Y).
    pose proof (eq_trans (eq_sym B) B') as BB. injection BB as <-. rewrite LD in LD'. injection LD' as <-. cbn [ob_iterations ob_m ob_e ob_workers ob_params] in *.
    destruct (Y n31) as (st & m & ep & _ & _ & Y1 & _). destruct (Y1 e HE EM) as (file & digits & st_e & m_e & ep_e & B1 & B2 & B3 & FE & _).
    exists file, digits, m_e. split; [exact B1|]. split; [exact B2|]. split; [exact B3|].
    split. { exact (proj2 (fit_keeps_size 7 K (em_rows x) C St M new _ _ D _ _ _ _ _ (maximizes_library _ _ _ _ _ U) (proj1 S1) (dc_some _ _ (dl_corpus _ _ _ _ DC)) HS FE)). }
    destruct (maximizes_multinomial _ _ _ _ _ _ _ _ _ _ _ _ _ _ U eq_refl DC FE) as (Q1 & Q2 & Q3). cbn [fst] in *. destruct (Q3 ltac:(lia)) as [Q4 Q5].
    exact (conj (eq_trans Q1 EA) (conj Q2 (conj Q4 Q5))).
  Qed.

  Lemma saved_model d path n w x y0 y D K C mu N e r d' :
    scratch_options args stol stof path K n w -> float_arg args stof "--mu" = Ok mu -> class_variant args stof K C (columns x) mu ->
    data_xy args jk d = Ok (x, y0) -> labels y0 = Ok y -> labelled_docs (columns x) y = Ok D ->
    plain_corpus (columns x) (em_rows x) -> labels_below C y -> 1 <= K -> storable K (em_rows x) -> storable K C -> usual_mu mu ->
    long_arg args stol "--snapshot_every" = Ok (Z.of_nat N) -> 0 < N -> 1 <= e <= n -> e mod N = 0 ->
    root_train_main double_bytes double_of 7 ofuel args stol stof document_draws hw jk good_device d r d' ->
    exists file digits m, bytes file = bytes path ++ text "_" ++ digits /\ is_numeral digits (Z.of_nat e) /\ (forall jk', model_at double_of jk' d' file = Ok m) /\ mrows (p_beta m) = K /\
      forall words, known_document (columns x) (em_rows x) words -> (0 < fold_right Z.add 0 words)%Z -> double_query 1 words m.
  Proof.
    intros SO MU CV DX LY LD PC LB HK S1 S2 UM SE HN HE EM RUN. pose proof (first_docs lg ex lga sum (columns x) y D LD) as EX. pose proof (class_some C y LB) as C1.
    assert (T : K <= 139 /\ exists file digits m, bytes file = bytes path ++ text "_" ++ digits /\ is_numeral digits (Z.of_nat e) /\ (forall jk', model_at double_of jk' d' file = Ok m) /\
      has_size K (em_rows x) C m /\ p_alpha m = vtab K (fun _ => inverse K) /\ double_corpus D m /\ double_topics (p_eta m)).
    { destruct CV as [F1 F2 K1 SZ CB|weight F1 WE K1 HC CB].
      - split; [exact K1|]. destruct (saved_correspondence d path n w x y0 y D K C mu N e r d' SO F1 F2 MU DX LY LD PC SZ LB (conj HK K1) S1 S2 UM CB SE HN HE EM RUN)
          as (file & digits & m & B1 & B2 & MA & HS & EA & DC & _ & DT). exists file, digits, m. exact (conj B1 (conj B2 (conj MA (conj HS (conj EA (conj (dk_corpus _ _ _ DC) DT)))))).
      - split; [lia|]. destruct (saved_multinomial d path n w x y0 y D K C mu weight N e r d' SO F1 MU WE DX LY LD PC LB HC (conj HK K1) S1 S2 UM CB SE HN HE EM RUN)
          as (file & digits & m & B1 & B2 & MA & HS & EA & DC & _ & DT). exists file, digits, m. exact (conj B1 (conj B2 (conj MA (conj HS (conj EA (conj (dl_corpus _ _ _ _ DC) DT)))))). }
    destruct T as (K1 & file & digits & m & B1 & B2 & MA & HS & EA & DC & DT). exists file, digits, m. split; [exact B1|]. split; [exact B2|]. split; [exact MA|]. split.
    - destruct HS as (_ & (EB & _) & _). exact EB.
    - intros words KW W0. exact (query_known lg ex lga sum K (em_rows x) C (columns x) D m words DC EX HS EA DT (conj HK K1) C1 (pc_words _ _ PC) KW W0).
  Qed.
End Saved.
