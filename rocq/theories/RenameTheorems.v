(** Properties C63-C65: the numbers of words, topics and classes. *)
Require Import Reals ZArith List Bool Arith Lia Lra Permutation.
Require Import Verif.Base Verif.Scalar Verif.Mat Verif.UtilsModel Verif.BuilderModel Verif.EStepModel Verif.EStepSpec Verif.EStepTheorems Verif.OptModel Verif.OptSpec Verif.MStepModel Verif.MStepSpec
  Verif.LdaModel Verif.InferSpec Verif.InferProofs Verif.InferTheorems Verif.TrainSpec Verif.TrainProofs Verif.TrainTheorems
  Verif.RenameSpec Verif.RenameBase Verif.RenameEStep Verif.RenameMStep Verif.RenameFit Verif.RenameRefute Verif.RenameOnce.
Import ListNotations.
Local Open Scope nat_scope.

(** C63.  Inference over the reals, for every E step: the posterior of a document does not depend on how topics, words and classes are
    numbered ([model_renamed], [doc_renamed], [posterior_renamed]: the same model, document and posterior in other
    numbers).  The words must keep their numbers with sLDA. *)
Theorem C63_estep lg K V C a k epochs emit d d' m m' v e : let O := Rops lg in
  valid_naming K V C a -> (ordered_words k -> forall n, n < V -> word_at a n = n) ->
  doc_renamed V C a d d' -> model_renamed K V C a m m' ->
  doc_e_step 7 k epochs emit d m = Ok (v, e) ->
  exists v' e', doc_e_step 7 k epochs emit d' m' = Ok (v', e') /\ posterior_renamed K V a v v' /\ (plain_likelihood k -> e' = e).
Proof.
  intros O Pa Hw Hd Hm E. destruct (doc_e_step_sim lg 7 K V C a Pa k Hw epochs emit d d' m m' Hd Hm (v, e) E) as ([v' e'] & E' & H1 & H2). exists v', e'. split; [exact E'|]. split; [exact H1|exact H2].
Qed.
(** transform: the columns of gamma are renumbered ... *)
Theorem C63_transform lg K V C a k epochs W W' m m' X X' g r' : let O := Rops lg in
  valid_naming K V C a -> (ordered_words k -> forall n, n < V -> word_at a n = n) ->
  model_renamed K V C a m m' -> Forall2 (list_renamed 0%Z V (word_at a)) X X' ->
  transform_call 7 k epochs W m X (Ok g) -> transform_call 7 k epochs W' m' X' r' ->
  exists g', r' = Ok g' /\ mat_renamed K (length X) (topic_at a) (fun d => d) g g'.
Proof.
  intros O Pa Hw Hm HX G G'. pose proof (transform_unique _ _ _ _ _ _ _ G) as U. pose proof (transform_unique _ _ _ _ _ _ _ G') as U'.
  destruct (gammas_sim lg K V C a Pa k Hw epochs m m' X X' Hm HX g (eq_sym U)) as (g' & E & H). exists g'. split; [now rewrite U'|exact H].
Qed.
(** ... decision_function: so are the rows of the scores ... *)
Theorem C63_decision lg K V C a m m' g g' n s : let O := Rops lg in
  valid_naming K V C a -> model_renamed K V C a m m' -> mat_renamed K n (topic_at a) (fun d => d) g g' ->
  decision_function m g = Ok s ->
  exists s', decision_function m' g' = Ok s' /\ mat_renamed C n (class_at a) (fun d => d) s s'.
Proof. intros O Pa Hm Hg E. exact (decision_sim lg K V C a Pa m m' g g' n Hm Hg s E). Qed.
(** ... predict: the new predictions, in the old numbers, are classes with the same score, so the same classes unless two classes have
    the same score. *)
Theorem C63_predict lg K V C a k epochs W W' m m' X X' p r' : let O := Rops lg in
  valid_naming K V C a -> (ordered_words k -> forall n, n < V -> word_at a n = n) ->
  model_renamed K V C a m m' -> Forall2 (list_renamed 0%Z V (word_at a)) X X' ->
  predict_call 7 k epochs W m X (Ok p) -> predict_call 7 k epochs W' m' X' r' ->
  exists p' g s, r' = Ok p' /\ transform_call 7 k epochs W m X (Ok g) /\ decision_function m g = Ok s /\
    length p = length X /\ length p' = length X /\
    forall d, d < length X -> nth d p' 0 < C /\ mget s (class_at a (nth d p' 0)) d = mget s (nth d p 0) d /\
      ((forall c c', c < C -> c' < C -> mget s c d = mget s c' d -> c = c') -> nth d p 0 = class_at a (nth d p' 0)).
Proof.
  intros O Pa Hw Hm HX (r & G & E) (r2 & G' & ->). destruct r as [g| |]; cbn [bind] in E; [|discriminate..].
  destruct (C63_transform lg K V C a k epochs W W' m m' X X' g r2 Pa Hw Hm HX G G') as (g' & -> & Hg). cbn [bind].
  destruct (decision_function m g) as [s| |] eqn:Es; cbn [bind] in E; [|discriminate..].
  destruct (C63_decision lg K V C a m m' g g' (length X) s Pa Hm Hg Es) as (s' & Es' & Hs).
  change (decision_function (O := Rops lg) m' g') with (decision_function (O := O) m' g') in Es'. rewrite Es'. cbn [bind].
  destruct (predict_sim lg K V C a Pa s s' (length X) Hs p (eq_sym E)) as (p' & Ep & H1 & H2 & H3). exists p', g, s. split; [exact Ep|]. split; [exact G|]. split; [exact Es|]. split; [exact H1|]. split; [exact H2|exact H3].
Qed.

(** Two topics, words and classes, all exchanged: the E step, transform and predict succeed. *)
Definition exchange (i : nat) : nat := match i with 0 => 1 | 1 => 0 | _ => i end.
Definition exchanged : naming := mk_naming exchange exchange exchange.
Definition other_model : params R := mk_params [1/10; 1/10]%R (mk_mat 2 [[2/3; 1/2]; [1/3; 1/2]]%R) (mk_mat 2 [[1/2; 0]; [-1; 1]]%R).
Lemma exchange_permutes : permutes 2 exchange.
Proof. split; [intros [|[|i]] H; cbn; lia|intros [|[|i]] [|[|j]] Hi Hj H; cbn in H; lia]. Qed.
Lemma other_renamed lg : let O := Rops lg in model_renamed 2 2 2 exchanged ok_model other_model.
Proof.
  intros O. split; [|split; [|left]]; (split; [reflexivity|split; [reflexivity|]]).
  - intros [|[|i]] Hi; try lia; reflexivity.
  - split; [reflexivity|split; [reflexivity|]]. intros [|[|i]] [|[|j]] Hi Hj; try lia; reflexivity.
  - split; [reflexivity|split; [reflexivity|]]. intros [|[|i]] [|[|j]] Hi Hj; try lia; reflexivity.
Qed.
Example C63_case lg cf ex w : let O := Rops lg in
  valid_naming 2 2 2 exchanged /\ model_renamed 2 2 2 exchanged ok_model other_model /\ ok_model <> other_model /\
  doc_renamed 2 2 exchanged ok_doc (mk_doc [0; 2]%Z (Some 0%Z) 1 [1/2; 1/2]%R) /\
  (exists v e, doc_e_step 7 (FastSupervised cf ex w) 0 true ok_doc ok_model = Ok (v, e)) /\
  Forall2 (list_renamed 0%Z 2 exchange) [[2; 0]; [0; 3]]%Z [[0; 2]; [3; 0]]%Z /\
  (exists p r', predict_call 7 (Classic cf) 0 2 ok_model [[2; 0]; [0; 3]]%Z (Ok p) /\ predict_call 7 (Classic cf) 0 3 other_model [[0; 2]; [3; 0]]%Z r').
Proof.
  intros O. split; [exact (conj exchange_permutes (conj exchange_permutes exchange_permutes))|]. split; [apply other_renamed|]. split; [|split; [|split; [|split]]].
  - intros E. apply (f_equal (fun m => mget (p_beta m) 0 0)) in E. unfold mget in E. cbn in E. lra.
  - split; [|split; [|split; [reflexivity|]]].
    + split; [reflexivity|split; [reflexivity|]]. intros [|[|i]] Hi; try lia; reflexivity.
    + left. cbn. split; [lia|reflexivity].
    + intros [|[|c]] Hc; try lia; reflexivity.
  - destruct (C31_fast lg cf (get_weight ex w 0) true ok_doc ok_model 1 (C30_inputs lg) eq_refl (C31_class lg)) as (g & f & e & E & _); [intros _; exists 0; cbn; lia|]. eauto.
  - constructor; [|constructor; [|constructor]]; (split; [reflexivity|split; [reflexivity|]]); intros [|[|i]] Hi; try lia; reflexivity.
  - destruct (C49_case lg) as (H1 & H2 & H3 & _). destruct (C50_returns (O := O) 7 (Classic cf) 0 2 ok_model [[2; 0]; [0; 3]]%Z ltac:(lia)) as (_ & (r & E) & _).
    destruct (C50_returns (O := O) 7 (Classic cf) 0 3 other_model [[0; 2]; [3; 0]]%Z ltac:(lia)) as (_ & (r' & E') & _).
    destruct (C49_call lg cf 0 2 ok_model _ r H1 ltac:(discriminate) H2 H3 E) as (_ & p & _ & -> & _). eauto.
Qed.

(** C64.  Training over the reals: n epochs with every batch M step and every E step, from a new M step object.  If topics and words
    are numbered differently, and classes are not, the result is the same in the other numbers, and succeeds as well, with any numbers of workers,
    schedules, shuffles and draws.  The words must keep their numbers with sLDA. *)
Theorem C64_fit lg K V C a St M new f P Q k D D' W W' n m m' ep s p st' p' : let O := Rops lg in
  0 < K -> valid_naming K V C a -> (forall c, c < C -> class_at a c = c) -> (ordered_words k -> forall n, n < V -> word_at a n = n) ->
  batch_step K V C St M new f P Q -> D <> [] -> delivers K V k Q D -> P m ->
  Forall2 (doc_renamed V C a) D D' -> model_renamed K V C a m m' ->
  fit_call 7 M k W D n (Ok new) (m, ep) (Ok s) p ->
  fit_call 7 M k W' D' n (Ok new) (m', ep) st' p' ->
  (exists t, st' = Ok t) /\ model_renamed K V C a (fst p) (fst p').
Proof.
  intros O HK Pa Hc Hw B HD HQ HP HDD Hm F F'.
  destruct (fit_renamed lg K V C a Pa k Hw St M new f P Q B HK D D' HD HDD) with (m0 := m) (m0' := m') (W := W) (W' := W') (n := n) (m := m) (m' := m') (ep := ep) (s := new) (s2 := new) (s' := s) (p' := p) (st2' := st') (p2' := p') as (X1 & _ & _ & X2); try assumption.
  - intros epochs m1 d v Hd [S1 S2] E. exact (HQ epochs m1 d v Hd S1 S2 E).
  - intros _. exact (same_largest V C a D D' Hc HDD).
  - exact (model_ok_renamed lg K V C a St M new f P Q B m m' Hm HP).
  - exists [], []; split; [now left|split; [constructor|reflexivity]].
  - exists [], []; split; [now left|split; [constructor|reflexivity]].
  - split; assumption.
Qed.

(** Three epochs of the unsupervised algorithm on two documents, topics and words exchanged. *)
Example C64_case lg cf : let O := Rops lg in let a := mk_naming exchange exchange (fun c => c) in
  valid_naming 2 2 0 a /\ exists m m' D', model_renamed 2 2 0 a m m' /\ m' <> m /\ Forall2 (doc_renamed 2 0 a) two_docs D' /\
  exists s s' p p', fit_call 7 unsupervised_maximizer (Classic cf) 1 two_docs 3 (Ok empty_mat) (m, 0) (Ok s) p /\
    fit_call 7 unsupervised_maximizer (Classic cf) 5 D' 3 (Ok empty_mat) (m', 0) (Ok s') p' /\ model_renamed 2 2 0 a (fst p) (fst p').
Proof.
  intros O a. assert (Va : valid_naming 2 2 0 a) by (exact (conj exchange_permutes (conj exchange_permutes (conj (fun i H => H) (fun i j _ _ H => H))))).
  split; [exact Va|]. set (m := mk_params (p_alpha ok_model) (p_beta ok_model) (mk_mat 2 [])). set (m' := mk_params (p_alpha other_model) (p_beta other_model) (mk_mat 2 [])).
  set (D' := [mk_doc [0; 2]%Z None 2 []; mk_doc [3; 0]%Z None 2 []] : list (doc R)).
  assert (Hm : model_renamed 2 2 0 a m m').
  { destruct (other_renamed lg) as (H1 & H2 & _). split; [exact H1|]. split; [exact H2|]. right. repeat split. }
  assert (HD : Forall2 (doc_renamed 2 0 a) two_docs D').
  { constructor; [|constructor; [|constructor]]; (split; [|split; [exact I|split; [reflexivity|intros c Hc; lia]]]); (split; [reflexivity|split; [reflexivity|]]); intros [|[|i]] Hi; try lia; reflexivity. }
  exists m, m', D'. split; [exact Hm|]. split; [|split; [exact HD|]].
  { intros E. apply (f_equal (fun m => mget (p_beta m) 0 0)) in E. unfold mget in E. cbn in E. lra. }
  assert (HP : Forall (fun d => proper_input (d_words d) m) two_docs).
  { destruct (C49_case lg) as (H & _). pose proof (Forall_inv H) as [A1 A2 A3 A4 A5 A6 A7]. pose proof (Forall_inv (Forall_inv_tail H)) as [B1 B2 B3 B4 B5 B6 B7].
    constructor; [constructor; assumption|]. constructor; [constructor; assumption|]. constructor. }
  assert (Hn : two_docs <> []) by discriminate.
  destruct (C19_returns 2 2 0 _ _ _ _ _ _ (Classic cf) 1 two_docs 3 (Ok empty_mat) (m, 0) (step_unsupervised 2 2 0)) as (st & p & F); [lia|].
  destruct (C19_returns 2 2 0 _ _ _ _ _ _ (Classic cf) 5 D' 3 (Ok empty_mat) (m', 0) (step_unsupervised 2 2 0)) as (st' & p' & F'); [lia|].
  destruct (C19_unsupervised lg cf two_docs 1 3 m 0 st p Hn HP F) as ((s & ->) & _).
  destruct (C64_fit lg 2 2 0 a _ _ _ _ _ _ (Classic cf) two_docs D' 1 5 3 m m' 0 s p st' p' ltac:(lia) Va (fun c _ => eq_refl) ltac:(intros []) (step_unsupervised 2 2 0) Hn
    (proj1 (C19_demands lg 2 2 0 two_docs) (Classic cf)) I HD Hm F F') as ((t & ->) & H).
  exists s, t, p, p'. split; [exact F|]. split; [exact F'|exact H].
Qed.

(** C65 is false: with the fast supervised algorithm, exchanging the numbers of two classes, one of which has no documents, changes more
    than the numbers in the model. *)
Theorem C65_refuted : exists a D D' m, forall lg cf ex w, let O := Rops lg in
  valid_naming 1 1 2 a /\ class_at a = exchange /\ Forall2 (doc_renamed 1 2 a) D D' /\ model_renamed 1 1 2 a m m /\
  delivers 1 1 (FastSupervised cf ex w) has_class D /\ delivers 1 1 (FastSupervised cf ex w) has_class D' /\
  forall W W', 0 < W -> 0 < W' -> exists s s' p p',
    fit_call 7 (fast_maximizer 1 1 0%R 0%R) (FastSupervised cf ex w) W D 1 (Ok new_fast) (m, 0) (Ok s) p /\
    fit_call 7 (fast_maximizer 1 1 0%R 0%R) (FastSupervised cf ex w) W' D' 1 (Ok new_fast) (m, 0) (Ok s') p' /\
    ~ model_renamed 1 1 2 a (fst p) (fst p').
Proof.
  set (doc_of y := fst (one_item y)). exists (mk_naming (fun i => i) (fun i => i) exchange), [doc_of 0%Z], [doc_of 1%Z], one_model. intros lg cf ex w O. subst doc_of.
  assert (Pi : forall n, permutes n (fun i => i)) by (intros n; split; auto).
  split; [split; [apply Pi|split; [apply Pi|]]|].
  { split; [intros [|[|i]] H; cbn; lia|intros [|[|i]] [|[|j]] Hi Hj H; cbn in H; lia]. }
  split; [reflexivity|]. split; [|split; [|split; [|split]]].
  - constructor; [|constructor]. split; [|split; [|split; [reflexivity|]]].
    + split; [reflexivity|]. split; [reflexivity|]. reflexivity.
    + left. cbn. split; [lia|reflexivity].
    + intros [|[|c]] Hc; cbn; try lia; reflexivity.
  - split; [|split].
    + split; [reflexivity|]. split; reflexivity.
    + repeat split. 
    + left. repeat split. intros i j Hi Hj. cbn [p_eta one_model]. rewrite !mget_tab; try assumption; [reflexivity|]. destruct j as [|[|]]; cbn; lia.
  - apply (proj1 (proj2 (C19_demands lg 1 1 2 _))). intros d [<-|[]]. discriminate.
  - apply (proj1 (proj2 (C19_demands lg 1 1 2 _))). intros d [<-|[]]. discriminate.
  - intros W W' HW HW'.
    destruct (C19_returns 1 1 2 _ _ _ _ _ _ (FastSupervised cf ex w) W [fst (one_item 0)] 1 (Ok new_fast) (one_model, 0) (step_fast 1 1 2 1 1 0%R 0%R) HW) as (st & p & F).
    destruct (C19_returns 1 1 2 _ _ _ _ _ _ (FastSupervised cf ex w) W' [fst (one_item 1)] 1 (Ok new_fast) (one_model, 0) (step_fast 1 1 2 1 1 0%R 0%R) HW') as (st' & p' & F').
    destruct (once_one lg cf ex w 0 0%R ltac:(lia)) as (e1 & X1 & Y1). destruct (once_one lg cf ex w 1 0%R ltac:(lia)) as (e2 & X2 & Y2).
    destruct (X1 W st p F) as ((s & ->) & E1). destruct (X2 W' st' p' F') as ((s' & ->) & E2).
    exists s, s', p, p'. split; [exact F|]. split; [exact F'|]. intros (_ & _ & [H|(H & _)]); [|discriminate H].
    destruct H as (_ & _ & _ & _ & H). specialize (H 0 1 ltac:(lia) ltac:(lia)). cbn [topic_at class_at exchange] in H.
    rewrite E1, E2, !mget_tab, Y1, Y2 in H by lia. cbn in H. lra.
Qed.
(** It holds for every batch M step if the largest class number in use is the same, and always for the M steps
    that do not weigh the documents by class. *)
Theorem C65_fit_partial lg K V C a St M new f P Q k D D' W W' n m m' ep s p st' p' : let O := Rops lg in
  0 < K -> valid_naming K V C a -> (ordered_words k -> forall n, n < V -> word_at a n = n) ->
  (weighs_classes St M -> largest_class D' = largest_class D) ->
  batch_step K V C St M new f P Q -> D <> [] -> delivers K V k Q D -> P m ->
  Forall2 (doc_renamed V C a) D D' -> model_renamed K V C a m m' ->
  fit_call 7 M k W D n (Ok new) (m, ep) (Ok s) p ->
  fit_call 7 M k W' D' n (Ok new) (m', ep) st' p' ->
  (exists t, st' = Ok t) /\ model_renamed K V C a (fst p) (fst p').
Proof.
  intros O HK Pa Hw HW B HD HQ HP HDD Hm F F'.
  destruct (fit_renamed lg K V C a Pa k Hw St M new f P Q B HK D D' HD HDD) with (m0 := m) (m0' := m') (W := W) (W' := W') (n := n) (m := m) (m' := m') (ep := ep) (s := new) (s2 := new) (s' := s) (p' := p) (st2' := st') (p2' := p') as (X1 & _ & _ & X2); try assumption.
  - intros epochs m1 d v Hd [S1 S2] E. exact (HQ epochs m1 d v Hd S1 S2 E).
  - exact (model_ok_renamed lg K V C a St M new f P Q B m m' Hm HP).
  - exists [], []; split; [now left|split; [constructor|reflexivity]].
  - exists [], []; split; [now left|split; [constructor|reflexivity]].
  - split; assumption.
Qed.
(** The fast supervised algorithm with a document of each of two classes, everything exchanged. *)
Definition class_docs : list (doc R) := [mk_doc [2; 0]%Z (Some 0%Z) 2 [1/2; 1/2]%R; mk_doc [0; 3]%Z (Some 1%Z) 2 [1/2; 1/2]%R].
Example C65_case lg cf ex w limit tolerance L : let O := Rops lg in
  exists D' fuel, Forall2 (doc_renamed 2 2 exchanged) class_docs D' /\ largest_class D' = largest_class class_docs /\ valid_naming 2 2 2 exchanged /\
  exists s s' p p',
    fit_call 7 (fast_maximizer fuel limit tolerance L) (FastSupervised cf ex w) 1 class_docs 1 (Ok new_fast) (ok_model, 0) (Ok s) p /\
    fit_call 7 (fast_maximizer fuel limit tolerance L) (FastSupervised cf ex w) 5 D' 1 (Ok new_fast) (other_model, 0) (Ok s') p' /\
    model_renamed 2 2 2 exchanged (fst p) (fst p').
Proof.
  intros O. set (D' := [mk_doc [0; 2]%Z (Some 1%Z) 2 [1/2; 1/2]%R; mk_doc [3; 0]%Z (Some 0%Z) 2 [1/2; 1/2]%R]).
  destruct (fast_once lg cf ex w 2 (fun i c => mget (p_eta ok_model) i c) limit tolerance L class_docs ok_model) as (fuel & Fu); try discriminate; try reflexivity.
  { constructor; [|constructor; [|constructor]].
    - split; [exact (Forall_inv (proj1 (C49_case lg)))|]. split; [exists 0%Z; split; [reflexivity|lia]|exists 0; cbn; lia].
    - split; [exact (Forall_inv (Forall_inv_tail (proj1 (C49_case lg))))|]. split; [exists 1%Z; split; [reflexivity|lia]|exists 1; cbn; lia]. }
  assert (Va : valid_naming 2 2 2 exchanged) by exact (conj exchange_permutes (conj exchange_permutes exchange_permutes)).
  assert (HD : Forall2 (doc_renamed 2 2 exchanged) class_docs D').
  { constructor; [|constructor; [|constructor]]; (split; [|split; [|split; [reflexivity|]]]).
    - split; [reflexivity|split; [reflexivity|]]. intros [|[|i]] Hi; try lia; reflexivity.
    - left. cbn. split; [lia|reflexivity].
    - intros [|[|c]] Hc; try lia; reflexivity.
    - split; [reflexivity|split; [reflexivity|]]. intros [|[|i]] Hi; try lia; reflexivity.
    - left. cbn. split; [lia|reflexivity].
    - intros [|[|c]] Hc; try lia; reflexivity. }
  exists D', fuel. split; [exact HD|]. split; [reflexivity|]. split; [exact Va|].
  pose proof (step_fast 2 2 2 fuel limit tolerance L) as B.
  destruct (C19_returns 2 2 2 _ _ _ _ _ _ (FastSupervised cf ex w) 1 class_docs 1 (Ok new_fast) (ok_model, 0) B ltac:(lia)) as (st & p & F).
  destruct (C19_returns 2 2 2 _ _ _ _ _ _ (FastSupervised cf ex w) 5 D' 1 (Ok new_fast) (other_model, 0) B ltac:(lia)) as (st' & p' & F').
  destruct (Fu 1 st p F) as (s & ->).
  destruct (C65_fit_partial lg 2 2 2 exchanged _ _ _ _ _ _ (FastSupervised cf ex w) class_docs D' 1 5 1 ok_model other_model 0 s p st' p' ltac:(lia) Va ltac:(intros []) (fun _ => eq_refl) B) as ((t & ->) & H).
  - discriminate.
  - apply (proj1 (proj2 (C19_demands lg 2 2 2 _))). intros d [<-|[<-|[]]]; discriminate.
  - reflexivity.
  - exact HD.
  - exact (other_renamed lg).
  - exact F.
  - exact F'.
  - exists s, t, p, p'. split; [exact F|]. split; [exact F'|exact H].
Qed.
Print Assumptions C63_estep. Print Assumptions C63_transform. Print Assumptions C63_decision. Print Assumptions C63_predict.
Print Assumptions C64_fit. Print Assumptions C65_refuted. Print Assumptions C65_fit_partial.
