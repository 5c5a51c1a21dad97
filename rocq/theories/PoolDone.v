(** Lemmas about finished calls of the worker pool. *)
Require Import List Arith Bool Lia Permutation.
Require Import Verif.PermTac Verif.PoolModel Verif.PoolSpec Verif.PoolProofs.
Import ListNotations.
Set Implicit Arguments.

Section Done.
  Context {V P S R X : Type}.
  Variable estep : P -> nat -> V.
  Variable feed : S -> P -> nat -> V -> S * P * list X.
  Variable e_end : P -> P.
  Variable m_end : S -> P -> S * P * list X.
  Variable md : mode.
  Variable owner : bool.
  Variable docs : nat.

  Notation st := (state V P S R X).
  Notation reach := (@reachable V P S R X estep feed e_end m_end md owner docs).

  (** ** The order of the computation *)
  Definition tail (n : nat) : list (obs V P R X) :=
    match md, n with Fit, 1 => [OEEnd] | Fit, 2 => [OEEnd; OMEnd] | _, _ => [] end.
  Definition inv_comp (s : st) : Prop :=
    exists l, Forall on_document l /\ computation (log s) = l ++ tail (main_end (main s)).

  Lemma comp_keep (k : list (obs V P R X)) l lg n n' :
    Forall on_document k /\ computation lg = k ++ tail n -> tail n = tail n' -> computation l = [] ->
    exists k, Forall on_document k /\ computation (lg ++ l) = k ++ tail n'.
  Proof. intros [A B] E N. exists k. split; [assumption|]. now rewrite computation_app, N, app_nil_r, <- E. Qed.
  Lemma comp_doc (k : list (obs V P R X)) o lg n :
    Forall on_document k /\ computation lg = k ++ tail n -> tail n = [] -> on_document o ->
    exists k, Forall on_document k /\ computation (lg ++ [o]) = k ++ tail n.
  Proof.
    intros [A B] E N. exists (k ++ [o]). split.
    - apply Forall_app. split; [assumption|]. constructor; [assumption|constructor].
    - rewrite computation_app, B, E, !app_nil_r. destruct o; try contradiction; reflexivity.
  Qed.

  Lemma reach_comp W s0 p0 s : reach W s0 p0 s -> inv_comp s.
  Proof.
    induction 1 as [|l s s' Hr (k & A) H].
    - exists []. split; [constructor|]. unfold tail. cbn. now destruct md.
    - pose proof (reach_fold Hr) as (T & _). pose proof (reach_phase Hr) as (_ & Ph). clear Hr. unfold inv_comp in *.
      assert (T0 : tail 0 = []) by (unfold tail; now destruct md).
      step_cases H l s; cbn [main_end] in *;
        rewrite ?next_end, ?after_process_end, ?after_feed_end, ?after_m_end_end;
        try (exists k; exact A).
      all: try (eapply comp_keep; [exact A|reflexivity|reflexivity]).
      all: try (eapply comp_doc; [exact A|exact T0|exact I]).
      + exists k. rewrite T0 in A. unfold tail. rewrite E0. exact A.
      + destruct A as [A B]. rewrite T0, app_nil_r in B. destruct md eqn:Em.
        * exists k. rewrite computation_app, B. unfold tail. rewrite Em. auto.
        * destruct (T eq_refl) as [K|[_ K]]; congruence.
      + destruct A as [A B]. destruct md eqn:Em.
        * exists k. rewrite computation_app, B. unfold tail. rewrite Em, <- app_assoc. auto.
        * destruct (T eq_refl) as [K|[K _]]; discriminate K.
      + eapply comp_doc; [exact A| |exact I]. apply Ph in Hw.
        destruct m; cbn [stage_ok main_end] in *; try discriminate Hw; exact T0.
  Qed.

  (** ** The state on return *)
  Lemma flat_map_joined {A} (f : wpc V R -> list A) l :
    f WJoined = [] -> Forall (fun pc => pc = WJoined) l -> flat_map f l = [].
  Proof. intros Hf. induction 1 as [|pc l -> _ IH]; cbn; [reflexivity|now rewrite Hf, IH]. Qed.
  Lemma cnt_joined (f : wpc V R -> bool) l :
    f WJoined = false -> Forall (fun pc => pc = WJoined) l -> cnt f l = 0.
  Proof. intros Hf. induction 1 as [|pc l -> _ IH]; cbn; [reflexivity|now rewrite Hf, IH]. Qed.

  Lemma done_joined W s0 p0 s : reach W s0 p0 s -> main s = MDone -> Forall (fun pc => pc = WJoined) (workers s).
  Proof.
    intros Hr Hm. apply Forall_forall. intros pc Hin. pose proof (joined_end pc Hr Hin) as K.
    now rewrite Hm in K.
  Qed.

  Lemma done_quiet W s0 p0 s : reach W s0 p0 s -> main s = MDone ->
    expects (qev s) = []
    /\ Permutation (expects (delivered (log s))) (seq 0 docs)
    /\ Permutation (map fst (fed (log s))) (seq 0 docs)
    /\ Permutation (fed (log s)) (esteps (log s)).
  Proof.
    intros Hr Hm. destruct (reach_data Hr) as (_ & _ & D & _). rewrite Hm in D. cbn [nfed] in D.
    destruct (quiet Hr D) as (_ & Q); [|exact Q]. rewrite Hm. cbn. auto.
  Qed.

  Lemma done_clean W s0 p0 s : reach W s0 p0 s -> main s = MDone ->
    qin s = [] /\ qout s = [] /\ lin s = None /\ lout s = None /\ lev s = None
    /\ Forall (fun pc => pc = WJoined) (workers s) /\ (owner = true -> qev s = []).
  Proof.
    intros Hr Hm. pose proof (done_joined Hr Hm) as J.
    destruct (done_quiet Hr Hm) as (Q1 & _ & Q3 & Q4).
    destruct (reach_data Hr) as (D1 & D2 & _). rewrite Hm in *. cbn [cur unqueued app] in *.
    rewrite (flat_map_joined post) in D1 by auto. rewrite (flat_map_joined pre) in D2 by auto.
    rewrite !app_nil_r in *. cbn [app] in D2.
    assert (L1 := Permutation_length D1). assert (L2 := Permutation_length D2).
    assert (L3 := Permutation_length Q3). assert (L4 := Permutation_length Q4).
    rewrite app_length in *. rewrite map_length in *. rewrite seq_length in *.
    destruct (reach_locks Hr) as [(K1 & K2 & K3) _]. rewrite Hm in *.
    rewrite !cnt_joined in * by auto. cbn in K1, K2, K3.
    split; [destruct (qin s); [reflexivity|cbn in *; lia]|].
    split; [destruct (qout s); [reflexivity|cbn in *; lia]|].
    split; [destruct (lin s); [cbn in *; lia|reflexivity]|].
    split; [destruct (lout s); [cbn in *; lia|reflexivity]|].
    split; [destruct (lev s); [cbn in *; lia|reflexivity]|].
    split; [assumption|]. intros Ho. pose proof (reach_other Ho Hr) as O. rewrite Hm in O. cbn in O.
    now apply events_nil.
  Qed.

  (** ** The result *)
  Lemma done_result W s0 p0 s : reach W s0 p0 s -> main s = MDone ->
    (priv s, param s) = match md with
                        | Fit => let d := consume feed (fed (log s)) (s0, p0) in fst (m_end (fst d) (e_end (snd d)))
                        | Transform => consume feed (fed (log s)) (s0, p0)
                        end.
  Proof.
    intros Hr Hm. destruct (reach_fold Hr) as (_ & F). rewrite F, Hm. unfold finish_data. cbn [main_end].
    now destruct md.
  Qed.

  Lemma fed_values W s0 p0 s :
    (forall s p i v, snd (fst (feed s p i v)) = p) -> reach W s0 p0 s -> main s = MDone ->
    Permutation (fed (log s)) (map (fun i => (i, estep p0 i)) (seq 0 docs)).
  Proof.
    intros Hf Hr Hm. destruct (done_quiet Hr Hm) as (_ & _ & Q3 & Q4).
    destruct (reach_values Hf Hr) as (_ & B).
    assert (E : fed (log s) = map (fun i => (i, estep p0 i)) (map fst (fed (log s)))).
    { assert (B' : Forall (fun iv => snd iv = estep p0 (fst iv)) (fed (log s))).
      { apply Forall_forall. intros x Hx. rewrite Forall_forall in B. apply B. eapply Permutation_in; eassumption. }
      clear - B'. induction B' as [|[i v] l Hv _ IH]; cbn in *; [reflexivity|]. now rewrite <- IH, Hv. }
    rewrite E. apply Permutation_map. exact Q3.
  Qed.
  (** ** More about executions *)
  Lemma estep_values W s0 p0 s : reach W s0 p0 s ->
    forall i v, In (i, v) (esteps (log s)) -> exists s', reach W s0 p0 s' /\ v = estep (param s') i.
  Proof.
    induction 1 as [|l s s' Hr A H]; intros i0 v0 K; [destruct K|].
    assert (C : log s' = log s \/ (exists o, log s' = log s ++ [o] /\
                match o with OEstep i v => v = estep (param s) i | _ => True end)).
    { clear Hr A K. step_cases H l s; try (now left); right; eexists; (split; [reflexivity|]); try exact I; reflexivity. }
    destruct C as [C|(o & C & Ho)]; rewrite C in K; [eauto|].
    rewrite esteps_app in K. apply in_app_or in K as [K|K]; [eauto|].
    destruct o; cbn in K; try contradiction. destruct K as [K|[]]. injection K as -> ->. eauto.
  Qed.

  Lemma param_writes W s0 p0 s l s' :
    (forall s p i v, snd (fst (feed s p i v)) = p) ->
    reach W s0 p0 s -> step estep feed e_end m_end md owner docs l s = Some s' ->
    param s' = param s \/ Forall (fun pc => pc = WJoined) (workers s).
  Proof.
    intros Hf Hr H. assert (J := fun pc => @joined_end _ _ _ _ _ _ _ _ _ _ _ _ _ _ _ s pc Hr). clear Hr.
    step_cases H l s; auto; right; apply Forall_forall; assumption.
  Qed.

  Lemma completes (r : R) k W s0 p0 :
    (forall s p i v, length (snd (feed s p i v)) <= k) -> (forall s p, length (snd (m_end s p)) <= k) ->
    0 < W -> forall s, reach W s0 p0 s ->
    exists ls s', run estep feed e_end m_end md owner docs ls s s' /\ main s' = MDone.
  Proof.
    intros Hf Hm HW s. remember (mu md docs k s) as n eqn:En. revert s En.
    induction n as [n IH] using lt_wf_ind. intros s -> Hr.
    destruct (main s) eqn:Em; try (exists [], s; split; [constructor|exact Em]).
    all: destruct (progress r HW Hr) as (l & s' & Hl & Hs); [rewrite Em; discriminate|].
    all: pose proof (mu_step Hf Hm _ Hr Hs) as M; rewrite Hl in M.
    all: destruct (IH _ M s' eq_refl) as (ls & s'' & A & B); [econstructor; eassumption|].
    all: exists (l :: ls), s''; split; [econstructor; eassumption|exact B].
  Qed.

  Lemma no_workers s0 p0 s : 0 < docs -> reach 0 s0 p0 s -> main s <> MDone.
  Proof.
    intros Hd Hr Hm. assert (E : esteps (log s) = []).
    { clear Hm. induction Hr as [|l s s' Hr A H]; [reflexivity|].
      destruct (reach_locks Hr) as [_ L]. clear Hr.
      step_cases H l s; rewrite ?esteps_app, ?A; auto. destruct l1; discriminate L. }
    destruct (done_quiet Hr Hm) as (_ & _ & Q3 & Q4). rewrite E in Q4. apply Permutation_sym, Permutation_nil in Q4.
    rewrite Q4 in Q3. apply Permutation_length in Q3. rewrite seq_length in Q3. cbn in Q3. lia.
  Qed.

  Lemma play_reach W s0 p0 ls s : reach W s0 p0 s ->
    reach W s0 p0 (play estep feed e_end m_end md owner docs ls s).
  Proof.
    revert s. induction ls as [|l ls IH]; intros s Hr; [exact Hr|]. cbn [play]. apply IH.
    destruct (step _ _ _ _ _ _ _ l s) eqn:E; [econstructor; eassumption|exact Hr].
  Qed.
End Done.

(** ** Column writes *)
Section Columns.
  Context {V P X : Type}.
  Lemma replace_nth {A} i j (x d : A) l : i < length l ->
    nth j (replace i x l) d = if Nat.eqb j i then x else nth j l d.
  Proof.
    intros H. destruct (nth_error l i) as [a|] eqn:E; [|apply nth_error_None in E; lia].
    destruct (replace_split _ _ E) as (l1 & l2 & -> & L & ->).
    destruct (Nat.eqb_spec j i) as [->|N].
    - subst i. rewrite app_nth2, Nat.sub_diag by lia. reflexivity.
    - destruct (Nat.lt_ge_cases j i).
      + rewrite !app_nth1 by lia. reflexivity.
      + rewrite !app_nth2 by lia. destruct (j - length l1) eqn:Ej; [lia|reflexivity].
  Qed.
  Lemma replace_len {A} i (x : A) l : i < length l -> length (replace i x l) = length l.
  Proof.
    intros H. destruct (nth_error l i) as [a|] eqn:E; [|apply nth_error_None in E; lia].
    now apply length_replace with (a := a).
  Qed.

  Definition put (s : list V) (p : P) (i : nat) (v : V) : list V * P * list X := (replace i v s, p, []).
  Lemma consume_put l s p :
    Forall (fun iv => fst iv < length s) l ->
    snd (consume put l (s, p)) = p /\ length (fst (consume put l (s, p))) = length s.
  Proof.
    revert s. induction l as [|[i v] l IH]; intros s H; [auto|].
    inversion H as [|? ? Hi Hl]; subst. cbn in Hi.
    change (consume put ((i, v) :: l) (s, p)) with (consume put l (replace i v s, p)).
    destruct (IH (replace i v s)) as [A B].
    - rewrite replace_len by assumption. exact Hl.
    - rewrite A, B, replace_len by assumption. auto.
  Qed.
  Lemma consume_put_nth l s p d (f : nat -> V) j :
    Forall (fun iv => fst iv < length s /\ snd iv = f (fst iv)) l ->
    nth j (fst (consume put l (s, p))) d = if in_dec Nat.eq_dec j (map fst l) then f j else nth j s d.
  Proof.
    revert s. induction l as [|[i v] l IH]; intros s H; cbn [map fst].
    - reflexivity.
    - inversion H as [|? ? [Hi Hv] Hl]; subst. cbn in Hi, Hv.
      change (consume put ((i, v) :: l) (s, p)) with (consume put l (replace i v s, p)).
      rewrite IH by (rewrite replace_len by assumption; exact Hl).
      rewrite replace_nth by assumption.
      destruct (in_dec Nat.eq_dec j (map fst l)) as [K|K];
        destruct (in_dec Nat.eq_dec j (i :: map fst l)) as [K'|K'].
      + reflexivity.
      + exfalso. apply K'. now right.
      + destruct (Nat.eqb_spec j i) as [->|N]; [assumption|]. destruct K'; [congruence|contradiction].
      + destruct (Nat.eqb_spec j i) as [->|N]; [|reflexivity]. exfalso. apply K'. now left.
  Qed.
End Columns.

(** ** The property theorems, in the form PoolTheorems.v states them *)
Section Final.
  Variables V P S R X : Type.
  Variable estep : P -> nat -> V.
  Variable feed : S -> P -> nat -> V -> S * P * list X.
  Variable e_end : P -> P.
  Variable m_end : S -> P -> S * P * list X.
  Notation reach md owner docs := (@reachable V P S R X estep feed e_end m_end md owner docs).

  Lemma each_document_once owner docs W s0 p0 s :
    reach Fit owner docs W s0 p0 s -> main s = MDone ->
    Permutation (map fst (esteps (log s))) (seq 0 docs) /\ Permutation (fed (log s)) (esteps (log s)).
  Proof.
    intros Hr Hm. destruct (done_quiet Hr Hm) as (_ & _ & A & B). split; [|assumption].
    rewrite <- B. exact A.
  Qed.
  Lemma paired_with_own_result owner docs W s0 p0 s l1 i v l2 :
    reach Fit owner docs W s0 p0 s -> log s = l1 ++ OFeed i v :: l2 ->
    In (OEstep i v) l1 /\ exists s', reach Fit owner docs W s0 p0 s' /\ v = estep (param s') i.
  Proof.
    intros Hr E. destruct (reach_before Hr _ _ _ E) as (A & _). split; [exact A|].
    apply (estep_values Hr). rewrite E. clear - A. induction l1 as [|o l1 IH]; [destruct A|].
    destruct A as [->|A]; cbn; [now left|]. destruct o; cbn; auto.
  Qed.
  Lemma finished_once_in_order owner docs W s0 p0 s :
    reach Fit owner docs W s0 p0 s -> main s = MDone ->
    (exists work, computation (log s) = work ++ [OEEnd; OMEnd] /\ Forall on_document work)
    /\ let d := consume feed (fed (log s)) (s0, p0) in
       (priv s, param s) = fst (m_end (fst d) (e_end (snd d))).
  Proof.
    intros Hr Hm. split; [|apply (done_result Hr Hm)]. destruct (reach_comp Hr) as (l & A & B).
    rewrite Hm in B. exists l. auto.
  Qed.
  Lemma no_deadlock md owner docs W s0 p0 s :
    inhabited R -> 0 < W -> reach md owner docs W s0 p0 s -> main s <> MDone ->
    exists l s', is_spurious l = false /\ step estep feed e_end m_end md owner docs l s = Some s'.
  Proof. intros [r] HW Hr. apply (progress r HW Hr). Qed.
  Lemma steps_bounded md owner docs k W s0 p0 (ls : list (label R)) s :
    (forall s p i v, length (snd (feed s p i v)) <= k) ->
    (forall s p, length (snd (m_end s p)) <= k) ->
    run estep feed e_end m_end md owner docs ls (initial W s0 p0) s ->
    length (filter (fun l => negb (is_spurious l)) ls)
    <= docs * (9 * k + 30) + 5 * W + 9 * k + 15 + 2 * length (filter (fun l => is_spurious l) ls).
  Proof. intros A B. apply bounded; assumption. Qed.
  Lemma can_complete md owner docs k W s0 p0 s :
    inhabited R -> 0 < W -> (forall s p i v, length (snd (feed s p i v)) <= k) ->
    (forall s p, length (snd (m_end s p)) <= k) -> reach md owner docs W s0 p0 s ->
    exists ls s', run estep feed e_end m_end md owner docs ls s s' /\ main s' = MDone.
  Proof. intros [r] HW A B. apply (completes r A B HW). Qed.
  Lemma all_cleaned_up md docs W s0 p0 s :
    reach md true docs W s0 p0 s -> main s = MDone -> cleaned_up s.
  Proof.
    intros Hr Hm. destruct (done_clean Hr Hm) as (A & B & C & D & E & F & G).
    unfold cleaned_up. repeat (split; auto).
  Qed.
  Lemma joined_any_thread md owner docs W s0 p0 s :
    reach md owner docs W s0 p0 s -> main s = MDone ->
    qin s = [] /\ qout s = [] /\ Forall (fun pc => pc = WJoined) (workers s).
  Proof. intros Hr Hm. destruct (done_clean Hr Hm) as (A & B & C & D & E & F & G). auto. Qed.
  Lemma one_event_per_document owner docs W s0 p0 s :
    reach Fit owner docs W s0 p0 s -> main s = MDone ->
    Permutation (expects (delivered (log s))) (seq 0 docs).
  Proof. intros Hr Hm. apply (done_quiet Hr Hm). Qed.
  Lemma event_before_m_step owner docs W s0 p0 s l1 i v l2 :
    reach Fit owner docs W s0 p0 s -> log s = l1 ++ OFeed i v :: l2 ->
    exists r p, In (ODeliver (Expect i r) p) l1.
  Proof. intros Hr E. destruct (reach_before Hr _ _ _ E) as (_ & A). auto. Qed.
  Lemma epoch_event_last docs W s0 p0 s :
    reach Fit true docs W s0 p0 s -> main s = MDone ->
    exists l, log s = l ++ [ODeliver Epoch (param s)] /\ Forall not_epoch l.
  Proof.
    intros Hr Hm. pose proof (reach_shape eq_refl Hr) as K. unfold inv_shape in K. rewrite Hm in K.
    destruct K as (l & l' & -> & A & B). exists (l ++ OEEnd :: OMEnd :: l'). split.
    - rewrite <- app_assoc. reflexivity.
    - apply Forall_app. split.
      + eapply Forall_impl; [|exact A]. intros o Ho; destruct o as [| | | |[] ?]; cbn in *; auto.
      + constructor; [exact I|]. constructor; [exact I|]. eapply Forall_impl; [|exact B]. intros o Ho; destruct o as [| | | |[] ?]; cbn in *; auto.
  Qed.
  Lemma schedule_independent owner docs W s0 p0 s :
    (forall s p i v, snd (fst (feed s p i v)) = p) ->
    (forall l l', Permutation l l' ->
       fst (m_end (fst (consume feed l (s0, p0))) (e_end p0))
       = fst (m_end (fst (consume feed l' (s0, p0))) (e_end p0))) ->
    reach Fit owner docs W s0 p0 s -> main s = MDone ->
    (priv s, param s)
    = fst (m_end (fst (consume feed (map (fun i => (i, estep p0 i)) (seq 0 docs)) (s0, p0))) (e_end p0)).
  Proof.
    intros Hf Hc Hr Hm. rewrite (done_result Hr Hm). cbn zeta.
    assert (E : forall l d, snd (consume feed l d) = snd d).
    { induction l as [|[i v] l IH]; intros d; [reflexivity|]. unfold consume in *. cbn. now rewrite IH, Hf. }
    rewrite E. apply Hc. now apply (fed_values Hf Hr Hm).
  Qed.
End Final.

Lemma transform_columns V P R X (gamma : P -> nat -> V) e_end m_end owner docs W s0 p0 (s : state V P (list V) R X) :
  length s0 = docs ->
  reachable gamma (fun m p i v => (replace i v m, p, [])) e_end m_end Transform owner docs W s0 p0 s ->
  main s = MDone ->
  priv s = map (gamma p0) (seq 0 docs) /\ param s = p0.
Proof.
  intros Hl Hr Hm. assert (F : Permutation (fed (log s)) (map (fun i => (i, gamma p0 i)) (seq 0 docs))).
  { eapply fed_values; [|exact Hr|exact Hm]. reflexivity. }
  pose proof (done_result Hr Hm) as D. cbv beta iota in D.
  assert (K : Forall (fun iv : nat * V => fst iv < length s0 /\ snd iv = gamma p0 (fst iv)) (fed (log s))).
  { apply Forall_forall. intros iv H. eapply Permutation_in in H; [|exact F].
    apply in_map_iff in H as (i & <- & H). apply in_seq in H. cbn. split; [lia|reflexivity]. }
  destruct (done_quiet Hr Hm) as (_ & _ & Q & _).
  pose proof (@consume_put V P X (fed (log s)) s0 p0) as [A B].
  { eapply Forall_impl; [|exact K]. now intros iv []. }
  unfold put in A, B. rewrite <- D in A, B. cbn in A, B. split; [|exact A].
  destruct (Nat.eq_dec docs 0) as [Z|Z].
  - assert (length (priv s) = 0) by lia. destruct (priv s); [|discriminate]. now rewrite Z.
  - apply (nth_ext _ _ (gamma p0 0) (gamma p0 0)).
    + rewrite map_length, seq_length. lia.
    + intros j Hj. rewrite B in Hj.
      rewrite (map_nth (gamma p0) (seq 0 docs) 0 j), seq_nth by lia. cbn [plus].
      pose proof (@consume_put_nth V P X (fed (log s)) s0 p0 (gamma p0 0) (gamma p0) j K) as N.
      unfold put in N. rewrite <- D in N. cbn [fst] in N. rewrite N.
      destruct (in_dec Nat.eq_dec j (map fst (fed (log s)))) as [_|O]; [reflexivity|].
      exfalso. apply O. eapply Permutation_in; [symmetry; exact Q|]. apply in_seq. lia.
Qed.

(** ** The example instance *)
Lemma other_thread :
  exists s : state nat nat nat nat nat,
    reachable ex_estep ex_feed S ex_m_end Fit false 3 2 0 1 s /\ main s = MDone
    /\ In Epoch (qev s) /\ Forall not_epoch (log s).
Proof.
  exists (play ex_estep ex_feed S ex_m_end Fit false 3 (ex_sched 60) (initial 2 0 1)).
  split; [apply play_reach, reach_init|]. vm_compute. repeat split; auto. repeat constructor.
Qed.
Lemma online_race :
  exists s s' : state nat nat nat nat nat,
    reachable ex_estep ex_online_feed S ex_m_end Fit true 2 2 0 1 s
    /\ step ex_estep ex_online_feed S ex_m_end Fit true 2 LMain s = Some s'
    /\ In (WEstep 1) (workers s) /\ param s' <> param s.
Proof.
  eexists (play ex_estep ex_online_feed S ex_m_end Fit true 2
            (repeat LMain 6 ++ repeat (LWorker 0 0) 4 ++ repeat (LWorker 1 0) 4 ++ repeat (LWorker 0 0) 7
             ++ repeat LMain 9) (initial 2 0 1)), _.
  split; [apply play_reach, reach_init|]. vm_compute. repeat split; [auto|discriminate].
Qed.
