(** Lemmas about the listeners of the applications. *)
Require Import ZArith List Bool Arith Lia Permutation Ascii String.
Require Import Verif.Base Verif.Scalar Verif.Mat Verif.NumpyModel Verif.NumpySpec Verif.NumpyProofs Verif.BuilderModel Verif.EStepModel
  Verif.OptModel Verif.MStepModel Verif.PoolModel Verif.PoolSpec Verif.PoolProofs Verif.PoolDone Verif.PoolTheorems Verif.LdaModel Verif.InferProofs Verif.AppsModel Verif.AppsSpec.
Import ListNotations.
Local Open Scope nat_scope.
Local Open Scope list_scope.

Lemma incr_ok z : (z + 1 < 2 ^ 31)%Z -> incr z = Ok (z + 1)%Z.
Proof. intros H. unfold incr. rewrite (proj2 (Z.ltb_lt _ _) H). reflexivity. Qed.

Lemma hear_app {L E A} (f : L -> E -> outcome (L * list A)) l a b :
  hear f l (a ++ b) = let* (l1, x) := hear f l a in let* (l2, y) := hear f l1 b in Ok (l2, x ++ y).
Proof.
  revert l. induction a as [|e a IH]; intros l; cbn [app hear].
  - cbn [bind]. destruct (hear f l b) as [[l2 y]| |]; reflexivity.
  - destruct (f l e) as [[l1 x]| |]; cbn [bind]; try reflexivity. rewrite IH.
    destruct (hear f l1 a) as [[l2 y]| |]; cbn [bind]; try reflexivity.
    destruct (hear f l2 b) as [[l3 z]| |]; cbn [bind]; try reflexivity. now rewrite app_assoc.
Qed.

(** ** The shape of what is heard *)
Section Shape.
  Context {T : Type}.
  Fixpoint expectations (es : list (notice T)) : nat :=
    match es with
    | [] => 0
    | Expectation _ :: es => S (expectations es)
    | _ :: es => expectations es
    end.

  (** Every epoch: events, [D] of them for documents, and the end with the model. *)
  Inductive epochs_of (D : nat) : list (notice T) -> list (params T) -> Prop :=
  | no_epoch : epochs_of D [] []
  | one_more es m tr ms : Forall not_end es -> expectations es = D -> epochs_of D tr ms ->
      epochs_of D (es ++ EpochEnd m :: tr) (m :: ms).

  Lemma notices_app {V} (a b : list (obs V (@shared T) (option T) T)) : notices (a ++ b) = notices a ++ notices b.
  Proof.
    induction a as [|o a IH]; [reflexivity|]. cbn [app].
    destruct o as [| | | |[] ?]; cbn [notices app]; rewrite IH; reflexivity.
  Qed.
  Lemma notices_not_end {V} (l : list (obs V (@shared T) (option T) T)) : Forall not_epoch l -> Forall not_end (notices l).
  Proof.
    induction 1 as [|o l Ho _ IH]; [constructor|]. destruct o as [| | | |[] ?]; cbn in *; try contradiction; try constructor; auto; exact I.
  Qed.
  Lemma notices_expectations {V} (l : list (obs V (@shared T) (option T) T)) :
    expectations (notices l) = List.length (expects (delivered l)).
  Proof. induction l as [|o l IH]; [reflexivity|]. destruct o as [| | | |[] ?]; cbn; rewrite ?IH; reflexivity. Qed.
  Lemma expectations_app a b : expectations (a ++ b) = expectations a + expectations b.
  Proof. induction a as [|[] a IH]; cbn; rewrite ?IH; reflexivity. Qed.
End Shape.

Lemma fit_heard_epochs {T} {O : ops T} dfuel {St} (M : maximizer T St) k W docs st p tr ms st' p' :
  fit_heard dfuel M k W docs st p tr ms st' p' -> epochs_of (List.length docs) tr ms.
Proof.
  induction 1 as [|st p docs' s tr ms st' p' Hp Hr Hm _ IH]; [constructor|].
  destruct (epoch_event_last Hr Hm) as (l & El & Hl).
  pose proof (one_event_per_document Hr Hm) as Hd.
  rewrite El, notices_app. cbn [notices]. rewrite <- app_assoc. cbn [app].
  constructor; [now apply notices_not_end| |exact IH].
  rewrite notices_expectations.
  apply Permutation_length in Hd. rewrite seq_length, <- (Permutation_length Hp) in Hd. rewrite <- Hd, El.
  clear. induction l as [|o l IH]; [reflexivity|]. destruct o as [| | | |[] ?]; cbn; rewrite ?IH; reflexivity.
Qed.

(** fit_heard is a run of fit. *)
Lemma fit_heard_fit {T} {O : ops T} dfuel {St} (M : maximizer T St) k W docs st p tr ms st' p' :
  fit_heard dfuel M k W docs st p tr ms st' p' -> fit_call dfuel M k W docs (List.length ms) st p st' p'.
Proof.
  induction 1 as [|st p docs' s tr ms st' p' Hp Hr Hm _ IH]; [constructor|].
  cbn [List.length]. econstructor; [|exact IH]. exists docs', true, s. auto.
Qed.

(** ** Counting by steps *)
Lemma div_succ n N : 0 < N -> S n / N = n / N + (if S n mod N =? 0 then 1 else 0).
Proof.
  intros HN. pose proof (Nat.div_mod n N ltac:(lia)) as A. pose proof (Nat.mod_upper_bound n N ltac:(lia)) as B.
  destruct (Nat.eq_dec (S (n mod N)) N) as [E|E].
  - assert (F : S n = N * S (n / N)) by nia.
    rewrite F at 2. rewrite (Nat.mul_comm N), Nat.mod_mul by lia. cbn [Nat.eqb].
    rewrite F. rewrite (Nat.mul_comm N), Nat.div_mul by lia. lia.
  - assert (F : S n = N * (n / N) + S (n mod N)) by lia.
    rewrite <- (Nat.div_unique (S n) N (n / N) (S (n mod N))) by lia.
    rewrite <- (Nat.mod_unique (S n) N (n / N) (S (n mod N))) by lia. cbn. lia.
Qed.

(** ** Numerals *)
Lemma numeral_zeros n d : numeral_value (repeat "0"%char n ++ d) = numeral_value d.
Proof.
  unfold numeral_value. induction n as [|n IH]; [reflexivity|]. cbn [repeat app fold_left].
  exact IH.
Qed.
Lemma pad3_numeral z : (0 <= z)%Z -> is_numeral (pad3 (dec z)) z.
Proof.
  intros Hz. destruct (dec_numeral z Hz) as (A & B & C). unfold pad3. split; [|split].
  - intros E. apply app_eq_nil in E. destruct E. auto.
  - apply Forall_app. split; [|exact B]. apply Forall_forall. intros c Hc. apply repeat_spec in Hc. subst c. cbn. lia.
  - now rewrite numeral_zeros.
Qed.

(** ** Snapshots *)
Section Snap.
  Context {T : Type}.
  Variable path : list byte.
  Variable N : nat.
  Hypothesis HN : 0 < N.

  Lemma snap_quiet l (es : list (notice T)) : Forall not_end es -> hear snap_event l es = Ok (l, []).
  Proof.
    induction 1 as [|e es He _ IH]; [reflexivity|]. destruct e; cbn in He; try contradiction; cbn [hear snap_event bind]; now rewrite IH.
  Qed.

  Fixpoint files_from (seen : nat) (ms : list (params T)) : list (list byte * params T) :=
    match ms with
    | [] => []
    | m :: ms => (if S seen mod N =? 0 then [(snapshot_name path (Z.of_nat (S seen)), m)] else []) ++ files_from (S seen) ms
    end.

  Lemma snap_step seen m : (Z.of_nat (S seen) < 2 ^ 31)%Z ->
    snap_event (mk_snap path (Z.of_nat N) (Z.of_nat seen)) (EpochEnd (T := T) m)
    = Ok (mk_snap path (Z.of_nat N) (Z.of_nat (S seen)),
          if S seen mod N =? 0 then [(snapshot_name path (Z.of_nat (S seen)), m)] else []).
  Proof.
    intros H. cbn [snap_event sn_seen sn_every sn_path].
    rewrite incr_ok by lia. cbn [bind]. replace (Z.of_nat seen + 1)%Z with (Z.of_nat (S seen)) by lia.
    destruct (Z.eqb_spec (Z.of_nat N) 0) as [E|_]; [lia|].
    rewrite Z.rem_mod_nonneg by lia. rewrite <- Nat2Z.inj_mod.
    replace (Z.of_nat (S seen mod N) =? 0)%Z with (S seen mod N =? 0); [reflexivity|].
    destruct (Nat.eqb_spec (S seen mod N) 0); destruct (Z.eqb_spec (Z.of_nat (S seen mod N)) 0); lia || reflexivity.
  Qed.

  Lemma snap_run D (tr : list (notice T)) ms : epochs_of D tr ms -> forall seen, (Z.of_nat (seen + List.length ms) < 2 ^ 31)%Z ->
    hear snap_event (mk_snap path (Z.of_nat N) (Z.of_nat seen)) tr
    = Ok (mk_snap path (Z.of_nat N) (Z.of_nat (seen + List.length ms)), files_from seen ms).
  Proof.
    induction 1 as [|es m tr ms He Hd _ IH]; intros seen Hs.
    - cbn. now rewrite Nat.add_0_r.
    - cbn [List.length] in *. rewrite hear_app, snap_quiet by exact He. cbn [bind hear].
      rewrite snap_step by lia. cbn [bind]. rewrite IH by lia. cbn [bind app]. rewrite Nat.add_succ_comm. reflexivity.
  Qed.

  Lemma files_length seen ms : seen / N + List.length (files_from seen ms) = (seen + List.length ms) / N.
  Proof.
    revert seen. induction ms as [|m ms IH]; intros seen; cbn [files_from List.length].
    - now rewrite !Nat.add_0_r.
    - rewrite app_length. specialize (IH (S seen)). rewrite Nat.add_succ_r. change (S (seen + List.length ms)) with (S seen + List.length ms).
      rewrite <- IH, div_succ by exact HN. destruct (S seen mod N =? 0); cbn [List.length]; lia.
  Qed.

  Lemma files_nth ms : forall seen j name m, nth_error (files_from seen ms) j = Some (name, m) ->
    let e := N * S (seen / N + j) in
    seen < e /\ nth_error ms (e - seen - 1) = Some m /\ name = snapshot_name path (Z.of_nat e).
  Proof.
    induction ms as [|m0 ms IH]; intros seen j name m; cbn [files_from].
    - now destruct j.
    - assert (D := div_succ seen N HN).
      destruct (S seen mod N =? 0) eqn:E.
      + apply Nat.eqb_eq in E. assert (F : N * S (seen / N) = S seen).
        { pose proof (Nat.div_mod (S seen) N ltac:(lia)). nia. }
        destruct j as [|j]; cbn [app nth_error].
        * intros X. injection X as <- <-. rewrite Nat.add_0_r, F. split; [lia|].
          replace (S seen - seen - 1) with 0 by lia. split; reflexivity.
        * intros X. apply IH in X. cbn zeta in X. replace (S seen / N + j) with (seen / N + S j) in X by lia.
          destruct X as (A & B & C). split; [lia|]. split; [|exact C].
          replace (N * S (seen / N + S j) - seen - 1) with (S (N * S (seen / N + S j) - S seen - 1)) by lia. exact B.
      + cbn [app]. intros X. apply IH in X. cbn zeta in X. rewrite D, Nat.add_0_r in X.
        destruct X as (A & B & C). split; [lia|]. split; [|exact C].
        replace (N * S (seen / N + j) - seen - 1) with (S (N * S (seen / N + j) - S seen - 1)) by lia. exact B.
  Qed.

  Lemma files_snapshots ms : snapshots_of path N ms (files_from 0 ms).
  Proof.
    split.
    - pose proof (files_length 0 ms) as A. rewrite Nat.div_0_l in A by lia. exact A.
    - intros j name m H e. apply files_nth in H. cbn zeta in H. rewrite Nat.div_0_l in H by lia. cbn [Nat.add] in H.
      destruct H as (A & B & ->). replace (N * S j - 0 - 1) with (e - 1) in B by (unfold e; lia). split; [exact B|].
      exists (pad3 (dec (Z.of_nat e))). split; [apply pad3_numeral; lia|reflexivity].
  Qed.
End Snap.

Lemma snapshots_names {T} path N (ms : list (params T)) files : 0 < N -> snapshots_of path N ms files ->
  NoDup (map fst files ++ [path]).
Proof.
  intros HN (_ & H).
  assert (P : forall j x, nth_error (map fst files) j = Some x ->
    exists d, is_numeral d (Z.of_nat (N * S j)) /\ x = path ++ text "_" ++ d).
  { intros j x Hj. rewrite nth_error_map in Hj. destruct (nth_error files j) as [[y m]|] eqn:E; [|discriminate].
    cbn in Hj. injection Hj as <-. apply (H _ _ _ E). }
  apply Permutation_NoDup with (path :: map fst files); [apply Permutation_cons_append|].
  constructor.
  - intros I. apply In_nth_error in I. destruct I as (j & Hj). destruct (P _ _ Hj) as (d & _ & X).
    apply (f_equal (@List.length _)) in X. rewrite !app_length in X. cbn in X. lia.
  - apply NoDup_nth_error. intros i j Hi Hij.
    destruct (nth_error (map fst files) i) as [x|] eqn:E; [|apply nth_error_None in E; lia].
    destruct (P _ _ E) as (d & (_ & _ & Vd) & X). destruct (P _ _ (eq_sym Hij)) as (d' & (_ & _ & Vd') & X').
    rewrite X in X'. apply app_inv_head in X'. apply app_inv_head in X'. subst d'. rewrite Vd in Vd'. nia.
Qed.

Theorem snapshots_ok {T} {O : ops T} dfuel {St} (M : maximizer T St) k W docs st p tr ms st' p' path N :
  fit_heard dfuel M k W docs st p tr ms st' p' ->
  0 < N -> (Z.of_nat N < 2 ^ 31)%Z -> (Z.of_nat (List.length ms) < 2 ^ 31)%Z ->
  exists l files, hear snap_event (new_snap path (Z.of_nat N)) tr = Ok (l, files)
    /\ snapshots_of path N ms files /\ NoDup (map fst files ++ [path]).
Proof.
  intros H HN HN31 HL. apply fit_heard_epochs in H.
  pose proof (files_snapshots path N HN ms) as S1.
  eexists _, (files_from path N 0 ms). split; [exact (snap_run path N HN _ tr ms H 0 HL)|]. split; [exact S1|].
  now apply (snapshots_names path N ms).
Qed.

(** ** Counting documents *)
Lemma multiples_succ N n : 0 < N ->
  multiples N (S n) = multiples N n ++ (if S n mod N =? 0 then [Z.of_nat (S n)] else []).
Proof.
  intros HN. unfold multiples. rewrite div_succ by exact HN. destruct (S n mod N =? 0) eqn:E.
  - rewrite seq_app, map_app. cbn [seq map Nat.add]. do 2 f_equal. f_equal.
    apply Nat.eqb_eq in E. pose proof (div_succ n N HN) as A. rewrite E in A. cbn in A.
    pose proof (Nat.div_mod (S n) N ltac:(lia)). nia.
  - now rewrite Nat.add_0_r, app_nil_r.
Qed.

Section Count.
  Context {T : Type}.
  Variable N : nat.
  Hypothesis HN : 0 < N.

  Lemma count_events (es : list (notice T)) : Forall not_end es -> forall c, (Z.of_nat (c + expectations es) < 2 ^ 31)%Z ->
    exists out, hear xprogress_event (mk_xprogress (Z.of_nat c) (Z.of_nat N)) es
                = Ok (mk_xprogress (Z.of_nat (c + expectations es)) (Z.of_nat N), out)
                /\ multiples N (c + expectations es) = multiples N c ++ out.
  Proof.
    induction 1 as [|e es He _ IH]; intros c Hc.
    - exists []. cbn. now rewrite Nat.add_0_r, app_nil_r.
    - destruct e; cbn in He; try contradiction; cbn [expectations hear xprogress_event xp_count xp_every bind] in *.
      + rewrite incr_ok by lia. cbn [bind]. destruct (Z.eqb_spec (Z.of_nat N) 0) as [E|_]; [lia|]. cbn [bind].
        replace (Z.of_nat c + 1)%Z with (Z.of_nat (S c)) by lia.
        destruct (IH (S c)) as (out & E1 & E2); [lia|]. rewrite E1. cbn [bind].
        eexists. split; [rewrite Nat.add_succ_comm; reflexivity|].
        rewrite <- Nat.add_succ_comm, E2, multiples_succ, <- app_assoc by exact HN. f_equal. f_equal.
        rewrite Z.rem_mod_nonneg by lia. rewrite <- Nat2Z.inj_mod.
        destruct (Nat.eqb_spec (S c mod N) 0); destruct (Z.eqb_spec (Z.of_nat (S c mod N)) 0); lia || reflexivity.
      + destruct (IH c Hc) as (out & E1 & E2). rewrite E1. cbn [bind app]. exists out. auto.
  Qed.

  Lemma count_run D (tr : list (notice T)) ms : epochs_of D tr ms -> (Z.of_nat D < 2 ^ 31)%Z ->
    hear xprogress_event (new_xprogress (Z.of_nat N)) tr
    = Ok (new_xprogress (Z.of_nat N), List.concat (repeat (multiples N D) (List.length ms))).
  Proof.
    intros H HD. induction H as [|es m tr ms He Hd _ IH]; [reflexivity|].
    rewrite hear_app. destruct (count_events es He 0) as (out & E1 & E2); [lia|]. cbn [Nat.add Z.of_nat] in E1, E2.
    unfold new_xprogress in *. rewrite E1. cbn [bind hear xprogress_event xp_every]. rewrite IH. cbn [bind app List.length repeat List.concat].
    f_equal. f_equal. f_equal. rewrite <- Hd, E2. unfold multiples at 1. rewrite Nat.div_0_l by lia. reflexivity.
  Qed.
End Count.

Theorem documents_counted {T} {O : ops T} dfuel {St} (M : maximizer T St) k W docs st p tr ms st' p' N :
  fit_heard dfuel M k W docs st p tr ms st' p' ->
  0 < N -> (Z.of_nat N < 2 ^ 31)%Z -> (Z.of_nat (List.length docs) < 2 ^ 31)%Z ->
  hear xprogress_event (new_xprogress (Z.of_nat N)) tr
  = Ok (new_xprogress (Z.of_nat N), List.concat (repeat (multiples N (List.length docs)) (List.length ms))).
Proof. intros H HN HN31 HD. apply fit_heard_epochs in H. now apply count_run with (D := List.length docs). Qed.

(** ** Such runs exist *)
Lemma heard_returns {T} {O : ops T} dfuel {St} (M : maximizer T St) k e W docs :
  0 < W ->
  (forall s m d v m' s' x, ms_doc M s m d v = Ok (m', s', x) -> List.length x <= e) ->
  (forall s m m' s' x, ms_end M s m = Ok (m', s', x) -> List.length x <= e) ->
  forall n st p, exists tr ms st' p', fit_heard dfuel M k W docs st p tr ms st' p' /\ List.length ms = n.
Proof.
  intros HW H1 H2. induction n as [|n IH]; intros st p; [exists [], [], st, p; split; [constructor|reflexivity]|].
  destruct (C16_can_complete (outcome (vparams T)) (shared (T := T)) (outcome St) (option T) T
    (train_estep dfuel k docs) (train_feed M docs) train_e_end (train_m_end M) Fit true (List.length docs) e W st p (initial W st p)) as (ls & s' & Rn & Dn).
  - exact (inhabits None).
  - exact HW.
  - intros s q i v. unfold train_feed, settle. destruct s as [s| |]; cbn [bind]; try (cbn; lia). destruct v as [v| |]; cbn [bind]; try (cbn; lia).
    destruct (ms_doc M s (fst q) (nth i docs nodoc) v) as [[[m2 s2] e2]| |] eqn:E; cbn; try lia. exact (H1 _ _ _ _ _ _ _ E).
  - intros s q. unfold train_m_end, settle. destruct s as [s| |]; cbn [bind]; try (cbn; lia).
    destruct (ms_end M s (fst q)) as [[[m2 s2] e2]| |] eqn:E; cbn; try lia. exact (H2 _ _ _ _ _ E).
  - apply reach_init.
  - destruct (IH (priv s') (param s')) as (tr & ms & st2 & p2 & F & L).
    exists (notices (log s') ++ tr), (fst (param s') :: ms), st2, p2. split; [|cbn [List.length]; rewrite L; reflexivity].
    apply (heard_epoch dfuel M k W docs st p docs s' tr ms st2 p2); [reflexivity| |exact Dn|exact F].
    refine (pool_run_reachable _ _ _ _ _ _ _ _ _ _ _ _ _ _ Rn). apply reach_init.
Qed.
