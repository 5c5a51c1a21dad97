(** Lemmas about the worker pool. *)
Require Import List Arith Bool Lia Permutation.
Require Import Verif.PermTac Verif.PoolModel Verif.PoolSpec.
Import ListNotations.
Set Implicit Arguments.

Lemma replace_split {A} (l : list A) w a :
  nth_error l w = Some a ->
  exists l1 l2, l = l1 ++ a :: l2 /\ length l1 = w /\ forall b, replace w b l = l1 ++ b :: l2.
Proof.
  intros H. destruct (nth_error_split _ _ H) as (l1 & l2 & -> & Hl).
  exists l1, l2. split; [reflexivity|]. split; [assumption|]. intros b. unfold replace. subst w.
  rewrite firstn_app, firstn_all, Nat.sub_diag. cbn [firstn]. rewrite app_nil_r. f_equal. f_equal.
  rewrite skipn_app. rewrite skipn_all2 by lia.
  replace (Datatypes.S (length l1) - length l1) with 1 by lia. reflexivity.
Qed.

(** ** Case analysis on a step *)
Ltac crack H :=
  repeat match type of H with
         | context [match ?x with _ => _ end] => let E := fresh "E" in destruct x eqn:E
         end;
  try discriminate H.

Ltac step_cases H l s :=
  destruct l as [|w r|];
  [ unfold step, mstep in H; destruct s as [qi qo qe li lo le ws m pr pa lg];
    cbn [qin qout qev lin lout lev workers main priv param log] in H;
    destruct m as [i|w|c|c|c|c|c i v|c i v q|c i v|c i v d xs|w| | |d xs|d| ]
  | unfold step, wstep in H;
    destruct (nth_error (workers s) w) as [pc|] eqn:Hw; [|discriminate H];
    destruct (replace_split _ _ Hw) as (l1 & l2 & Hws & Hlen & Hrep);
    destruct s as [qi qo qe li lo le ws m pr pa lg];
    cbn [qin qout qev lin lout lev workers main priv param log] in *; subst ws;
    destruct pc as [| | | |i| |i|i v r0|i v r0|i v|i v|i v| | | | ]
  | unfold step, spurious in H; destruct s as [qi qo qe li lo le ws m pr pa lg];
    cbn [qin qout qev lin lout lev workers main priv param log] in H ];
  unfold disp_step, proc_step in H; crack H; injection H as <-;
  unfold note, set_data, set_worker, set_main, set_qin, set_qout, set_qev, set_lin, set_lout, set_lev in *;
  cbn [qin qout qev lin lout lev workers main priv param log] in *.

Section Proofs.
  Context {V P S R X : Type}.
  Variable estep : P -> nat -> V.
  Variable feed : S -> P -> nat -> V -> S * P * list X.
  Variable e_end : P -> P.
  Variable m_end : S -> P -> S * P * list X.
  Variable md : mode.
  Variable owner : bool.
  Variable docs : nat.

  Notation st := (state V P S R X).
  Notation stepf := (step estep feed e_end m_end md owner docs).
  Notation reach := (@reachable V P S R X estep feed e_end m_end md owner docs).

  (** ** Lists *)
  Fixpoint cnt {A} (f : A -> bool) (l : list A) : nat :=
    match l with [] => 0 | x :: l => (if f x then 1 else 0) + cnt f l end.
  Lemma cnt_app {A} (f : A -> bool) l1 l2 : cnt f (l1 ++ l2) = cnt f l1 + cnt f l2.
  Proof. induction l1 as [|x l1 IH]; cbn [cnt app]; [reflexivity|rewrite IH; lia]. Qed.
  Lemma cnt_repeat {A} (f : A -> bool) x n : cnt f (repeat x n) = if f x then n else 0.
  Proof.
    induction n as [|n IH]; cbn [cnt repeat]; [now destruct (f x)|]. rewrite IH. destruct (f x); lia.
  Qed.
  Lemma cnt_in {A} (f : A -> bool) l : cnt f l <> 0 -> exists w a, nth_error l w = Some a /\ f a = true.
  Proof.
    induction l as [|x l IH]; cbn [cnt]; [lia|]. destruct (f x) eqn:E; intros H.
    - exists 0, x. auto.
    - destruct IH as (w & a & Hw & Ha); [lia|]. exists (Datatypes.S w), a. auto.
  Qed.
  Lemma cnt_zero {A} (f : A -> bool) l w a : cnt f l = 0 -> nth_error l w = Some a -> f a = false.
  Proof.
    intros H Hn. destruct (nth_error_split _ _ Hn) as (l1 & l2 & -> & _).
    rewrite cnt_app in H. cbn [cnt] in H. destruct (f a); [lia|reflexivity].
  Qed.
  Lemma cnt_forall {A} (f : A -> bool) l : cnt f l = 0 <-> Forall (fun a => f a = false) l.
  Proof.
    induction l as [|x l IH]; cbn [cnt]; [split; auto|]. split; intros H.
    - destruct (f x) eqn:E; [lia|]. constructor; [assumption|]. apply IH. lia.
    - inversion H as [|? ? Hx Hl]; subst. rewrite Hx. apply IH in Hl. lia.
  Qed.

  (** ** Phases *)
  Lemma nth_replace {A} (l : list A) w a b k :
    nth_error l w = Some a ->
    nth_error (replace w b l) k = if Nat.eqb k w then Some b else nth_error l k.
  Proof.
    intros H. destruct (replace_split _ _ H) as (l1 & l2 & -> & <- & Hr). rewrite Hr.
    destruct (Nat.eqb_spec k (length l1)) as [->|N].
    - rewrite nth_error_app2 by lia. now rewrite Nat.sub_diag.
    - destruct (Nat.lt_ge_cases k (length l1)) as [L|L].
      + now rewrite !nth_error_app1 by assumption.
      + rewrite !nth_error_app2 by assumption.
        destruct (k - length l1) as [|j] eqn:E; [lia|reflexivity].
  Qed.

  Definition alive (pc : wpc V R) : Prop := pc <> WUnborn /\ pc <> WJoined.
  Definition stage_ok (m : mpc V R X) (k : nat) (pc : wpc V R) : Prop :=
    match m with
    | MQueue _ => pc = WUnborn
    | MSpawn w => (k < w -> alive pc) /\ (w <= k -> pc = WUnborn)
    | MJoin w => (k < w -> pc = WJoined) /\ (w <= k -> alive pc)
    | MEEnd | MMEnd | MEndEv _ _ | MEpoch _ | MDone => pc = WJoined
    | _ => alive pc
    end.
  Definition inv_phase (s : st) : Prop :=
    (match main s with MSpawn w | MJoin w => w <= length (workers s) | _ => True end) /\
    forall k pc, nth_error (workers s) k = Some pc -> stage_ok (main s) k pc.

  Lemma next_ok c k pc : alive pc -> stage_ok (next docs c) k pc.
  Proof. unfold next. destruct (_ <? _); cbn [stage_ok]; [auto|]. split; [lia|auto]. Qed.
  Lemma after_process_ok c i v k pc : alive pc -> stage_ok (after_process md docs c i v) k pc.
  Proof. unfold after_process. destruct md; [auto|apply next_ok]. Qed.
  Lemma after_feed_ok c i v xs k pc : alive pc -> stage_ok (after_feed md docs c i v xs) k pc.
  Proof. unfold after_feed. destruct xs; [|auto]. destruct md; [apply next_ok|auto]. Qed.
  Lemma after_m_end_ok xs k pc : pc = WJoined -> stage_ok (after_m_end xs) k pc.
  Proof. now destruct xs. Qed.
  Lemma next_bound c n : match next docs c : mpc V R X with MSpawn w | MJoin w => w <= n | _ => True end.
  Proof. unfold next. destruct (_ <? _); [trivial|lia]. Qed.
  Lemma after_process_bound c i v n :
    match after_process md docs c i v : mpc V R X with MSpawn w | MJoin w => w <= n | _ => True end.
  Proof. unfold after_process. destruct md; [trivial|apply next_bound]. Qed.
  Lemma after_feed_bound c i v xs n :
    match after_feed md docs c i v xs : mpc V R X with MSpawn w | MJoin w => w <= n | _ => True end.
  Proof. unfold after_feed. destruct xs; [|trivial]. destruct md; [apply next_bound|trivial]. Qed.
  Lemma after_m_end_bound xs n :
    match after_m_end xs : mpc V R X with MSpawn w | MJoin w => w <= n | _ => True end.
  Proof. now destruct xs. Qed.

  Lemma alive_move (a b : wpc V R) m k : stage_ok m k a -> alive a -> alive b -> stage_ok m k b.
  Proof.
    intros H (A1 & A2) Hb. destruct m; cbn [stage_ok] in *; try (intros; exact Hb); try contradiction.
    - destruct H as (H1 & H2). split; [auto|]. intros L. now apply H2 in L.
    - destruct H as (H1 & H2). split; [|auto]. intros L. now apply H1 in L.
  Qed.

  Lemma length_replace {A} (l : list A) w a b : nth_error l w = Some a -> length (replace w b l) = length l.
  Proof.
    intros H. destruct (replace_split _ _ H) as (l1 & l2 & -> & _ & Hr). rewrite Hr.
    now rewrite !app_length.
  Qed.

  Lemma inv_phase_worker (s : st) w r s' :
    inv_phase s -> wstep estep w r s = Some s' -> inv_phase s'.
  Proof.
    intros (B & I) H. unfold wstep in H. destruct (nth_error (workers s) w) as [pc|] eqn:Hw; [|discriminate H].
    assert (Al : forall b, alive b -> forall m k pc',
               (forall k pc, nth_error (workers s) k = Some pc -> stage_ok m k pc) ->
               nth_error (replace w b (workers s)) k = Some pc' -> alive pc -> stage_ok m k pc').
    { intros b Hb m k pc' Im Hk Ha. rewrite (nth_replace _ _ _ _ Hw) in Hk.
      destruct (Nat.eqb_spec k w) as [->|N]; [|now apply Im]. injection Hk as <-.
      now apply (alive_move (a := pc)); [apply Im| |]. }
    assert (L : forall b, length (replace w b (workers s)) = length (workers s)).
    { intros b. eapply length_replace; eassumption. }
    destruct s as [qi qo qe li lo le ws m pr pa lg]; cbn [qin qout qev lin lout lev workers main priv param log] in *.
    destruct pc; crack H; injection H as <-;
    unfold note, set_data, set_worker, set_main, set_qin, set_qout, set_qev, set_lin, set_lout, set_lev, inv_phase;
    cbn [qin qout qev lin lout lev workers main priv param log]; rewrite ?L; (split; [assumption|]).
    all: intros k pc' Hk; eapply Al; try eassumption; split; discriminate.
  Qed.

  Lemma inv_phase_main (s s' : st) :
    inv_phase s -> mstep feed e_end m_end md owner docs s = Some s' -> inv_phase s'.
  Proof.
    intros (B & I) H. unfold mstep in H.
    destruct s as [qi qo qe li lo le ws m pr pa lg]; cbn [qin qout qev lin lout lev workers main priv param log] in *.
    destruct m as [i|w|c|c|c|c|c i v|c i v q|c i v|c i v d xs|w| | |d xs|d| ];
    unfold disp_step, proc_step in H; crack H; injection H as <-;
    unfold note, set_data, set_worker, set_main, set_qin, set_qout, set_qev, set_lin, set_lout, set_lev, inv_phase;
    cbn [qin qout qev lin lout lev workers main priv param log] in *.
    all: try (split; [trivial|exact I]).
    all: try (split; [first [apply next_bound|apply after_process_bound|apply after_feed_bound|apply after_m_end_bound]
                     |intros k pc Hk; apply I in Hk; cbn [stage_ok] in Hk;
                      first [now apply next_ok|now apply after_process_ok|now apply after_feed_ok|now apply after_m_end_ok]]).
    - split; [lia|]. intros k pc Hk. split; [lia|]. intros _. now apply I in Hk.
    - apply Nat.ltb_lt in E. destruct (nth_error ws w) as [a|] eqn:Ha; [|apply nth_error_None in Ha; lia].
      split; [rewrite (length_replace _ _ _ Ha); lia|].
      intros k pc Hk. rewrite (nth_replace _ _ _ _ Ha) in Hk. destruct (Nat.eqb_spec k w) as [->|N].
      + injection Hk as <-. split; [split; discriminate|lia].
      + apply I in Hk. destruct Hk as [H1 H2]. split; intros; [apply H1|apply H2]; lia.
    - apply Nat.ltb_ge in E. split; [apply next_bound|]. intros k pc Hk. apply next_ok.
      apply (proj1 (I _ _ Hk)). pose proof (nth_error_Some ws k) as L. rewrite Hk in L.
      assert (k < length ws) by (apply L; discriminate). lia.
    - apply Nat.ltb_lt in E. split; [rewrite (length_replace _ _ _ E0); lia|].
      intros k pc Hk. rewrite (nth_replace _ _ _ _ E0) in Hk. destruct (Nat.eqb_spec k w) as [->|N].
      + injection Hk as <-. split; [trivial|lia].
      + apply I in Hk. destruct Hk as [H1 H2]. split; intros; [apply H1|apply H2]; lia.
    - apply Nat.ltb_ge in E. split; [trivial|]. intros k pc Hk. apply (proj1 (I _ _ Hk)).
      pose proof (nth_error_Some ws k) as L. rewrite Hk in L.
      assert (k < length ws) by (apply L; discriminate). lia.
    - apply Nat.ltb_ge in E. split; [trivial|]. intros k pc Hk. apply (proj1 (I _ _ Hk)).
      pose proof (nth_error_Some ws k) as L. rewrite Hk in L.
      assert (k < length ws) by (apply L; discriminate). lia.
  Qed.

  Lemma inv_phase_spurious (s s' : st) : inv_phase s -> spurious s = Some s' -> inv_phase s'.
  Proof.
    intros (B & I) H. unfold spurious in H. destruct s as [qi qo qe li lo le ws m pr pa lg].
    cbn [main] in *. destruct m; try discriminate H. injection H as <-. split; [trivial|exact I].
  Qed.

  Lemma reach_phase W s0 p0 s : reach W s0 p0 s -> inv_phase s.
  Proof.
    induction 1 as [|l s s' _ IH H].
    - split; [exact I|]. intros k pc Hk. cbn. apply nth_error_In, repeat_spec in Hk. assumption.
    - destruct l as [|w r|]; cbn [step] in H.
      + eapply inv_phase_main; eassumption.
      + eapply inv_phase_worker; eassumption.
      + eapply inv_phase_spurious; eassumption.
  Qed.
  (** ** Locks *)
  Definition in_lin (pc : wpc V R) : bool :=
    match pc with WTest | WTake | WRelease _ | WBreak => true | _ => false end.
  Definition in_lev (pc : wpc V R) : bool :=
    match pc with WEvPush _ _ _ | WEvUnlock _ _ => true | _ => false end.
  Definition in_lout (pc : wpc V R) : bool :=
    match pc with WOutPush _ _ | WOutUnlock => true | _ => false end.
  Definition proc_lev (q : proc R X) : bool :=
    match q with PTake | PUnlock _ => true | _ => false end.
  Definition disp_lev (d : disp R X) : bool :=
    match d with DPush _ | DUnlock => true | DProc q => proc_lev q | _ => false end.
  Definition main_lev (m : mpc V R X) : bool :=
    match m with
    | MProcess _ _ _ q => proc_lev q
    | MFeedEv _ _ _ d _ | MEndEv d _ | MEpoch d => disp_lev d
    | _ => false
    end.
  Definition main_lout (m : mpc V R X) : bool :=
    match m with MCheck _ | MPop _ | MUnlock _ _ _ => true | _ => false end.
  Definition b2n (b : bool) : nat := if b then 1 else 0.
  Definition held (o : option who) : nat := match o with None => 0 | Some _ => 1 end.

  Definition inv_locks (s : st) : Prop :=
    cnt in_lin (workers s) = held (lin s)
    /\ cnt in_lout (workers s) + b2n (main_lout (main s)) = held (lout s)
    /\ cnt in_lev (workers s) + b2n (main_lev (main s)) = held (lev s).

  Lemma next_lout c : main_lout (next docs c : mpc V R X) = false.
  Proof. unfold next. now destruct (_ <? _). Qed.
  Lemma next_lev c : main_lev (next docs c : mpc V R X) = false.
  Proof. unfold next. now destruct (_ <? _). Qed.
  Lemma after_process_lout c i v : main_lout (after_process md docs c i v : mpc V R X) = false.
  Proof. unfold after_process. destruct md; [reflexivity|apply next_lout]. Qed.
  Lemma after_process_lev c i v : main_lev (after_process md docs c i v : mpc V R X) = false.
  Proof. unfold after_process. destruct md; [reflexivity|apply next_lev]. Qed.
  Lemma after_feed_lout c i v xs : main_lout (after_feed md docs c i v xs : mpc V R X) = false.
  Proof. unfold after_feed. destruct xs; [|reflexivity]. destruct md; [apply next_lout|reflexivity]. Qed.
  Lemma after_feed_lev c i v xs : main_lev (after_feed md docs c i v xs : mpc V R X) = false.
  Proof. unfold after_feed. destruct xs; [|reflexivity]. destruct md; [apply next_lev|reflexivity]. Qed.
  Lemma after_m_end_lout xs : main_lout (after_m_end xs : mpc V R X) = false.
  Proof. now destruct xs. Qed.
  Lemma after_m_end_lev xs : main_lev (after_m_end xs : mpc V R X) = false.
  Proof. now destruct xs. Qed.

  Lemma spawn_split (qi : list nat) qo qe li lo le ws w (pr : S) (pa : P) lg :
    inv_phase (mk_state qi qo qe li lo le ws (MSpawn w) pr pa lg) -> (w <? length ws) = true ->
    exists l1 l2, ws = l1 ++ WUnborn :: l2 /\ length l1 = w
                  /\ forall b, replace w b ws = l1 ++ b :: l2.
  Proof.
    intros (_ & I) L. apply Nat.ltb_lt in L. cbn [workers main] in I.
    destruct (nth_error ws w) as [a|] eqn:Ea; [|apply nth_error_None in Ea; lia].
    destruct (replace_split _ _ Ea) as (l1 & l2 & H1 & H2 & H3). exists l1, l2.
    apply I in Ea. destruct Ea as [_ Ea]. rewrite H1, (Ea (le_n _)) in *. auto.
  Qed.

  (** All cases of a step, with the list of workers split around the one that moves. *)
  Ltac step_split H l s Ph :=
    step_cases H l s;
    try match goal with
        | E : (_ <? length _) = true |- _ =>
            first [ destruct (spawn_split Ph E) as (l1 & l2 & Hws & Hlen & Hrep)
                  | match goal with
                    | Ex : nth_error _ _ = Some WExit |- _ =>
                        destruct (replace_split _ _ Ex) as (l1 & l2 & Hws & Hlen & Hrep)
                    end ]; subst
        end;
    try match goal with Hr : forall b, replace _ b _ = _ |- _ => rewrite ?Hr end.

  Lemma reach_locks W s0 p0 s : reach W s0 p0 s -> inv_locks s /\ length (workers s) = W.
  Proof.
    induction 1 as [|l s s' Hr [(A & B & C) Hlen'] H].
    - split; [|apply repeat_length]. unfold inv_locks, initial.
      cbn [workers main lin lout lev]. rewrite !cnt_repeat. cbn. auto.
    - pose proof (reach_phase Hr) as Ph. clear Hr. unfold inv_locks in *.
      step_split H l s Ph; rewrite ?cnt_app in *; cbn [cnt in_lin in_lout in_lev] in *;
      rewrite ?next_lout, ?next_lev, ?after_process_lout, ?after_process_lev, ?after_feed_lout,
        ?after_feed_lev, ?after_m_end_lout, ?after_m_end_lev; cbn [main_lout main_lev held b2n disp_lev proc_lev] in *;
      rewrite ?app_length in *; cbn [length] in *; try (repeat split; lia).
      all: try (destruct li; cbn [held] in *; repeat split; lia).
      all: try (destruct lo; cbn [held] in *; repeat split; lia).
      all: try (destruct le; cbn [held] in *; repeat split; lia).
  Qed.

  (** ** Documents and results *)
  Lemma esteps_app (a b : list (obs V P R X)) : esteps (a ++ b) = esteps a ++ esteps b.
  Proof. induction a as [|o a IH]; [reflexivity|]. destruct o; cbn; now rewrite IH. Qed.
  Lemma fed_app (a b : list (obs V P R X)) : fed (a ++ b) = fed a ++ fed b.
  Proof. induction a as [|o a IH]; [reflexivity|]. destruct o; cbn; now rewrite IH. Qed.
  Lemma delivered_app (a b : list (obs V P R X)) : delivered (a ++ b) = delivered a ++ delivered b.
  Proof. induction a as [|o a IH]; [reflexivity|]. destruct o; cbn; now rewrite IH. Qed.
  Lemma expects_app (a b : list (event R X)) : expects (a ++ b) = expects a ++ expects b.
  Proof. induction a as [|o a IH]; [reflexivity|]. destruct o; cbn; now rewrite IH. Qed.

  Definition pre (pc : wpc V R) : list nat :=
    match pc with WRelease i | WEstep i => [i] | _ => [] end.
  Definition post (pc : wpc V R) : list (nat * V) :=
    match pc with
    | WEvLock i v _ | WEvPush i v _ | WEvUnlock i v | WOutLock i v | WOutPush i v => [(i, v)]
    | _ => []
    end.
  Definition cur (m : mpc V R X) : list (nat * V) :=
    match m with
    | MUnlock _ i v | MFeed _ i v => [(i, v)]
    | MProcess _ i v _ => match md with Fit => [(i, v)] | Transform => [] end
    | _ => []
    end.
  Definition unqueued (m : mpc V R X) : list nat :=
    match m with MQueue i => seq i (docs - i) | _ => [] end.
  (** How many results have been consumed, and whether the loop counter is in range. *)
  Definition nfed (m : mpc V R X) (n : nat) : Prop :=
    match m with
    | MQueue _ | MSpawn _ => n = 0
    | MWait c | MCheck c | MAsleep c | MPop c | MUnlock c _ _ | MFeed c _ _ => n = c /\ c < docs
    | MProcess c _ _ _ => n = (match md with Fit => c | Transform => Datatypes.S c end) /\ c < docs
    | MFeedEv c _ _ _ _ => n = Datatypes.S c /\ c < docs
    | _ => n = docs
    end.

  Definition inv_data (s : st) : Prop :=
    Permutation (esteps (log s)) (fed (log s) ++ cur (main s) ++ qout s ++ flat_map post (workers s))
    /\ Permutation (map fst (esteps (log s)) ++ flat_map pre (workers s) ++ qin s ++ unqueued (main s))
                   (seq 0 docs)
    /\ nfed (main s) (length (fed (log s)))
    /\ (match main s with MQueue i => i <= docs | _ => True end).

  Lemma next_cur c : cur (next docs c) = [].
  Proof. unfold next. now destruct (_ <? _). Qed.
  Lemma next_unq c : unqueued (next docs c) = [].
  Proof. unfold next. now destruct (_ <? _). Qed.
  Lemma next_nfed c : c <= docs -> nfed (next docs c) c.
  Proof. intros H. unfold next. destruct (Nat.ltb_spec c docs); cbn [nfed]; lia. Qed.
  Lemma next_q (c : nat) : match next docs c : mpc V R X with MQueue i => i <= docs | _ => True end.
  Proof. unfold next. now destruct (_ <? _). Qed.
  Lemma after_feed_cur c i v xs : cur (after_feed md docs c i v xs) = [].
  Proof. unfold after_feed. destruct xs; [|reflexivity]. destruct md eqn:E; [apply next_cur|]. cbn. now rewrite E. Qed.
  Lemma after_feed_unq c i v xs : unqueued (after_feed md docs c i v xs) = [].
  Proof. unfold after_feed. destruct xs; [|reflexivity]. destruct md; [apply next_unq|reflexivity]. Qed.
  Lemma after_feed_nfed c i v xs : c < docs -> nfed (after_feed md docs c i v xs) (Datatypes.S c).
  Proof.
    intros H. unfold after_feed. destruct xs; [|cbn; auto]. destruct md eqn:E; [apply next_nfed; lia|].
    cbn. rewrite E. auto.
  Qed.
  Lemma after_feed_q c i v xs :
    match after_feed md docs c i v xs : mpc V R X with MQueue i => i <= docs | _ => True end.
  Proof. unfold after_feed. destruct xs; [|trivial]. destruct md; [apply next_q|trivial]. Qed.
  Lemma after_m_end_cur xs : cur (after_m_end xs) = [].
  Proof. now destruct xs. Qed.
  Lemma after_m_end_unq xs : unqueued (after_m_end xs) = [].
  Proof. now destruct xs. Qed.
  Lemma after_m_end_nfed xs n : n = docs -> nfed (after_m_end xs) n.
  Proof. now destruct xs. Qed.
  Lemma after_m_end_q xs :
    match after_m_end xs : mpc V R X with MQueue i => i <= docs | _ => True end.
  Proof. now destruct xs. Qed.

  Lemma reach_data W s0 p0 s : reach W s0 p0 s -> inv_data s.
  Proof.
    induction 1 as [|l s s' Hr (A & B & C & D) H].
    - unfold inv_data, initial. cbn [qin qout qev lin lout lev workers main priv param log esteps fed cur
         unqueued nfed map app length].
      assert (E1 : flat_map post (repeat WUnborn W) = []) by (induction W; cbn; auto).
      assert (E2 : flat_map pre (repeat WUnborn W) = []) by (induction W; cbn; auto).
      rewrite E1, E2, Nat.sub_0_r. repeat split; auto. lia.
    - pose proof (reach_phase Hr) as Ph. clear Hr. unfold inv_data in *.
      step_split H l s Ph; rewrite ?esteps_app, ?fed_app, ?flat_map_app in *;
      cbn [esteps fed flat_map pre post cur unqueued nfed map fst snd app] in *;
      rewrite ?next_cur, ?next_unq, ?after_feed_cur, ?after_feed_unq, ?after_m_end_cur, ?after_m_end_unq;
      rewrite ?map_app, ?app_nil_r in *; cbn [map fst app] in *; rewrite ?app_length; cbn [length].
      all: try (repeat split; first [assumption|lia|apply next_nfed; lia|apply next_q|apply after_feed_q
                 |apply after_m_end_q|apply after_m_end_nfed; assumption]).
      + apply Nat.ltb_lt in E. repeat split; [assumption| |assumption|lia].
        rewrite <- B. replace (docs - i) with (Datatypes.S (docs - Datatypes.S i)) by lia.
        cbn [seq]. perm.
      + apply Nat.ltb_ge in E. repeat split; try assumption.
        rewrite <- B. replace (docs - i) with 0 by lia. cbn [seq]. perm.
      + repeat split; try assumption; [|apply next_q]. rewrite C. apply next_nfed. lia.
      + destruct md; [|discriminate E]. cbn [app] in *. repeat split; try assumption; lia.
      + unfold after_process. destruct md eqn:Em; cbn [cur unqueued nfed app].
        * rewrite app_nil_r. auto.
        * rewrite next_cur, next_unq, app_nil_r. cbn [app] in *.
          repeat split; try assumption; [|apply next_q]. destruct C as [-> ?]. apply next_nfed. lia.
      + destruct C as [C1 C2]. repeat split; [|assumption| |apply after_feed_q].
        * rewrite A. perm.
        * rewrite C1, Nat.add_1_r. now apply after_feed_nfed.
      + destruct C as [C1 C2]. repeat split; [assumption|assumption| |apply after_feed_q].
        rewrite C1. now apply after_feed_nfed.
      + destruct C as [C1 C2]. repeat split; [assumption|assumption| |apply after_feed_q].
        rewrite C1. now apply after_feed_nfed.
      + repeat split; try assumption. rewrite <- B. perm.
      + repeat split; try assumption; [rewrite A; perm|rewrite <- B; perm].
      + repeat split; try assumption. rewrite A. perm.
  Qed.

  (** ** Queues *)
  Definition gone (pc : wpc V R) : bool :=
    match pc with WBreak | WExit | WJoined => true | _ => false end.
  Definition taking (pc : wpc V R) : bool := match pc with WTake => true | _ => false end.
  Definition notifying (pc : wpc V R) : bool :=
    match pc with WOutUnlock | WNotify => true | _ => false end.
  Lemma cnt_le {A} (f g : A -> bool) l :
    (forall a, f a = true -> g a = true) -> cnt f l <= cnt g l.
  Proof.
    intros H. induction l as [|a l IH]; cbn [cnt]; [lia|].
    destruct (f a) eqn:E; [rewrite (H _ E); lia|]. destruct (g a); lia.
  Qed.

  Definition inv_queue (s : st) : Prop :=
    (cnt gone (workers s) <> 0 -> qin s = [])
    /\ (cnt taking (workers s) <> 0 -> qin s <> [])
    /\ (match main s with
        | MPop _ => qout s <> []
        | MAsleep _ => qout s = [] \/ cnt notifying (workers s) <> 0
        | _ => True
        end).

  Lemma next_queue c (A : Prop) (B : Prop) :
    match next docs c : mpc V R X with MPop _ => A | MAsleep _ => B | _ => True end.
  Proof. unfold next. now destruct (_ <? _). Qed.
  Lemma after_process_queue c i v (A : Prop) (B : Prop) :
    match after_process md docs c i v : mpc V R X with MPop _ => A | MAsleep _ => B | _ => True end.
  Proof. unfold after_process. destruct md; [exact I|apply next_queue]. Qed.
  Lemma after_feed_queue c i v xs (A : Prop) (B : Prop) :
    match after_feed md docs c i v xs : mpc V R X with MPop _ => A | MAsleep _ => B | _ => True end.
  Proof. unfold after_feed. destruct xs; [|exact I]. destruct md; [apply next_queue|exact I]. Qed.
  Lemma after_m_end_queue xs (A : Prop) (B : Prop) :
    match after_m_end xs : mpc V R X with MPop _ => A | MAsleep _ => B | _ => True end.
  Proof. now destruct xs. Qed.

  Lemma queue_unborn (s : st) i : inv_phase s -> main s = MQueue i -> Forall (fun pc => pc = WUnborn) (workers s).
  Proof.
    intros (_ & I) E. apply Forall_forall. intros pc Hin. apply In_nth_error in Hin as [k Hk].
    apply I in Hk. now rewrite E in Hk.
  Qed.
  Lemma unborn_cnt (f : wpc V R -> bool) l :
    f WUnborn = false -> Forall (fun pc => pc = WUnborn) l -> cnt f l = 0.
  Proof. intros Hf H. induction H as [|pc l -> H IH]; cbn [cnt]; [reflexivity|]. now rewrite Hf. Qed.

  Lemma reach_queue W s0 p0 s : reach W s0 p0 s -> inv_queue s.
  Proof.
    induction 1 as [|l s s' Hr (A & B & C) H].
    - unfold inv_queue, initial. cbn [workers main qin]. rewrite !cnt_repeat. cbn. auto.
    - pose proof (reach_phase Hr) as Ph. destruct (reach_locks Hr) as ((L1 & L2 & L3) & _).
      pose proof (fun i => queue_unborn (i := i) Ph) as U. clear Hr.
      assert (T : forall l, cnt taking l <= cnt in_lin l).
      { intros. apply cnt_le. now intros []. }
      unfold inv_queue in *.
      step_split H l s Ph; rewrite ?cnt_app in *; cbn [cnt gone taking notifying in_lin in_lout in_lev main_lout b2n held] in *.
      all: try (repeat split; first [assumption|apply next_queue|apply after_process_queue|apply after_feed_queue
               |apply after_m_end_queue|exact I|congruence|left; assumption|intros; (apply A || apply B); lia]).
      + pose proof (U i eq_refl) as Hu. rewrite !unborn_cnt by (reflexivity || assumption).
        repeat split; congruence.
      + repeat split; try assumption. now left.
      + assert (K : cnt taking l1 + (0 + cnt taking l2) = 0).
        { pose proof (T l1). pose proof (T l2). destruct li; cbn [held] in *; lia. }
        repeat split; try assumption; [|congruence]. intros Hg. exfalso.
        assert (Hn : n :: l = []) by (apply A; lia). discriminate Hn.
      + repeat split; try assumption. destruct m; try exact I; [right; lia|].
        now destruct qo.
  Qed.

  (** ** Progress *)
  Lemma worker_moves (s : st) w pc r :
    nth_error (workers s) w = Some pc ->
    match pc with
    | WUnborn | WExit | WJoined => False
    | WTop => lin s = None
    | WTake => qin s <> []
    | WEvLock _ _ _ => lev s = None
    | WOutLock _ _ => lout s = None
    | _ => True
    end -> exists s', stepf (LWorker w r) s = Some s'.
  Proof.
    intros Hw Hp. cbn [step]. unfold wstep. rewrite Hw. destruct pc; try contradiction; eauto.
    - rewrite Hp. eauto.
    - destruct (qin s); [contradiction|eauto].
    - rewrite Hp. eauto.
    - rewrite Hp. eauto.
  Qed.

  Definition idle (pc : wpc V R) : bool :=
    match pc with WUnborn | WExit | WJoined => true | _ => false end.
  Definition moves (s : st) : Prop := exists l s', is_spurious l = false /\ stepf l s = Some s'.

  Lemma lin_free (r : R) W s0 p0 s : reach W s0 p0 s -> lin s <> None -> moves s.
  Proof.
    intros Hr Hl. destruct (reach_locks Hr) as ((L & _ & _) & _). destruct (reach_queue Hr) as (_ & Q & _).
    destruct (lin s) as [o|]; [|contradiction]. cbn [held] in L.
    destruct (cnt_in in_lin (workers s)) as (w & pc & Hw & Hp); [lia|].
    destruct (worker_moves s w r Hw) as [s' Hs].
    - destruct pc; try discriminate Hp; try exact I. apply Q.
      destruct (nth_error_split _ _ Hw) as (l1 & l2 & -> & _). rewrite cnt_app. cbn. lia.
    - exists (LWorker w r), s'. auto.
  Qed.
  Lemma lev_free (r : R) W s0 p0 s : reach W s0 p0 s -> lev s <> None -> moves s.
  Proof.
    intros Hr Hl. destruct (reach_locks Hr) as ((_ & _ & L) & _).
    destruct (lev s) eqn:E; [|contradiction]. cbn [held] in L.
    destruct (main_lev (main s)) eqn:Em; cbn [b2n] in L.
    - assert (exists s', mstep feed e_end m_end md owner docs s = Some s') as [s' Hs].
      { unfold mstep. destruct (main s); try discriminate Em; cbn [main_lev disp_lev] in Em.
        - destruct q; try discriminate Em; cbn [proc_step]; eauto.
        - destruct d; try discriminate Em; cbn [disp_step]; eauto.
          destruct q; try discriminate Em; cbn [proc_step]; eauto.
        - destruct d; try discriminate Em; cbn [disp_step]; eauto.
          destruct q; try discriminate Em; cbn [proc_step]; eauto.
        - destruct d; try discriminate Em; cbn [disp_step]; eauto.
          destruct q; try discriminate Em; cbn [proc_step]; eauto. }
      exists LMain, s'. auto.
    - destruct (cnt_in in_lev (workers s)) as (w' & pc & Hw & Hp); [lia|].
      destruct (worker_moves s w' r Hw) as [s' Hs].
      + destruct pc; try discriminate Hp; exact I.
      + exists (LWorker w' r), s'. auto.
  Qed.
  Lemma lout_free (r : R) W s0 p0 s : reach W s0 p0 s -> lout s <> None -> moves s.
  Proof.
    intros Hr Hl. destruct (reach_locks Hr) as ((_ & L & _) & _). destruct (reach_queue Hr) as (_ & _ & Q).
    destruct (lout s) eqn:E; [|contradiction]. cbn [held] in L.
    destruct (main_lout (main s)) eqn:Em; cbn [b2n] in L.
    - assert (exists s', mstep feed e_end m_end md owner docs s = Some s') as [s' Hs].
      { unfold mstep. destruct (main s); try discriminate Em; eauto.
        - destruct (qout s); eauto.
        - destruct (qout s) as [|[i v] q]; [contradiction|eauto]. }
      exists LMain, s'. auto.
    - destruct (cnt_in in_lout (workers s)) as (w' & pc & Hw & Hp); [lia|].
      destruct (worker_moves s w' r Hw) as [s' Hs].
      + destruct pc; try discriminate Hp; exact I.
      + exists (LWorker w' r), s'. auto.
  Qed.

  Lemma idle_flat {B} (f : wpc V R -> list B) l :
    (forall pc, idle pc = true -> f pc = []) -> Forall (fun pc => idle pc = true) l -> flat_map f l = [].
  Proof. intros Hf H. induction H as [|pc l Hp H IH]; cbn [flat_map]; [reflexivity|]. now rewrite Hf, IH. Qed.

  Lemma progress (r : R) W s0 p0 s :
    0 < W -> reach W s0 p0 s -> main s <> MDone -> moves s.
  Proof.
    intros HW Hr Hm.
    destruct (lin s) eqn:E1; [eapply (lin_free r Hr); congruence|].
    destruct (lev s) eqn:E2; [eapply (lev_free r Hr); congruence|].
    destruct (lout s) eqn:E3; [eapply (lout_free r Hr); congruence|].
    destruct (reach_queue Hr) as (Q1 & Q2 & Q3). destruct (reach_locks Hr) as (_ & Hlen).
    pose proof (reach_phase Hr) as (Bd & Ph).
    destruct (Nat.eq_dec (cnt (fun pc => negb (idle pc)) (workers s)) 0) as [Hi|Hi].
    2: { destruct (cnt_in _ _ Hi) as (w & pc & Hw & Hp).
         destruct (worker_moves s w r Hw) as [s' Hs].
         - destruct pc; try discriminate Hp; try assumption; try exact I. apply Q2.
           destruct (nth_error_split _ _ Hw) as (l1 & l2 & -> & _). rewrite cnt_app. cbn. lia.
         - exists (LWorker w r), s'. auto. }
    apply cnt_forall in Hi.
    assert (Hidle : Forall (fun pc => idle pc = true) (workers s)).
    { eapply Forall_impl; [|exact Hi]. intros pc Hpc. now apply negb_false_iff. }
    assert (exists s', mstep feed e_end m_end md owner docs s = Some s') as [s' Hs];
      [|exists LMain, s'; auto].
    unfold mstep. destruct (main s) as [i|w|c|c|c|c|c i v|c i v q|c i v|c i v d xs|w| | |d xs|d| ] eqn:Em.
    - destruct (_ <? _); eauto.
    - destruct (_ <? _); eauto.
    - rewrite E3. eauto.
    - destruct (qout s); eauto.
    - exfalso. destruct (reach_data Hr) as (D1 & D2 & D3 & _). rewrite Em in *.
      cbn [cur unqueued nfed stage_ok] in *.
      assert (Hne : exists pc l, workers s = pc :: l).
      { destruct (workers s) as [|pc l]; [cbn in Hlen; lia|eauto]. }
      destruct Hne as (pc & l & El).
      assert (Hq : qin s = []).
      { apply Q1. rewrite El. pose proof (Ph 0 pc) as P0. rewrite El in P0, Hidle.
        specialize (P0 eq_refl). inversion Hidle as [|? ? Hpc _]; subst.
        destruct P0 as [N1 N2]. destruct pc; try discriminate Hpc; try congruence; cbn; lia. }
      assert (Hqo : qout s = []).
      { destruct Q3 as [Q3|Q3]; [assumption|]. exfalso. apply Q3. apply cnt_forall.
        eapply Forall_impl; [|exact Hidle]. now intros []. }
      rewrite Hqo, idle_flat in D1 by (assumption || now intros []).
      rewrite Hq, idle_flat in D2 by (assumption || now intros []).
      apply Permutation_length in D1, D2. rewrite !app_length, ?map_length, seq_length in *. cbn in D1, D2. lia.
    - destruct (qout s) as [|[i v] q]; [contradiction|eauto].
    - eauto.
    - destruct q as [| |b|b]; cbn [proc_step]; try (rewrite E2); eauto. destruct b; eauto.
    - eauto.
    - destruct d as [e|e| |q]; cbn [disp_step]; try (rewrite E2); eauto.
      destruct q as [| |b|b]; cbn [proc_step]; try (rewrite E2); eauto. destruct b; eauto.
    - destruct (Nat.ltb_spec w (length (workers s))) as [L|L]; [|eauto].
      destruct (nth_error (workers s) w) as [pc|] eqn:Ew; [|apply nth_error_None in Ew; lia].
      pose proof (proj2 (Ph w pc Ew) (le_n _)) as [N1 N2].
      assert (Hpc : idle pc = true) by (rewrite Forall_forall in Hidle; apply Hidle; eapply nth_error_In; eassumption).
      destruct pc; try discriminate Hpc; try congruence. eauto.
    - eauto.
    - eauto.
    - destruct d as [e|e| |q]; cbn [disp_step]; try (rewrite E2); eauto.
      destruct q as [| |b|b]; cbn [proc_step]; try (rewrite E2); eauto. destruct b; eauto.
    - destruct d as [e|e| |q]; cbn [disp_step]; try (rewrite E2); eauto.
      destruct q as [| |b|b]; cbn [proc_step]; try (rewrite E2); eauto. destruct b; eauto.
    - contradiction.
  Qed.

  (** ** Termination *)
  Section Termination.
    (** [k]: at most so many M-step events per call. *)
    Variable k : nat.
    Hypothesis feed_k : forall s p i v, length (snd (feed s p i v)) <= k.
    Hypothesis end_k : forall s p, length (snd (m_end s p)) <= k.

    Definition ww (pc : wpc V R) : nat :=
      match pc with
      | WUnborn | WExit | WJoined => 0 | WBreak => 1 | WTake => 1 | WTest => 2 | WTop => 3
      | WNotify => 6 | WOutUnlock => 7 | WOutPush _ _ => 8 | WOutLock _ _ => 9
      | WEvUnlock _ _ => 10 | WEvPush _ _ _ => 12 | WEvLock _ _ _ => 13 | WEstep _ => 14 | WRelease _ => 15
      end.
    Definition pw (q : proc R X) : nat :=
      match q with PLock => 4 | PTake => 3 | PUnlock b => 2 + length b | PDeliver b => 1 + length b end.
    Definition dw (d : disp R X) : nat :=
      match d with DLock _ => 8 | DPush _ => 7 | DUnlock => 5 | DProc q => pw q end.
    (** Weight of everything from loop round [c] on. *)
    Definition from (nw c : nat) : nat := (docs - c) * (9 * k + 14) + (nw + 9 * k + 13).
    Definition mw (nw : nat) (m : mpc V R X) : nat :=
      match m with
      | MQueue i => (docs - i) * 16 + 1 + (4 * nw + 1 + from nw 0)
      | MSpawn w => 4 * (nw - w) + 1 + from nw 0
      | MWait c => from nw (Datatypes.S c) + 9 * k + 14
      | MCheck c => from nw (Datatypes.S c) + 9 * k + 13
      | MAsleep c => from nw (Datatypes.S c) + 9 * k + 12
      | MPop c => from nw (Datatypes.S c) + 9 * k + 12
      | MUnlock c _ _ => from nw (Datatypes.S c) + 9 * k + 11
      | MProcess c _ _ q =>
          from nw (Datatypes.S c) + pw q + match md with Fit => 9 * k + 5 | Transform => 0 end
      | MFeed c _ _ => from nw (Datatypes.S c) + 9 * k + 5
      | MFeedEv c _ _ d xs => from nw (Datatypes.S c) + dw d + 9 * length xs + 5
      | MJoin w => (nw - w) + 9 * k + 13
      | MEEnd => 9 * k + 12
      | MMEnd => 9 * k + 11
      | MEndEv d xs => dw d + 9 * length xs + 9
      | MEpoch d => dw d
      | MDone => 0
      end.
    Fixpoint sumw (l : list (wpc V R)) : nat := match l with [] => 0 | pc :: l => ww pc + sumw l end.
    Lemma sumw_app a b : sumw (a ++ b) = sumw a + sumw b.
    Proof. induction a as [|pc a IH]; cbn [sumw app]; [reflexivity|rewrite IH; lia]. Qed.
    Definition mu (s : st) : nat :=
      mw (length (workers s)) (main s) + sumw (workers s) + 15 * length (qin s) + length (qev s).

    Lemma next_w nw c : c <= docs -> mw nw (next docs c) = from nw c.
    Proof.
      intros H. unfold next. destruct (Nat.ltb_spec c docs) as [L|L]; cbn [mw]; unfold from.
      - replace (docs - c) with (Datatypes.S (docs - Datatypes.S c)) by lia.
        generalize (docs - Datatypes.S c). intros n. cbn [Nat.mul]. lia.
      - replace (docs - c) with 0 by lia. lia.
    Qed.
    Lemma after_process_w nw c i v : c < docs ->
      mw nw (after_process md docs c i v) < from nw (Datatypes.S c) + 1 + match md with Fit => 9 * k + 5 | Transform => 0 end.
    Proof.
      intros H. unfold after_process. destruct md eqn:E.
      - cbn [mw]. lia.
      - rewrite next_w by lia. lia.
    Qed.
    Lemma after_feed_w nw c i v xs : c < docs ->
      mw nw (after_feed md docs c i v xs) <= from nw (Datatypes.S c) + 9 * length xs + 4.
    Proof.
      intros H. unfold after_feed. destruct xs as [|x xs].
      - destruct md eqn:E; [rewrite next_w by lia; lia|]. cbn [mw pw]. rewrite E. lia.
      - cbn [mw dw length]. lia.
    Qed.
    Lemma after_m_end_w nw xs : mw nw (after_m_end xs) <= 9 * length xs + 8.
    Proof. destruct xs; cbn [after_m_end mw dw length]; lia. Qed.

    Lemma mu_step W s0 p0 s l s' :
      reach W s0 p0 s -> stepf l s = Some s' ->
      if is_spurious l then mu s' <= mu s + 2 else mu s' < mu s.
    Proof.
      intros Hr H. destruct (reach_data Hr) as (_ & _ & D & D'). pose proof (reach_phase Hr) as Ph. clear Hr.
      unfold mu in *. step_split H l s Ph; cbn [is_spurious]; rewrite ?sumw_app, ?app_length; cbn [sumw ww length];
        cbn [mw nfed dw pw length] in *.
      all: try lia.
      all: try match type of D with _ /\ _ => destruct D as [D1 D2] end.
      all: try match goal with
               | |- context [after_process md docs ?c ?i ?v] => pose proof (after_process_w (length ws) i v D2)
               | |- context [after_feed md docs ?c ?i ?v ?xs] => pose proof (after_feed_w (length ws) i v xs D2)
               | |- context [after_m_end ?xs] => pose proof (after_m_end_w (length ws) xs)
               end.
      all: try match goal with |- context [snd (feed ?a ?b ?c ?d)] => pose proof (feed_k a b c d) end.
      all: try match goal with |- context [snd (m_end ?a ?b)] => pose proof (end_k a b) end.
      all: try lia.
      all: try (apply Nat.ltb_lt in E; lia).
      - rewrite next_w by lia. lia.
      - destruct md; lia.
    Qed.

    Lemma run_mu W s0 p0 ls s s' :
      reach W s0 p0 s -> run estep feed e_end m_end md owner docs ls s s' ->
      length (filter (fun l => negb (is_spurious l)) ls) + mu s'
      <= mu s + 2 * length (filter (fun l => is_spurious l) ls).
    Proof.
      intros Hr Hrun. revert Hr. induction Hrun as [s|l ls s s1 s2 H Hrun IH]; intros Hr; cbn [filter length]; [lia|].
      pose proof (mu_step _ Hr H) as M.
      assert (Hr1 : reach W s0 p0 s1) by (econstructor; eassumption). specialize (IH Hr1).
      destruct (is_spurious l); cbn [negb length]; lia.
    Qed.

    Lemma bounded W s0 p0 (ls : list (label R)) s :
      run estep feed e_end m_end md owner docs ls (initial W s0 p0) s ->
      length (filter (fun l => negb (is_spurious l)) ls)
      <= docs * (9 * k + 30) + 5 * W + 9 * k + 15 + 2 * length (filter (fun l => is_spurious l) ls).
    Proof.
      intros H. apply (run_mu reach_init) in H.
      assert (M : mu (initial W s0 p0) = docs * (9 * k + 30) + 5 * W + 9 * k + 15).
      { unfold mu, initial. cbn [workers main qin qev mw length]. unfold from. rewrite repeat_length.
        assert (E : sumw (repeat WUnborn W) = 0) by (clear; induction W; auto).
        rewrite E, !Nat.sub_0_r. lia. }
      lia.
    Qed.
  End Termination.

  Lemma run_reach W s0 p0 ls s s' :
    reach W s0 p0 s -> run estep feed e_end m_end md owner docs ls s s' -> reach W s0 p0 s'.
  Proof. intros Hr H. induction H; [assumption|]. apply IHrun. econstructor; eassumption. Qed.

  (** ** State of the calling thread *)
  Definition main_end (m : mpc V R X) : nat :=
    match m with
    | MMEnd => 1
    | MEndEv _ _ | MEpoch _ | MDone => 2
    | _ => 0
    end.
  Definition finish_data (n : nat) (d : S * P) : S * P :=
    match md, n with
    | Fit, 1 => (fst d, e_end (snd d))
    | Fit, 2 => fst (m_end (fst d) (e_end (snd d)))
    | _, _ => d
    end.
  Definition inv_fold (s0 : S) (p0 : P) (s : st) : Prop :=
    (md = Transform -> main s = MDone \/ main_end (main s) = 0 /\ main s <> MEEnd) /\
    (priv s, param s) = finish_data (main_end (main s)) (consume feed (fed (log s)) (s0, p0)).

  Lemma next_end c : main_end (next docs c : mpc V R X) = 0.
  Proof. unfold next. now destruct (_ <? _). Qed.
  Lemma after_process_end c i v : main_end (after_process md docs c i v : mpc V R X) = 0.
  Proof. unfold after_process. destruct md; [reflexivity|apply next_end]. Qed.
  Lemma after_feed_end c i v xs : main_end (after_feed md docs c i v xs : mpc V R X) = 0.
  Proof. unfold after_feed. destruct xs; [|reflexivity]. destruct md; [apply next_end|reflexivity]. Qed.
  Lemma after_m_end_end xs : main_end (after_m_end xs : mpc V R X) = 2.
  Proof. now destruct xs. Qed.
  Lemma next_neq c : next docs c <> (MEEnd : mpc V R X).
  Proof. unfold next. now destruct (_ <? _). Qed.
  Lemma after_process_neq c i v : after_process md docs c i v <> (MEEnd : mpc V R X).
  Proof. unfold after_process. destruct md; [discriminate|apply next_neq]. Qed.
  Lemma after_feed_neq c i v xs : after_feed md docs c i v xs <> (MEEnd : mpc V R X).
  Proof. unfold after_feed. destruct xs; [|discriminate]. destruct md; [apply next_neq|discriminate]. Qed.
  Lemma fed_note l (o : obs V P R X) : match o with OFeed _ _ => False | _ => True end -> fed (l ++ [o]) = fed l.
  Proof. intros H. rewrite fed_app. destruct o; try contradiction; apply app_nil_r. Qed.

  Lemma reach_fold W s0 p0 s : reach W s0 p0 s -> inv_fold s0 p0 s.
  Proof.
    induction 1 as [|l s s' Hr (A & B) H].
    - split; [|unfold finish_data; cbn; now destruct md]. intros. right. split; [reflexivity|discriminate].
    - pose proof (reach_phase Hr) as Ph. clear Hr. unfold inv_fold in *.
      step_split H l s Ph; rewrite ?next_end, ?after_process_end, ?after_feed_end, ?after_m_end_end;
        cbn [main_end] in *; rewrite ?fed_note by exact I.
      all: try (split; [intros Hm; apply A in Hm as [Hm|[Hm Hm']]; [discriminate Hm|]; try discriminate Hm; try congruence;
                   right; (split; [reflexivity|first [discriminate|apply next_neq|apply after_process_neq|apply after_feed_neq]])
                 |exact B]).
      all: try (split; [intros Hm; apply A in Hm as [Hm|[Hm Hm']]; first [discriminate Hm|congruence]|]).
      + split.
        * intros Hm. right. split; [reflexivity|apply after_feed_neq].
        * unfold finish_data in *. rewrite fed_app. unfold consume in *. rewrite fold_left_app.
          destruct md; rewrite <- B; cbn; destruct (feed pr pa i v) as [[? ?] ?]; reflexivity.
      + split; [discriminate|exact B].
      + split; [now left|]. unfold finish_data in *. rewrite E0 in *. exact B.
      + unfold finish_data in *. destruct md.
        * rewrite <- B. reflexivity.
        * destruct (A eq_refl) as [K|[_ K]]; [discriminate K|congruence].
      + unfold finish_data in *. destruct md.
        * cbn in B. injection B as -> ->. now destruct (fst (m_end _ _)).
        * destruct (A eq_refl) as [K|[K _]]; discriminate K.
      + split; assumption.
      + split; assumption.
      + split; assumption.
      + split; assumption.
      + split; assumption.
      + split; assumption.
      + split; assumption.
      + split; assumption.
      + split; assumption.
      + split; assumption.
      + split; assumption.
      + split; assumption.
      + split; assumption.
      + split; [now left|exact B].
  Qed.

  (** ** Events *)
  Definition pbatch (q : proc R X) : list (event R X) :=
    match q with PUnlock b | PDeliver b => b | _ => [] end.
  Definition dbatch (d : disp R X) : list (event R X) :=
    match d with DProc q => pbatch q | _ => [] end.
  Definition batch (m : mpc V R X) : list (event R X) :=
    match m with
    | MProcess _ _ _ q => pbatch q
    | MFeedEv _ _ _ d _ | MEndEv d _ | MEpoch d => dbatch d
    | _ => []
    end.
  Definition evpend (pc : wpc V R) : list nat :=
    match pc with WEvLock i _ _ | WEvPush i _ _ => [i] | _ => [] end.
  Definition dplain (d : disp R X) : Prop :=
    match d with DLock e | DPush e => expects [e] = [] | _ => True end.
  Definition mplain (m : mpc V R X) : Prop :=
    match m with MFeedEv _ _ _ d _ | MEndEv d _ | MEpoch d => dplain d | _ => True end.

  Definition inv_events (s : st) : Prop :=
    Permutation (expects (delivered (log s)) ++ expects (batch (main s)) ++ expects (qev s)
                 ++ flat_map evpend (workers s)) (map fst (esteps (log s)))
    /\ mplain (main s).

  Lemma next_batch c : batch (next docs c) = [].
  Proof. unfold next. now destruct (_ <? _). Qed.
  Lemma next_plain c : mplain (next docs c).
  Proof. unfold next. now destruct (_ <? _). Qed.
  Lemma after_process_batch c i v : batch (after_process md docs c i v) = [].
  Proof. unfold after_process. destruct md; [reflexivity|apply next_batch]. Qed.
  Lemma after_process_plain c i v : mplain (after_process md docs c i v).
  Proof. unfold after_process. destruct md; [exact I|apply next_plain]. Qed.
  Lemma after_feed_batch c i v xs : batch (after_feed md docs c i v xs) = [].
  Proof. unfold after_feed. destruct xs; [|reflexivity]. destruct md; [apply next_batch|reflexivity]. Qed.
  Lemma after_feed_plain c i v xs : mplain (after_feed md docs c i v xs).
  Proof. unfold after_feed. destruct xs; [|reflexivity]. destruct md; [apply next_plain|exact I]. Qed.
  Lemma after_m_end_batch xs : batch (after_m_end xs) = [].
  Proof. now destruct xs. Qed.
  Lemma after_m_end_plain xs : mplain (after_m_end xs).
  Proof. now destruct xs. Qed.

  Lemma reach_events W s0 p0 s : reach W s0 p0 s -> inv_events s.
  Proof.
    induction 1 as [|l s s' Hr (A & B) H].
    - unfold inv_events, initial. cbn [log workers main qev delivered expects batch esteps map app].
      assert (E1 : flat_map evpend (repeat WUnborn W) = []) by (induction W; cbn; auto). now rewrite E1.
    - pose proof (reach_phase Hr) as Ph. clear Hr. unfold inv_events in *.
      step_split H l s Ph; rewrite ?next_batch, ?after_process_batch, ?after_feed_batch, ?after_m_end_batch;
        rewrite ?delivered_app, ?esteps_app, ?flat_map_app, ?expects_app, ?map_app in *;
        cbn [batch mplain dplain dbatch pbatch evpend flat_map delivered esteps map fst expects app] in *;
        rewrite ?app_nil_r in *;
        (split; [|first [assumption|exact I|reflexivity|apply next_plain|apply after_process_plain|apply after_feed_plain|apply after_m_end_plain]]).
      all: try assumption.
      all: try match goal with |- context [match ?e with Expect _ _ => _ | _ => _ end] => destruct e; cbn [app] in * end.
      all: try (cbn [expects] in *; try discriminate B).
      all: try (rewrite <- A; rewrite ?app_nil_r; perm).
  Qed.

  Definition post2 (pc : wpc V R) : list nat :=
    match pc with WEvUnlock i _ | WOutLock i _ | WOutPush i _ => [i] | _ => [] end.
  Lemma post_split l :
    Permutation (map fst (flat_map post l)) (flat_map evpend l ++ flat_map post2 l).
  Proof.
    induction l as [|pc l IH]; [constructor|]. cbn [flat_map]. rewrite map_app.
    destruct pc; cbn [post evpend post2 map fst app]; try exact IH; rewrite IH; perm.
  Qed.

  (** The events of the results that left the workers are dispatched. *)
  Lemma reach_dispatched W s0 p0 s : reach W s0 p0 s ->
    Permutation (expects (delivered (log s)) ++ expects (batch (main s)) ++ expects (qev s))
                (map fst (fed (log s)) ++ map fst (cur (main s)) ++ map fst (qout s) ++ flat_map post2 (workers s)).
  Proof.
    intros Hr. destruct (reach_events Hr) as (A & _). destruct (reach_data Hr) as (D & _).
    apply (Permutation_map fst) in D. rewrite D in A. rewrite !map_app, post_split in A.
    apply (Permutation_app_inv_r (flat_map evpend (workers s))).
    rewrite <- !app_assoc, A. perm.
  Qed.

  Definition pending (m : mpc V R X) (j : nat) : Prop :=
    match m with
    | MProcess _ i _ q =>
        match q with PLock | PTake => j = i | PUnlock b | PDeliver b => In j (expects b) end
    | MFeedEv _ i _ _ _ => md = Transform /\ j = i
    | _ => False
    end.
  Definition curp (m : mpc V R X) : list nat :=
    match m with
    | MProcess _ i _ _ | MFeed _ i _ => match md with Fit => [i] | Transform => [] end
    | _ => []
    end.
  Definition inv_settled (s : st) : Prop :=
    forall j, In j (map fst (fed (log s)) ++ curp (main s)) ->
              In j (expects (delivered (log s))) \/ pending (main s) j.

  Lemma next_curp c : curp (next docs c) = [].
  Proof. unfold next. now destruct (_ <? _). Qed.
  Lemma next_pending c j : pending (next docs c) j <-> False.
  Proof. unfold next. now destruct (_ <? _). Qed.
  Lemma after_m_end_curp xs : curp (after_m_end xs) = [].
  Proof. now destruct xs. Qed.
  Lemma after_m_end_pending xs j : pending (after_m_end xs) j <-> False.
  Proof. now destruct xs. Qed.

  Lemma reach_settled W s0 p0 s : reach W s0 p0 s -> inv_settled s.
  Proof.
    induction 1 as [|l s s' Hr A H].
    - intros j Hj. destruct Hj.
    - pose proof (reach_phase Hr) as Ph. pose proof (reach_dispatched Hr) as D. clear Hr. unfold inv_settled in *.
      step_split H l s Ph; rewrite ?next_curp, ?after_m_end_curp;
        rewrite ?fed_app, ?delivered_app, ?expects_app in *; cbn [fed delivered expects] in *; rewrite ?app_nil_r in *;
        cbn [curp pending batch dbatch pbatch cur map fst] in *;
        intros j Hj; rewrite ?next_pending, ?after_m_end_pending; try (apply A in Hj; tauto).
      + destruct md; [|discriminate E]. apply in_app_or in Hj as [Hj|[Hj|[]]]; [|auto].
        apply A in Hj. tauto.
      + destruct md; [discriminate E|]. rewrite app_nil_r in Hj. auto.
      + cbn [expects app] in D.
        assert (K : In j (expects (delivered lg) ++ expects qe)); [|now apply in_app_or in K].
        eapply Permutation_in; [symmetry; exact D|]. destruct md; cbn [map app fst] in *.
        * apply in_app_or in Hj as [Hj|[Hj|[]]]; apply in_or_app; [now left|right; left; auto].
        * apply in_or_app. left. now rewrite app_nil_r in Hj.
      + unfold after_process in *. destruct md eqn:Em; cbn [curp pending expects] in *; rewrite ?Em in *.
        * apply A in Hj. tauto.
        * rewrite next_curp in Hj. rewrite next_pending. apply A in Hj. tauto.
      + apply A in Hj. rewrite in_app_iff. destruct e; cbn [In expects] in *; tauto.
      + rewrite map_app in Hj. cbn [map fst] in Hj. unfold after_feed in *. destruct md eqn:Em, (snd (feed pr pa i v)); cbn [curp pending] in *; rewrite ?Em in *;
        rewrite ?next_curp, ?next_pending, ?app_nil_r in *.
        * apply A in Hj. tauto.
        * apply A in Hj. tauto.
        * apply in_app_or in Hj as [Hj|[Hj|[]]]; [|auto]. apply A in Hj. tauto.
        * apply in_app_or in Hj as [Hj|[Hj|[]]]; [|auto]. apply A in Hj. tauto.
      + unfold after_feed in *. destruct md eqn:Em, xs; cbn [curp pending] in *; rewrite ?Em in *;
        rewrite ?next_curp, ?next_pending, ?app_nil_r in *;
        (destruct (A j Hj) as [K|[K1 K2]]; [now left|first [discriminate K1|auto]]).
      + unfold after_feed in *. destruct md eqn:Em, xs; cbn [curp pending] in *; rewrite ?Em in *;
        rewrite ?next_curp, ?next_pending, ?app_nil_r in *;
        (destruct (A j Hj) as [K|[K1 K2]]; [now left|first [discriminate K1|auto]]).
      + rewrite in_app_iff. apply A in Hj. tauto.
      + rewrite in_app_iff. apply A in Hj. tauto.
      + rewrite in_app_iff. apply A in Hj. tauto.
  Qed.

  Lemma nodup_app_l {A} (l1 l2 : list A) : NoDup (l1 ++ l2) -> NoDup l1.
  Proof.
    induction l1 as [|a l1 IH]; cbn [app]; intros H; [constructor|].
    inversion H as [|? ? N H']; subst. constructor; [|auto]. intros K. apply N. apply in_or_app. now left.
  Qed.
  Lemma fed_nodup W s0 p0 s : reach W s0 p0 s -> NoDup (map fst (fed (log s))).
  Proof.
    intros Hr. destruct (reach_data Hr) as (D1 & D2 & _).
    assert (N : NoDup (map fst (esteps (log s)))).
    { apply (@nodup_app_l _ _ (flat_map pre (workers s) ++ qin s ++ unqueued (main s))).
      eapply Permutation_NoDup; [symmetry; exact D2|]. apply seq_NoDup. }
    apply (Permutation_map fst) in D1. rewrite map_app in D1.
    eapply Permutation_NoDup in N; [|exact D1]. now apply nodup_app_l in N.
  Qed.

  (** Once everything is consumed and processed no expectation event is left behind. *)
  Lemma quiet W s0 p0 s : reach W s0 p0 s ->
    length (fed (log s)) = docs -> (forall j, ~ pending (main s) j) ->
    expects (batch (main s)) = [] /\ expects (qev s) = []
    /\ Permutation (expects (delivered (log s))) (seq 0 docs)
    /\ Permutation (map fst (fed (log s))) (seq 0 docs)
    /\ Permutation (fed (log s)) (esteps (log s)).
  Proof.
    intros Hr Hd Hp. pose proof (reach_settled Hr) as St. pose proof (fed_nodup Hr) as N.
    destruct (reach_data Hr) as (D1 & D2 & _). destruct (reach_events Hr) as (E1 & _).
    pose proof (Permutation_length D1) as L1. pose proof (Permutation_length D2) as L2.
    pose proof (Permutation_length E1) as L3.
    rewrite !app_length, ?map_length, ?seq_length in *. 
    assert (Hi : incl (map fst (fed (log s))) (expects (delivered (log s)))).
    { intros j Hj. destruct (St j) as [K|K]; [apply in_or_app; now left|assumption|now apply Hp in K]. }
    pose proof (NoDup_incl_length N Hi) as L4. rewrite map_length in L4.
    assert (Z1 : expects (batch (main s)) = []) by (apply length_zero_iff_nil; lia).
    assert (Z2 : expects (qev s) = []) by (apply length_zero_iff_nil; lia).
    assert (Z3 : flat_map evpend (workers s) = []) by (apply length_zero_iff_nil; lia).
    assert (Z4 : flat_map pre (workers s) = []) by (apply length_zero_iff_nil; lia).
    assert (Z5 : qin s = []) by (apply length_zero_iff_nil; lia).
    assert (Z6 : unqueued (main s) = []) by (apply length_zero_iff_nil; lia).
    assert (Z7 : cur (main s) = []) by (apply length_zero_iff_nil; lia).
    assert (Z8 : qout s = []) by (apply length_zero_iff_nil; lia).
    assert (Z9 : flat_map post (workers s) = []) by (apply length_zero_iff_nil; lia).
    rewrite Z1, Z2, Z3, Z4, Z5, Z6, Z7, Z8, Z9, !app_nil_r in *.
    split; [reflexivity|]. split; [reflexivity|]. split; [|split].
    - etransitivity; eassumption.
    - rewrite <- D2. symmetry. now apply Permutation_map.
    - symmetry. assumption.
  Qed.

  (** ** Shape of the log *)
  Definition clean (o : obs V P R X) : Prop :=
    match o with OEEnd | OMEnd | ODeliver Epoch _ => False | _ => True end.
  Definition mdelivery (o : obs V P R X) : Prop :=
    match o with ODeliver (Maxi _) _ => True | _ => False end.
  Definition is_maxi (e : event R X) : Prop := match e with Maxi _ => True | _ => False end.
  Fixpoint others (l : list (event R X)) : list (event R X) :=
    match l with [] => [] | Expect _ _ :: l => others l | e :: l => e :: others l end.
  Lemma others_app a b : others (a ++ b) = others a ++ others b.
  Proof. induction a as [|e a IH]; [reflexivity|]. destruct e; cbn; now rewrite IH. Qed.

  Definition dother (ok : event R X -> Prop) (d : disp R X) (qo : list (event R X)) : Prop :=
    match d with
    | DLock e | DPush e => ok e /\ others [e] = [e] /\ qo = []
    | DUnlock | DProc PLock | DProc PTake => exists e, ok e /\ qo = [e]
    | DProc (PUnlock b | PDeliver b) => Forall ok (others b) /\ qo = []
    end.
  Definition mother (m : mpc V R X) (qo : list (event R X)) : Prop :=
    match m with
    | MProcess _ _ _ q => others (pbatch q) = [] /\ qo = []
    | MFeedEv _ _ _ d _ | MEndEv d _ => dother is_maxi d qo
    | MEpoch d => dother (eq Epoch) d qo
    | _ => qo = []
    end.

  Lemma next_other c : mother (next docs c) [].
  Proof. unfold next. now destruct (_ <? _). Qed.
  Lemma after_process_other c i v : mother (after_process md docs c i v) [].
  Proof. unfold after_process. destruct md; [reflexivity|apply next_other]. Qed.
  Lemma after_feed_other c i v xs : mother (after_feed md docs c i v xs) [].
  Proof. unfold after_feed. destruct xs; [|repeat split]. destruct md; [apply next_other|repeat split]. Qed.
  Lemma after_m_end_other xs : mother (after_m_end xs) [].
  Proof. destruct xs; repeat split. Qed.

  Lemma reach_other W s0 p0 s : owner = true -> reach W s0 p0 s -> mother (main s) (others (qev s)).
  Proof.
    intros Ho. induction 1 as [|l s s' Hr A H]; [reflexivity|].
    pose proof (reach_phase Hr) as Ph. clear Hr.
    step_split H l s Ph; try discriminate Ho; rewrite ?others_app; cbn [others]; rewrite ?app_nil_r;
      cbn [mother dother pbatch] in *; try assumption.
    all: try (rewrite A; first [apply next_other|apply after_m_end_other|apply after_feed_other]).
    all: try (solve [split; [exact A|reflexivity]]).
    all: try match type of A with
         | _ /\ _ /\ _ => destruct A as (A0 & A1 & A2); cbn [others] in A1; rewrite A2; eexists; (split; [exact A0|exact A1])
         | exists _, _ => destruct A as (e & A1 & A2); rewrite A2; (split; [constructor; [exact A1|constructor]|reflexivity])
         | _ /\ _ = [] => destruct A as [A1 A2]; rewrite A2 in *;
             first [apply next_other|apply after_process_other|apply after_feed_other|apply after_m_end_other|reflexivity|auto];
             destruct e; cbn [others] in A1; try discriminate A1;
             (split; [try exact A1; now inversion A1|reflexivity])
         end.
    all: auto.
  Qed.

  Definition ended (lg : list (obs V P R X)) (tail : list (obs V P R X)) : Prop :=
    exists l l', lg = l ++ OEEnd :: OMEnd :: l' ++ tail /\ Forall clean l /\ Forall mdelivery l'.
  Definition inv_shape (s : st) : Prop :=
    match main s with
    | MMEnd => exists l, log s = l ++ [OEEnd] /\ Forall clean l
    | MEndEv _ _ => ended (log s) []
    | MEpoch (DProc (PUnlock b | PDeliver b)) =>
        (b = [Epoch] /\ ended (log s) []) \/ (b = [] /\ ended (log s) [ODeliver Epoch (param s)])
    | MEpoch _ => ended (log s) []
    | MDone => match md with
               | Transform => Forall clean (log s)
               | Fit => ended (log s) [ODeliver Epoch (param s)]
               end
    | _ => Forall clean (log s)
    end.

  Lemma next_shape c (A B : Prop) (f : disp R X -> Prop) (D E : Prop) : E ->
    match next docs c : mpc V R X with
    | MMEnd => A | MEndEv _ _ => B | MEpoch d => f d | MDone => D | _ => E end.
  Proof. intros H. unfold next. now destruct (_ <? _). Qed.

  Lemma events_nil (l : list (event R X)) : expects l = [] -> others l = [] -> l = [].
  Proof. destruct l as [|[]]; cbn; congruence. Qed.
  Lemma events_others (l : list (event R X)) : expects l = [] -> others l = l.
  Proof. induction l as [|[] l IH]; cbn; intros H; try discriminate H; [reflexivity| |]; now rewrite IH. Qed.
  Lemma others_clean (l : list (event R X)) p : others l = [] \/ Forall is_maxi (others l) ->
    Forall clean (map (fun e => ODeliver e p) l).
  Proof.
    induction l as [|[] l IH]; cbn [others map]; intros H; constructor; cbn; auto.
    - apply IH. destruct H as [H|H]; [discriminate|]. right. now inversion H.
    - destruct H as [H|H]; [discriminate|]. inversion H as [|? ? K _]; destruct K.
    - apply IH. destruct H as [H|H]; [discriminate|]. right. now inversion H.
  Qed.

  Lemma reach_shape W s0 p0 s : owner = true -> reach W s0 p0 s -> inv_shape s.
  Proof.
    intros Ho. induction 1 as [|l s s' Hr A H]; [constructor|].
    pose proof (reach_phase Hr) as Ph. pose proof (reach_other Ho Hr) as O.
    pose proof (reach_data Hr) as (_ & _ & F & _). pose proof (quiet Hr) as Q.
    pose proof (reach_fold Hr) as (T & _).
    clear Hr. unfold inv_shape in *.
    step_split H l s Ph; try discriminate Ho; cbn [mother dother nfed pending] in *; try assumption.
    all: try (apply next_shape; assumption).
    all: try (unfold after_process; destruct md; [|apply next_shape]; assumption).
    all: try (unfold after_feed; destruct xs; [destruct md; [apply next_shape|]|]; assumption).
    - apply Forall_app. split; [assumption|]. constructor; [|constructor].
      destruct O as [O _]. destruct e; cbn in *; [exact I|exact I|discriminate O].
    - assert (K : Forall clean (lg ++ [OFeed i v])).
      { apply Forall_app. split; [assumption|]. constructor; [exact I|constructor]. }
      unfold after_feed. destruct (snd (feed pr pa i v)); [destruct md; [apply next_shape|]|]; assumption.
    - apply Forall_app. split; [assumption|]. constructor; [|constructor].
      destruct O as [O _]. destruct e; cbn in *; [exact I|exact I|]. inversion O as [|? ? K _]. destruct K.
    - eauto.
    - destruct A as (l & -> & Hl). assert (K : ended ((l ++ [OEEnd]) ++ [OMEnd]) []).
      { exists l, []. rewrite <- app_assoc. repeat split; auto. }
      destruct (snd (m_end pr pa)); exact K.
    - destruct xs; exact A.
    - destruct (Q F) as (Q1 & _ & _); [tauto|]. cbn [batch dbatch pbatch] in Q1.
      destruct A as (l' & l'' & -> & Hl & Hl'). exists l', (l'' ++ [ODeliver e pa]).
      rewrite !app_nil_r, <- app_assoc. cbn [app]. repeat split; [assumption|].
      apply Forall_app. split; [assumption|]. constructor; [|constructor].
      destruct O as [O _]. destruct e; cbn in *; [discriminate Q1|exact I|]. inversion O as [|? ? K _]. destruct K.
    - left. split; [|assumption]. destruct (Q F) as (_ & Q2 & _); [tauto|].
      destruct O as (e & <- & O). rewrite events_others in O; assumption.
    - destruct md.
      + destruct A as [[A _]|[_ A]]; [discriminate A|exact A].
      + destruct (T eq_refl) as [K|[K _]]; discriminate K.
    - destruct A as [[A1 A2]|[A1 _]]; [|discriminate A1]. injection A1 as -> ->. right. split; [reflexivity|].
      destruct A2 as (l' & l'' & -> & Hl & Hl'). exists l', l''.
      rewrite !app_nil_r, <- app_assoc. repeat split; assumption.
    - destruct Ph as (_ & Ph). cbn [workers main] in Ph. apply Ph in Hw.
      assert (K : Forall clean lg -> Forall clean (lg ++ [OEstep i (estep pa i)])).
      { intros. apply Forall_app. split; [assumption|]. constructor; [exact I|constructor]. }
      destruct m; cbn [stage_ok] in Hw; try discriminate Hw; try (apply K; assumption).
  Qed.

  (** ** Prefixes of the log *)
  Definition before (lg : list (obs V P R X)) (o : obs V P R X) : Prop :=
    match o with
    | OFeed i v => In (OEstep i v) lg /\ (md = Fit -> exists r p, In (ODeliver (Expect i r) p) lg)
    | _ => True
    end.
  Lemma in_esteps i v (lg : list (obs V P R X)) : In (i, v) (esteps lg) -> In (OEstep i v) lg.
  Proof.
    induction lg as [|o lg IH]; cbn [esteps]; [auto|]. destruct o; cbn; intros H; auto.
    destruct H as [H|H]; [left; congruence|auto].
  Qed.
  Lemma in_expects i (l : list (event R X)) : In i (expects l) -> exists r, In (Expect i r) l.
  Proof.
    induction l as [|e l IH]; cbn [expects]; [intros []|]. destruct e; cbn; intros H.
    - destruct H as [->|H]; [eauto|]. destruct (IH H) as [r' ?]. eauto.
    - destruct (IH H) as [r' ?]. eauto.
    - destruct (IH H) as [r' ?]. eauto.
  Qed.
  Lemma in_delivered e (lg : list (obs V P R X)) : In e (delivered lg) -> exists p, In (ODeliver e p) lg.
  Proof.
    induction lg as [|o lg IH]; cbn [delivered]; [intros []|]. destruct o; cbn; intros H;
      try (destruct (IH H) as [p' ?]; eauto; fail).
    destruct H as [->|H]; [eauto|]. destruct (IH H) as [p' ?]. eauto.
  Qed.

  Lemma split_snoc {A} (l : list A) x l1 o l2 :
    l ++ [x] = l1 ++ o :: l2 -> (o = x /\ l1 = l) \/ (exists l3, l = l1 ++ o :: l3).
  Proof.
    revert l1. induction l as [|a l IH]; intros l1 H.
    - destruct l1 as [|b l1]; cbn in H; [injection H as -> _; auto|].
      injection H as _ H. destruct l1; discriminate H.
    - destruct l1 as [|b l1]; cbn in H; injection H as -> H.
      + right. exists l. reflexivity.
      + destruct (IH _ H) as [[-> ->]|[l3 ->]]; [auto|]. right. exists l3. reflexivity.
  Qed.

  Lemma reach_before W s0 p0 s : reach W s0 p0 s ->
    forall l1 o l2, log s = l1 ++ o :: l2 -> before l1 o.
  Proof.
    induction 1 as [|l s s' Hr A H]; intros a o b E.
    - destruct a; discriminate E.
    - assert (K : log s' = log s \/ exists x, log s' = log s ++ [x] /\ before (log s) x).
      { pose proof (reach_phase Hr) as Ph. pose proof (reach_data Hr) as (D & _).
        pose proof (reach_settled Hr) as St. clear Hr A E. unfold inv_settled in St.
        step_split H l s Ph; try (now left); try (right; eexists; split; [reflexivity|exact I]).
        right. eexists. split; [reflexivity|]. cbn [cur curp before pending] in *. split.
        - apply in_esteps. eapply Permutation_in; [symmetry; exact D|]. apply in_or_app. right. now left.
        - intros Hm. rewrite Hm in St. destruct (St i) as [K|[]]; [apply in_or_app; right; now left|].
          apply in_expects in K as [r K]. apply in_delivered in K as [p K]. eauto. }
      destruct K as [K|(x & K & Hx)]; rewrite K in E.
      + eapply A. exact E.
      + apply split_snoc in E as [[-> ->]|[l3 E]]; [exact Hx|]. eapply A. exact E.
  Qed.

  (** ** Reads and writes of the model parameters *)
  Lemma reach_values W s0 p0 s :
    (forall s p i v, snd (fst (feed s p i v)) = p) -> reach W s0 p0 s ->
    (main_end (main s) = 0 -> param s = p0) /\ Forall (fun iv => snd iv = estep p0 (fst iv)) (esteps (log s)).
  Proof.
    intros Hf Hr0. induction Hr0 as [|l s s' Hr (A & B) H].
    - split; [reflexivity|constructor].
    - pose proof (reach_phase Hr) as Ph. clear Hr.
      step_split H l s Ph; rewrite ?esteps_app; cbn [esteps main_end] in *; rewrite ?app_nil_r;
        rewrite ?next_end, ?after_process_end, ?after_feed_end, ?after_m_end_end; auto.
      + split; [|assumption]. intros _. rewrite Hf. auto.
      + split; [discriminate|assumption].
      + split; [discriminate|assumption].
      + split; [assumption|]. apply Forall_app. split; [assumption|]. constructor; [|constructor]. cbn.
        rewrite A; [reflexivity|]. destruct Ph as (_ & Ph). cbn [workers main] in Ph. apply Ph in Hw.
        destruct m; cbn [stage_ok] in Hw; try discriminate Hw; reflexivity.
  Qed.

  Lemma joined_end W s0 p0 s pc : reach W s0 p0 s -> In pc (workers s) ->
    match main s with MEEnd | MMEnd | MEndEv _ _ | MEpoch _ | MDone => pc = WJoined | _ => True end.
  Proof.
    intros Hr Hin. apply In_nth_error in Hin as [k Hk]. destruct (reach_phase Hr) as (_ & Ph).
    apply Ph in Hk. destruct (main s); cbn [stage_ok] in Hk; auto.
  Qed.

  Lemma computation_app (a b : list (obs V P R X)) : computation (a ++ b) = computation a ++ computation b.
  Proof. induction a as [|o a IH]; [reflexivity|]. destruct o; cbn; now rewrite IH. Qed.
End Proofs.
