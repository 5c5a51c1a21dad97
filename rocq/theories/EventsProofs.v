(** Proofs about the dispatchers. *)
Require Import List Arith Bool Lia Permutation.
Require Import Verif.EventsModel Verif.EventsSpec.
Import ListNotations.

(** ** The erase loop *)
Lemma mem_In l ds : mem l ds = true <-> In l ds.
Proof.
  unfold mem. rewrite existsb_exists. split.
  - intros (x & Hx & E). apply Nat.eqb_eq in E. now subst.
  - intros H. exists l. split; [assumption|apply Nat.eqb_refl].
Qed.

Lemma erase_loop_ok fuel ls ds pos :
  pos <= length ls -> length ls - pos < fuel ->
  erase_loop true fuel ls ds pos = Some (firstn pos ls ++ without ds (skipn pos ls)).
Proof.
  revert ls pos. induction fuel as [|f IH]; intros ls pos Hp Hf; [lia|].
  cbn [erase_loop].
  destruct (Nat.eqb_spec pos (length ls)) as [->|Hne].
  - rewrite firstn_all, skipn_all, app_nil_r. reflexivity.
  - assert (Hlt : pos < length ls) by lia.
    destruct (nth_split ls 0 Hlt) as (a & b & E & La).
    set (x := nth pos ls 0) in *. clearbody x. subst ls pos.
    assert (L1 : S (length a) = length (a ++ [x])) by (rewrite app_length; cbn; lia).
    assert (F1 : firstn (length a) (a ++ x :: b) = a)
      by (rewrite firstn_app, firstn_all, Nat.sub_diag, app_nil_r; reflexivity).
    assert (S1 : skipn (length a) (a ++ x :: b) = x :: b)
      by (rewrite skipn_app, skipn_all, Nat.sub_diag; reflexivity).
    assert (F2 : firstn (S (length a)) (a ++ x :: b) = a ++ [x]).
    { rewrite L1. replace (a ++ x :: b) with ((a ++ [x]) ++ b) by (rewrite <- app_assoc; reflexivity).
      rewrite firstn_app, firstn_all, Nat.sub_diag, app_nil_r; reflexivity. }
    assert (S2 : skipn (S (length a)) (a ++ x :: b) = b).
    { rewrite L1. replace (a ++ x :: b) with ((a ++ [x]) ++ b) by (rewrite <- app_assoc; reflexivity).
      rewrite skipn_app, skipn_all, Nat.sub_diag; reflexivity. }
    rewrite app_length in *. cbn [length] in *.
    rewrite F1, S1, S2.
    assert (Hb : erase_loop true f (a ++ b) ds (length a) = Some (a ++ without ds b)).
    { rewrite IH by (rewrite app_length; lia).
      rewrite firstn_app, firstn_all, Nat.sub_diag, skipn_app, skipn_all, Nat.sub_diag, app_nil_r.
      reflexivity. }
    cbn [without filter]. unfold mem at 1. destruct (existsb (Nat.eqb x) ds) eqn:Ex; cbn [negb].
    + destruct (Nat.eqb_spec (length a) 0) as [E0|_]; [rewrite <- E0 at 1|]; exact Hb.
    + rewrite IH by (rewrite !app_length; cbn; lia). rewrite F2, S2, <- app_assoc. reflexivity.
Qed.

Lemma erase_ok ls ds :
  erase_loop true (S (length ls)) ls ds 0 = Some (without ds ls).
Proof. rewrite erase_loop_ok by lia. reflexivity. Qed.

(** Without the circular sentinel the loop is still fine unless the first listener
    is to be erased. *)
Lemma erase_loop_strict fuel ls ds pos :
  1 <= pos <= length ls -> length ls - pos < fuel ->
  erase_loop false fuel ls ds pos = erase_loop true fuel ls ds pos.
Proof.
  revert ls pos. induction fuel as [|f IH]; intros ls pos Hp Hf; [lia|].
  cbn [erase_loop].
  destruct (Nat.eqb_spec pos (length ls)); [reflexivity|].
  destruct (mem _ _).
  - destruct (Nat.eqb_spec pos 0); [lia|]. apply IH.
    + rewrite app_length, firstn_length, skipn_length. lia.
    + rewrite app_length, firstn_length, skipn_length. lia.
  - apply IH; lia.
Qed.

Lemma erase_strict_ok l ls ds :
  ~ In l ds ->
  erase_loop false (S (length (l :: ls))) (l :: ls) ds 0 = Some (without ds (l :: ls)).
Proof.
  intros H. rewrite <- erase_ok.
  change (erase_loop ?b (S ?n) (l :: ls) ds 0) with
    (if mem l ds then (if b then erase_loop b n ls ds 0 else None)
     else erase_loop b n (l :: ls) ds 1).
  destruct (mem l ds) eqn:E; [apply mem_In in E; contradiction|].
  apply erase_loop_strict; cbn; lia.
Qed.

Lemma erase_strict_ub l ls ds :
  In l ds -> erase_loop false (S (length (l :: ls))) (l :: ls) ds 0 = None.
Proof.
  intros H. change (erase_loop ?b (S ?n) (l :: ls) ds 0) with
    (if mem l ds then (if b then erase_loop b n ls ds 0 else None)
     else erase_loop b n (l :: ls) ds 1).
  rewrite (proj2 (mem_In _ _) H). reflexivity.
Qed.

(** ** Lock discipline *)
Definition held (w : world) (t : nat) (m : mutex) : bool :=
  match w_locks w m with Some t' => Nat.eqb t' t | None => false end.

Fixpoint ok (hl hd he : bool) (c : list instr) : Prop :=
  match c with
  | [] => hl = false /\ hd = false /\ he = false
  | i :: r =>
    match i with
    | IBegin _ | IReturn _ | IStart | IDeliver _ _ =>
        hl = false /\ hd = false /\ he = false /\ ok false false false r
    | ILock ML => hl = false /\ hd = false /\ he = false /\ ok true false false r
    | ILock MD => hl = false /\ hd = false /\ he = false /\ ok false true false r
    | ILock ME => hl = false /\ hd = false /\ he = false /\ ok false false true r
    | ILockBoth => hl = false /\ hd = false /\ he = false /\ ok true true false r
    | IUnlock ML => hl = true /\ ok false hd he r
    | IUnlock MD => hd = true /\ ok hl false he r
    | IUnlock ME => he = true /\ ok hl hd false r
    | IPushListener _ => hl = true /\ ok hl hd he r
    | IInsertDeleted _ => hd = true /\ ok hl hd he r
    | IPushEvent _ => he = true /\ ok hl hd he r
    | IErase _ => hl = true /\ hd = true /\ he = false /\ ok false false false r
    | IClearDeleted => hl = true /\ hd = true /\ ok hl hd he r
    | ICopyEvents _ => hl = false /\ hd = false /\ he = true /\ ok false false false r
    | IClearEvents _ _ => he = true /\ ok hl hd he r
    | ICopyListeners _ _ => hl = true /\ hd = false /\ he = false /\ ok false false false r
    end
  end.

Lemma call_code_ok k t c r : ok false false false r -> ok false false false (call_code k t c ++ r).
Proof.
  intros H. unfold call_code, call_body.
  destruct c; cbn; try (repeat split; assumption).
  destruct k as [|o]; [|destruct (Nat.eqb t o)]; cbn; repeat split; assumption.
Qed.

Lemma calls_ok k t cs r :
  ok false false false r -> ok false false false (concat (map (call_code k t) cs) ++ r).
Proof.
  intros H. induction cs as [|c cs IH]; [exact H|].
  cbn [map concat]. rewrite <- app_assoc. now apply call_code_ok.
Qed.

(** Case analysis on one step. *)
Ltac exec_cases H :=
  unfold exec in H;
  match type of H with (if ?u then _ else _) = _ => destruct u eqn:?Hub; [discriminate|] end;
  match type of H with
  | match ?code with [] => _ | _ :: _ => _ end = _ =>
      destruct code as [|[c|c|m|m| |l|l|e| |n| |n|n b|n b|n [|[e l] todo]] rest] eqn:?Hc
  end;
  [ match type of H with match ?p with [] => _ | _ :: _ => _ end = _ =>
      destruct p as [|c p'] eqn:?Hp; [discriminate|injection H as <-] end
  |injection H as <-
  |injection H as <-
  |match type of H with match ?p with Some _ => _ | None => _ end = _ =>
      destruct p eqn:?Hm; [discriminate|injection H as <-] end
  |injection H as <-
  |match type of H with match ?p with Some _ => _ | None => _ end = _ =>
      destruct p eqn:?Hml; [discriminate|] end;
   match type of H with match ?p with Some _ => _ | None => _ end = _ =>
      destruct p eqn:?Hmd; [discriminate|injection H as <-] end
  |injection H as <- |injection H as <- |injection H as <- |injection H as <-
  |rewrite ?erase_ok in H; injection H as <-
  |injection H as <- |injection H as <- |injection H as <- |injection H as <-
  |injection H as <- |injection H as <- ].

Lemma upd_same {A} (f : nat -> A) t a : upd f t a t = a.
Proof. unfold upd. now rewrite Nat.eqb_refl. Qed.
Lemma upd_other {A} (f : nat -> A) t a t' : t' <> t -> upd f t a t' = f t'.
Proof. intros H. unfold upd. now destruct (Nat.eqb_spec t' t). Qed.

Ltac sim := cbn [emit goto with_listeners with_deleted with_events with_lock with_prog with_next
  crash w_listeners w_deleted w_events w_locks w_code w_prog w_next w_trace w_ub] in *.

Section Inv.
  Variable k : kind.
  Variable h : nat -> nat -> nat -> list call.
  Variable progs : nat -> list call.
  Notation reach := (reachable k h true progs).
  Notation step t w w' := (exec k h true t w = Some w').

  Lemma no_ub w : reach w -> w_ub w = false.
  Proof.
    induction 1 as [|w w' t Hr IH Hs]; [reflexivity|]. exec_cases Hs; sim; assumption.
  Qed.

  Lemma inv_ok w : reach w ->
    forall t, ok (held w t ML) (held w t MD) (held w t ME) (w_code w t).
  Proof.
    induction 1 as [|w w' t0 Hr IH Hs]; intros t; [cbn; auto|].
    pose proof (IH t0) as I0. pose proof (IH t) as It.
    unfold held in *.
    exec_cases Hs; sim; try rewrite Hc in I0;
      (destruct (Nat.eq_dec t t0) as [->|Hne];
        [rewrite upd_same; clear It|rewrite upd_other by assumption]);
      cbn [ok] in I0;
      try (destruct m); cbn [set_lock mutex_eqb] in *;
      unfold set_lock; cbn [mutex_eqb];
      repeat match goal with
             | H : w_locks w ?m = None |- _ => rewrite H in *
             end;
      try assumption; try tauto.
    (* remaining goals *)
    all: repeat match goal with
         | H : _ /\ _ |- _ => destruct H
         end.
    all: try (rewrite ?Nat.eqb_refl;
       repeat match goal with H : ?x = false |- _ => rewrite H in * end;
       repeat match goal with H : ?x = true |- _ => rewrite H in * end; cbn [ok]; tauto).
    all: try (destruct (Nat.eqb_spec t0 t); [congruence|]; cbn [ok] in *; assumption).
  - repeat match goal with H : ?x = false |- _ => rewrite H; clear H end.
    rewrite <- (app_nil_r (call_code k t0 c)). apply call_code_ok. cbn; auto.
  - destruct (w_locks w ML) as [u|]; [|discriminate].
    match goal with H : (u =? t0) = true |- _ => apply Nat.eqb_eq in H; subst u end.
    destruct (Nat.eqb_spec t0 t); [congruence|assumption].
  - destruct (w_locks w MD) as [u|]; [|discriminate].
    match goal with H : (u =? t0) = true |- _ => apply Nat.eqb_eq in H; subst u end.
    destruct (Nat.eqb_spec t0 t); [congruence|assumption].
  - destruct (w_locks w ME) as [u|]; [|discriminate].
    match goal with H : (u =? t0) = true |- _ => apply Nat.eqb_eq in H; subst u end.
    destruct (Nat.eqb_spec t0 t); [congruence|assumption].
  - repeat match goal with H : ?x = false |- _ => rewrite H; clear H end.
    apply calls_ok. cbn; auto.
  Qed.

  Lemma held_unique w t1 t2 m : held w t1 m = true -> held w t2 m = true -> t1 = t2.
  Proof.
    unfold held. destruct (w_locks w m) as [u|]; [|discriminate].
    intros H1 H2. apply Nat.eqb_eq in H1, H2. congruence.
  Qed.

  Definition guard (x : shared) : mutex :=
    match x with SListeners => ML | SDeleted => MD | SEvents => ME end.

  Lemma access_held w t i r x :
    reach w -> w_code w t = i :: r -> In x (accesses i) -> held w t (guard x) = true.
  Proof.
    intros Hr Hc Hx. pose proof (inv_ok w Hr t) as H. rewrite Hc in H. cbn [ok] in H.
    destruct i; cbn in Hx; try contradiction;
      repeat (destruct Hx as [<-|Hx]; [cbn; tauto|]); contradiction.
  Qed.

  Lemma race_free w : reach w -> ~ race w.
  Proof.
    intros Hr (t1 & t2 & i1 & i2 & r1 & r2 & x & Hne & C1 & C2 & X1 & X2).
    apply Hne. eapply held_unique; eapply access_held; eauto.
  Qed.

  (** A thread whose next step is not a lock can move. *)
  Lemma no_deadlock w t :
    reach w -> ~ finished w t -> exists t' w', step t' w w'.
  Proof.
    intros Hr Hnf. pose proof (no_ub w Hr) as Hu.
    assert (Huse : forall m u, w_locks w m = Some u -> exists w', step u w w').
    { intros m u Hm. pose proof (inv_ok w Hr u) as H. unfold held in H.
      unfold exec. rewrite Hu, ?erase_ok.
      assert (Ht : forall m', m' = m -> match w_locks w m' with Some t' => t' =? u | None => false end = true)
        by (intros ? ->; rewrite Hm; apply Nat.eqb_refl).
      destruct (w_code w u) as [|[c|c|m'|m'| |l|l|e| |n| |n|n b|n b|n [|[e l] todo]] rest];
        try (eexists; reflexivity);
        exfalso; cbn [ok] in H;
        try (destruct m');
        (destruct m; rewrite (Ht _ eq_refl) in H; intuition discriminate). }
    destruct (w_locks w ML) as [u|] eqn:HL; [exists u; eauto|].
    destruct (w_locks w MD) as [u|] eqn:HD; [exists u; eauto|].
    destruct (w_locks w ME) as [u|] eqn:HE; [exists u; eauto|].
    exists t. unfold exec. rewrite Hu, ?erase_ok, HL, HD.
    destruct (w_code w t) as [|[c|c|m'|m'| |l|l|e| |n| |n|n b|n b|n [|[e l] todo]] rest] eqn:Hc;
      try (eexists; reflexivity).
    - destruct (w_prog w t) eqn:Hp; [|eexists; reflexivity]. exfalso. apply Hnf. split; assumption.
    - destruct m'; rewrite ?HL, ?HD, ?HE; eexists; reflexivity.
  Qed.

  (** ** The shared lists follow the sequential reference *)
  Lemma replay_snoc tr o : replay (tr ++ [o]) = replay_step (replay tr) o.
  Proof. unfold replay. now rewrite fold_left_app. Qed.

  Definition clearing (w : world) : Prop := exists t r, w_code w t = IClearDeleted :: r.

  Definition plain_instr (i : instr) : bool :=
    match i with IClearDeleted | IClearEvents _ _ => false | _ => true end.
  Lemma call_code_plain t c : forallb plain_instr (call_code k t c) = true.
  Proof.
    unfold call_code, call_body. destruct c; try reflexivity.
    destruct k as [|o]; [|destruct (Nat.eqb t o)]; reflexivity.
  Qed.
  Lemma calls_plain t cs : forallb plain_instr (concat (map (call_code k t) cs)) = true.
  Proof.
    induction cs as [|c cs IH]; [reflexivity|].
    cbn [map concat]. now rewrite forallb_app, call_code_plain, IH.
  Qed.
  Lemma plain_tail c : forallb plain_instr c = true -> forallb plain_instr (tl c) = true.
  Proof. destruct c; cbn; [auto|]. rewrite andb_true_iff. tauto. Qed.

  Lemma inv_plain w : reach w -> forall t, forallb plain_instr (tl (w_code w t)) = true.
  Proof.
    induction 1 as [|w w' t0 Hr IH Hs]; intros t; [reflexivity|].
    pose proof (IH t0) as I0. specialize (IH t).
    exec_cases Hs; sim; unfold upd; (destruct (Nat.eqb_spec t t0) as [->|Hne]; [|exact IH]);
      try rewrite Hc in I0; cbn [tl forallb plain_instr] in *;
      try (apply plain_tail; assumption); rewrite ?andb_true_iff; auto.
    - pose proof (call_code_plain t0 c) as H. now apply plain_tail.
    - apply plain_tail. rewrite forallb_app, calls_plain. cbn. assumption.
  Qed.

  Lemma inv_replay w : reach w ->
    fst (replay (w_trace w)) = w_listeners w
    /\ (clearing w -> snd (replay (w_trace w)) = [])
    /\ (snd (replay (w_trace w)) = w_deleted w \/ clearing w).
  Proof.
    induction 1 as [|w w' t Hr IH Hs].
    { cbn. repeat split; auto. }
    destruct IH as (IH1 & IH2 & IH3).
    pose proof (inv_ok w Hr t) as Ht.
    assert (Hclear : clearing w ->
       (exists r, w_code w t = IClearDeleted :: r)
       \/ (held w t MD = false /\ forall c, exists t' r, upd (w_code w) t c t' = IClearDeleted :: r)).
    { intros (t' & r & Hc'). destruct (Nat.eq_dec t' t) as [->|Hne]; [left; eauto|right]. split.
      - destruct (held w t MD) eqn:E; [|reflexivity]. exfalso. apply Hne.
        pose proof (inv_ok w Hr t') as H'. rewrite Hc' in H'. cbn [ok] in H'.
        apply (held_unique w t' t MD); tauto.
      - intros c. exists t', r. rewrite upd_other by assumption. assumption. }
    assert (Hback : forall c, (forall r, c <> IClearDeleted :: r) ->
       (exists t' r, upd (w_code w) t c t' = IClearDeleted :: r) ->
       clearing w /\ held w t MD = false).
    { intros c Hcc (t' & r & E). unfold upd in E. destruct (Nat.eqb_spec t' t) as [->|Hne].
      - exfalso. eapply Hcc; eauto.
      - split; [now exists t', r|].
        destruct (held w t MD) eqn:Eh; [|reflexivity]. exfalso. apply Hne.
        pose proof (inv_ok w Hr t') as H'. rewrite E in H'. cbn [ok] in H'.
        apply (held_unique w t' t MD); tauto. }
    assert (Hrest : forall i c, w_code w t = i :: c -> forall r, c <> IClearDeleted :: r).
    { intros i c E r ->. pose proof (inv_plain w Hr t) as Hp. rewrite E in Hp. discriminate. }
    unfold clearing in *.
    exec_cases Hs; sim; try rewrite Hc in Ht; cbn [ok] in Ht; try pose proof (Hrest _ _ eq_refl) as Hrr;
      rewrite ?replay_snoc; cbn [replay_step fst snd].
    11:{ assert (E : snd (replay (w_trace w)) = w_deleted w).
         { destruct IH3 as [E|C]; [assumption|].
           destruct (Hclear C) as [(r & E)|(E & _)]; [discriminate|]. rewrite E in Ht.
           intuition discriminate. }
         rewrite E, IH1. repeat split; auto. right. eexists t, _. apply upd_same. }
    11:{ assert (E : snd (replay (w_trace w)) = []) by (apply IH2; eauto).
         repeat split; auto. }
    all: (split; [congruence|]); split;
      [intros C; apply Hback in C;
       [destruct C as (C & Hh); try (apply IH2; exact C); exfalso; rewrite Hh in Ht; intuition discriminate
       |first [exact Hrr|discriminate|
          intros r E; pose proof (calls_plain t (h t e l)) as Hq;
          destruct (concat (map (call_code k t) (h t e l))) as [|i0 c0]; [discriminate|];
          injection E as E1 E2; subst i0; cbn in Hq; discriminate Hq]]
      |destruct IH3 as [E|C];
       [left; congruence
       |destruct (Hclear C) as [(r & E)|(E & K)];
        [discriminate E
        |first [right; apply K|exfalso; rewrite E in Ht; intuition discriminate]]]].
  Qed.

  (** ** Conservation of events *)
  Lemma dispatched_app a b : dispatched (a ++ b) = dispatched a ++ dispatched b.
  Proof. induction a as [|[] a IH]; cbn; rewrite ?IH; reflexivity. Qed.
  Lemma taken_app a b : taken (a ++ b) = taken a ++ taken b.
  Proof. induction a as [|[] a IH]; cbn; rewrite ?IH, ?app_assoc; reflexivity. Qed.

  Lemma inv_events w : reach w ->
    dispatched (w_trace w) = taken (w_trace w) ++ w_events w
    /\ forall t n b r, w_code w t = IClearEvents n b :: r -> b = w_events w.
  Proof.
    induction 1 as [|w w' t Hr IH Hs]; [cbn; split; [reflexivity|discriminate]|].
    destruct IH as (IH1 & IH2).
    pose proof (inv_ok w Hr t) as Ht.
    assert (Hother : held w t ME = true ->
              forall t' n b r, t' <> t -> w_code w t' = IClearEvents n b :: r -> False).
    { intros Hh t' n b r Hne Hc'. apply Hne.
      pose proof (inv_ok w Hr t') as H'. rewrite Hc' in H'. cbn [ok] in H'.
      apply (held_unique w t' t ME); tauto. }
    assert (Hq : forall c, (forall n b r, c = IClearEvents n b :: r -> b = w_events w) ->
              forall t' n b r, upd (w_code w) t c t' = IClearEvents n b :: r -> b = w_events w).
    { intros c Hcc t' n b r. unfold upd. destruct (Nat.eqb_spec t' t); eauto. }
    assert (Hrest : forall i c, w_code w t = i :: c -> forall n b r, c <> IClearEvents n b :: r).
    { intros i c E n b r ->. pose proof (inv_plain w Hr t) as Hp. rewrite E in Hp. discriminate. }
    assert (Hnone : held w t ME = true -> forall es c,
              (forall n b r, c <> IClearEvents n b :: r) ->
              forall t' n b r, upd (w_code w) t c t' = IClearEvents n b :: r -> b = es).
    { intros Hh es c Hcc t' n b r. unfold upd. destruct (Nat.eqb_spec t' t) as [->|Hne]; intros E.
      - exfalso. eapply Hcc; eauto.
      - exfalso. eapply Hother; eauto. }
    pose proof (fun n b r => IH2 t n b r) as IHt.
    exec_cases Hs; sim; rewrite ?dispatched_app, ?taken_app; cbn [dispatched taken];
      rewrite ?app_nil_r; try rewrite Hc in Ht; cbn [ok] in Ht;
      try pose proof (Hrest _ _ eq_refl) as Hrr.
    all: first
      [ split; [congruence|]; apply Hq; intros n' b' r' E;
        first [exfalso; eapply Hrr; eassumption|discriminate E|idtac]
      | idtac ].
    - rewrite IH1, app_assoc. split; [reflexivity|]. apply Hnone; tauto.
    - injection E as _ E _. congruence.
    - rewrite IH1, (IHt n b rest eq_refl). split; [reflexivity|]. apply Hnone; [tauto|exact Hrr].
    - pose proof (calls_plain t (h t e l)) as Hq'.
      destruct (concat (map (call_code k t) (h t e l))) as [|i0 c0]; [discriminate|].
      injection E as E1 E2. subst i0. discriminate Hq'.
  Qed.

  (** ** Life of one process_events call *)
  Inductive item :=
  | SErase | SCopy | SClear (b : list nat) | SSnap (b : list nat) | SDeliver (todo : list (nat * nat)).
  Definition item_of (n : nat) (i : instr) : list item :=
    match i with
    | IErase m => if Nat.eqb m n then [SErase] else []
    | ICopyEvents m => if Nat.eqb m n then [SCopy] else []
    | IClearEvents m b => if Nat.eqb m n then [SClear b] else []
    | ICopyListeners m b => if Nat.eqb m n then [SSnap b] else []
    | IDeliver m todo => if Nat.eqb m n then [SDeliver todo] else []
    | _ => []
    end.
  Definition items (n : nat) (c : list instr) : list item := flat_map (item_of n) c.

  Lemma items_call n t c : items n (call_code k t c) = [].
  Proof.
    unfold call_code, call_body. destruct c; try reflexivity.
    destruct k as [|o]; [|destruct (Nat.eqb t o)]; reflexivity.
  Qed.
  Lemma items_app n a b : items n (a ++ b) = items n a ++ items n b.
  Proof. apply flat_map_app. Qed.
  Lemma items_calls n t cs : items n (concat (map (call_code k t) cs)) = [].
  Proof.
    induction cs as [|c cs IH]; [reflexivity|].
    cbn [map concat]. now rewrite items_app, items_call, IH.
  Qed.

  Definition delivered_obs (t n : nat) (l : list (nat * nat)) : list obs :=
    map (fun p => ODelivered t n (fst p) (snd p)) l.

  Inductive stage (t n : nat) : list item -> list obs -> Prop :=
  | st_erase : stage t n [SErase] [OStart t n]
  | st_copy : stage t n [SCopy] [OStart t n; OPurged t n]
  | st_clear b : stage t n [SClear b; SSnap b] [OStart t n; OPurged t n]
  | st_snap b : stage t n [SSnap b] [OStart t n; OPurged t n; OTaken t n b]
  | st_deliver b ls done todo :
      list_prod b ls = done ++ todo ->
      stage t n [SDeliver todo]
        ([OStart t n; OPurged t n; OTaken t n b; OSnapshot t n ls] ++ delivered_obs t n done)
  | st_done b ls :
      stage t n []
        ([OStart t n; OPurged t n; OTaken t n b; OSnapshot t n ls]
           ++ delivered_obs t n (list_prod b ls)).

  Definition life (w : world) (n : nat) : Prop :=
    (w_next w <= n -> tagged n (w_trace w) = [] /\ forall t, items n (w_code w t) = [])
    /\ (n < w_next w -> exists t,
          (forall t', t' <> t -> items n (w_code w t') = [])
          /\ stage t n (items n (w_code w t)) (tagged n (w_trace w))).

  Lemma tagged_app n a b : tagged n (a ++ b) = tagged n a ++ tagged n b.
  Proof. apply filter_app. Qed.

  Lemma life_same w w' t n :
    life w n -> w_next w' = w_next w -> tagged n (w_trace w') = tagged n (w_trace w) ->
    (forall t', t' <> t -> w_code w' t' = w_code w t') ->
    items n (w_code w' t) = items n (w_code w t) ->
    life w' n.
  Proof.
    intros (L1 & L2) En Et Ho Hi. 
    assert (Hall : forall t', items n (w_code w' t') = items n (w_code w t')).
    { intros t'. destruct (Nat.eq_dec t' t) as [->|Hne]; [exact Hi|]. now rewrite Ho. }
    split; rewrite En, Et.
    - intros H. destruct (L1 H) as (A & B). split; [exact A|]. intros. now rewrite Hall.
    - intros H. destruct (L2 H) as (t1 & A & B). exists t1. split; intros; rewrite Hall; auto.
  Qed.

  Lemma life_move w w' t n :
    life w n -> items n (w_code w t) <> [] -> w_next w' = w_next w ->
    (forall t', t' <> t -> w_code w' t' = w_code w t') ->
    (stage t n (items n (w_code w t)) (tagged n (w_trace w)) ->
     stage t n (items n (w_code w' t)) (tagged n (w_trace w'))) ->
    life w' n.
  Proof.
    intros (L1 & L2) Hne En Ho Hs. split; rewrite En.
    - intros H. destruct (L1 H) as (_ & B). now rewrite B in Hne.
    - intros H. destruct (L2 H) as (t1 & A & B). destruct (Nat.eq_dec t t1) as [<-|E].
      + exists t. split; [|auto]. intros t' Ht'. rewrite Ho by assumption. auto.
      + now rewrite A in Hne.
  Qed.

  Lemma inv_life w : reach w -> forall n, life w n.
  Proof.
    induction 1 as [|w w' t Hr IH Hs]; intros n0.
    { split; cbn; [auto|lia]. }
    specialize (IH n0).
    assert (Hu : forall c t', t' <> t -> upd (w_code w) t c t' = w_code w t')
      by (intros; now apply upd_other).
    assert (Hsame : forall w1, w_next w1 = w_next w -> tagged n0 (w_trace w1) = tagged n0 (w_trace w) ->
              (forall t', t' <> t -> w_code w1 t' = w_code w t') ->
              items n0 (w_code w1 t) = items n0 (w_code w t) -> life w1 n0)
      by (intros; eapply life_same; eauto).
    exec_cases Hs.
    all: try (apply Hsame; sim;
      [reflexivity
      |rewrite ?tagged_app; cbn [tagged filter of_call]; rewrite ?app_nil_r; reflexivity
      |apply Hu
      |rewrite upd_same; try rewrite Hc; rewrite ?items_call; reflexivity]).
    - (* start *)
      destruct (Nat.eq_dec n0 (w_next w)) as [->|Hne].
      + destruct IH as (L1 & _). destruct (L1 (le_n _)) as (T & A).
        split; sim; [intros; lia|]. intros _. exists t. split.
        * intros t' Ht'. rewrite Hu by assumption. apply A.
        * rewrite upd_same, tagged_app, T. cbn [tagged filter of_call app].
          rewrite Nat.eqb_refl. specialize (A t). rewrite Hc in A.
          cbn [items flat_map item_of app]. rewrite Nat.eqb_refl.
          cbn [items flat_map item_of app] in A. unfold items in A. rewrite A. constructor.
      + destruct IH as (L1 & L2).
        assert (Ht : tagged n0 (w_trace w ++ [OStart t (w_next w)]) = tagged n0 (w_trace w)).
        { rewrite tagged_app. cbn. destruct (Nat.eqb_spec (w_next w) n0); [congruence|].
          apply app_nil_r. }
        assert (Hi : forall t', items n0 (upd (w_code w) t (ILockBoth :: IErase (w_next w) :: rest) t')
                                = items n0 (w_code w t')).
        { intros t'. destruct (Nat.eq_dec t' t) as [->|]; [|now rewrite Hu].
          rewrite upd_same; try rewrite Hc. cbn. destruct (Nat.eqb_spec (w_next w) n0); [congruence|reflexivity]. }
        split; sim; rewrite Ht.
        * intros H. destruct L1 as (A & B); [lia|]. split; [exact A|]. intros. now rewrite Hi.
        * intros H. destruct L2 as (t1 & A & B); [lia|]. exists t1.
          split; intros; rewrite Hi; auto.
    - (* erase *)
      destruct (Nat.eq_dec n n0) as [->|Hne].
      + apply (life_move w _ t); sim; [exact IH| |reflexivity|apply Hu|].
        * rewrite Hc. cbn. rewrite Nat.eqb_refl. discriminate.
        * rewrite upd_same; try rewrite Hc; rewrite tagged_app. cbn. rewrite Nat.eqb_refl. cbn.
          intros H. inversion H; subst. constructor.
      + apply Hsame; sim; auto.
        * rewrite tagged_app. cbn. destruct (Nat.eqb_spec n n0); [congruence|]. apply app_nil_r.
        * rewrite upd_same; try rewrite Hc. cbn. destruct (Nat.eqb_spec n n0); [congruence|reflexivity].
    - (* copy events *)
      destruct (Nat.eq_dec n n0) as [->|Hne].
      + apply (life_move w _ t); sim; [exact IH| |reflexivity|apply Hu|].
        * rewrite Hc. cbn. rewrite Nat.eqb_refl. discriminate.
        * rewrite upd_same; try rewrite Hc. cbn. rewrite Nat.eqb_refl. cbn.
          intros H. inversion H; subst. constructor.
      + apply Hsame; sim; auto.
        rewrite upd_same; try rewrite Hc. cbn. destruct (Nat.eqb_spec n n0); [congruence|reflexivity].
    - (* clear events *)
      destruct (Nat.eq_dec n n0) as [->|Hne].
      + apply (life_move w _ t); sim; [exact IH| |reflexivity|apply Hu|].
        * rewrite Hc. cbn. rewrite Nat.eqb_refl. discriminate.
        * rewrite upd_same; try rewrite Hc; rewrite tagged_app. cbn. rewrite Nat.eqb_refl. cbn.
          intros H. inversion H; subst. unfold items.
          match goal with E : [SSnap b] = _ |- _ => rewrite <- E end. constructor.
      + apply Hsame; sim; auto.
        * rewrite tagged_app. cbn. destruct (Nat.eqb_spec n n0); [congruence|]. apply app_nil_r.
        * rewrite upd_same; try rewrite Hc. cbn. destruct (Nat.eqb_spec n n0); [congruence|reflexivity].
    - (* copy listeners *)
      destruct (Nat.eq_dec n n0) as [->|Hne].
      + apply (life_move w _ t); sim; [exact IH| |reflexivity|apply Hu|].
        * rewrite Hc. cbn. rewrite Nat.eqb_refl. discriminate.
        * rewrite upd_same; try rewrite Hc; rewrite tagged_app. cbn. rewrite Nat.eqb_refl. cbn.
          intros H. inversion H; subst.
          apply (st_deliver t n0 b (w_listeners w) [] (list_prod b (w_listeners w))). reflexivity.
      + apply Hsame; sim; auto.
        * rewrite tagged_app. cbn. destruct (Nat.eqb_spec n n0); [congruence|]. apply app_nil_r.
        * rewrite upd_same; try rewrite Hc. cbn. destruct (Nat.eqb_spec n n0); [congruence|reflexivity].
    - (* end of the loops *)
      destruct (Nat.eq_dec n n0) as [->|Hne].
      + apply (life_move w _ t); sim; [exact IH| |reflexivity|apply Hu|].
        * rewrite Hc. cbn. rewrite Nat.eqb_refl. discriminate.
        * rewrite upd_same; try rewrite Hc. cbn. rewrite Nat.eqb_refl. cbn.
          intros H. inversion H as [| | | |b ls d todo E E1 E2|]; subst.
          rewrite app_nil_r in E. subst d.
          replace (items n0 rest) with (@nil item) by (symmetry; assumption). constructor.
      + apply Hsame; sim; auto.
        rewrite upd_same; try rewrite Hc. cbn. destruct (Nat.eqb_spec n n0); [congruence|reflexivity].
    - (* one delivery *)
      destruct (Nat.eq_dec n n0) as [->|Hne].
      + apply (life_move w _ t); sim; [exact IH| |reflexivity|apply Hu|].
        * rewrite Hc. cbn. rewrite Nat.eqb_refl. discriminate.
        * rewrite upd_same; try rewrite Hc; rewrite tagged_app, items_app, items_calls. cbn. rewrite Nat.eqb_refl. cbn.
          intros H. inversion H as [| | | |b ls d todo' E E1 E2|]; subst.
          replace (flat_map (item_of n0) rest) with (@nil item) by (symmetry; assumption).
          assert (E3 : (OStart t n0 :: OPurged t n0 :: OTaken t n0 b :: OSnapshot t n0 ls
                         :: delivered_obs t n0 d) ++ [ODelivered t n0 e l]
                       = [OStart t n0; OPurged t n0; OTaken t n0 b; OSnapshot t n0 ls]
                         ++ delivered_obs t n0 (d ++ [(e, l)]))
            by (unfold delivered_obs; rewrite map_app; reflexivity).
          rewrite E3.
          constructor. rewrite E, <- app_assoc. reflexivity.
      + apply Hsame; sim; auto.
        * rewrite tagged_app. cbn. destruct (Nat.eqb_spec n n0); [congruence|]. apply app_nil_r.
        * rewrite upd_same; try rewrite Hc; rewrite items_app, items_calls. cbn.
          destruct (Nat.eqb_spec n n0); [congruence|reflexivity].
  Qed.

  (** ** Snapshots are the registered listeners; deliveries *)
  Lemma snoc_split {A} (tr : list A) o p x q :
    tr ++ [o] = p ++ x :: q ->
    (q = [] /\ tr = p /\ o = x) \/ exists q', q = q' ++ [o] /\ tr = p ++ x :: q'.
  Proof.
    destruct q as [|y q0] using rev_ind; intros E.
    - left. apply app_inj_tail in E. tauto.
    - right. replace (p ++ x :: q0 ++ [y]) with ((p ++ x :: q0) ++ [y]) in E
        by (rewrite <- app_assoc; reflexivity).
      apply app_inj_tail in E. destruct E as (-> & ->). eauto.
  Qed.

  (** Every prefix of a trace is the trace of a reachable state. *)
  Lemma step_trace t w w' : step t w w' -> w_trace w' = w_trace w \/ exists o, w_trace w' = w_trace w ++ [o].
  Proof. intros Hs. exec_cases Hs; sim; eauto. Qed.

  Lemma prefix_reach w : reach w -> forall p o q, w_trace w = p ++ o :: q ->
    exists w1 w2 t, reach w1 /\ w_trace w1 = p /\ step t w1 w2 /\ w_trace w2 = p ++ [o].
  Proof.
    induction 1 as [|w w' t Hr IH Hs]; intros p o q E.
    - destruct p; discriminate.
    - destruct (step_trace _ _ _ Hs) as [E'|(o' & E')].
      + rewrite E' in E. eauto.
      + rewrite E' in E. destruct (snoc_split _ _ _ _ _ E) as [(-> & <- & <-)|(q' & -> & E2)]; eauto 10.
  Qed.

  Lemma snapshot_registered w pre t1 n1 ls1 post :
    reach w -> w_trace w = pre ++ OSnapshot t1 n1 ls1 :: post -> ls1 = registered pre.
  Proof.
    intros Hr E. destruct (prefix_reach w Hr _ _ _ E) as (w1 & w2 & t2 & R1 & T1 & S1 & T2).
    pose proof (inv_replay w1 R1) as (I1 & _). rewrite T1 in I1. unfold registered. rewrite I1.
    exec_cases S1; sim; subst pre;
      try (exfalso; apply (f_equal (@length obs)) in T2; rewrite app_length in T2; cbn in T2; lia);
      apply app_inv_head in T2; try discriminate.
    now injection T2 as _ _ <-.
  Qed.

  Lemma filter_split {A} (f : A -> bool) l x y z :
    filter f l = x ++ y :: z -> exists a b, l = a ++ y :: b /\ filter f a = x /\ filter f b = z.
  Proof.
    revert x. induction l as [|o l IH]; intros x E; cbn in E.
    - destruct x; discriminate.
    - destruct (f o) eqn:F.
      + destruct x as [|o' x]; cbn in E; injection E as <- E.
        * exists [], l. auto.
        * destruct (IH x E) as (a & b & -> & A1 & A2). exists (o :: a), b.
          repeat split; auto. cbn. now rewrite F, A1.
      + destruct (IH x E) as (a & b & -> & A1 & A2). exists (o :: a), b.
        repeat split; auto. cbn. now rewrite F.
  Qed.

  Lemma tagged_In n o tr : of_call n o = true -> In o tr -> In o (tagged n tr).
  Proof. intros. apply filter_In. auto. Qed.

  Lemma life_lt w n o : reach w -> of_call n o = true -> In o (w_trace w) -> n < w_next w.
  Proof.
    intros Hr Ho Hin. destruct (inv_life w Hr n) as (L1 & _).
    destruct (Nat.lt_ge_cases n (w_next w)) as [|H]; [assumption|].
    destruct (L1 H) as (T & _). apply (tagged_In n) in Hin; [|assumption]. now rewrite T in Hin.
  Qed.

  Lemma stage_thread t n its os o : stage t n its os -> In o os ->
    match o with
    | OStart t' _ | OPurged t' _ | OTaken t' _ _ | OSnapshot t' _ _ | ODelivered t' _ _ _ => t' = t
    | _ => True
    end.
  Proof.
    intros H Hin. destruct H; cbn in Hin;
      repeat (destruct Hin as [<-|Hin]; [reflexivity|]);
      try contradiction; apply in_map_iff in Hin; destruct Hin as ((x & y) & <- & _); reflexivity.
  Qed.

  (** What is known of a process_events call once its snapshot is taken. *)
  Lemma snapshot_deliveries w t n ls :
    reach w -> In (OSnapshot t n ls) (w_trace w) ->
    exists pre post b done todo,
      w_trace w = pre ++ OSnapshot t n ls :: post /\ ls = registered pre
      /\ tagged n (w_trace w)
         = [OStart t n; OPurged t n; OTaken t n b; OSnapshot t n ls] ++ delivered_obs t n done
      /\ list_prod b ls = done ++ todo
      /\ (w_code w t = [] -> todo = []).
  Proof.
    intros Hr Hin.
    destruct (in_split _ _ Hin) as (pre & post & E).
    pose proof (snapshot_registered w pre t n ls post Hr E) as Hreg.
    assert (Hn : n < w_next w) by (eapply life_lt; eauto; cbn; apply Nat.eqb_refl).
    destruct (inv_life w Hr n) as (_ & L2). destruct (L2 Hn) as (t1 & _ & St).
    apply (tagged_In n) in Hin; [|cbn; apply Nat.eqb_refl].
    pose proof (stage_thread _ _ _ _ _ St Hin) as <-.
    remember (tagged n (w_trace w)) as os eqn:Eo. remember (items n (w_code w t)) as its eqn:Ei.
    destruct St as [| | | |b ls' d todo Ep|b ls']; cbn in Hin;
      repeat (destruct Hin as [Hin|Hin]; [try discriminate Hin|]); try contradiction;
      try (apply in_map_iff in Hin; destruct Hin as ((? & ?) & ? & _); discriminate).
    - injection Hin as <-. exists pre, post, b, d, todo. repeat split; auto.
      intros C. rewrite C in Ei. discriminate.
    - injection Hin as <-. exists pre, post, b, (list_prod b ls'), []. repeat split; auto.
      now rewrite app_nil_r.
  Qed.

  (** A thread between calls has completed all process_events calls it started. *)
  Lemma completed w t n :
    reach w -> In (OStart t n) (w_trace w) -> w_code w t = [] ->
    exists pre post b ls,
      w_trace w = pre ++ OSnapshot t n ls :: post /\ ls = registered pre
      /\ tagged n (w_trace w)
         = [OStart t n; OPurged t n; OTaken t n b; OSnapshot t n ls]
           ++ delivered_obs t n (list_prod b ls).
  Proof.
    intros Hr Hin Hc.
    assert (Hn : n < w_next w) by (eapply life_lt; eauto; cbn; apply Nat.eqb_refl).
    destruct (inv_life w Hr n) as (_ & L2). destruct (L2 Hn) as (t1 & _ & St).
    apply (tagged_In n) in Hin; [|cbn; apply Nat.eqb_refl].
    pose proof (stage_thread _ _ _ _ _ St Hin) as <-.
    rewrite Hc in St. remember (tagged n (w_trace w)) as os eqn:Eo.
    inversion St as [| | | | |b ls E1 E2]. subst os.
    assert (Hs : In (OSnapshot t n ls) (w_trace w)).
    { assert (H : In (OSnapshot t n ls) (tagged n (w_trace w))) by (rewrite <- E2; cbn; auto).
      apply filter_In in H. tauto. }
    destruct (in_split _ _ Hs) as (pre & post & E).
    exists pre, post, b, ls. repeat split; auto. eapply snapshot_registered; eauto.
  Qed.

  (** ** Removal *)
  Lemma added_app a b : added (a ++ b) = added a ++ added b.
  Proof. induction a as [|[] a IH]; cbn; rewrite ?IH; reflexivity. Qed.
  Lemma removed_app a b : removed (a ++ b) = removed a ++ removed b.
  Proof. induction a as [|[] a IH]; cbn; rewrite ?IH; reflexivity. Qed.

  Lemma In_without l ds ls : In l (without ds ls) <-> In l ls /\ ~ In l ds.
  Proof.
    unfold without. rewrite filter_In, negb_true_iff. split; intros (A & B); split; auto.
    - intros C. apply mem_In in C. unfold mem in C. congruence.
    - apply not_true_iff_false. intros C. apply B. now apply mem_In.
  Qed.

  Lemma gone p t l q :
    ~ In l (added q) ->
    let s := replay (p ++ ORemoved t l :: q) in
    (In l (snd s) \/ ~ In l (fst s))
    /\ ((exists t' n', In (OPurged t' n') q) -> ~ In l (fst s)).
  Proof.
    induction q as [|o q IH] using rev_ind; intros Hn; cbn zeta.
    - rewrite replay_snoc. cbn. split; [auto|]. intros (? & ? & []).
    - rewrite added_app, in_app_iff in Hn.
      destruct IH as (I1 & I2); [tauto|].
      replace (p ++ ORemoved t l :: q ++ [o]) with ((p ++ ORemoved t l :: q) ++ [o])
        by (rewrite <- app_assoc; reflexivity).
      rewrite replay_snoc. set (s := replay _) in *.
      assert (Hold : (forall t' n', o <> OPurged t' n') ->
                (exists t' n', In (OPurged t' n') (q ++ [o])) -> ~ In l (fst s)).
      { intros Ho (t' & n' & H). apply in_app_iff in H. destruct H as [H|[H|[]]]; [eauto|].
        exfalso. eapply Ho; eauto. }
      destruct o; cbn [replay_step fst snd];
        try (split; [assumption|apply Hold; discriminate]).
      + cbn in Hn. split.
        * destruct I1 as [I1|I1]; [auto|right]. rewrite in_app_iff. cbn. tauto.
        * intros H. apply Hold in H; [|discriminate]. rewrite in_app_iff. cbn. tauto.
      + split; [|apply Hold; discriminate]. cbn. tauto.
      + assert (~ In l (without (snd s) (fst s))) by (rewrite In_without; tauto). auto.
  Qed.

  Lemma removed_silent w p t l q1 t' n q2 :
    reach w -> w_trace w = p ++ ORemoved t l :: q1 ++ OStart t' n :: q2 ->
    ~ In l (added (q1 ++ q2)) ->
    forall t'' e, ~ In (ODelivered t'' n e l) (w_trace w).
  Proof.
    intros Hr E Hn t'' e Hin.
    assert (Hlt : n < w_next w) by (eapply life_lt; eauto; cbn; apply Nat.eqb_refl).
    destruct (inv_life w Hr n) as (_ & L2). destruct (L2 Hlt) as (t1 & _ & St).
    apply (tagged_In n) in Hin; [|cbn; apply Nat.eqb_refl].
    assert (Hshape : exists b ls d todo,
              tagged n (w_trace w) = [OStart t1 n; OPurged t1 n; OTaken t1 n b; OSnapshot t1 n ls]
                                     ++ delivered_obs t1 n d
              /\ list_prod b ls = d ++ todo /\ In (ODelivered t'' n e l) (delivered_obs t1 n d)).
    { remember (tagged n (w_trace w)) as os. destruct St as [| | | |b ls d todo Ep|b ls]; cbn in Hin;
        repeat (destruct Hin as [Hin|Hin]; [discriminate Hin|]); try contradiction.
      - exists b, ls, d, todo. auto.
      - exists b, ls, (list_prod b ls), []. rewrite app_nil_r. auto. }
    destruct Hshape as (b & ls & d & todo & Et & Ep & Hd).
    assert (Hl : In l ls).
    { apply in_map_iff in Hd. destruct Hd as ((x & y) & Eq & Hd). injection Eq as _ <- <-.
      assert (H : In (x, y) (list_prod b ls)) by (rewrite Ep, in_app_iff; auto).
      apply in_prod_iff in H. tauto. }
    set (X := p ++ ORemoved t l :: q1) in *.
    assert (EX : w_trace w = X ++ OStart t' n :: q2)
      by (rewrite E; unfold X; rewrite <- app_assoc; reflexivity).
    rewrite EX, tagged_app in Et. cbn [tagged filter of_call] in Et.
    rewrite Nat.eqb_refl in Et. fold (tagged n q2) in Et.
    assert (HX : tagged n X = []).
    { destruct (tagged n X) as [|o os]; [reflexivity|exfalso].
      cbn in Et. injection Et as -> Et.
      assert (H : In (OStart t' n) (os ++ OStart t' n :: tagged n q2))
        by (rewrite in_app_iff; cbn; auto).
      rewrite Et in H. cbn in H.
      repeat (destruct H as [H|H]; [discriminate H|]).
      apply in_map_iff in H. destruct H as ((? & ?) & ? & _). discriminate. }
    rewrite HX in Et. cbn in Et. injection Et as Et1 Et.
    destruct (filter_split (of_call n) q2 [OPurged t1 n; OTaken t1 n b] (OSnapshot t1 n ls)
                (delivered_obs t1 n d) Et) as (a1 & b1 & -> & Ea & _).
    assert (Hreg : ls = registered (X ++ OStart t' n :: a1)).
    { eapply snapshot_registered; [exact Hr|]. rewrite EX, <- app_assoc. reflexivity. }
    assert (Hp : In (OPurged t1 n) a1).
    { assert (H : In (OPurged t1 n) (filter (of_call n) a1)) by (rewrite Ea; cbn; auto).
      apply filter_In in H. tauto. }
    assert (Hna : ~ In l (added (q1 ++ OStart t' n :: a1))).
    { rewrite !added_app in *. cbn in *. rewrite !in_app_iff in *. tauto. }
    destruct (gone p t l (q1 ++ OStart t' n :: a1) Hna) as (_ & Hg).
    apply Hg.
    - exists t1, n. rewrite in_app_iff. cbn. auto.
    - unfold registered in Hreg. unfold X in Hreg. rewrite <- app_assoc in Hreg.
      cbn [app] in Hreg. rewrite <- Hreg. exact Hl.
  Qed.

  Lemma filter_without f ds ls :
    (forall l, In l ds -> f l = false) -> filter f (without ds ls) = filter f ls.
  Proof.
    intros H. unfold without. induction ls as [|l ls IH]; [reflexivity|].
    cbn. destruct (existsb (Nat.eqb l) ds) eqn:E; cbn.
    - rewrite H by (now apply mem_In). exact IH.
    - destruct (f l); rewrite IH; reflexivity.
  Qed.

  (** Listeners that were never removed keep registration and order. *)
  Lemma keep f tr :
    (forall l, In l (removed tr) -> f l = false) ->
    filter f (registered tr) = filter f (added tr).
  Proof.
    intros H. unfold registered.
    assert (G : filter f (fst (replay tr)) = filter f (added tr)
                /\ forall l, In l (snd (replay tr)) -> f l = false).
    { induction tr as [|o tr IH] using rev_ind; [split; [reflexivity|intros ? []]|].
      rewrite removed_app in H. destruct IH as (I1 & I2).
      { intros l Hl. apply H. rewrite in_app_iff. auto. }
      rewrite replay_snoc, added_app, filter_app.
      destruct o; cbn [replay_step fst snd added filter]; rewrite ?app_nil_r; split; auto.
      - rewrite filter_app, I1. reflexivity.
      - intros l' [<-|Hl]; [|auto]. apply H. rewrite in_app_iff. cbn. auto.
      - rewrite filter_without; auto.
      - intros ? []. }
    apply G.
  Qed.
End Inv.

(** ** SameThread dispatcher *)
Section Owner.
  Variable o : nat.
  Variable h : nat -> nat -> nat -> list call.
  Variable progs : nat -> list call.
  Notation k := (SameThread o).
  Notation reach := (reachable k h true progs).
  Notation step t w w' := (exec k h true t w = Some w').

  Definition quiet (i : instr) : bool :=
    match i with
    | IStart | IErase _ | ICopyEvents _ | IClearEvents _ _ | ICopyListeners _ _ | IDeliver _ _ => false
    | _ => true
    end.

  Lemma quiet_call t c : t <> o -> c <> CProcess -> forallb quiet (call_code k t c) = true.
  Proof.
    intros Ht Hc. unfold call_code, call_body. destruct c; try reflexivity; [|congruence].
    destruct (Nat.eqb_spec t o); [congruence|reflexivity].
  Qed.

  Lemma inv_quiet w :
    (forall t, t <> o -> ~ In CProcess (progs t)) ->
    reach w ->
    (forall t, t <> o -> ~ In CProcess (w_prog w t) /\ forallb quiet (w_code w t) = true)
    /\ (forall t n, In (OStart t n) (w_trace w) -> t = o).
  Proof.
    intros Hp. induction 1 as [|w w' t Hr IH Hs].
    { split; [intros; split; auto|intros ? ? []]. }
    destruct IH as (I1 & I2).
    assert (G : (forall t', t' <> o -> ~ In CProcess (w_prog w' t') /\ forallb quiet (w_code w' t') = true)
                /\ (w_trace w' = w_trace w \/ exists x, w_trace w' = w_trace w ++ [x]
                     /\ forall t1 n1, x = OStart t1 n1 -> t1 = o)).
    { pose proof (I1 t) as It.
      exec_cases Hs; sim; (split;
        [intros t' Ht'; unfold upd; destruct (Nat.eqb_spec t' t) as [->|Hne]; [|now apply I1];
         destruct (It Ht') as (A & B); try rewrite Hc in B; cbn [forallb quiet] in B;
         try discriminate B; split; auto
        |first [left; reflexivity|right; eexists; split; [reflexivity|]; intros; try discriminate]]).
      - try rewrite Hp0 in A; cbn in A. tauto.
      - apply quiet_call; [assumption|]. try rewrite Hp0 in A; cbn in A. intros ->. tauto.
      - destruct (Nat.eq_dec t o) as [->|Hne]; [congruence|].
        destruct (It Hne) as (_ & B). try rewrite Hc in B. discriminate B. }
    destruct G as (G1 & G2). split; [exact G1|]. intros t1 n1.
    destruct G2 as [->|(x & -> & Hx)]; [apply I2|].
    rewrite in_app_iff. intros [H|[H|[]]]; eauto.
  Qed.

  Lemma delivered_by_owner w t n e l :
    (forall t, t <> o -> ~ In CProcess (progs t)) ->
    reach w -> In (ODelivered t n e l) (w_trace w) -> t = o.
  Proof.
    intros Hp Hr Hin. destruct (inv_quiet w Hp Hr) as (_ & Hs).
    assert (Hn : n < w_next w) by (eapply life_lt; eauto; cbn; apply Nat.eqb_refl).
    destruct (inv_life k h progs w Hr n) as (_ & L2). destruct (L2 Hn) as (t1 & _ & St).
    apply (tagged_In n) in Hin; [|cbn; apply Nat.eqb_refl].
    pose proof (stage_thread _ _ _ _ _ St Hin) as ->.
    apply (Hs t1 n).
    assert (H : In (OStart t1 n) (tagged n (w_trace w))).
    { destruct St; cbn; auto. }
    apply filter_In in H. tauto.
  Qed.

  (** Code is a stack: the step of a thread keeps everything behind its head. *)
  Definition call_shape (c : list instr) : Prop :=
    forall a x r, c = a ++ IBegin x :: r -> exists r', r = call_body k o x ++ IReturn x :: r'.

  Lemma no_begin_body t x : forall c, ~ In (IBegin c) (call_body k t x ++ [IReturn x]).
  Proof.
    intros c. unfold call_body.
    destruct x; cbn; try (destruct (Nat.eqb t o)); cbn; intuition discriminate.
  Qed.

  Lemma shape_tl i c : call_shape (i :: c) -> call_shape c.
  Proof. intros H a x r ->. apply (H (i :: a)). reflexivity. Qed.

  Lemma shape_cons i c : (forall x, i <> IBegin x) -> call_shape c -> call_shape (i :: c).
  Proof.
    intros Hi H a x r E. destruct a as [|j a]; cbn in E; injection E as -> E.
    - exfalso. eapply Hi; eauto.
    - eapply H; eauto.
  Qed.

  Lemma shape_app c1 c2 : (forall x, ~ In (IBegin x) c1) -> call_shape c2 -> call_shape (c1 ++ c2).
  Proof.
    intros Hi H. induction c1 as [|i c1 IH]; [exact H|]. cbn. apply shape_cons.
    - intros x ->. eapply Hi. now left.
    - apply IH. intros x Hx. eapply Hi. right. eauto.
  Qed.

  Lemma shape_call x c : call_shape c -> call_shape (call_code k o x ++ c).
  Proof.
    intros H a y r E. unfold call_code in E. cbn [app] in E.
    destruct a as [|j a]; cbn in E.
    - injection E as <- <-. exists c. now rewrite <- app_assoc.
    - injection E as <- E.
      apply (shape_app (call_body k o x ++ [IReturn x]) c (no_begin_body o x) H a y r E).
  Qed.

  Lemma shape_calls cs c : call_shape c -> call_shape (concat (map (call_code k o) cs) ++ c).
  Proof.
    intros H. induction cs as [|x cs IH]; [exact H|]. cbn [map concat].
    rewrite <- app_assoc. now apply shape_call.
  Qed.

  Lemma inv_shape w : reach w -> call_shape (w_code w o).
  Proof.
    induction 1 as [|w w' t Hr IH Hs]; [intros [|? ?] ? ? E; discriminate|].
    destruct (Nat.eq_dec t o) as [->|Hne].
    2:{ exec_cases Hs; sim; rewrite upd_other by congruence; exact IH. }
    exec_cases Hs; sim; rewrite upd_same; try rewrite Hc in IH;
      try apply shape_tl in IH; try exact IH;
      try (repeat (apply shape_cons; [discriminate|]); exact IH).
    - rewrite <- (app_nil_r (call_code k o c)). now apply shape_call.
    - apply shape_calls. apply shape_cons; [discriminate|exact IH].
  Qed.

  (** What the owner still owes after entering dispatch(e). *)
  Definition takes (i : instr) : bool :=
    match i with IErase _ | ICopyEvents _ | IClearEvents _ _ => true | _ => false end.
  Definition owes (e : nat) (q : list obs) (c : list instr) : Prop :=
    (exists a r, c = a ++ IPushEvent e :: IUnlock ME :: IStart :: r)
    \/ (In (ODispatched o e) q
        /\ exists a i r, c = a ++ i :: r /\ (i = IStart \/ takes i = true))
    \/ (exists q1 n b q2, q = q1 ++ OTaken o n b :: q2 /\ In (ODispatched o e) q1).

  Lemma owes_more e q c q' : owes e q c -> owes e (q ++ q') c.
  Proof.
    intros [H|[(H1 & H2)|(q1 & n & b & q2 & -> & H)]].
    - now left.
    - right. left. split; [rewrite in_app_iff; auto|exact H2].
    - right. right. exists q1, n, b, (q2 ++ q'). rewrite <- app_assoc. auto.
  Qed.

  (** Replacing the head keeps what is owed by the tail. *)
  Lemma owes_tail e q i c c1 :
    owes e q (i :: c) -> i <> IPushEvent e -> i <> IStart -> takes i = false -> owes e q (c1 ++ c).
  Proof.
    intros [(a & r & E)|[(H1 & a & j & r & E & Hj)|H]] N1 N2 N3.
    - left. destruct a as [|x a]; injection E as -> E; [congruence|].
      exists (c1 ++ a), r. rewrite E. now rewrite <- app_assoc.
    - right. left. split; [assumption|]. destruct a as [|x a]; injection E as -> E.
      + destruct Hj; congruence.
      + exists (c1 ++ a), j, r. rewrite E. rewrite <- app_assoc. auto.
    - right. now right.
  Qed.

  Lemma inv_owes w : reach w -> forall p e q,
    w_trace w = p ++ OCall o (CDispatch e) :: q -> owes e q (w_code w o).
  Proof.
    induction 1 as [|w w' t Hr IH Hs]; intros pre e1 q1 E; [destruct pre; discriminate|].
    (* the trace grows by at most one observation *)
    assert (Hgrow : forall x, w_trace w ++ [x] = pre ++ OCall o (CDispatch e1) :: q1 ->
              x <> OCall o (CDispatch e1) ->
              exists q', q1 = q' ++ [x] /\ owes e1 q' (w_code w o)).
    { intros x Ex Nx. destruct (snoc_split _ _ _ _ _ Ex) as [(_ & _ & Eq)|(q' & -> & Eq)].
      - congruence.
      - eauto. }
    destruct (Nat.eq_dec t o) as [->|Hne].
    2:{ assert (Hcode : w_code w' o = w_code w o)
          by (exec_cases Hs; sim; apply upd_other; congruence).
        rewrite Hcode.
        assert (Ht : w_trace w' = w_trace w
                     \/ exists x, w_trace w' = w_trace w ++ [x] /\ x <> OCall o (CDispatch e1)).
        { exec_cases Hs; sim; eauto; right; eexists; (split; [reflexivity|]); congruence. }
        destruct Ht as [Ht|(x & Ht & Nx)]; rewrite Ht in E.
        - eauto.
        - destruct (Hgrow x E Nx) as (q' & -> & Ho). now apply owes_more. }
    pose proof (inv_shape w Hr) as Hshape.
    exec_cases Hs; sim; rewrite upd_same.
    - (* new top-level call: nothing was owed *)
      destruct (IH _ _ _ E) as [(a & r & X)|[(_ & a & j & r & X & _)|X]];
        try (destruct a; discriminate). right. now right.
    - (* entry of a call *)
      destruct (snoc_split _ _ _ _ _ E) as [(-> & _ & Eq)|(q' & -> & Eq)].
      + injection Eq as ->. left.
        destruct (Hshape [] (CDispatch e1) rest eq_refl) as (r' & ->).
        cbn. rewrite Nat.eqb_refl. exists [ILock ME], (IReturn (CDispatch e1) :: r'). reflexivity.
      + apply owes_more. eapply (owes_tail _ _ _ _ []); eauto; discriminate.
    - destruct (Hgrow _ E) as (q' & -> & Ho); [discriminate|].
      apply owes_more. eapply (owes_tail _ _ _ _ []); eauto; discriminate.
    - eapply (owes_tail _ _ _ _ []); eauto; discriminate.
    - eapply (owes_tail _ _ _ _ []); eauto; discriminate.
    - eapply (owes_tail _ _ _ _ []); eauto; discriminate.
    - destruct (Hgrow _ E) as (q' & -> & Ho); [discriminate|].
      apply owes_more. eapply (owes_tail _ _ _ _ []); eauto; discriminate.
    - destruct (Hgrow _ E) as (q' & -> & Ho); [discriminate|].
      apply owes_more. eapply (owes_tail _ _ _ _ []); eauto; discriminate.
    - (* the event is queued *)
      destruct (Hgrow _ E) as (q' & -> & Ho); [discriminate|].
      destruct (Nat.eq_dec e e1) as [->|Ne].
      + destruct Ho as [(a & r & X)|[(H1 & a & j & r & X & Hj)|X]].
        * destruct a as [|x a].
          -- injection X as X2. right. left. split; [rewrite in_app_iff; cbn; auto|].
             exists [IUnlock ME], IStart, r. rewrite X2. auto.
          -- injection X as X1 X2. left. exists a, r. assumption.
        * apply owes_more. right. left. split; [assumption|].
          destruct a as [|x a]; injection X as X1 X2.
          -- subst j. destruct Hj; discriminate.
          -- exists a, j, r. auto.
        * apply owes_more. right. now right.
      + apply owes_more. eapply (owes_tail _ _ _ _ []); eauto; try discriminate. congruence.
    - (* process_events starts *)
      destruct (Hgrow _ E) as (q' & -> & Ho); [discriminate|]. apply owes_more.
      destruct Ho as [(a & r & X)|[(H1 & a & j & r & X & Hj)|X]].
      + destruct a as [|x a]; [discriminate|injection X as X1 X2].
        left. exists (ILockBoth :: IErase (w_next w) :: a), r. rewrite X2. reflexivity.
      + right. left. split; [assumption|]. exists [ILockBoth], (IErase (w_next w)), rest. auto.
      + right. now right.
    - (* erase *)
      destruct (Hgrow _ E) as (q' & -> & Ho); [discriminate|]. apply owes_more.
      destruct Ho as [(a & r & X)|[(H1 & a & j & r & X & Hj)|X]].
      + destruct a as [|x a]; [discriminate|injection X as X1 X2].
        left. exists (IClearDeleted :: IUnlock MD :: IUnlock ML :: ILock ME :: ICopyEvents n :: a), r.
        rewrite X2. reflexivity.
      + right. left. split; [assumption|].
        exists [IClearDeleted; IUnlock MD; IUnlock ML; ILock ME], (ICopyEvents n), rest. auto.
      + right. now right.
    - eapply (owes_tail _ _ _ _ []); eauto; discriminate.
    - (* copy *)
      destruct (IH _ _ _ E) as [(a & r & X)|[(H1 & a & j & r & X & Hj)|X]].
      + destruct a as [|x a]; [discriminate|injection X as X1 X2].
        left. exists (IClearEvents n (w_events w) :: IUnlock ME :: ILock ML
                        :: ICopyListeners n (w_events w) :: a), r. rewrite X2. reflexivity.
      + right. left. split; [assumption|].
        eexists [], (IClearEvents n (w_events w)), _. cbn. auto.
      + right. now right.
    - (* take *)
      destruct (Hgrow _ E) as (q' & -> & Ho); [discriminate|].
      destruct Ho as [(a & r & X)|[(H1 & a & j & r & X & Hj)|X]].
      + destruct a as [|x a]; [discriminate|injection X as X1 X2]. left. exists a, r. assumption.
      + right. right. exists q', n, b, []. auto.
      + apply owes_more. right. now right.
    - (* snapshot *)
      destruct (Hgrow _ E) as (q' & -> & Ho); [discriminate|]. apply owes_more.
      apply (owes_tail _ _ _ rest [IUnlock ML; IDeliver n (list_prod b (w_listeners w))]) in Ho;
        try discriminate; auto.
    - eapply (owes_tail _ _ _ _ []); eauto; discriminate.
    - (* delivery *)
      destruct (Hgrow _ E) as (q' & -> & Ho); [discriminate|]. apply owes_more.
      apply (owes_tail _ _ _ rest (concat (map (call_code k o) (h o e l)) ++ [IDeliver n todo])) in Ho;
        try discriminate; auto.
      rewrite <- app_assoc in Ho. exact Ho.
  Qed.

  (** A thread step that takes a batch leaves the queue empty. *)
  Lemma taken_all w pre t1 n1 b1 post :
    reach w -> w_trace w = pre ++ OTaken t1 n1 b1 :: post -> dispatched pre = taken pre ++ b1.
  Proof.
    intros Hr E.
    destruct (prefix_reach _ _ _ w Hr _ _ _ E) as (w1 & w2 & t2 & R1 & T1 & S1 & T2).
    pose proof (inv_events _ _ _ w1 R1) as (I1 & I2). rewrite T1 in I1. rewrite I1. f_equal.
    pose proof (I2 t2) as I2'.
    exec_cases S1; sim; subst pre;
      try (exfalso; apply (f_equal (@length obs)) in T2; rewrite app_length in T2; cbn in T2; lia);
      apply app_inv_head in T2; try discriminate.
    injection T2 as _ <- <-. symmetry. eapply I2'. reflexivity.
  Qed.

  Lemma owner_dispatch_delivers w p e q :
    reach w -> w_trace w = p ++ OCall o (CDispatch e) :: q -> w_code w o = [] ->
    exists q1 n b q2,
      q = q1 ++ OTaken o n b :: q2 /\ In (ODispatched o e) q1
      /\ dispatched (p ++ q1) = taken (p ++ q1) ++ b.
  Proof.
    intros Hr E Hc. pose proof (inv_owes w Hr p e q E) as H. rewrite Hc in H.
    destruct H as [(a & r & X)|[(_ & a & j & r & X & _)|(q1 & n & b & q2 & -> & H)]];
      try (destruct a; discriminate).
    exists q1, n, b, q2. repeat split; auto.
    assert (G : dispatched (p ++ OCall o (CDispatch e) :: q1)
                = taken (p ++ OCall o (CDispatch e) :: q1) ++ b).
    { eapply taken_all; [exact Hr|]. rewrite E, <- app_assoc. reflexivity. }
    rewrite !dispatched_app, !taken_app in *. exact G.
  Qed.
End Owner.

(** ** Running a schedule (for examples and refutations); a thread that cannot
    move is skipped. *)
Fixpoint run (k : kind) h (circular : bool) (sched : list nat) (w : world) : world :=
  match sched with
  | [] => w
  | t :: s => run k h circular s (match exec k h circular t w with Some w' => w' | None => w end)
  end.
Definition initial (progs : nat -> list call) : world :=
  mk_world [] [] [] (fun _ => None) (fun _ => []) progs 0 [] false.

Lemma run_reachable k h circular progs sched : forall w,
  reachable k h circular progs w -> reachable k h circular progs (run k h circular sched w).
Proof.
  induction sched as [|t s IH]; intros w Hr; cbn; [exact Hr|].
  apply IH. destruct (exec k h circular t w) as [w1|] eqn:Ex; [|exact Hr].
  eapply reach_step; eauto.
Qed.

Lemma run_initial k h circular progs sched :
  reachable k h circular progs (run k h circular sched (initial progs)).
Proof. apply run_reachable. apply reach_init. Qed.

(** ** The plain dispatcher *)
Lemma plain_remove_others f ls l :
  f l = false -> filter f (plain_remove ls l) = filter f ls.
Proof.
  intros H. induction ls as [|x ls IH]; [reflexivity|]. cbn.
  destruct (Nat.eqb_spec x l) as [->|]; [now rewrite H|]. cbn. now rewrite IH.
Qed.

Lemma plain_remove_count ls l :
  count_occ Nat.eq_dec (plain_remove ls l) l = count_occ Nat.eq_dec ls l - 1.
Proof.
  induction ls as [|x ls IH]; [reflexivity|]. cbn.
  destruct (Nat.eqb_spec x l) as [->|Hne].
  - destruct (Nat.eq_dec l l); [lia|congruence].
  - cbn. destruct (Nat.eq_dec x l); [congruence|]. exact IH.
Qed.

Lemma plain_removed_silent ls l e :
  count_occ Nat.eq_dec ls l <= 1 -> ~ In (e, l) (plain_dispatch (plain_remove ls l) e).
Proof.
  intros H Hin. apply in_map_iff in Hin. destruct Hin as (l' & E & Hin). injection E as ->.
  apply (count_occ_In Nat.eq_dec) in Hin. rewrite plain_remove_count in Hin. lia.
Qed.
