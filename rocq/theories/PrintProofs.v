(** Lemmas about the reports of the M step. *)
Require Import ZArith List Arith Bool Lia Permutation.
Require Import Verif.Base Verif.Scalar Verif.Mat Verif.BuilderModel Verif.EStepModel Verif.OptModel Verif.MStepModel Verif.PoolModel Verif.PoolSpec Verif.PoolProofs
  Verif.PoolDone Verif.LdaModel Verif.AppsModel Verif.AppsSpec Verif.AppsProofs Verif.PrintSpec.
Import ListNotations.
Local Open Scope nat_scope.
Local Open Scope list_scope.
Set Implicit Arguments.

Lemma maximizations_app {R X} (l l' : list (event R X)) : maximizations (l ++ l') = maximizations l ++ maximizations l'.
Proof. induction l as [|[i r|x|] l IH]; cbn; [reflexivity|exact IH|now rewrite IH|exact IH]. Qed.
Lemma delivered_app {V P R X} (l l' : list (obs V P R X)) : delivered (l ++ l') = delivered l ++ delivered l'.
Proof. induction l as [|[] l IH]; cbn; rewrite ?IH; reflexivity. Qed.

Section Reports.
  Context {V P S R X : Type}.
  Variable estep : P -> nat -> V.
  Variable feed : S -> P -> nat -> V -> S * P * list X.
  Variable e_end : P -> P.
  Variable m_end : S -> P -> S * P * list X.
  Variable docs : nat.
  Variable md : mode.
  Variable owner : bool.
  Variables (s0 : S) (p0 : P).
  Notation st := (state V P S R X).

  (** The log played back *)
  Definition back (a : S * P * list X) (o : obs V P R X) : S * P * list X :=
    let '(s, p, xs) := a in
    match o with
    | OFeed i v => let '(s, p, ys) := feed s p i v in (s, p, xs ++ ys)
    | OEEnd => (s, e_end p, xs)
    | OMEnd => let '(s, p, ys) := m_end s p in (s, p, xs ++ ys)
    | _ => a
    end.
  Definition played (l : list (obs V P R X)) : S * P * list X := fold_left back l (s0, p0, []).
  Lemma played_snoc l o : played (l ++ [o]) = back (played l) o.
  Proof. unfold played. now rewrite fold_left_app. Qed.

  (** The values on their way: taken from the queue, to be dispatched, still with the M step *)
  Definition taken_q (q : proc R X) : list X := match q with PUnlock b | PDeliver b => maximizations b | _ => [] end.
  Definition taken (m : mpc V R X) : list X :=
    match m with
    | MProcess _ _ _ q | MFeedEv _ _ _ (DProc q) _ | MEndEv (DProc q) _ | MEpoch (DProc q) => taken_q q
    | _ => []
    end.
  Definition own (d : disp R X) : list X := match d with DLock e | DPush e => maximizations [e] | _ => [] end.
  Definition left (m : mpc V R X) : list X :=
    match m with
    | MFeedEv _ _ _ d xs | MEndEv d xs => own d ++ xs
    | MEpoch d => own d
    | _ => []
    end.
  Definition ok (s : st) : Prop :=
    exists xs, played (log s) = (priv s, param s, xs) /\
      maximizations (delivered (log s)) ++ taken (main s) ++ maximizations (qev s) ++ left (main s) = xs.

  Lemma taken_next c : taken (next docs c) = []. Proof. unfold next. now destruct (c <? docs). Qed.
  Lemma left_next c : left (next docs c) = []. Proof. unfold next. now destruct (c <? docs). Qed.
  Lemma taken_process c i v : taken (after_process md docs c i v) = []. Proof. unfold after_process. destruct md; [reflexivity|apply taken_next]. Qed.
  Lemma left_process c i v : left (after_process md docs c i v) = []. Proof. unfold after_process. destruct md; [reflexivity|apply left_next]. Qed.
  Lemma taken_feed c i v xs : taken (after_feed md docs c i v xs) = []. Proof. destruct xs; [cbn; destruct md; [apply taken_next|reflexivity]|reflexivity]. Qed.
  Lemma left_feed c i v xs : left (after_feed md docs c i v xs) = xs. Proof. destruct xs; [cbn; destruct md; [apply left_next|reflexivity]|reflexivity]. Qed.
  Lemma taken_end xs : taken (after_m_end xs : mpc V R X) = []. Proof. now destruct xs. Qed.
  Lemma left_end xs : left (after_m_end xs : mpc V R X) = xs. Proof. now destruct xs. Qed.

  Lemma proc_ok q k done (s s' : st) : ok s -> main s = k q -> (forall q, taken (k q) = taken_q q) -> (forall q q', left (k q) = left (k q')) ->
    taken done = [] -> left done = left (k (PDeliver [])) -> proc_step q k done s = Some s' -> ok s'.
  Proof.
    intros (xs & A & B) HM HT HL HD HE H. rewrite HM, HT in B. destruct q as [| |b|[|e b]]; cbn in H.
    - destruct (lev s); [discriminate|]. injection H as <-. exists xs. split; [exact A|]. cbn. rewrite HT, (HL _ PLock). exact B.
    - injection H as <-. exists xs. split; [exact A|]. cbn. rewrite HT, (HL _ PTake). exact B.
    - injection H as <-. exists xs. split; [exact A|]. cbn. rewrite HT, (HL _ (PUnlock b)). exact B.
    - injection H as <-. exists xs. split; [exact A|]. cbn. rewrite HD, HE. exact B.
    - injection H as <-. exists xs. split; [cbn [note log set_main set_data set_worker set_qev]; rewrite played_snoc, A; reflexivity|]. cbn. rewrite delivered_app, maximizations_app, HT, (HL _ (PDeliver (e :: b))), <- app_assoc. rewrite <- B.
      cbn [delivered taken_q maximizations]. destruct e; reflexivity.
  Qed.
  Lemma disp_ok d k done (s s' : st) ys : ok s -> main s = k d -> (forall d, taken (k d) = match d with DProc q => taken_q q | _ => [] end) ->
    (forall d, left (k d) = own d ++ ys) -> taken done = [] -> left done = ys -> disp_step owner d k done s = Some s' -> ok s'.
  Proof.
    intros HO HM HT HL HD HE H. destruct d as [e|e| |q]; cbn [disp_step] in H.
    - destruct HO as (xs & A & B). rewrite HM, HT, HL in B. destruct (lev s); [discriminate|]. injection H as <-. exists xs. split; [exact A|]. cbn. rewrite HT, HL. exact B.
    - destruct HO as (xs & A & B). rewrite HM, HT, HL in B. injection H as <-. exists xs. split; [exact A|]. cbn [set_qev set_main log main qev]. rewrite HT, HL, maximizations_app, <- app_assoc. exact B.
    - destruct HO as (xs & A & B). rewrite HM, HT, HL in B. injection H as <-. exists xs. split; [exact A|]. cbn [set_lev set_main log main qev].
      destruct owner; [rewrite HT, HL; exact B|rewrite HD, HE; exact B].
    - apply (proc_ok q (fun q => k (DProc q)) done HO HM); [intros q'; apply HT|intros q' q''; now rewrite !HL|exact HD|rewrite HL; exact HE|exact H].
  Qed.
  Lemma same_ok (s s' : st) : ok s -> log s' = log s -> priv s' = priv s -> param s' = param s -> maximizations (qev s') = maximizations (qev s) ->
    taken (main s') = taken (main s) -> left (main s') = left (main s) -> ok s'.
  Proof. intros (xs & A & B) E1 E2 E3 E4 E5 E6. exists xs. rewrite E1, E2, E3, E4, E5, E6. now split. Qed.
  Lemma worker_ok w r (s s' : st) : ok s -> wstep estep w r s = Some s' -> ok s'.
  Proof.
    intros HO H. unfold wstep in H. destruct (nth_error (workers s) w) as [pc|]; [|discriminate].
    destruct pc; try discriminate H.
    all: try (destruct (lin s); [discriminate H|]); try (destruct (lev s); [discriminate H|]); try (destruct (lout s); [discriminate H|]).
    all: try (injection H as <-; apply (same_ok _ HO); reflexivity).
    - destruct (qin s); [discriminate|]. injection H as <-. apply (same_ok _ HO); reflexivity.
    - injection H as <-. destruct HO as (xs & A & B). exists xs. split; [cbn [note log set_main set_data set_worker set_qev]; rewrite played_snoc, A; reflexivity|]. cbn. rewrite delivered_app. cbn. rewrite app_nil_r. exact B.
    - injection H as <-. apply (same_ok _ HO); try reflexivity. cbn. rewrite maximizations_app. cbn. apply app_nil_r.
    - injection H as <-. destruct (main s) eqn:E; apply (same_ok _ HO); cbn; rewrite ?E; reflexivity.
  Qed.
  Lemma main_ok (s s' : st) : ok s -> mstep feed e_end m_end md owner docs s = Some s' -> ok s'.
  Proof.
    intros HO H. unfold mstep in H. destruct (main s) as [i|w|c|c|c|c|c i v|c i v q|c i v|c i v d xs|w| | |d xs|d|] eqn:E.
    - destruct (i <? docs); injection H as <-; apply (same_ok _ HO); cbn; rewrite ?E; reflexivity.
    - destruct (w <? _); injection H as <-; apply (same_ok _ HO); cbn; rewrite ?E, ?taken_next, ?left_next; reflexivity.
    - destruct (lout s); [discriminate|]. injection H as <-. apply (same_ok _ HO); cbn; rewrite ?E; reflexivity.
    - destruct (qout s); injection H as <-; apply (same_ok _ HO); cbn; rewrite ?E; reflexivity.
    - discriminate.
    - destruct (qout s) as [|[i v] q]; [discriminate|]. injection H as <-. apply (same_ok _ HO); cbn; rewrite ?E; reflexivity.
    - injection H as <-. apply (same_ok _ HO); cbn; rewrite ?E; destruct md; reflexivity.
    - apply (proc_ok q (MProcess c i v) (after_process md docs c i v) HO E); [reflexivity|reflexivity|apply taken_process|apply left_process|exact H].
    - injection H as <-. destruct HO as (xs & A & B). rewrite E in B. cbn [taken left app] in B. rewrite app_nil_r in B.
      exists (xs ++ snd (feed (priv s) (param s) i v)). split.
      + cbn [note log set_main set_data]. rewrite played_snoc, A. cbn. now destruct (feed (priv s) (param s) i v) as [[? ?] ?].
      + cbn. rewrite taken_feed, left_feed, delivered_app. cbn. rewrite app_nil_r, app_assoc. now rewrite B.
    - apply (disp_ok d (fun d => MFeedEv c i v d xs) (after_feed md docs c i v xs) (ys := xs) HO E); [intros []; reflexivity|reflexivity|apply taken_feed|apply left_feed|exact H].
    - destruct (w <? _).
      + destruct (nth_error _ w) as [[]|]; try discriminate. injection H as <-. apply (same_ok _ HO); cbn; rewrite ?E; reflexivity.
      + injection H as <-. apply (same_ok _ HO); cbn; rewrite ?E; destruct md; reflexivity.
    - injection H as <-. destruct HO as (xs & A & B). rewrite E in B. exists xs. split; [cbn [note log set_main set_data set_worker set_qev]; rewrite played_snoc, A; reflexivity|]. cbn. rewrite delivered_app. cbn. rewrite app_nil_r. exact B.
    - injection H as <-. destruct HO as (xs & A & B). rewrite E in B. cbn [taken left app] in B. rewrite app_nil_r in B. exists (xs ++ snd (m_end (priv s) (param s))). split.
      + cbn [note log set_main set_data]. rewrite played_snoc, A. cbn. now destruct (m_end (priv s) (param s)) as [[? ?] ?].
      + cbn. rewrite taken_end, left_end, delivered_app. cbn. rewrite app_nil_r, app_assoc. now rewrite B.
    - apply (disp_ok d (fun d => MEndEv d xs) (after_m_end xs) (ys := xs) HO E); [intros []; reflexivity|reflexivity|apply taken_end|apply left_end|exact H].
    - apply (disp_ok d (@MEpoch V R X) MDone (ys := []) HO E); [intros []; reflexivity|intros d'; cbn; now rewrite app_nil_r|reflexivity|reflexivity|exact H].
    - discriminate.
  Qed.
  Lemma reach_ok W (s : st) : reachable estep feed e_end m_end md owner docs W s0 p0 s -> ok s.
  Proof.
    induction 1 as [|l s s' _ IH H]; [exists []; split; reflexivity|]. destruct l as [|w r|]; cbn in H.
    - exact (main_ok IH H).
    - exact (worker_ok _ _ IH H).
    - unfold spurious in H. destruct (main s) eqn:E; try discriminate. injection H as <-. apply (same_ok _ IH); cbn; rewrite ?E; reflexivity.
  Qed.

  (** The log of a finished call *)
  Lemma played_work (l : list (obs V P R X)) a : Forall on_document (computation l) ->
    fold_left back l a = let '(s, p, xs) := a in let '(s, p, ys) := consumed feed (fed l) s p in (s, p, xs ++ ys).
  Proof.
    revert a. induction l as [|o l IH]; intros [[s p] xs] H; cbn [fold_left fed consumed]; [now rewrite app_nil_r|].
    destruct o as [i v|i v| | |e q]; cbn [computation] in H; try (apply Forall_cons_iff in H; destruct H as [H0 H]); cbn [back fed consumed on_document] in *.
    - rewrite IH by assumption. reflexivity.
    - destruct (feed s p i v) as [[s1 p1] ys]. rewrite IH by assumption. destruct (consumed feed (fed l) s1 p1) as [[? ?] ?]. now rewrite app_assoc.
    - contradiction.
    - contradiction.
    - now rewrite IH.
  Qed.
  Lemma back_skip (l : list (obs V P R X)) a : fold_left back l a = fold_left back (computation l) a.
  Proof. revert a. induction l as [|o l IH]; intros [[s p] xs]; [reflexivity|]. destruct o; cbn [computation fold_left]; rewrite IH; reflexivity. Qed.
  Lemma computation_idem (l : list (obs V P R X)) : Forall on_document l -> computation l = l.
  Proof. induction 1 as [|o l H _ IH]; [reflexivity|]. destruct o; cbn in *; try contradiction; now rewrite IH. Qed.
  Lemma fed_computation (l : list (obs V P R X)) : fed (computation l) = fed l.
  Proof. induction l as [|o l IH]; [reflexivity|]. destruct o; cbn; rewrite ?IH; reflexivity. Qed.
  Lemma fed_app (l l' : list (obs V P R X)) : fed (l ++ l') = fed l ++ fed l'.
  Proof. induction l as [|o l IH]; [reflexivity|]. destruct o; cbn; rewrite ?IH; reflexivity. Qed.
End Reports.

Section Done.
  Context {V P S R X : Type}.
  Variable estep : P -> nat -> V.
  Variable feed : S -> P -> nat -> V -> S * P * list X.
  Variable e_end : P -> P.
  Variable m_end : S -> P -> S * P * list X.
  Lemma done_reports owner docs W s0 p0 (s : state V P S R X) : reachable estep feed e_end m_end Fit owner docs W s0 p0 s -> main s = MDone ->
    let '(s1, p1, xs) := consumed feed (fed (log s)) s0 p0 in
    let '(s2, p2, ys) := m_end s1 (e_end p1) in
    priv s = s2 /\ param s = p2 /\ maximizations (delivered (log s)) ++ maximizations (qev s) = xs ++ ys.
  Proof.
    intros H D. destruct (reach_ok H) as (xs & A & B). rewrite D in B. cbn [taken left app] in B. rewrite app_nil_r in B. rewrite B. clear B.
    destruct (finished_once_in_order H D) as [(work & CW & FW) _].
    unfold played in A. rewrite back_skip, CW, fold_left_app in A. rewrite (played_work feed e_end m_end work) in A by (rewrite computation_idem; exact FW).
    assert (EF : fed (log s) = fed work).
    { rewrite <- (fed_computation (log s)), CW, fed_app. cbn. apply app_nil_r. }
    rewrite EF. destruct (consumed feed (fed work) s0 p0) as [[s1 p1] ys]. cbn [fold_left back app] in A. destruct (m_end s1 (e_end p1)) as [[s2 p2] zs].
    injection A as <- <- <-. auto.
  Qed.
End Done.

(** ** What a listener hears and prints *)
Lemma told_app {T} (a b : list (notice T)) : told (a ++ b) = told a ++ told b.
Proof. induction a as [|[] a IH]; cbn; rewrite ?IH; reflexivity. Qed.
Lemma told_notices {T} {V} (l : list (obs V (@shared T) (option T) T)) : told (notices l) = maximizations (delivered l).
Proof. induction l as [|o l IH]; [reflexivity|]. destruct o as [| | | |[] ?]; cbn; rewrite ?IH; reflexivity. Qed.

Lemma print_events {T} (es : list (notice T)) : Forall not_end es -> forall c, (0 <= c)%Z -> (c + Z.of_nat (length (told es)) < 2 ^ 31)%Z ->
  hear mprogress_event c es = Ok ((c + Z.of_nat (length (told es)))%Z, told es).
Proof.
  induction 1 as [|e es He _ IH]; intros c Hc H; cbn [hear told length] in *; [now rewrite Z.add_0_r|].
  destruct e; cbn in He; try contradiction; cbn [mprogress_event bind length] in *.
  - rewrite IH by lia. reflexivity.
  - rewrite incr_ok by lia. cbn [bind]. rewrite IH by lia. cbn [bind app]. do 2 f_equal. lia.
Qed.

Section Heard.
  Context {T : Type} {O : ops T}.
  Variable fuel : nat.
  Context {St : Type}.
  Variable M : maximizer T St.
  Variable k : e_step T.

  Lemma epoch_heard W docs docs' st p (s : state (outcome (vparams T)) (@shared T) (outcome St) (option T) T) :
    Permutation docs docs' ->
    reachable (train_estep fuel k docs') (train_feed M docs') train_e_end (train_m_end M) Fit true (length docs') W st p s ->
    main s = MDone -> epoch_reports M fuel k docs st p (priv s) (param s) (maximizations (delivered (log s))).
  Proof.
    intros Hp Hr Hm. pose proof (done_reports Hr Hm) as H. destruct (all_cleaned_up Hr Hm) as (_ & _ & Q & _). rewrite Q in H. cbn [maximizations] in H. rewrite app_nil_r in H.
    destruct (each_document_once Hr Hm) as [A B].
    destruct (consumed (train_feed M docs') (fed (log s)) st p) as [[s1 p1] xs] eqn:E1. destruct (train_m_end M s1 (train_e_end p1)) as [[s2 p2] ys] eqn:E2.
    destruct H as (-> & -> & ->). exists docs', (fed (log s)), s1, p1, xs, ys. repeat split; auto.
    - rewrite <- A. now apply Permutation_map.
    - apply Forall_forall. intros [i v] Hi. apply (Permutation_in _ B) in Hi. destruct (estep_values Hr _ _ Hi) as (s' & _ & ->). now exists (param s').
  Qed.

  Lemma heard_reports W docs st p tr ms st' p' : fit_heard fuel M k W docs st p tr ms st' p' ->
    exists xss, fit_reports M fuel k docs st p xss st' p' /\ length xss = length ms /\ told tr = List.concat xss /\
      (Forall (fun xs => Z.of_nat (length xs) < 2 ^ 31)%Z xss -> hear mprogress_event 0%Z tr = Ok (0%Z, List.concat xss)).
  Proof.
    induction 1 as [|st p docs' s tr ms st' p' Hp Hr Hm _ (xss & A & L & B & D)]; [exists []; repeat split; constructor|].
    pose proof (epoch_heard Hp Hr Hm) as HE. exists (maximizations (delivered (log s)) :: xss). split; [econstructor; eassumption|]. split; [cbn; now rewrite L|].
    split; [rewrite told_app, told_notices, B; reflexivity|]. intros HF. inversion HF as [|? ? H1 H2]; subst.
    destruct (epoch_event_last Hr Hm) as (l & El & Hl). rewrite El in H1 |- *. rewrite notices_app. cbn [notices]. rewrite <- app_assoc. cbn [app].
    rewrite delivered_app, maximizations_app in H1 |- *. cbn [delivered maximizations] in H1 |- *. rewrite app_nil_r in H1 |- *. rewrite <- told_notices in H1 |- *.
    rewrite hear_app, print_events by (try lia; now apply notices_not_end). cbn [bind hear mprogress_event]. rewrite (D H2). reflexivity.
  Qed.
End Heard.
