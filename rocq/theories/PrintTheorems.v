(** Property C92: the reports of the M step. *)
Require Import ZArith List Arith Bool Lia Permutation.
Require Import Verif.Base Verif.Scalar Verif.Mat Verif.BuilderModel Verif.EStepModel Verif.OptModel Verif.MStepModel Verif.PoolModel Verif.PoolSpec
  Verif.LdaModel Verif.AppsModel Verif.AppsSpec Verif.AppsProofs Verif.PrintSpec Verif.PrintProofs.
Import ListNotations.
Local Open Scope nat_scope.
Local Open Scope list_scope.

(** C92.  For every M step, E step, number of workers, corpus and schedule: each epoch shows the M step every document once and then ends it; the
    listener is told exactly the values the M step reports on the way, all of them, in that order, epoch after epoch; and the applications'
    MaximizationProgress prints exactly those values, if no epoch has 2^31 of them (it counts them in an int). *)
Theorem C92_reports {T} {O : ops T} fuel {St} (M : maximizer T St) k W docs st p tr ms st' p' :
  fit_heard fuel M k W docs st p tr ms st' p' ->
  exists xss, fit_reports M fuel k docs st p xss st' p' /\ length xss = length ms /\ told tr = List.concat xss /\
    (Forall (fun xs => Z.of_nat (length xs) < 2 ^ 31)%Z xss -> hear mprogress_event 0%Z tr = Ok (0%Z, List.concat xss)).
Proof. exact (@heard_reports T O fuel St M k W docs st p tr ms st' p'). Qed.
Print Assumptions C92_reports.

(** C92.  The same for one call of partial_fit by any thread: when it returns, the values the listener got followed by the values still
    queued are the values the M step reported while it consumed the results, and at its end, in that order. *)
Theorem C92_any_thread {V P S R X} (estep : P -> nat -> V) (feed : S -> P -> nat -> V -> S * P * list X) e_end m_end owner docs W s0 p0 (s : state V P S R X) :
  reachable estep feed e_end m_end Fit owner docs W s0 p0 s -> main s = MDone ->
  exists s1 p1 xs s2 p2 ys, consumed feed (fed (log s)) s0 p0 = (s1, p1, xs) /\ m_end s1 (e_end p1) = (s2, p2, ys) /\
    priv s = s2 /\ param s = p2 /\ maximizations (delivered (log s)) ++ maximizations (qev s) = xs ++ ys.
Proof.
  intros H D. pose proof (done_reports H D) as A. destruct (consumed feed (fed (log s)) s0 p0) as [[s1 p1] xs].
  destruct (m_end s1 (e_end p1)) as [[s2 p2] ys] eqn:E. exists s1, p1, xs, s2, p2, ys. auto.
Qed.
Print Assumptions C92_any_thread.

(** An M step that reports one value per epoch at first and two from then on, in a training of three epochs. *)
Definition talker {T} {O : ops T} : maximizer T bool :=
  mk_maximizer (fun st m _ _ => Ok (m, st, [])) (fun (st : bool) m => Ok (m, true, if st then [one; zero] else [zero])).
Example C92_case {T} {O : ops T} k m : exists tr ms st' p',
  fit_heard 7 talker k 2 [] (Ok false) (m, 0) tr ms st' p' /\ hear mprogress_event 0%Z tr = Ok (0%Z, [zero; one; zero; one; zero]).
Proof.
  destruct (heard_returns 7 talker k 2 2 [] ltac:(lia)) with (n := 3) (st := Ok false : outcome bool) (p := (m, 0)) as (tr & ms & st' & p' & F & L).
  - intros s q d v m' s' x H. injection H as <- <- <-. cbn. lia.
  - intros s q m' s' x H. injection H as <- <- <-. destruct s; cbn; lia.
  - exists tr, ms, st', p'. split; [exact F|]. destruct (C92_reports _ _ _ _ _ _ _ _ _ _ _ F) as (xss & A & B & _ & D). rewrite L in B. clear - A B D.
    assert (E : forall st p st1 p1 xs, epoch_reports talker 7 k [] (Ok st) p st1 p1 xs -> st1 = Ok true /\ xs = if st then [one; zero] else [zero]).
    { intros st p st1 p1 xs (docs' & l & s & q & ys & zs & H1 & H2 & _ & H3 & H4 & ->). apply Permutation_nil in H1. subst docs'. apply Permutation_sym, Permutation_nil in H2.
      apply map_eq_nil in H2. subst l. injection H3 as <- <- <-. injection H4 as <- <- <-. destruct st; split; reflexivity. }
    destruct xss as [|x1 [|x2 [|x3 [|? ?]]]]; try discriminate. inversion A as [|? ? ? ? ? ? ? ? A1 A']; subst. destruct (E _ _ _ _ _ A1) as [-> ->].
    inversion A' as [|? ? ? ? ? ? ? ? A2 A'']; subst. destruct (E _ _ _ _ _ A2) as [-> ->]. inversion A'' as [|? ? ? ? ? ? ? ? A3 _]; subst. destruct (E _ _ _ _ _ A3) as [-> ->].
    apply D. repeat constructor; cbn; lia.
Qed.
