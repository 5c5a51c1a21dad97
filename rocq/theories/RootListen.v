(** Lemmas about the listeners of the application in the root directory. *)
Require Import ZArith List Bool Arith Lia Reals Lra Permutation.
Require Import Verif.Base Verif.Scalar Verif.Mat Verif.BuilderModel Verif.EStepModel Verif.OptModel Verif.MStepModel Verif.PoolModel Verif.PoolSpec
  Verif.PoolProofs Verif.PoolDone Verif.PoolTheorems Verif.LdaModel Verif.AppsModel Verif.AppsSpec Verif.AppsProofs Verif.AppsPrint Verif.PrintSpec Verif.PrintProofs
  Verif.RootModel Verif.RootSpec.
Import ListNotations.
Local Open Scope nat_scope.
Local Open Scope list_scope.

(** ** The epochs of a training *)
Definition an_epoch {T} (D : nat) (e : list (notice T) * notice T) (m : params T) : Prop :=
  Forall not_end (fst e) /\ expectations (fst e) = D /\ snd e = EpochEnd m.

Lemma heard_split {T} {O : ops T} fuel {St} (M : maximizer T St) k W docs st p tr ms st' p' : fit_heard fuel M k W docs st p tr ms st' p' ->
  exists eps, tr = in_turn eps /\ Forall2 (an_epoch (length docs)) eps ms /\ fit_reports M fuel k docs st p (map (fun e => told (fst e)) eps) st' p'.
Proof.
  induction 1 as [|st p docs' s tr ms st' p' Hp Hr Hm _ (eps & -> & B & D)]; [exists []; repeat split; constructor|].
  pose proof (epoch_heard Hp Hr Hm) as HE.
  destruct (epoch_event_last Hr Hm) as (l & El & Hl). pose proof (one_event_per_document Hr Hm) as Hd.
  exists ((notices l, EpochEnd (fst (param s))) :: eps). split; [|split].
  - rewrite El, notices_app. unfold in_turn. reflexivity.
  - constructor; [|exact B]. split; [now apply notices_not_end|]. split; [|reflexivity]. cbn [fst]. rewrite notices_expectations.
    apply Permutation_length in Hd. rewrite seq_length, <- (Permutation_length Hp) in Hd. rewrite <- Hd, El.
    clear. induction l as [|o l IH]; [reflexivity|]. destruct o as [| | | |[] ?]; cbn; rewrite ?IH; reflexivity.
  - cbn [map fst]. econstructor; [|exact D]. rewrite told_notices. rewrite El, delivered_app, maximizations_app in HE. cbn [delivered maximizations] in HE. now rewrite app_nil_r in HE.
Qed.

(** Times of the events: the same epochs *)
Lemma timed_split {E} (eps : list (list E * E)) : forall (timed : list (Z * E)), map snd timed = in_turn eps ->
  exists teps : list (list (Z * E) * (Z * E)), timed = in_turn teps /\ map (fun e => (map snd (fst e), snd (snd e))) teps = eps.
Proof.
  induction eps as [|[es e] eps IH]; intros timed H.
  - apply map_eq_nil in H. subst. exists []. split; reflexivity.
  - unfold in_turn in H. cbn [map List.concat fst snd] in H. rewrite <- app_assoc in H. apply map_eq_app in H. destruct H as (ta & tb & -> & <- & H).
    cbn [app] in H. apply map_eq_cons in H. destruct H as ((t & e') & tr & -> & <- & H). destruct (IH tr H) as (teps & -> & <-).
    exists ((ta, (t, e')) :: teps). split; [unfold in_turn; cbn [map List.concat fst snd]; rewrite <- app_assoc; reflexivity|reflexivity].
Qed.

(** ** LdaStopwatch *)
Section Watch.
  Context {T : Type}.
  Definition from (o : option Z) (z : Z) : Z := match o with Some t => t | None => z end.
  Lemma watch_events (es : list (Z * notice T)) : Forall (fun e => not_end (snd e)) es -> forall a b i j,
    hear watch_event (mk_watch a b i j) es
    = Ok (mk_watch (if i =? 0 then from (first_time is_expectation es) a else a) (if j =? 0 then from (first_time is_maximization es) b else b)
            (i + expectations (map snd es)) (j + length (told (map snd es))), []).
  Proof.
    induction 1 as [|[t e] es He _ IH]; intros a b i j.
    - cbn. rewrite !Nat.add_0_r. destruct (i =? 0), (j =? 0); reflexivity.
    - destruct e; cbn in He; try contradiction; cbn [hear watch_event sw_e_start sw_m_start sw_e sw_m bind]; rewrite IH; cbn [bind app map snd expectations told length first_time is_expectation is_maximization Nat.eqb].
      + rewrite Nat.add_succ_r. cbn [Nat.add]. destruct (i =? 0), (j =? 0); reflexivity.
      + rewrite Nat.add_succ_r. cbn [Nat.add]. destruct (i =? 0), (j =? 0); reflexivity.
  Qed.
  Lemma watch_epoch (es : list (Z * notice T)) t m a b : Forall (fun e => not_end (snd e)) es ->
    let a' := from (first_time is_expectation es) a in let b' := from (first_time is_maximization es) b in
    hear watch_event (mk_watch a b 0 0) (es ++ [(t, EpochEnd m)])
    = Ok (mk_watch a' b' 0 0, [mk_took (b' - a') (expectations (map snd es)) (t - b') (length (told (map snd es)))]).
  Proof. intros H a' b'. rewrite hear_app, watch_events by exact H. cbn [bind hear watch_event Nat.eqb Nat.add sw_e_start sw_m_start sw_e sw_m app]. reflexivity. Qed.

  (** What is printed for an epoch with an event of each kind *)
  Definition took_for (e : list (Z * notice T) * (Z * notice T)) (o : took) : Prop :=
    exists a b, first_time is_expectation (fst e) = Some a /\ first_time is_maximization (fst e) = Some b /\
      o = mk_took (b - a) (expectations (map snd (fst e))) (fst (snd e) - b) (length (told (map snd (fst e)))).

  Lemma first_expectation (es : list (Z * notice T)) : expectations (map snd es) <> 0 -> exists a, first_time is_expectation es = Some a.
  Proof. induction es as [|[t e] es IH]; cbn; [easy|]. destruct e; cbn; eauto. Qed.
  Lemma first_maximization (es : list (Z * notice T)) : told (map snd es) <> [] -> exists b, first_time is_maximization es = Some b.
  Proof. induction es as [|[t e] es IH]; cbn; [easy|]. destruct e; cbn; eauto. Qed.
  Lemma no_maximization (es : list (Z * notice T)) : told (map snd es) = [] -> first_time is_maximization es = None.
  Proof. induction es as [|[t e] es IH]; cbn; [easy|]. destruct e; cbn; auto. discriminate. Qed.

  Lemma watch_run (teps : list (list (Z * notice T) * (Z * notice T))) :
    Forall (fun e => Forall (fun e => not_end (snd e)) (fst e) /\ expectations (map snd (fst e)) <> 0 /\ told (map snd (fst e)) <> [] /\ exists m, snd (snd e) = EpochEnd m) teps ->
    forall a b, exists l outs, hear watch_event (mk_watch a b 0 0) (in_turn teps) = Ok (l, outs) /\ Forall2 took_for teps outs.
  Proof.
    induction 1 as [|[es [t e]] teps (H1 & H2 & H3 & m & H4) _ IH]; intros a b; [exists (mk_watch a b 0 0), []; split; [reflexivity|constructor]|].
    cbn [fst snd] in *. subst e. destruct (first_expectation es H2) as (x & Ex). destruct (first_maximization es H3) as (y & Ey).
    destruct (IH x y) as (l & outs & E & F). exists l. eexists. split.
    - unfold in_turn in *. cbn [map List.concat fst snd]. rewrite hear_app, watch_epoch by exact H1. cbn [bind]. rewrite Ex, Ey. cbn [from]. rewrite E. cbn [bind]. reflexivity.
    - cbn [app]. constructor; [|exact F]. exists x, y. cbn [fst snd]. auto.
  Qed.
End Watch.

(** ** The M steps that speak *)
Section Speaks.
  Context {T : Type} {O : ops T}.
  Lemma minimize_speaks fuel search limit tolerance p : forall x v i s x' s',
    minimize fuel search (m_progress limit tolerance) p x v i s = Ok (x', s') -> snd s' <> [].
  Proof.
    induction fuel as [|fuel IH]; intros x v i s x' s' H; cbn [minimize m_progress] in H; destruct (Nat.ltb i limit && _)%bool; try discriminate.
    - injection H as _ <-. cbn. discriminate.
    - destruct (gradient p x) as [g| |]; cbn [bind] in H; try discriminate. destruct (search p x g g) as [[y w]| |]; cbn [bind] in H; try discriminate. exact (IH _ _ _ _ _ _ H).
    - injection H as _ <-. cbn. discriminate.
  Qed.
  Lemma fit_eta_speaks fuel limit tolerance p eta eta' xs : fit_eta fuel limit tolerance p eta = Ok (eta', xs) -> xs <> [].
  Proof.
    unfold fit_eta. destruct (OptModel.value p eta) as [v| |]; cbn [bind]; try discriminate.
    destruct (minimize _ _ _ _ _ _ _ _) as [[x s]| |] eqn:E; cbn [bind]; try discriminate. intros H. injection H as <- <-.
    apply minimize_speaks in E. intros H. apply E. rewrite <- (rev_involutive (snd s)), H. reflexivity.
  Qed.
  Lemma fast_m_speaks fuel i t L s m m' s' xs : fast_m fuel i t L s m = Ok (m', s', xs) -> xs <> [].
  Proof.
    unfold fast_m. destruct (fast_prepare s m) as [[[[a b] c] d]| |]; cbn [bind]; try discriminate. destruct (mlr c d L) as [p| |]; cbn [bind]; try discriminate.
    destruct (fit_eta _ _ _ _ _) as [[e ys]| |] eqn:E; cbn [bind]; try discriminate. intros H. injection H as _ _ <-. exact (fit_eta_speaks _ _ _ _ _ _ _ E).
  Qed.
  Lemma fast_speaks fuel i t L : speaks (fast_maximizer fuel i t L).
  Proof. intros s m m' s' xs H. exact (fast_m_speaks _ _ _ _ _ _ _ _ _ H). Qed.
  Lemma semi_speaks fuel i t L : speaks (semi_maximizer fuel i t L).
  Proof. intros s m m' s' xs H. exact (fast_m_speaks _ _ _ _ _ _ _ _ _ H). Qed.
  Lemma sup_speaks fuel i t L : speaks (sup_maximizer fuel i t L).
  Proof.
    intros s m m' s' xs. cbn [sup_maximizer ms_end]. unfold sup_m. destruct (sup_prepare s m) as [[[[[a b] c] d] e]| |]; cbn [bind]; try discriminate.
    destruct (so c d e L) as [p| |]; cbn [bind]; try discriminate.
    destruct (fit_eta _ _ _ _ _) as [[z ys]| |] eqn:E; cbn [bind]; try discriminate. intros H. injection H as _ _ <-. exact (fit_eta_speaks _ _ _ _ _ _ _ E).
  Qed.
  Lemma stats_speaks mu s m m' s' xs : stats_m mu s m = Ok (m', s', xs) -> xs <> [].
  Proof. unfold stats_m. destruct (st_log s); [|discriminate]. intros H. injection H as _ _ <-. discriminate. Qed.
  Lemma multinomial_speaks mu : speaks (multinomial_maximizer mu).
  Proof. intros s m m' s' xs H. exact (stats_speaks _ _ _ _ _ _ H). Qed.
  Lemma correspondence_speaks mu : speaks (correspondence_maximizer mu).
  Proof. intros s m m' s' xs H. exact (stats_speaks _ _ _ _ _ _ H). Qed.

  Variable fuel : nat.
  Context {St : Type}.
  Variable M : maximizer T St.
  Variable k : e_step T.
  Lemma epoch_bad docs st p st' p' xs s' : epoch_reports M fuel k docs st p st' p' xs -> st' = Ok s' -> exists s, st = Ok s.
  Proof.
    intros (docs' & l & s & q & ys & zs & _ & _ & _ & HC & HE & _) ->. destruct s as [s|e|]; [|discriminate HE|discriminate HE]. clear HE.
    revert st p q ys HC. induction l as [|[i v] l IH]; intros st p q ys HC; cbn [consumed] in HC; [injection HC as -> _ _; eauto|].
    destruct (train_feed M docs' st p i v) as [[s1 p1] x1] eqn:E1. destruct (consumed (train_feed M docs') l s1 p1) as [[s2 p2] x2] eqn:E2. injection HC as E3 _ _. subst s2.
    destruct (IH _ _ _ _ E2) as (s1' & ->). destruct st as [st|e|]; [eauto|discriminate E1|discriminate E1].
  Qed.
  Lemma epoch_speaks docs st p st' p' xs s' : speaks M -> epoch_reports M fuel k docs st p st' p' xs -> st' = Ok s' -> xs <> [].
  Proof.
    intros HS (docs' & l & s & q & ys & zs & _ & _ & _ & _ & HE & ->) ->. unfold train_m_end in HE. destruct s as [s|e|]; cbn [bind] in HE; try discriminate HE.
    destruct (ms_end M s (fst (train_e_end q))) as [[[m2 s2] x2]| |] eqn:E; cbn in HE; try discriminate HE. injection HE as _ _ <-. specialize (HS _ _ _ _ _ E).
    intros H. apply app_eq_nil in H. destruct H as [_ H]. exact (HS H).
  Qed.
  Lemma reports_speak docs st p xss st' p' : speaks M -> fit_reports M fuel k docs st p xss st' p' -> forall s', st' = Ok s' -> Forall (fun xs => xs <> []) xss /\ exists s, st = Ok s.
  Proof.
    intros HS. induction 1 as [st p|st p xs st1 p1 rest st' p' HE _ IH]; intros s' E; [split; [constructor|eauto]|].
    destruct (IH _ E) as (F & s1 & E1). split; [|exact (epoch_bad _ _ _ _ _ _ _ HE E1)]. constructor; [exact (epoch_speaks _ _ _ _ _ _ _ HS HE E1)|exact F].
  Qed.

  (** What LdaStopwatch prints during a training *)
  Lemma stopwatch_run W docs st p tr ms st' p' s' (timed : list (Z * notice T)) : fit_heard fuel M k W docs st p tr ms st' p' -> speaks M -> st' = Ok s' -> docs <> [] ->
    map snd timed = tr ->
    exists teps l outs, timed = in_turn teps /\ Forall2 (fun e m => an_epoch (length docs) (map snd (fst e), snd (snd e)) m) teps ms /\
      hear watch_event new_watch timed = Ok (l, outs) /\ Forall2 took_for teps outs.
  Proof.
    intros H HS E HD HT. destruct (heard_split _ _ _ _ _ _ _ _ _ _ _ H) as (eps & -> & A & B). destruct (timed_split _ _ HT) as (teps & -> & <-).
    destruct (reports_speak _ _ _ _ _ _ HS B s' E) as (F & _). rewrite map_map in F. cbn [fst] in F.
    destruct (watch_run teps) with (a := 0%Z) (b := 0%Z) as (l & outs & R1 & R2).
    - clear - A F HD. revert ms A. induction teps as [|[es [t e]] teps IH]; intros ms A; [constructor|]. inversion A as [|? m ? ms' A1 A2]; subst. inversion F as [|? ? F1 F2]; subst.
      constructor; [|exact (IH F2 _ A2)]. destruct A1 as (N & X & Y). cbn [fst snd] in *. split; [|split; [|split; [exact F1|eauto]]].
      + rewrite Forall_map in N. exact N.
      + rewrite X. destruct docs; [congruence|discriminate].
    - exists teps, l, outs. split; [reflexivity|]. split; [|split; assumption].
      clear - A. revert ms A. induction teps as [|e teps IH]; intros ms A; inversion A; subst; constructor; auto.
  Qed.
End Speaks.

(** ** The online M step may be silent *)
Section Silent.
  Context {T : Type} {O : ops T}.
  Variable fuel : nat.
  Variable k : e_step T.
  Variable cf : @oconf T.
  Definition seen_at (n : nat) (s : outcome (online T)) : Prop := match s with Ok s => on_seen s = n | _ => True end.
  Lemma online_quiet docs : forall l n s p s' q xs, seen_at n s -> n + length l < o_minibatch cf -> consumed (train_feed (online_maximizer cf) docs) l s p = (s', q, xs) ->
    seen_at (n + length l) s' /\ xs = [].
  Proof.
    induction l as [|[i v] l IH]; intros n s p s' q xs HS HN HC; cbn [consumed length] in *; [injection HC as <- _ <-; rewrite Nat.add_0_r; auto|].
    destruct (train_feed (online_maximizer cf) docs s p i v) as [[s1 p1] x1] eqn:E1. destruct (consumed (train_feed (online_maximizer cf) docs) l s1 p1) as [[s2 p2] x2] eqn:E2. injection HC as <- _ <-.
    assert (S1 : seen_at (S n) s1 /\ x1 = []).
    { clear E2 IH. unfold train_feed in E1. destruct s as [s|e|]; cbn [bind] in E1; [|injection E1 as <- _ <-; cbn; auto|injection E1 as <- _ <-; cbn; auto].
      cbn [seen_at] in HS. destruct v as [v|e|]; cbn [bind] in E1; [|injection E1 as <- _ <-; cbn; auto|injection E1 as <- _ <-; cbn; auto].
      cbn [online_maximizer ms_doc] in E1. unfold online_doc in E1. destruct (d_class (nth i docs nodoc)); [|injection E1 as <- _ <-; cbn; auto].
      set (s0 := if mrows (on_b s) =? 0 then _ else s) in E1. assert (S0 : on_seen s0 = n) by (unfold s0; destruct (mrows (on_b s) =? 0); exact HS). clearbody s0.
      destruct (negb _) in E1; [injection E1 as <- _ <-; cbn; auto|]. cbv zeta in E1. cbn [on_seen] in E1. rewrite S0 in E1.
      destruct (Nat.leb_spec (o_minibatch cf) (S n)) as [L|L]; [lia|]. injection E1 as <- _ <-. split; [reflexivity|reflexivity]. }
    destruct S1 as [S1 ->]. destruct (IH (S n) s1 p1 s2 p2 x2 S1 ltac:(lia) E2) as [S2 ->]. rewrite Nat.add_succ_r. auto.
  Qed.
  Lemma online_silent docs n st p st' p' xs : seen_at n st -> n + length docs < o_minibatch cf -> epoch_reports (online_maximizer cf) fuel k docs st p st' p' xs -> xs = [].
  Proof.
    intros HS HN (docs' & l & s & q & ys & zs & HP & HL & _ & HC & HE & ->).
    assert (L : length l = length docs) by (apply Permutation_length in HL; rewrite map_length, seq_length in HL; rewrite HL; symmetry; exact (Permutation_length HP)).
    destruct (online_quiet docs' l n st p s q ys HS ltac:(lia) HC) as [S1 ->]. cbn [app].
    unfold train_m_end in HE. destruct s as [s|e|]; cbn [bind] in HE; [|injection HE as _ _ <-; reflexivity|injection HE as _ _ <-; reflexivity].
    cbn [seen_at] in S1. cbn [online_maximizer ms_end] in HE. unfold online_m in HE. destruct (Nat.ltb_spec (on_seen s) (o_minibatch cf)) as [_|L2]; [|lia]. cbn in HE. injection HE as _ _ <-. reflexivity.
  Qed.

  (** The first epoch of a training with fewer documents than a batch *)
  Lemma stopwatch_silent W docs p tr m st' p' (timed : list (Z * notice T)) : fit_heard fuel (online_maximizer cf) k W docs (Ok new_online) p tr [m] st' p' ->
    docs <> [] -> length docs < o_minibatch cf -> map snd timed = tr ->
    exists l o a, hear watch_event new_watch timed = Ok (l, [o]) /\ first_time is_expectation timed = Some a /\ t_expectation o = (- a)%Z /\ t_iterations o = 0 /\ t_documents o = length docs.
  Proof.
    intros H HD HN HT. destruct (heard_split _ _ _ _ _ _ _ _ _ _ _ H) as (eps & -> & A & B). destruct (timed_split _ _ HT) as (teps & -> & <-).
    destruct teps as [|[es [t e]] [|? ?]]; [inversion A|..|inversion A as [|? ? ? ? _ A2]; inversion A2].
    inversion A as [|? ? ? ? (N & X & Y) _]; subst. cbn [fst snd] in *. subst e. inversion B as [|? ? ? ? ? ? ? ? B1 _]; subst. cbn [map fst] in *.
    apply (online_silent docs 0) in B1; [|reflexivity|lia]. destruct (first_expectation es) as (a & Ea); [rewrite X; destruct docs; [congruence|discriminate]|].
    unfold in_turn. cbn [map List.concat fst snd]. rewrite app_nil_r. eexists _, _, a. split; [apply watch_epoch; rewrite Forall_map in N; exact N|].
    rewrite (no_maximization es B1), Ea, B1, X. cbn. split; [|lia].
    clear - Ea. induction es as [|[t' e] es IH]; [discriminate|]. cbn [app first_time] in *. destruct (is_expectation e); auto.
  Qed.
  (** It reports at most one value at a time. *)
  Lemma online_end_events s m m' s' x : online_m cf s m = Ok (m', s', x) -> length x <= 1.
  Proof.
    unfold online_m. destruct (_ <? _); [intros H; injection H as _ _ <-; cbn; lia|]. destruct (negb _); [discriminate|]. cbv zeta.
    destruct (mlr _ _ _) as [p| |]; cbn [bind]; try discriminate. destruct (gradient _ _) as [g| |]; cbn [bind]; try discriminate.
    destruct (OptModel.value _ _) as [v| |]; cbn [bind]; try discriminate. intros H. injection H as _ _ <-. cbn. lia.
  Qed.
  Lemma online_doc_events s m d v m' s' x : online_doc cf s m d v = Ok (m', s', x) -> length x <= 1.
  Proof.
    unfold online_doc. cbv zeta. destruct (d_class d); [|discriminate]. destruct (negb _); [discriminate|]. destruct (_ <=? _); [apply online_end_events|].
    intros H. injection H as _ _ <-. cbn. lia.
  Qed.
End Silent.
