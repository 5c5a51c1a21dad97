(** Lemmas about who hears the events of a training. *)
Require Import List Arith Lia.
Require Import Verif.RouteModel Verif.RouteSpec.
Import ListNotations.

(** ** Changing one entry *)
Lemma nth_change {A} i (f : A -> A) l j : nth_error (change i f l) j = if Nat.eqb j i then option_map f (nth_error l j) else nth_error l j.
Proof.
  unfold change. revert i j. induction l as [|x l IH]; intros i j.
  - rewrite firstn_nil, skipn_nil. cbn [app]. destruct (Nat.eqb j i); destruct j; reflexivity.
  - destruct i as [|i]; [destruct j; reflexivity|]. cbn [firstn skipn app]. destruct j as [|j]; [reflexivity|]. cbn [nth_error Nat.eqb]. apply IH.
Qed.
Lemma length_change {A} i (f : A -> A) l : length (change i f l) = length l.
Proof.
  unfold change. revert i. induction l as [|x l IH]; intros i; [now rewrite firstn_nil, skipn_nil|].
  destruct i as [|i]; [reflexivity|]. cbn. now rewrite IH.
Qed.
Lemma flat_map_change {A B} (g : A -> list B) i f l : (forall x, g (f x) = g x) -> flat_map g (change i f l) = flat_map g l.
Proof.
  intros H. unfold change. revert i. induction l as [|x l IH]; intros i; [now rewrite firstn_nil, skipn_nil|].
  destruct i as [|i]; [cbn; now rewrite H|]. cbn. now rewrite IH.
Qed.
Lemma nth_snoc {A} (l : list A) x i y : nth_error (l ++ [x]) i = Some y -> nth_error l i = Some y \/ (i = length l /\ y = x).
Proof.
  intros H. destruct (Nat.lt_ge_cases i (length l)) as [L|L].
  - rewrite nth_error_app1 in H by exact L. now left.
  - rewrite nth_error_app2 in H by exact L. destruct (i - length l) as [|k] eqn:E.
    + injection H as <-. right. split; [lia|reflexivity].
    + destruct k; discriminate.
Qed.
Lemma nth_before {A} (l : list A) x i y : nth_error l i = Some y -> nth_error (l ++ [x]) i = Some y.
Proof. intros H. rewrite nth_error_app1; [exact H|]. apply nth_error_Some. congruence. Qed.
Lemma nth_lt {A} (l : list A) i y : nth_error l i = Some y -> i < length l.
Proof. intros H. apply nth_error_Some. congruence. Qed.

(** ** Steps in use *)
Lemma use_add w d x : in_use (add_to d x w) = in_use w.
Proof. destruct d; unfold in_use, add_to; cbn; rewrite flat_map_change; reflexivity. Qed.
Lemma use_set w s d : in_use (set_dispatcher s d w) = in_use w.
Proof. unfold in_use, set_dispatcher. cbn. rewrite flat_map_change; reflexivity. Qed.
Lemma use_new w : in_use (new_step w None) = in_use w.
Proof. unfold in_use, new_step. cbn. rewrite flat_map_app. cbn. now rewrite app_nil_r. Qed.

(** ** What holds as long as no step is used twice; [A] are the listeners added. *)
Definition parked (w : rworld) (s : nat) (own : list listener) (d : dispatcher) : Prop :=
  exists st, nth_error (r_steps w) s = Some st /\ rs_own st = own /\ rs_uses st = d.
Record inv (A : nat -> list nat) (w : rworld) : Prop := mk_inv {
  i_parts : forall t st a b, nth_error (r_steps w) t = Some st -> rs_parts st = Some (a, b) ->
    a < t /\ b < t /\ parked w a [Forward t] (OfStep a) /\ parked w b [Forward t] (OfStep b);
  i_ldas : forall l o, nth_error (r_ldas w) l = Some o -> parked w (rl_e o) [] (OfLda l) /\ parked w (rl_m o) [] (OfLda l);
  i_free : forall s, s < length (r_steps w) -> ~ In s (in_use w) -> parked w s [] (OfStep s);
  i_builders : forall b e m, nth_error (r_builders w) b = Some (e, m) -> e < length (r_steps w) /\ m < length (r_steps w);
  i_heard : forall l o, nth_error (r_ldas w) l = Some o -> rl_listeners o = map User (A l);
  i_none : forall l, length (r_ldas w) <= l -> A l = []
}.
Lemma parked_lt w s own d : parked w s own d -> s < length (r_steps w).
Proof. intros (st & H & _). exact (nth_lt _ _ _ H). Qed.
Lemma use_lt A w s : inv A w -> In s (in_use w) -> s < length (r_steps w).
Proof.
  intros I H. unfold in_use in H. apply in_app_or in H. destruct H as [H|H]; apply in_flat_map in H; destruct H as (x & Hx & H).
  - destruct (rs_parts x) as [[a b]|] eqn:E; [|destruct H]. apply In_nth_error in Hx. destruct Hx as (t & Hx).
    destruct (i_parts A w I t x a b Hx E) as (_ & _ & Pa & Pb). destruct H as [<-|[<-|[]]]; [exact (parked_lt _ _ _ _ Pa)|exact (parked_lt _ _ _ _ Pb)].
  - apply In_nth_error in Hx. destruct Hx as (l & Hx). destruct (i_ldas A w I l x Hx) as (Pe & Pm).
    destruct H as [<-|[<-|[]]]; [exact (parked_lt _ _ _ _ Pe)|exact (parked_lt _ _ _ _ Pm)].
Qed.
Lemma in_parts w t st a b : nth_error (r_steps w) t = Some st -> rs_parts st = Some (a, b) -> In a (in_use w) /\ In b (in_use w).
Proof.
  intros H E. unfold in_use. split; apply in_or_app; left; apply in_flat_map; exists st; rewrite E; (split; [exact (nth_error_In _ _ H)|cbn; auto]).
Qed.
Lemma in_lda w l o : nth_error (r_ldas w) l = Some o -> In (rl_e o) (in_use w) /\ In (rl_m o) (in_use w).
Proof.
  intros H. unfold in_use. split; apply in_or_app; right; apply in_flat_map; exists o; (split; [exact (nth_error_In _ _ H)|cbn; auto]).
Qed.

Lemma parked_new w s own d x : parked w s own d -> parked (new_step w x) s own d.
Proof. intros (st & H & E). exists st. split; [exact (nth_before _ _ _ _ H)|exact E]. Qed.
Lemma parked_last w x : parked (new_step w x) (length (r_steps w)) [] (OfStep (length (r_steps w))).
Proof. exists (mk_rstep [] (OfStep (length (r_steps w))) x). split; [|split; reflexivity]. cbn. rewrite nth_error_app2, Nat.sub_diag by lia. reflexivity. Qed.
Lemma length_new w x : length (r_steps (new_step w x)) = S (length (r_steps w)).
Proof. cbn. rewrite app_length. cbn. lia. Qed.

Lemma inv_new A w : inv A w -> inv A (new_step w None).
Proof.
  intros I. split.
  - intros t st a b H E. destruct (nth_snoc _ _ _ _ H) as [K|[-> ->]]; [|discriminate].
    destruct (i_parts A w I t st a b K E) as (L1 & L2 & P1 & P2). repeat split; auto using parked_new.
  - intros l o H. destruct (i_ldas A w I l o H) as (P1 & P2). split; apply parked_new; assumption.
  - intros s L N. rewrite use_new in N. rewrite length_new in L. destruct (Nat.eq_dec s (length (r_steps w))) as [->|D]; [apply parked_last|].
    apply parked_new. apply (i_free A w I); [lia|exact N].
  - intros b e m H. rewrite length_new. destruct (i_builders A w I b e m H). lia.
  - exact (i_heard A w I).
  - exact (i_none A w I).
Qed.

(** One step of the world is changed in its own listeners and in the dispatcher it uses. *)
Lemma parked_set w s d x own d0 : parked w x own d0 -> parked (set_dispatcher s d w) x own (if Nat.eqb x s then d else d0).
Proof.
  intros (st & H & E1 & E2). unfold parked, set_dispatcher. cbn [r_steps]. rewrite nth_change. rewrite H. destruct (x =? s); cbn; eexists; (split; [reflexivity|]); auto.
Qed.
Lemma parked_add w s f x own d0 : parked w x own d0 -> parked (add_to (OfStep s) f w) x (if Nat.eqb x s then own ++ [f] else own) d0.
Proof.
  intros (st & H & E1 & E2). unfold parked, add_to. cbn [r_steps]. rewrite nth_change. rewrite H. destruct (x =? s); cbn; eexists; (split; [reflexivity|]); subst; auto.
Qed.
Lemma parked_eq w x own d own' d' : parked w x own d -> own = own' -> d = d' -> parked w x own' d'.
Proof. now intros H <- <-. Qed.

Lemma inv_semi A w s u : inv A w -> s < length (r_steps w) -> u < length (r_steps w) ->
  NoDup (in_use (new_step w (Some (s, u)))) ->
  let n := length (r_steps w) in
  inv A (add_to (OfStep u) (Forward n) (add_to (OfStep s) (Forward n) (new_step w (Some (s, u))))) /\
  parked w s [] (OfStep s) /\ parked w u [] (OfStep u).
Proof.
  intros I Ls Lu N n.
  assert (U : in_use (new_step w (Some (s, u))) =
    flat_map (fun st => match rs_parts st with Some (a, b) => [a; b] | None => [] end) (r_steps w) ++ s :: u :: flat_map (fun o => [rl_e o; rl_m o]) (r_ldas w)).
  { unfold in_use, new_step. cbn. rewrite flat_map_app. cbn. rewrite <- app_assoc. reflexivity. }
  rewrite U in N.
  assert (Ns : ~ In s (in_use w) /\ ~ In u (in_use w) /\ s <> u).
  { pose proof (NoDup_remove_2 _ _ _ N) as N1. apply NoDup_remove_1 in N. pose proof (NoDup_remove_2 _ _ _ N) as N2.
    rewrite in_app_iff in N1, N2. unfold in_use. rewrite !in_app_iff. cbn in N1. intuition congruence. }
  destruct Ns as (Ns & Nu & D).
  pose proof (i_free A w I s Ls Ns) as Ps. pose proof (i_free A w I u Lu Nu) as Pu.
  split; [|split; [exact Ps|exact Pu]].
  set (w' := add_to (OfStep u) (Forward n) (add_to (OfStep s) (Forward n) (new_step w (Some (s, u))))).
  assert (K : forall x own d, x <> s -> x <> u -> parked w x own d -> parked w' x own d).
  { intros x own d Xs Xu P. refine (parked_eq _ _ _ _ _ _ (parked_add _ u _ _ _ _ (parked_add _ s _ _ _ _ (parked_new _ _ _ _ _ P))) _ eq_refl).
    rewrite (proj2 (Nat.eqb_neq x s) Xs), (proj2 (Nat.eqb_neq x u) Xu). reflexivity. }
  assert (K1 : parked w' s [Forward n] (OfStep s)).
  { refine (parked_eq _ _ _ _ _ _ (parked_add _ u _ _ _ _ (parked_add _ s _ _ _ _ (parked_new _ _ _ _ _ Ps))) _ eq_refl).
    rewrite Nat.eqb_refl, (proj2 (Nat.eqb_neq s u) D). reflexivity. }
  assert (K2 : parked w' u [Forward n] (OfStep u)).
  { refine (parked_eq _ _ _ _ _ _ (parked_add _ u _ _ _ _ (parked_add _ s _ _ _ _ (parked_new _ _ _ _ _ Pu))) _ eq_refl).
    rewrite Nat.eqb_refl, (proj2 (Nat.eqb_neq u s)) by congruence. reflexivity. }
  assert (LEN : length (r_steps w') = S n) by (unfold w'; cbn; rewrite !length_change, app_length; cbn; unfold n; lia).
  split.
  - intros t st a b H E. unfold w' in H. cbn in H. rewrite !nth_change in H.
    assert (H' : exists st0, nth_error (r_steps w ++ [mk_rstep [] (OfStep (length (r_steps w))) (Some (s, u))]) t = Some st0 /\ rs_parts st0 = Some (a, b)).
    { destruct (nth_error (r_steps w ++ _) t) as [st0|]; [|destruct (t =? u), (t =? s); discriminate]. exists st0. split; [reflexivity|].
      destruct (t =? u), (t =? s); cbn in H; injection H as <-; exact E. }
    destruct H' as (st0 & H0 & E0). destruct (nth_snoc _ _ _ _ H0) as [H1|[-> ->]].
    + destruct (i_parts A w I t st0 a b H1 E0) as (L1 & L2 & P1 & P2). destruct (in_parts w t st0 a b H1 E0) as (U1 & U2).
      split; [exact L1|]. split; [exact L2|]. split; apply K; auto; intros ->; contradiction.
    + injection E0 as <- <-. fold n. unfold n in *. auto.
  - intros l o H. destruct (i_ldas A w I l o H) as (P1 & P2). destruct (in_lda w l o H) as (U1 & U2).
    split; apply K; auto; intros E; rewrite E in *; contradiction.
  - intros x L X. unfold w' in X. rewrite !use_add, U in X. rewrite LEN in L. rewrite in_app_iff in X. cbn in X.
    destruct (Nat.eq_dec x n) as [->|Dn].
    + refine (parked_eq _ _ _ _ _ _ (parked_add _ u _ _ _ _ (parked_add _ s _ _ _ _ (parked_last w (Some (s, u))))) _ eq_refl).
      fold n. rewrite (proj2 (Nat.eqb_neq n s)), (proj2 (Nat.eqb_neq n u)) by (unfold n; lia). reflexivity.
    + apply K; [intuition congruence|intuition congruence|]. apply (i_free A w I); [unfold n in *; lia|]. unfold in_use. rewrite in_app_iff. intuition.
  - intros b e m H. rewrite LEN. destruct (i_builders A w I b e m H). unfold n. lia.
  - exact (i_heard A w I).
  - exact (i_none A w I).
Qed.

Lemma inv_convert A w b e m : inv A w -> nth_error (r_builders w) b = Some (e, m) ->
  let l := length (r_ldas w) in
  let w1 := mk_rworld (r_steps w) (r_builders w) (r_ldas w ++ [mk_rlda [] e m]) in
  NoDup (in_use w1) -> inv A (set_dispatcher m (OfLda l) (set_dispatcher e (OfLda l) w1)).
Proof.
  intros I B l w1 N. destruct (i_builders A w I b e m B) as (Le & Lm).
  assert (U : in_use w1 = in_use w ++ [e; m]) by (unfold in_use, w1; cbn; rewrite flat_map_app; cbn; rewrite app_assoc; reflexivity).
  rewrite U in N.
  assert (Ns : ~ In e (in_use w) /\ ~ In m (in_use w) /\ e <> m).
  { change (in_use w ++ [e; m]) with (in_use w ++ e :: [m]) in N. pose proof (NoDup_remove_2 _ _ _ N) as N1. apply NoDup_remove_1 in N.
    pose proof (NoDup_remove_2 _ _ _ N) as N2. rewrite in_app_iff in N1, N2. cbn in N1. intuition congruence. }
  destruct Ns as (Ne & Nm & D).
  pose proof (i_free A w I e Le Ne) as Pe. pose proof (i_free A w I m Lm Nm) as Pm.
  assert (P1 : forall x own d, parked w x own d -> parked w1 x own d) by (intros x own d P; exact P).
  set (w' := set_dispatcher m (OfLda l) (set_dispatcher e (OfLda l) w1)).
  assert (K : forall x own d, x <> e -> x <> m -> parked w x own d -> parked w' x own d).
  { intros x own d Xs Xu P. refine (parked_eq _ _ _ _ _ _ (parked_set _ m _ _ _ _ (parked_set _ e _ _ _ _ (P1 _ _ _ P))) eq_refl _).
    rewrite (proj2 (Nat.eqb_neq x e) Xs), (proj2 (Nat.eqb_neq x m) Xu). reflexivity. }
  assert (K1 : parked w' e [] (OfLda l)).
  { refine (parked_eq _ _ _ _ _ _ (parked_set _ m _ _ _ _ (parked_set _ e _ _ _ _ (P1 _ _ _ Pe))) eq_refl _).
    rewrite Nat.eqb_refl. destruct (e =? m); reflexivity. }
  assert (K2 : parked w' m [] (OfLda l)).
  { refine (parked_eq _ _ _ _ _ _ (parked_set _ m _ _ _ _ (parked_set _ e _ _ _ _ (P1 _ _ _ Pm))) eq_refl _).
    rewrite Nat.eqb_refl. reflexivity. }
  assert (LEN : length (r_steps w') = length (r_steps w)) by (unfold w'; cbn; rewrite !length_change; reflexivity).
  split.
  - intros t st a c H E. unfold w' in H. cbn in H. rewrite !nth_change in H.
    assert (H' : exists st0, nth_error (r_steps w) t = Some st0 /\ rs_parts st0 = Some (a, c)).
    { destruct (nth_error (r_steps w) t) as [st0|]; [|destruct (t =? m), (t =? e); discriminate]. exists st0. split; [reflexivity|].
      destruct (t =? m), (t =? e); cbn in H; injection H as <-; exact E. }
    destruct H' as (st0 & H1 & E0).
    destruct (i_parts A w I t st0 a c H1 E0) as (L1 & L2 & Q1 & Q2). destruct (in_parts w t st0 a c H1 E0) as (U1 & U2).
    split; [exact L1|]. split; [exact L2|]. split; apply K; auto; intros ->; contradiction.
  - intros x o H. unfold w' in H. cbn in H. destruct (nth_snoc _ _ _ _ H) as [H1|[-> ->]]; [|split; assumption].
    destruct (i_ldas A w I x o H1) as (Q1 & Q2). destruct (in_lda w x o H1) as (U1 & U2).
    split; apply K; auto; intros E; rewrite E in *; contradiction.
  - intros x L X. unfold w' in X. rewrite !use_set, U in X. rewrite LEN in L. rewrite in_app_iff in X. cbn in X.
    apply K; [intuition congruence|intuition congruence|]. apply (i_free A w I); [exact L|intuition].
  - intros b' e' m' H. rewrite LEN. exact (i_builders A w I b' e' m' H).
  - intros x o H. unfold w' in H. cbn in H. destruct (nth_snoc _ _ _ _ H) as [H1|[-> ->]]; [exact (i_heard A w I x o H1)|].
    rewrite (i_none A w I) by lia. reflexivity.
  - intros x L. unfold w' in L. cbn in L. rewrite app_length in L. apply (i_none A w I). lia.
Qed.

Lemma inv_listen A w l u o : inv A w -> nth_error (r_ldas w) l = Some o ->
  inv (fun x => A x ++ (if Nat.eqb l x then [u] else [])) (add_to (OfLda l) (User u) w).
Proof.
  intros I H.
  assert (X : forall x o', nth_error (r_ldas (add_to (OfLda l) (User u) w)) x = Some o' -> exists o0, nth_error (r_ldas w) x = Some o0 /\
    rl_e o' = rl_e o0 /\ rl_m o' = rl_m o0 /\ rl_listeners o' = rl_listeners o0 ++ (if Nat.eqb l x then [User u] else [])).
  { intros x o' E. cbn in E. rewrite nth_change in E. rewrite (Nat.eqb_sym l x). destruct (x =? l).
    - destruct (nth_error (r_ldas w) x) as [o0|]; [|discriminate]. cbn in E. injection E as <-. exists o0. auto.
    - exists o'. rewrite app_nil_r. auto. }
  split.
  - exact (i_parts A w I).
  - intros x o' E. destruct (X x o' E) as (o0 & E0 & -> & -> & _). exact (i_ldas A w I x o0 E0).
  - intros s L N. rewrite use_add in N. exact (i_free A w I s L N).
  - exact (i_builders A w I).
  - intros x o' E. destruct (X x o' E) as (o0 & E0 & _ & _ & ->). rewrite (i_heard A w I x o0 E0), map_app. destruct (l =? x); reflexivity.
  - intros x L. cbn in L. rewrite length_change in L. rewrite (i_none A w I x L). pose proof (nth_lt _ _ _ H).
    rewrite (proj2 (Nat.eqb_neq l x)) by lia. reflexivity.
Qed.
Lemma inv_builders A w bs : inv A w -> (forall b e m, nth_error bs b = Some (e, m) -> e < length (r_steps w) /\ m < length (r_steps w)) ->
  inv A (mk_rworld (r_steps w) bs (r_ldas w)).
Proof. intros I H. split; [exact (i_parts A w I)|exact (i_ldas A w I)|exact (i_free A w I)|exact H|exact (i_heard A w I)|exact (i_none A w I)]. Qed.
Lemma inv_ext A A' w : (forall l, A l = A' l) -> inv A w -> inv A' w.
Proof.
  intros E I. split; [exact (i_parts A w I)|exact (i_ldas A w I)|exact (i_free A w I)|exact (i_builders A w I)| |].
  - intros l o H. rewrite <- E. exact (i_heard A w I l o H).
  - intros l H. rewrite <- E. exact (i_none A w I l H).
Qed.

(** ** All histories *)
Lemma or_new_inv A w o s w1 : inv A w -> or_new o w = (s, w1) -> inv A w1 /\ in_use w1 = in_use w /\ length (r_steps w) <= length (r_steps w1).
Proof.
  intros I E. destruct o as [x|]; injection E as <- <-; [auto|]. split; [exact (inv_new A w I)|]. split; [apply use_new|rewrite length_new; lia].
Qed.
Lemma added_snoc l h a : added l (h ++ [a]) = added l h ++ match a with Listen l' u => if Nat.eqb l' l then [u] else [] | _ => [] end.
Proof. unfold added. rewrite flat_map_app. cbn. now rewrite app_nil_r. Qed.
Lemma uses_now_lt w s d : uses_now w s = Some d -> s < length (r_steps w).
Proof. unfold uses_now. destruct (nth_error (r_steps w) s) eqn:E; [|discriminate]. intros _. exact (nth_lt _ _ _ E). Qed.
Lemma uses_parked w s own d : parked w s own d -> uses_now w s = Some d.
Proof. intros (st & H & _ & E). unfold uses_now. rewrite H. cbn. now rewrite E. Qed.
Lemma NoDup_front {A} (l r : list A) : NoDup (l ++ r) -> NoDup l.
Proof. intros H. induction l as [|x l IH]; [constructor|]. inversion H; subst. constructor; [|auto]. intros X. apply H2. apply in_or_app. now left. Qed.
Lemma step_uses w a w' : ract w a = Some w' -> unshared w' -> unshared w.
Proof.
  unfold unshared. destruct a as [| |s u|b s|b s|b|l u]; cbn.
  - intros E. injection E as <-. intros N. change (NoDup (in_use (new_step (new_step w None) None))) in N. now rewrite !use_new in N.
  - intros E. injection E as <-. now rewrite use_new.
  - destruct (or_new s w) as (s1, w1) eqn:E1. destruct (or_new u w1) as (u1, w2) eqn:E2.
    assert (U : in_use w2 = in_use w).
    { destruct s as [s|], u as [u|]; cbn in E1, E2; injection E1 as <- <-; injection E2 as <- <-; rewrite ?use_new; reflexivity. }
    destruct (uses_now w2 s1), (uses_now w2 u1); try discriminate. intros E. injection E as <-. rewrite !use_add. rewrite <- U. intros N.
    unfold in_use, new_step in N. cbn in N. rewrite flat_map_app in N. cbn in N. rewrite <- app_assoc in N. cbn in N.
    apply NoDup_remove_1 in N. apply NoDup_remove_1 in N. exact N.
  - destruct (nth_error (r_builders w) b), (nth_error (r_steps w) s); try discriminate. intros E. injection E as <-. intros N; exact N.
  - destruct (nth_error (r_builders w) b), (nth_error (r_steps w) s); try discriminate. intros E. injection E as <-. intros N; exact N.
  - destruct (nth_error (r_builders w) b) as [[e m]|]; [|discriminate]. intros E. injection E as <-. rewrite !use_set. unfold in_use. cbn.
    rewrite flat_map_app, app_assoc. apply NoDup_front.
  - destruct (nth_error (r_ldas w) l); [|discriminate]. intros E. injection E as <-.
    change (NoDup (in_use (add_to (OfLda l) (User u) w)) -> NoDup (in_use w)). now rewrite use_add.
Qed.
Lemma step_inv h w a w' : inv (fun l => added l h) w -> ract w a = Some w' -> unshared w' -> inv (fun l => added l (h ++ [a])) w'.
Proof.
  intros I E N. destruct a as [| |s u|b s|b s|b|l u]; cbn in E.
  - injection E as <-. apply (inv_ext (fun l => added l h)); [intros l; rewrite added_snoc, app_nil_r; reflexivity|].
    refine (inv_builders _ (new_step (new_step w None) None) _ (inv_new _ _ (inv_new _ _ I)) _).
    intros b e m H. rewrite !length_new. apply nth_snoc in H. destruct H as [H|[-> H]].
    + destruct (i_builders _ w I b e m H). lia.
    + injection H as -> ->. lia.
  - injection E as <-. apply (inv_ext (fun l => added l h)); [intros l; rewrite added_snoc, app_nil_r; reflexivity|]. exact (inv_new _ _ I).
  - apply (inv_ext (fun l => added l h)); [intros l; rewrite added_snoc, app_nil_r; reflexivity|].
    destruct (or_new s w) as (s1, w1) eqn:E1. destruct (or_new u w1) as (u1, w2) eqn:E2.
    destruct (or_new_inv _ w s s1 w1 I E1) as (I1 & _ & _). destruct (or_new_inv _ w1 u u1 w2 I1 E2) as (I2 & _ & _).
    destruct (uses_now w2 s1) as [ds|] eqn:Ds; [|discriminate]. destruct (uses_now w2 u1) as [du|] eqn:Du; [|discriminate].
    injection E as <-. unfold unshared in N. rewrite !use_add in N.
    destruct (inv_semi _ w2 s1 u1 I2 (uses_now_lt _ _ _ Ds) (uses_now_lt _ _ _ Du) N) as (I3 & Ps & Pu).
    apply uses_parked in Ps, Pu. rewrite Ps in Ds. rewrite Pu in Du. injection Ds as <-. injection Du as <-. exact I3.
  - destruct (nth_error (r_builders w) b) as [x|] eqn:B; [|discriminate]. destruct (nth_error (r_steps w) s) eqn:S; [|discriminate]. injection E as <-.
    apply (inv_ext (fun l => added l h)); [intros l; rewrite added_snoc, app_nil_r; reflexivity|]. apply inv_builders; [exact I|].
    intros b' e m H. rewrite nth_change in H. destruct (b' =? b).
    + destruct (nth_error (r_builders w) b') as [[e0 m0]|] eqn:B'; [|discriminate]. cbn in H. injection H as <- <-.
      split; [exact (nth_lt _ _ _ S)|exact (proj2 (i_builders _ w I _ _ _ B'))].
    + exact (i_builders _ w I _ _ _ H).
  - destruct (nth_error (r_builders w) b) as [x|] eqn:B; [|discriminate]. destruct (nth_error (r_steps w) s) eqn:S; [|discriminate]. injection E as <-.
    apply (inv_ext (fun l => added l h)); [intros l; rewrite added_snoc, app_nil_r; reflexivity|]. apply inv_builders; [exact I|].
    intros b' e m H. rewrite nth_change in H. destruct (b' =? b).
    + destruct (nth_error (r_builders w) b') as [[e0 m0]|] eqn:B'; [|discriminate]. cbn in H. injection H as <- <-.
      split; [exact (proj1 (i_builders _ w I _ _ _ B'))|exact (nth_lt _ _ _ S)].
    + exact (i_builders _ w I _ _ _ H).
  - destruct (nth_error (r_builders w) b) as [[e m]|] eqn:B; [|discriminate]. injection E as <-.
    apply (inv_ext (fun l => added l h)); [intros l; rewrite added_snoc, app_nil_r; reflexivity|]. unfold unshared in N. rewrite !use_set in N.
    exact (inv_convert _ w b e m I B N).
  - destruct (nth_error (r_ldas w) l) as [o|] eqn:L; [|discriminate]. injection E as <-.
    apply (inv_ext (fun x => added x h ++ (if Nat.eqb l x then [u] else []))); [intros x; rewrite added_snoc; reflexivity|].
    exact (inv_listen _ w l u o I L).
Qed.
Lemma history_snoc h a : history (h ++ [a]) = match history h with Some w => ract w a | None => None end.
Proof. unfold history. rewrite fold_left_app. reflexivity. Qed.
Lemma history_inv h w : history h = Some w -> unshared w -> inv (fun l => added l h) w.
Proof.
  revert w. induction h as [|a h IH] using rev_ind; intros w E N.
  - injection E as <-. split; cbn; try reflexivity.
    + intros [|t] st a b H; discriminate H.
    + intros [|l] o H; discriminate H.
    + intros s L. inversion L.
    + intros [|b] e m H; discriminate H.
    + intros [|l] o H; discriminate H.
  - rewrite history_snoc in E. destruct (history h) as [w0|] eqn:E0; [|discriminate].
    exact (step_inv h w0 a w (IH w0 eq_refl (step_uses w0 a w E N)) E N).
Qed.

(** ** Who hears an event *)
Scheme delivered_ind2 := Induction for delivered Sort Prop with heard_ind2 := Induction for heard Sort Prop.
Lemma delivered_fun w d r : delivered w d r -> forall r', delivered w d r' -> r = r'.
Proof.
  intros H. induction H using delivered_ind2 with (P := fun d r (_ : delivered w d r) => forall r', delivered w d r' -> r = r')
    (P0 := fun ls r (_ : heard w ls r) => forall r', heard w ls r' -> r = r').
  - intros r' H'. inversion H'; subst. apply IHdelivered. congruence.
  - intros r' H'. now inversion H'.
  - intros r' H'. inversion H'; subst. f_equal. now apply IHdelivered.
  - intros r1 H'. inversion H'; subst. f_equal; [apply IHdelivered; congruence|now apply IHdelivered0].
Qed.
Lemma heard_users w l : heard w (map User l) l.
Proof. induction l; cbn; constructor; assumption. Qed.
Lemma lda_heard A w l o : inv A w -> nth_error (r_ldas w) l = Some o -> delivered w (OfLda l) (A l).
Proof.
  intros I H. apply dispatch with (map User (A l)); [|apply heard_users]. cbn. rewrite H. cbn. now rewrite (i_heard A w I l o H).
Qed.
(** What a part dispatches arrives where its semi-supervised E step dispatches. *)
Lemma up A w labelled s t : inv A w -> works w labelled s t -> forall d r, uses_now w s = Some d -> delivered w d r ->
  exists d', uses_now w t = Some d' /\ delivered w d' r.
Proof.
  intros I H. induction H as [s st H E|s st a b t H E _ IH]; intros d r D R; [exists d; auto|].
  destruct (i_parts A w I s st a b H E) as (_ & _ & Pa & Pb).
  assert (P : parked w (if labelled then a else b) [Forward s] (OfStep (if labelled then a else b))) by (destruct labelled; assumption).
  apply (IH (OfStep (if labelled then a else b)) r); [exact (uses_parked _ _ _ _ P)|].
  destruct P as (sp & P1 & P2 & _). apply dispatch with [Forward s]; [cbn; rewrite P1; cbn; now rewrite P2|].
  rewrite <- (app_nil_r r). apply heard_again with d; [exact D|exact R|constructor].
Qed.
Lemma works_total A w labelled : inv A w -> forall s, s < length (r_steps w) -> exists t, works w labelled s t.
Proof.
  intros I s. induction s as [s IH] using lt_wf_ind. intros L.
  destruct (nth_error (r_steps w) s) as [st|] eqn:H; [|apply nth_error_None in H; lia].
  destruct (rs_parts st) as [[a b]|] eqn:E.
  - destruct (i_parts A w I s st a b H E) as (La & Lb & _). destruct (IH (if labelled then a else b)) as (t & W); [destruct labelled; assumption|destruct labelled; lia|].
    exists t. exact (works_part w labelled s st a b t H E W).
  - exists s. exact (works_itself w labelled s st H E).
Qed.
Lemma works_fun w labelled s t : works w labelled s t -> forall t', works w labelled s t' -> t = t'.
Proof.
  intros H. induction H as [s st H E|s st a b t H E _ IH]; intros t' H'; inversion H'; subst; try congruence.
  apply IH. replace b with b0 by congruence. replace a with a0 by congruence. assumption.
Qed.

Lemma events_heard h w l o : history h = Some w -> unshared w -> nth_error (r_ldas w) l = Some o ->
  (forall labelled r, expectation_event w l labelled r <-> r = added l h) /\
  (forall r, maximization_event w l r <-> r = added l h) /\
  (forall r, epoch_event w l r <-> r = added l h).
Proof.
  intros E N H. pose proof (history_inv h w E N) as I. set (A := fun l => added l h) in I. change (added l h) with (A l).
  pose proof (lda_heard A w l o I H) as R. destruct (i_ldas A w I l o H) as (Pe & Pm).
  split; [|split].
  - intros labelled r. destruct (works_total A w labelled I (rl_e o) (parked_lt _ _ _ _ Pe)) as (t & W).
    destruct (up A w labelled (rl_e o) t I W (OfLda l) (A l) (uses_parked _ _ _ _ Pe) R) as (d & D & R'). split.
    + intros (o' & t' & d' & H' & W' & D' & R2). replace o' with o in * by congruence. rewrite <- (works_fun _ _ _ _ W _ W') in D'.
      replace d' with d in * by congruence. exact (delivered_fun w d r R2 (A l) R').
    + intros ->. exists o, t, d. auto.
  - intros r. split.
    + intros (o' & d' & H' & D' & R2). replace o' with o in * by congruence. rewrite (uses_parked _ _ _ _ Pm) in D'. injection D' as <-.
      exact (delivered_fun _ _ _ R2 _ R).
    + intros ->. exists o, (OfLda l). split; [exact H|]. split; [exact (uses_parked _ _ _ _ Pm)|exact R].
  - intros r. split; [intros R2; exact (delivered_fun _ _ _ R2 _ R)|intros ->; exact R].
Qed.

(** ** The steps of an LDA object *)
Lemma history_app h h2 : history (h ++ h2) = fold_left (fun o a => match o with Some w => ract w a | None => None end) h2 (history h).
Proof. unfold history. now rewrite fold_left_app. Qed.
Lemma fold_none h : fold_left (fun o a => match o with Some w => ract w a | None => None end) h None = None.
Proof. induction h; cbn; auto. Qed.
Lemma builder_kept w a w' b x : ract w a = Some w' -> nth_error (r_builders w) b = Some x ->
  exists y, nth_error (r_builders w') b = Some y /\
    ((forall s, a <> UseE b s) -> fst y = fst x) /\ ((forall s, a <> UseM b s) -> snd y = snd x) /\
    (forall s, a = UseE b s -> fst y = s) /\ (forall s, a = UseM b s -> snd y = s).
Proof.
  intros E B.
  assert (K : r_builders w' = r_builders w -> (forall s, a <> UseE b s) -> (forall s, a <> UseM b s) -> exists y, nth_error (r_builders w') b = Some y /\
    ((forall s, a <> UseE b s) -> fst y = fst x) /\ ((forall s, a <> UseM b s) -> snd y = snd x) /\
    (forall s, a = UseE b s -> fst y = s) /\ (forall s, a = UseM b s -> snd y = s)).
  { intros -> N1 N2. exists x. split; [exact B|]. split; [auto|]. split; [auto|]. split; intros s X; [destruct (N1 s X)|destruct (N2 s X)]. }
  destruct a as [| |s u|c s|c s|c|l u]; cbn in E.
  - injection E as <-. exists x. split; [exact (nth_before _ _ _ _ B)|]. split; [auto|]. split; [auto|]. split; discriminate.
  - injection E as <-. apply K; [reflexivity|discriminate|discriminate].
  - destruct (or_new s w) as (s1, w1) eqn:E1. destruct (or_new u w1) as (u1, w2) eqn:E2.
    assert (U : r_builders w2 = r_builders w).
    { destruct s as [s|], u as [u|]; cbn in E1, E2; injection E1 as <- <-; injection E2 as <- <-; reflexivity. }
    destruct (uses_now w2 s1) as [ds|]; [|discriminate]. destruct (uses_now w2 u1) as [du|]; [|discriminate]. injection E as <-.
    apply K; [destruct ds, du; exact U|discriminate|discriminate].
  - destruct (nth_error (r_builders w) c) as [y|] eqn:C; [|discriminate]. destruct (nth_error (r_steps w) s); [|discriminate]. injection E as <-.
    cbn [r_builders]. rewrite nth_change. destruct (b =? c) eqn:D.
    + apply Nat.eqb_eq in D. subst c. rewrite B. cbn. exists (s, snd x). split; [reflexivity|]. split; [intros N; destruct (N s eq_refl)|]. split; [auto|].
      split; [intros s' X; now injection X as <-|discriminate].
    + apply Nat.eqb_neq in D. exists x. split; [exact B|]. split; [auto|]. split; [auto|]. split; [intros s' X; injection X as X _; congruence|discriminate].
  - destruct (nth_error (r_builders w) c) as [y|] eqn:C; [|discriminate]. destruct (nth_error (r_steps w) s); [|discriminate]. injection E as <-.
    cbn [r_builders]. rewrite nth_change. destruct (b =? c) eqn:D.
    + apply Nat.eqb_eq in D. subst c. rewrite B. cbn. exists (fst x, s). split; [reflexivity|]. split; [auto|]. split; [intros N; destruct (N s eq_refl)|].
      split; [discriminate|intros s' X; now injection X as <-].
    + apply Nat.eqb_neq in D. exists x. split; [exact B|]. split; [auto|]. split; [auto|]. split; [discriminate|intros s' X; injection X as X _; congruence].
  - destruct (nth_error (r_builders w) c) as [[e m]|]; [|discriminate]. injection E as <-. apply K; [reflexivity|discriminate|discriminate].
  - destruct (nth_error (r_ldas w) l); [|discriminate]. injection E as <-. apply K; [reflexivity|discriminate|discriminate].
Qed.
Lemma builder_kept_all h b : forall w w' x, fold_left (fun o a => match o with Some w => ract w a | None => None end) h (Some w) = Some w' ->
  nth_error (r_builders w) b = Some x -> exists y, nth_error (r_builders w') b = Some y /\
    ((forall s, ~ In (UseE b s) h) -> fst y = fst x) /\ ((forall s, ~ In (UseM b s) h) -> snd y = snd x).
Proof.
  induction h as [|a h IH]; intros w w' x E B; cbn in E.
  - injection E as <-. exists x. auto.
  - destruct (ract w a) as [w1|] eqn:E1; [|rewrite fold_none in E; discriminate].
    destruct (builder_kept w a w1 b x E1 B) as (y & B1 & He & Hm & _). destruct (IH w1 w' y E B1) as (z & B2 & He2 & Hm2).
    exists z. split; [exact B2|]. split; intros N.
    + rewrite He2 by (intros s X; apply (N s); now right). apply He. intros s ->. apply (N s). now left.
    + rewrite Hm2 by (intros s X; apply (N s); now right). apply Hm. intros s ->. apply (N s). now left.
Qed.
Lemma used_builder w a w' b s : ract w a = Some w' -> a = UseE b s \/ a = UseM b s -> exists x, nth_error (r_builders w) b = Some x.
Proof. intros E [->| ->]; cbn in E; destruct (nth_error (r_builders w) b) as [x|]; try discriminate; exists x; reflexivity. Qed.
Lemma converted w b w' : ract w (Convert b) = Some w' -> exists x o, nth_error (r_builders w) b = Some x /\ nth_error (r_ldas w') (length (r_ldas w)) = Some o /\
  length (r_ldas w') = S (length (r_ldas w)) /\ rl_e o = fst x /\ rl_m o = snd x.
Proof.
  cbn. destruct (nth_error (r_builders w) b) as [[e m]|] eqn:B; [|discriminate]. intros E. injection E as <-. exists (e, m), (mk_rlda [] e m). cbn.
  rewrite nth_error_app2, Nat.sub_diag, app_length by lia. repeat split. cbn. lia.
Qed.
Lemma last_e h b s h2 w : (forall s', ~ In (UseE b s') h2) -> history (h ++ UseE b s :: h2 ++ [Convert b]) = Some w ->
  exists o, nth_error (r_ldas w) (length (r_ldas w) - 1) = Some o /\ rl_e o = s.
Proof.
  intros N E. rewrite app_comm_cons, app_assoc, history_snoc in E. destruct (history (h ++ UseE b s :: h2)) as [w1|] eqn:E1; [|discriminate].
  rewrite history_app in E1. cbn [fold_left] in E1. destruct (history h) as [w0|]; [|rewrite fold_none in E1; discriminate].
  destruct (ract w0 (UseE b s)) as [w2|] eqn:E2; [|rewrite fold_none in E1; discriminate].
  destruct (used_builder w0 _ w2 b s E2 (or_introl eq_refl)) as (x & B).
  destruct (builder_kept w0 _ w2 b x E2 B) as (y & B2 & _ & _ & He & _). specialize (He s eq_refl).
  destruct (builder_kept_all h2 b w2 w1 y E1 B2) as (z & B3 & He2 & _). specialize (He2 N).
  destruct (converted w1 b w E) as (x' & o & B4 & L & LEN & Oe & _). exists o. split; [|congruence].
  rewrite LEN. cbn. rewrite Nat.sub_0_r. exact L.
Qed.
Lemma last_m h b s h2 w : (forall s', ~ In (UseM b s') h2) -> history (h ++ UseM b s :: h2 ++ [Convert b]) = Some w ->
  exists o, nth_error (r_ldas w) (length (r_ldas w) - 1) = Some o /\ rl_m o = s.
Proof.
  intros N E. rewrite app_comm_cons, app_assoc, history_snoc in E. destruct (history (h ++ UseM b s :: h2)) as [w1|] eqn:E1; [|discriminate].
  rewrite history_app in E1. cbn [fold_left] in E1. destruct (history h) as [w0|]; [|rewrite fold_none in E1; discriminate].
  destruct (ract w0 (UseM b s)) as [w2|] eqn:E2; [|rewrite fold_none in E1; discriminate].
  destruct (used_builder w0 _ w2 b s E2 (or_intror eq_refl)) as (x & B).
  destruct (builder_kept w0 _ w2 b x E2 B) as (y & B2 & _ & _ & _ & Hm). specialize (Hm s eq_refl).
  destruct (builder_kept_all h2 b w2 w1 y E1 B2) as (z & B3 & _ & Hm2). specialize (Hm2 N).
  destruct (converted w1 b w E) as (x' & o & B4 & L & LEN & _ & Om). exists o. split; [|congruence].
  rewrite LEN. cbn. rewrite Nat.sub_0_r. exact L.
Qed.
