(** The shared generator deals its numbers out, each once. *)
Require Import List Arith Lia Permutation.
Require Import Verif.PrngModel Verif.PrngSpec.
Import ListNotations.

Section Proofs.
  Variables S A : Type.
  Variable next : S -> A * S.
  Notation stream := (stream next).
  Notation after := (after next).
  Notation shared := (shared S A).

  Lemma upd_same {B} (f : nat -> B) t b : upd f t b t = b.
  Proof. unfold upd. now rewrite Nat.eqb_refl. Qed.
  Lemma upd_other {B} (f : nat -> B) t b u : u <> t -> upd f t b u = f u.
  Proof. intros N. unfold upd. now rewrite (proj2 (Nat.eqb_neq _ _) N). Qed.
  Lemma stream_snoc s n : stream s (n + 1) = stream s n ++ [fst (next (after s n))].
  Proof. revert s. induction n as [|n IH]; intros s; [reflexivity|]. cbn. now rewrite IH. Qed.
  Lemma after_snoc s n : after s (n + 1) = snd (next (after s n)).
  Proof. revert s. induction n as [|n IH]; intros s; [reflexivity|]. cbn. now rewrite IH. Qed.
  Lemma stream_length s n : length (stream s n) = n.
  Proof. revert s. induction n as [|n IH]; intros s; [reflexivity|]. cbn. now rewrite IH. Qed.
  Lemma dealt_snoc who (l : list A) u a t : length who = length l -> dealt (who ++ [u]) (l ++ [a]) t = dealt who l t ++ (if u =? t then [a] else []).
  Proof.
    revert l. induction who as [|v who IH]; intros [|b l] E; try discriminate; [cbn; now destruct (u =? t)|]. cbn. rewrite IH by (cbn in E; lia).
    now destruct (v =? t).
  Qed.
  (** what a thread has been returned or is about to be *)
  Definition taken (g : shared) (t : nat) : list A := results g t ++ match pcs g t with Stored _ a => [a] | _ => [] end.
  Definition left_of (p : pc S A) : nat := match p with Out n => n | Locked n | Loaded n _ => Datatypes.S n | Stored n _ => n end.

  Record linear (s : S) (calls : nat -> nat) (g : shared) (who : list nat) : Prop := {
    lin_engine : engine g = after s (length who);
    lin_taken : forall t, taken g t = dealt who (stream s (length who)) t;
    lin_owner : forall t, inside g t <-> owner g = Some t;
    lin_loaded : forall t n s', pcs g t = Loaded n s' -> s' = engine g;
    lin_calls : forall t, length (taken g t) + left_of (pcs g t) = calls t
  }.
  Lemma linear_start s calls : linear s calls (start s calls) [].
  Proof. constructor; try easy. Qed.
  Lemma linear_step s calls g who t h : linear s calls g who -> draw_step S A next g t h ->
    exists who', linear s calls h who' /\ (who' = who \/ who' = who ++ [t]).
  Proof.
    intros L St. destruct L as [Le Lt Lo Ll Lc]. destruct St as [g t n E Ow|g t n E|g t n s' E|g t n a E].
    - exists who. split; [|now left]. constructor; cbn [engine]; try exact Le; intros u.
      + unfold taken. cbn [pcs results]. destruct (Nat.eq_dec u t) as [->|N]; [rewrite upd_same|rewrite upd_other by exact N; apply Lt].
        rewrite <- Lt. unfold taken. now rewrite E.
      + unfold inside. cbn [pcs owner]. destruct (Nat.eq_dec u t) as [->|N]; [rewrite upd_same; easy|rewrite upd_other by exact N].
        fold (inside g u). rewrite Lo, Ow. split; intros H; [discriminate|congruence].
      + intros m x. cbn [pcs]. destruct (Nat.eq_dec u t) as [->|N]; [rewrite upd_same; discriminate|rewrite upd_other by exact N; apply Ll].
      + unfold taken. cbn [pcs results]. destruct (Nat.eq_dec u t) as [->|N]; [rewrite upd_same|rewrite upd_other by exact N; apply Lc].
        rewrite <- Lc. unfold taken. rewrite E. reflexivity.
    - exists who. split; [|now left]. constructor; cbn [engine]; try exact Le; intros u.
      + unfold taken. cbn [pcs results]. destruct (Nat.eq_dec u t) as [->|N]; [rewrite upd_same|rewrite upd_other by exact N; apply Lt].
        rewrite <- Lt. unfold taken. now rewrite E.
      + unfold inside. cbn [pcs owner]. destruct (Nat.eq_dec u t) as [->|N]; [rewrite upd_same|rewrite upd_other by exact N; apply Lo].
        rewrite <- Lo. unfold inside. now rewrite E.
      + intros m x. cbn [pcs]. destruct (Nat.eq_dec u t) as [->|N]; [rewrite upd_same; congruence|rewrite upd_other by exact N; apply Ll].
      + unfold taken. cbn [pcs results]. destruct (Nat.eq_dec u t) as [->|N]; [rewrite upd_same|rewrite upd_other by exact N; apply Lc].
        rewrite <- Lc. unfold taken. rewrite E. reflexivity.
    - exists (who ++ [t]). split; [|now right]. pose proof (Ll t n s' E) as ->. rewrite Le. 
      assert (I : owner g = Some t) by (apply Lo; unfold inside; now rewrite E).
      constructor; cbn [engine]; try rewrite app_length; cbn [length]; try intros u.
      + now rewrite after_snoc.
      + rewrite stream_snoc, dealt_snoc by (now rewrite stream_length). rewrite <- Lt. unfold taken. cbn [pcs results]. destruct (Nat.eqb_spec t u) as [->|N].
        * rewrite upd_same, E. now rewrite app_nil_r.
        * rewrite upd_other by auto. now rewrite app_nil_r.
      + unfold inside. cbn [pcs owner]. destruct (Nat.eq_dec u t) as [->|N]; [rewrite upd_same; easy|rewrite upd_other by exact N; apply Lo].
      + intros m x. cbn [pcs]. destruct (Nat.eq_dec u t) as [->|N]; [rewrite upd_same; discriminate|rewrite upd_other by exact N]. intros Eu.
        elim N. assert (inside g u) as Iu by (unfold inside; now rewrite Eu). apply Lo in Iu. congruence.
      + unfold taken. cbn [pcs results]. destruct (Nat.eq_dec u t) as [->|N]; [rewrite upd_same|rewrite upd_other by exact N; apply Lc].
        rewrite <- Lc. unfold taken. rewrite E. rewrite !app_length. cbn. lia.
    - exists who. split; [|now left]. assert (I : owner g = Some t) by (apply Lo; unfold inside; now rewrite E).
      constructor; cbn [engine]; try exact Le; intros u.
      + unfold taken. cbn [pcs results]. destruct (Nat.eq_dec u t) as [->|N]; [rewrite !upd_same|rewrite !upd_other by exact N; apply Lt].
        rewrite <- Lt. unfold taken. rewrite E. apply app_nil_r.
      + unfold inside. cbn [pcs owner]. destruct (Nat.eq_dec u t) as [->|N]; [rewrite upd_same; easy|rewrite upd_other by exact N].
        fold (inside g u). rewrite Lo, I. split; intros H; [congruence|discriminate].
      + intros m x. cbn [pcs]. destruct (Nat.eq_dec u t) as [->|N]; [rewrite upd_same; discriminate|rewrite upd_other by exact N; apply Ll].
      + unfold taken. cbn [pcs results]. destruct (Nat.eq_dec u t) as [->|N]; [rewrite !upd_same|rewrite !upd_other by exact N; apply Lc].
        rewrite <- Lc. unfold taken. rewrite E. rewrite !app_length. cbn. lia.
  Qed.
  Lemma linear_draws k s calls g : draws S A next k (start s calls) g -> exists who, linear s calls g who.
  Proof.
    intros D. remember (start s calls) as g0 eqn:E. induction D as [g|n g h k t D IH St]; subst; [exists []; apply linear_start|].
    destruct (IH eq_refl) as (who & L). destruct (linear_step _ _ _ _ _ _ L St) as (who' & L' & _). now exists who'.
  Qed.

  (** ** What users see *)
  Lemma dealt_out k s calls g : draws S A next k (start s calls) g -> (forall t, ~ inside g t) -> exists who,
    engine g = after s (length who) /\ forall t, results g t = dealt who (stream s (length who)) t.
  Proof.
    intros D Q. destruct (linear_draws _ _ _ _ D) as (who & L). exists who. split; [apply L|]. intros t. rewrite <- (lin_taken _ _ _ _ L).
    unfold taken. specialize (Q t). unfold inside in Q. destruct (pcs g t); try easy. now rewrite app_nil_r.
  Qed.
  Lemma dealt_not_in who (l : list A) t : ~ In t who -> dealt who l t = [].
  Proof. revert l. induction who as [|u who IH]; intros [|a l] N; try reflexivity. cbn. destruct (Nat.eqb_spec u t) as [->|]; [elim N; now left|]. apply IH. intros H. apply N. now right. Qed.
  Lemma concat_cons_at {B} (f g : nat -> list B) n u a : u < n -> (forall t, t <> u -> f t = g t) -> f u = a :: g u ->
    Permutation (concat (map f (seq 0 n))) (a :: concat (map g (seq 0 n))).
  Proof.
    intros Hu N E. assert (G : forall m k, m <= u < m + k -> Permutation (concat (map f (seq m k))) (a :: concat (map g (seq m k)))).
    { intros m k. revert m. induction k as [|k IH]; intros m H; [lia|]. cbn [seq map concat]. destruct (Nat.eq_dec m u) as [->|M].
      - rewrite E. cbn [app]. apply perm_skip. apply Permutation_app_head. rewrite (map_ext_in f g); [reflexivity|]. intros v Hv. apply in_seq in Hv. apply N. lia.
      - rewrite N by exact M. rewrite (IH (Datatypes.S m)) by lia. symmetry. apply Permutation_middle. }
    apply G. lia.
  Qed.
  Lemma dealt_all who (l : list A) n : length who = length l -> (forall t, In t who -> t < n) ->
    Permutation (concat (map (dealt who l) (seq 0 n))) l.
  Proof.
    revert l. induction who as [|u who IH]; intros [|a l] E H; try discriminate.
    - clear. generalize 0. induction n as [|n IH]; intros m; [reflexivity|apply IH].
    - rewrite (concat_cons_at _ (dealt who l) n u a).
      + apply perm_skip. apply IH; [cbn in E; lia|]. intros t Ht. apply H. now right.
      + apply H. now left.
      + intros t Ht. cbn. now rewrite (proj2 (Nat.eqb_neq _ _) (not_eq_sym Ht)).
      + cbn. now rewrite Nat.eqb_refl.
  Qed.
  Lemma dealt_length who (l : list A) n : length who = length l -> (forall t, In t who -> t < n) -> list_sum (map (fun t => length (dealt who l t)) (seq 0 n)) = length l.
  Proof.
    intros E H. rewrite <- (Permutation_length (dealt_all who l n E H)). generalize (seq 0 n) as ts. induction ts as [|t ts IH]; [reflexivity|].
    cbn [map concat list_sum fold_right]. rewrite app_length. unfold list_sum in IH. cbn [list_sum fold_right]. now rewrite <- IH.
  Qed.
  Lemma dealt_in who (l : list A) t : length who = length l -> In t who -> dealt who l t <> [].
  Proof.
    revert l. induction who as [|u who IH]; intros [|a l] E H; try discriminate; [destruct H|]. cbn. destruct (Nat.eqb_spec u t) as [|N]; [discriminate|].
    apply IH; [cbn in E; lia|]. now destruct H.
  Qed.
  (** After all calls: together, the threads have the first numbers of the stream, each exactly once, and the engine is where one thread's calls would have left it. *)
  Lemma each_once k s calls n g : (forall t, n <= t -> calls t = 0) -> draws S A next k (start s calls) g -> (forall t, done g t) ->
    let total := list_sum (map calls (seq 0 n)) in
    Permutation (concat (map (results g) (seq 0 n))) (stream s total) /\ (forall t, length (results g t) = calls t) /\ engine g = after s total.
  Proof.
    intros Hn D Q. destruct (linear_draws _ _ _ _ D) as (who & L).
    assert (R : forall t, results g t = dealt who (stream s (length who)) t).
    { intros t. rewrite <- (lin_taken _ _ _ _ L). unfold taken. rewrite (Q t). now rewrite app_nil_r. }
    assert (C : forall t, length (results g t) = calls t).
    { intros t. pose proof (lin_calls _ _ _ _ L t) as C. unfold taken in C. rewrite (Q t) in C. cbn in C. rewrite app_nil_r in C. lia. }
    assert (SL : length who = length (stream s (length who))) by (now rewrite stream_length).
    assert (W : forall t, In t who -> t < n).
    { intros t Ht. destruct (le_lt_dec n t) as [H|H]; [|exact H]. exfalso. apply (dealt_in who (stream s (length who)) t SL Ht).
      rewrite <- R. apply length_zero_iff_nil. rewrite C. now apply Hn. }
    assert (T : list_sum (map calls (seq 0 n)) = length who).
    { rewrite <- (stream_length s (length who)) at 1. rewrite <- (dealt_length who _ n SL W). f_equal. apply map_ext. intros t. now rewrite <- R, C. }
    cbv zeta. rewrite T. split; [|split; [exact C|apply L]]. rewrite (map_ext _ _ R). now apply dealt_all.
  Qed.
  Lemma exclusive k s calls g t u : draws S A next k (start s calls) g -> inside g t -> inside g u -> t = u.
  Proof. intros D It Iu. destruct (linear_draws _ _ _ _ D) as (who & L). apply (lin_owner _ _ _ _ L) in It, Iu. congruence. Qed.
  (** Nobody waits forever: while a thread has a call to finish, some thread can go on ... *)
  Lemma progress k s calls g t : draws S A next k (start s calls) g -> ~ done g t -> exists u h, draw_step S A next g u h.
  Proof.
    intros D N. destruct (linear_draws _ _ _ _ D) as (who & L).
    assert (In : forall u, inside g u -> exists u h, draw_step S A next g u h).
    { intros u Iu. unfold inside in Iu. destruct (pcs g u) eqn:E; [easy| | |]; exists u; eexists.
      - eapply draw_load; eassumption.
      - eapply draw_store; eassumption.
      - eapply draw_return; eassumption. }
    destruct (pcs g t) as [[|n]|n|n s'|n a] eqn:E; [now elim N| | | |].
    2-4: apply (In t); unfold inside; now rewrite E.
    destruct (owner g) as [u|] eqn:Ow; [|exists t; eexists; eapply draw_lock; eassumption].
    apply (In u). now apply (lin_owner _ _ _ _ L).
  Qed.
  (** ... and only finitely many steps are left. *)
  Definition work_of (p : pc S A) : nat := match p with Out n => 4 * n | Locked n => 4 * n + 3 | Loaded n _ => 4 * n + 2 | Stored n _ => 4 * n + 1 end.
  Lemma step_work g t h : draw_step S A next g t h -> Datatypes.S (work_of (pcs h t)) = work_of (pcs g t) /\ forall u, u <> t -> pcs h u = pcs g u.
  Proof.
    intros St. destruct St as [g t n E Ow|g t n E|g t n s' E|g t n a E]; cbn [pcs]; rewrite upd_same, E; (split; [cbn; lia|intros u N; now apply upd_other]).
  Qed.
  Definition work (g : shared) (n : nat) : nat := list_sum (map (fun t => work_of (pcs g t)) (seq 0 n)).
  Lemma work_step g t h n : t < n -> draw_step S A next g t h -> Datatypes.S (work h n) = work g n.
  Proof.
    intros Ht St. destruct (step_work g t h St) as [E O]. unfold work, list_sum.
    assert (G : forall m k, m <= t < m + k -> Datatypes.S (fold_right Nat.add 0 (map (fun t => work_of (pcs h t)) (seq m k))) = fold_right Nat.add 0 (map (fun t => work_of (pcs g t)) (seq m k))).
    { intros m k. revert m. induction k as [|k IH]; intros m H; [lia|]. cbn [seq map fold_right]. destruct (Nat.eq_dec m t) as [->|M].
      - rewrite <- E. cbn [Nat.add]. f_equal. f_equal. f_equal. apply map_ext_in. intros u Hu. apply in_seq in Hu. now rewrite O by lia.
      - rewrite O by exact M. rewrite <- (IH (Datatypes.S m)) by lia. lia. }
    apply G. lia.
  Qed.
  Lemma finite k s calls n g : (forall t, n <= t -> calls t = 0) -> draws S A next k (start s calls) g ->
    k + work g n = 4 * list_sum (map calls (seq 0 n)).
  Proof.
    intros Hn D. assert (forall t, n <= t -> pcs g t = Out 0 /\ k + work g n = 4 * list_sum (map calls (seq 0 n))) as H.
    2: { destruct (H n (le_n n)) as [_ E]. exact E. }
    remember (start s calls) as g0 eqn:E. induction D as [g|k g h f u D IH St]; subst; intros t Ht.
    - cbn [start pcs]. rewrite Hn by exact Ht. split; [reflexivity|]. unfold work, list_sum. cbn [pcs start Nat.add].
      assert (G : forall k m, fold_right Nat.add 0 (map (fun t => work_of (Out (calls t))) (seq m k)) = 4 * fold_right Nat.add 0 (map calls (seq m k))).
      { clear. induction k as [|k IH]; intros m; [reflexivity|]. cbn [seq map fold_right]. rewrite IH. cbn [work_of]. lia. }
      apply G.
    - specialize (IH eq_refl). assert (U : u < n).
      { destruct (le_lt_dec n u) as [H|H]; [|exact H]. destruct (IH u H) as [Eu _]. destruct (step_work h u f St) as [Wu _]. rewrite Eu in Wu. cbn in Wu. lia. }
      destruct (IH t Ht) as [Et W]. destruct (step_work h u f St) as [_ O]. split; [rewrite O by lia; exact Et|]. pose proof (work_step h u f n U St). lia.
  Qed.
End Proofs.
