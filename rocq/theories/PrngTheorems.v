(** Property theorem C71: random numbers. *)
Require Import Reals ZArith List Arith Lia Lra Permutation.
Require Import Verif.Base Verif.Scalar Verif.Mat Verif.UtilsModel Verif.BuilderModel Verif.EStepModel.
Require Import Verif.PrngModel Verif.PrngSpec Verif.PrngProofs Verif.PrngCoin.
Import ListNotations.
Local Open Scope nat_scope.

(** ** C71: threads that draw from one generator, under every schedule *)
(** When all calls have returned, the threads together have the first numbers of the generator's stream, each exactly once. *)
Theorem C71_each_once : forall (S A : Type) (next : S -> A * S) (s : S) (calls : nat -> nat) (threads k : nat) (g : shared S A),
  (forall t, threads <= t -> calls t = 0) -> draws S A next k (start s calls) g -> (forall t, done g t) ->
  let total := list_sum (map calls (seq 0 threads)) in
  Permutation (concat (map (results g) (seq 0 threads))) (stream next s total) /\
  (forall t, length (results g t) = calls t) /\ engine g = after next s total.
Proof. exact (fun S A next s calls threads k g => each_once S A next k s calls threads g). Qed.
(** Whenever no thread is in a call: the calls took effect one after the other, in some order [who]. *)
Theorem C71_serial : forall (S A : Type) (next : S -> A * S) (s : S) (calls : nat -> nat) (k : nat) (g : shared S A),
  draws S A next k (start s calls) g -> (forall t, ~ inside g t) ->
  exists who, engine g = after next s (length who) /\ forall t, results g t = dealt who (stream next s (length who)) t.
Proof. exact (fun S A next s calls k g => dealt_out S A next k s calls g). Qed.
(** No two threads use the engine at the same time; nobody waits forever. *)
Theorem C71_exclusive : forall (S A : Type) (next : S -> A * S) (s : S) (calls : nat -> nat) (k : nat) (g : shared S A) (t u : nat),
  draws S A next k (start s calls) g -> inside g t -> inside g u -> t = u.
Proof. exact (fun S A next s calls k g t u => exclusive S A next k s calls g t u). Qed.
Theorem C71_progress : forall (S A : Type) (next : S -> A * S) (s : S) (calls : nat -> nat) (threads k : nat) (g : shared S A) (t : nat),
  (forall t, threads <= t -> calls t = 0) -> draws S A next k (start s calls) g ->
  k <= 4 * list_sum (map calls (seq 0 threads)) /\ (~ done g t -> exists u h, draw_step S A next g u h).
Proof.
  exact (fun S A next s calls threads k g t Hn D =>
    conj (Nat.le_trans _ _ _ (Nat.le_add_r k _) (Nat.eq_le_incl _ _ (finite S A next k s calls threads g Hn D))) (progress S A next k s calls g t D)).
Qed.

(** ** The likelihood is sampled: with probability 0 none is reported, with probability 1 each one is; the posterior does not depend on it.
    [sampled] is about any number [u] in [0, 1) that the coin's distribution can draw. *)
Theorem C71_likelihood : forall (lg : R -> R) (dfuel fpi : nat) (cf : econf R) (mu w : R) (d : doc R) (m : params R), let O := Rops lg in
  let p := e_compute_likelihood cf in
  sampled lg p (fun emit => unsupervised_doc_e_step dfuel cf emit d m) /\
  sampled lg p (fun emit => supervised_doc_e_step dfuel cf fpi emit d m) /\
  sampled lg p (fun emit => fast_supervised_doc_e_step dfuel cf w emit d m) /\
  sampled lg p (fun emit => multinomial_doc_e_step dfuel cf mu w emit d m) /\
  sampled lg p (fun emit => correspondence_doc_e_step dfuel cf mu emit d m).
Proof.
  exact (fun lg dfuel fpi cf mu w d m =>
    conj (reports_sampled lg _ _ (@unsupervised_reports R (Rops lg) dfuel cf d m))
   (conj (reports_sampled lg _ _ (@slda_reports R (Rops lg) dfuel cf fpi d m))
   (conj (reports_sampled lg _ _ (@fast_reports R (Rops lg) dfuel cf w d m))
   (conj (reports_sampled lg _ _ (@multinomial_reports R (Rops lg) dfuel cf mu w d m))
         (reports_sampled lg _ _ (@correspondence_reports R (Rops lg) dfuel cf mu d m)))))).
Qed.

(** Two threads with two calls each; the second thread draws between the first one's. *)
Example C71_case : let next := fun s : nat => (s * s, s + 1) in let calls := fun t => if t <? 2 then 2 else 0 in
  (forall t, 2 <= t -> calls t = 0) /\
  exists g, draws nat nat next 16 (start 3 calls) g /\ (forall t, done g t) /\ results g 0 = [9; 36] /\ results g 1 = [16; 25].
Proof.
  intros next calls. split; [intros t Ht; unfold calls; now rewrite (proj2 (Nat.ltb_ge _ _) Ht)|].
  assert (R : forall t k g n, draws nat nat next k (start 3 calls) g -> pcs g t = Out (S n) -> owner g = None ->
    draws nat nat next (4 + k) (start 3 calls)
      (mk_shared (snd (next (engine g))) None (upd (upd (upd (upd (pcs g) t (Locked n)) t (Loaded n (engine g))) t (Stored n (fst (next (engine g))))) t (Out n))
         (upd (results g) t (results g t ++ [fst (next (engine g))])))).
  { intros t k g n D E Ow. pose proof (draws_step _ _ _ _ _ _ _ t D (draw_lock _ _ next g t n E Ow)) as D1.
    refine (draws_step _ _ _ _ _ _ _ t (draws_step _ _ _ _ _ _ _ t (draws_step _ _ _ _ _ _ _ t D1 (draw_load _ _ next _ t n _)) (draw_store _ _ next _ t n _ _)) (draw_return _ _ next _ t n _ _));
      apply (upd_same (B := pc nat nat)). }
  pose proof (R 0 0 _ 1 (draws_refl _ _ _ _) eq_refl eq_refl) as D1. pose proof (R 1 4 _ 1 D1 eq_refl eq_refl) as D2.
  pose proof (R 1 8 _ 0 D2 eq_refl eq_refl) as D3. pose proof (R 0 12 _ 0 D3 eq_refl eq_refl) as D4.
  eexists. split; [exact D4|]. split; [intros [|[|t]]; reflexivity|split; reflexivity].
Qed.

Print Assumptions C71_each_once.
Print Assumptions C71_serial.
Print Assumptions C71_exclusive.
Print Assumptions C71_progress.
Print Assumptions C71_likelihood.
