(** Concrete inputs for the theorems on the updates of the supervised E steps. *)
Require Import Reals ZArith List Arith Bool Lia Lra.
Require Import Verif.Base Verif.Scalar Verif.Mat Verif.RealLemmas Verif.UtilsModel Verif.UtilsSpec Verif.UtilsProofs Verif.DigammaProofs.
Require Import Verif.BuilderModel Verif.EStepModel Verif.EStepSpec Verif.EStepReal Verif.EStepElbo Verif.EStepSlda Verif.UpdateSpec Verif.UpdateProofs Verif.UpdateSlda.
Import ListNotations.
Open Scope R_scope.

Lemma bounded_above n (f : nat -> R) : exists b, forall i, (i < n)%nat -> f i <= b.
Proof.
  induction n as [|n [b IH]]; [exists 0; lia|]. exists (Rmax b (f n)). intros i Hi. destruct (Nat.eq_dec i n) as [->|N]; [apply Rmax_r|].
  apply Rle_trans with b; [apply IH; lia|apply Rmax_l].
Qed.
Lemma bounded_above2 n k (f : nat -> nat -> R) : exists b, forall i j, (i < n)%nat -> (j < k)%nat -> f i j <= b.
Proof.
  induction n as [|n [b IH]]; [exists 0; lia|]. destruct (bounded_above k (f n)) as [c Hc]. exists (Rmax b c). intros i j Hi Hj. destruct (Nat.eq_dec i n) as [->|N].
  - apply Rle_trans with c; [now apply Hc|apply Rmax_r].
  - apply Rle_trans with b; [apply IH; lia|apply Rmax_l].
Qed.
Lemma bounded_below n (f : nat -> R) : (forall i, (i < n)%nat -> 0 < f i) -> exists b, 0 < b /\ forall i, (i < n)%nat -> b <= f i.
Proof.
  induction n as [|n IH]; intros P; [exists 1; split; [lra|lia]|]. destruct IH as (b & B & IH); [intros i Hi; apply P; lia|].
  exists (Rmin b (f n)). split; [apply Rmin_glb_lt; [exact B|apply P; lia]|]. intros i Hi. destruct (Nat.eq_dec i n) as [->|N]; [apply Rmin_r|].
  apply Rle_trans with b; [apply Rmin_l|apply IH; lia].
Qed.

(** A model whose eta has the distributions over words of two classes, as the multinomial E steps need. *)
Definition generative_model : params R :=
  mk_params [1; 1] (mk_mat 2 [[1/2; 1/3]; [1/2; 2/3]]) (mk_mat 2 [[1/4; 1/2]; [3/4; 1/2]]).

Section Cases.
  Variable lg : R -> R.
  Local Hint Extern 0 (ops _) => exact (Rops lg) : typeclass_instances.
  Notation fexp := (fexp lg).
  Notation dig := (dig lg).
  Lemma generative_input X : length X = 2%nat -> (forall x, In x X -> (0 <= x)%Z) -> (Zsum X < 2 ^ 31)%Z -> proper_input X generative_model.
  Proof.
    intros L P S. constructor; cbn; try lia; auto.
    - intros [|[|i]] Hi; [| |lia]; unfold vget; cbn; lra.
    - intros [|[|i]] [|[|n]] Hi Hn; try lia; unfold mget; cbn; lra.
  Qed.
  (** phi in the middle of a pass over the words of a document that has each of its two words once *)
  Definition once_phi : mat R := mk_mat 2 [[1/4; 3/4]; [1/2; 1/2]].
  Definition once_state : slda R :=
    mk_slda once_phi [7/4; 9/4] (vtab 2 (fun c => rprod 2 (word_factor fexp [1; 1]%Z 2 (p_eta generative_model) once_phi c))) [dig (7/4); dig (9/4)] None.
  Lemma once_supported n : (n < 2)%nat -> supported (p_beta generative_model) n.
  Proof. intros Hn. exists 0%nat. split; [cbn; lia|]. destruct n as [|[|n]]; unfold mget, vget; cbn; lra || lia. Qed.
  Lemma once_consistent : consistent fexp [1; 1]%Z 2 generative_model once_state.
  Proof.
    constructor; try reflexivity; change (mrows (p_beta generative_model)) with 2%nat; change (ncols (p_beta generative_model)) with 2%nat; change (ncols (p_eta generative_model)) with 2%nat.
    - intros n Hn. rewrite rsum2'. split; [intros i Hi; destruct n as [|[|n]], i as [|[|i]]; try lia; unfold mget, vget; cbn; lra|].
      destruct n as [|[|n]]; try lia; unfold mget, vget; cbn; lra.
    - intros i Hi. rewrite rsum2'. destruct i as [|[|i]]; [| |lia]; unfold mget, vget; cbn; lra.
    - intros c Hc. unfold once_state, s_products. rewrite vget_tab by exact Hc. reflexivity.
  Qed.
  Lemma once_psi : psi_of 7 (s_gamma once_state) = Ok (s_psi once_state).
  Proof. apply (psi_of_R lg 7 (le_n 7)). intros x [<-|[<-|[]]]; lra. Qed.
  Lemma once_competitor : competitor [1; 1]%Z (p_beta generative_model) once_phi.
  Proof.
    intros n Hn _. change (ncols (p_beta generative_model)) with 2%nat in Hn. change (mrows (p_beta generative_model)) with 2%nat. rewrite rsum2'.
    split; [destruct n as [|[|n]]; try lia; unfold mget, vget; cbn; lra|].
    intros i Hi; destruct n as [|[|n]], i as [|[|i]]; try lia; unfold mget, vget; cbn; lra.
  Qed.
  Lemma eps_exists (K : nat) (a h : nat -> R) : (forall i, (i < K)%nat -> 0 < h i) ->
    exists eps, forall i q, (i < K)%nat -> distribution K q -> Rmax 1 (Rabs (a i - h i / rsum K (fun k => h k * vget q k))) / 1023 + 3 / 10 ^ 9 <= eps.
  Proof.
    intros P. destruct (bounded_below K h P) as (b & B & Hb). destruct (bounded_above K (fun i => Rabs (a i))) as [ca Ha]. destruct (bounded_above K h) as [ch Hh].
    exists (Rmax 1 (ca + ch / b) / 1023 + 3 / 10 ^ 9). intros i q Hi (_ & Q0 & Q1). apply Rplus_le_compat_r. apply Rmult_le_compat_r; [lra|].
    apply Rle_max_compat_l. eapply Rle_trans; [apply Rabs_triang|]. apply Rplus_le_compat; [now apply Ha|]. rewrite Rabs_Ropp.
    assert (D : b <= rsum K (fun k => h k * vget q k)).
    { rewrite <- (Rmult_1_r b), <- Q1, <- rsum_mult_l. apply rsum_le. intros k Hk. apply Rmult_le_compat_r; [now apply Q0|now apply Hb]. }
    pose proof (P i Hi). rewrite Rabs_pos_eq; [|apply Rmult_le_pos; [lra|left; apply Rinv_0_lt_compat; lra]].
    unfold Rdiv. apply Rmult_le_compat; [lra|left; apply Rinv_0_lt_compat; lra|now apply Hh|]. apply Rinv_le_contravar; lra.
  Qed.
  Lemma once_h n i : (n < 2)%nat -> (i < 2)%nat -> 0 < documented_h fexp [1; 1]%Z 2 (p_eta generative_model) once_phi n i.
  Proof.
    intros Hn Hi. unfold documented_h. change (ncols (p_eta generative_model)) with 2%nat. change (ncols once_phi) with 2%nat.
    assert (F : forall c l, (l < 2)%nat -> 0 < word_factor fexp [1; 1]%Z 2 (p_eta generative_model) once_phi c l).
    { intros c l Hl. unfold word_factor. change (mrows once_phi) with 2%nat. rewrite rsum2'. apply Rplus_lt_0_compat; apply Rmult_lt_0_compat; try apply (fexp_pos lg);
        destruct l as [|[|l]]; try lia; unfold mget, vget; cbn; lra. }
    rewrite rsum2'. unfold rprod. cbn [vtab seq map fold_right].
    apply Rplus_lt_0_compat; (apply Rmult_lt_0_compat; [|apply (fexp_pos lg)]); repeat apply Rmult_lt_0_compat; try lra; destruct (Nat.eqb _ _); try lra; apply F; lia.
  Qed.
End Cases.
