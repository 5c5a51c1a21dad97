(** Eigen vectors and matrices over a scalar type, and finite sums of reals. *)
Require Import Reals List Arith Lia Lra Permutation.
Require Import Verif.Scalar.
Import ListNotations.

(** Tabulation: the vector of the values [f 0 .. f (n-1)]. *)
Definition vtab {A} (n : nat) (f : nat -> A) : list A := map f (seq 0 n).

Lemma vtab_length {A} n (f : nat -> A) : length (vtab n f) = n.
Proof. unfold vtab. now rewrite map_length, seq_length. Qed.
Lemma vtab_nth {A} n (f : nat -> A) i d : i < n -> nth i (vtab n f) d = f i.
Proof.
  intros H. unfold vtab. rewrite (nth_indep _ d (f 0)) by (now rewrite map_length, seq_length).
  now rewrite map_nth, seq_nth.
Qed.
Lemma vtab_ext {A} n (f g : nat -> A) : (forall i, i < n -> f i = g i) -> vtab n f = vtab n g.
Proof. intros H. apply map_ext_in. intros i Hi. apply in_seq in Hi. apply H. lia. Qed.
Lemma vtab_S {A} n (f : nat -> A) : vtab (S n) f = f 0 :: vtab n (fun i => f (S i)).
Proof. unfold vtab. cbn. f_equal. rewrite <- seq_shift, map_map. reflexivity. Qed.
Lemma vtab_snoc {A} n (f : nat -> A) : vtab (S n) f = vtab n f ++ [f n].
Proof. unfold vtab. rewrite seq_S, map_app. reflexivity. Qed.
Lemma vtab_eta {A} (l : list A) d : vtab (length l) (fun i => nth i l d) = l.
Proof.
  induction l as [|x l IH]; [reflexivity|]. cbn [length]. rewrite vtab_S. cbn [nth]. now rewrite IH.
Qed.
Lemma vtab_map {A B} (g : A -> B) n f : map g (vtab n f) = vtab n (fun i => g (f i)).
Proof. unfold vtab. apply map_map. Qed.

(** A matrix: number of rows and list of columns (Eigen's default is column-major). *)
Record mat (T : Type) := mk_mat { mrows : nat; mcols : list (list T) }.
Arguments mk_mat {T}. Arguments mrows {T}. Arguments mcols {T}.
Definition ncols {T} (m : mat T) : nat := length (mcols m).
Definition mtab {T} (r c : nat) (f : nat -> nat -> T) : mat T :=
  mk_mat r (vtab c (fun j => vtab r (fun i => f i j))).

Section Access.
  Context {T : Type} {O : ops T}.
  (** Coefficient access.  Accesses outside the vector or matrix are undefined in C++; the
      model functions test the dimensions first where they can be wrong. *)
  Definition vget (v : list T) (i : nat) : T := nth i v zero.
  Definition mget (m : mat T) (i j : nat) : T := nth i (nth j (mcols m) []) zero.
  Definition mcol (m : mat T) (j : nat) : list T := vtab (mrows m) (fun i => mget m i j).
  Definition mrow (m : mat T) (i : nat) : list T := vtab (ncols m) (fun j => mget m i j).

  Lemma vget_tab n (f : nat -> T) i : i < n -> vget (vtab n f) i = f i.
  Proof. apply vtab_nth. Qed.
  Lemma mget_tab r c f i j : i < r -> j < c -> mget (mtab r c f) i j = f i j.
  Proof. intros Hi Hj. unfold mget, mtab. cbn [mcols]. rewrite (vtab_nth c (fun j => vtab r (fun i => f i j)) j) by assumption. now apply (vtab_nth r (fun i => f i j)). Qed.
  Lemma mcol_tab r c f j : j < c -> mcol (mtab r c f) j = vtab r (fun i => f i j).
  Proof. intros Hj. apply vtab_ext. intros i Hi. now apply mget_tab. Qed.
  Lemma mrow_tab r c f i : i < r -> mrow (mtab r c f) i = vtab c (fun j => f i j).
  Proof. intros Hi. unfold mrow, ncols. cbn [mcols mtab]. rewrite vtab_length. apply vtab_ext. intros j Hj. now apply mget_tab. Qed.
End Access.
Lemma mrows_tab {T} r c (f : nat -> nat -> T) : mrows (mtab r c f) = r.
Proof. reflexivity. Qed.
Lemma ncols_tab {T} r c (f : nat -> nat -> T) : ncols (mtab r c f) = c.
Proof. unfold ncols. cbn. apply vtab_length. Qed.
Lemma mtab_ext {T} r c (f g : nat -> nat -> T) :
  (forall i j, i < r -> j < c -> f i j = g i j) -> mtab r c f = mtab r c g.
Proof.
  intros H. unfold mtab. f_equal. apply vtab_ext. intros j Hj. apply vtab_ext. intros i Hi. now apply H.
Qed.

(** ** Finite sums *)
Open Scope R_scope.
Lemma Rabs_le_inv x y : Rabs x <= y -> - y <= x <= y.
Proof. unfold Rabs. destruct (Rcase_abs x); lra. Qed.
Definition lsum (l : list R) : R := fold_right Rplus 0 l.
(** f 0 + ... + f (n-1) *)
Definition rsum (n : nat) (f : nat -> R) : R := lsum (vtab n f).

Lemma lsum_app a b : lsum (a ++ b) = lsum a + lsum b.
Proof. unfold lsum. induction a as [|x a IH]; cbn; [lra|]. rewrite IH. lra. Qed.
Lemma lsum_perm a b : Permutation a b -> lsum a = lsum b.
Proof.
  unfold lsum. induction 1 as [|x a b _ IH|x y a|a b c _ IH1 _ IH2]; cbn in *; lra.
Qed.
Lemma rsum_0 f : rsum 0 f = 0.
Proof. reflexivity. Qed.
Lemma rsum_S n f : rsum (S n) f = rsum n f + f n.
Proof. unfold rsum. rewrite vtab_snoc, lsum_app. cbn. lra. Qed.
Lemma rsum_S_l n f : rsum (S n) f = f O + rsum n (fun i => f (S i)).
Proof. unfold rsum. rewrite vtab_S. reflexivity. Qed.
Lemma rsum_ext n f g : (forall i, (i < n)%nat -> f i = g i) -> rsum n f = rsum n g.
Proof. intros H. unfold rsum. f_equal. now apply vtab_ext. Qed.
Lemma rsum_const n c : rsum n (fun _ => c) = INR n * c.
Proof. induction n as [|n IH]; [cbn; lra|]. rewrite rsum_S, IH, S_INR. lra. Qed.
Lemma rsum_zero n f : (forall i, (i < n)%nat -> f i = 0) -> rsum n f = 0.
Proof. intros H. rewrite (rsum_ext n f (fun _ => 0)) by exact H. rewrite rsum_const. lra. Qed.
Lemma rsum_plus n f g : rsum n (fun i => f i + g i) = rsum n f + rsum n g.
Proof. induction n as [|n IH]; [cbn; lra|]. rewrite !rsum_S, IH. lra. Qed.
Lemma rsum_minus n f g : rsum n (fun i => f i - g i) = rsum n f - rsum n g.
Proof. induction n as [|n IH]; [cbn; lra|]. rewrite !rsum_S, IH. lra. Qed.
Lemma rsum_opp n f : rsum n (fun i => - f i) = - rsum n f.
Proof. induction n as [|n IH]; [cbn; lra|]. rewrite !rsum_S, IH. lra. Qed.
Lemma rsum_mult_l n c f : rsum n (fun i => c * f i) = c * rsum n f.
Proof. induction n as [|n IH]; [cbn; lra|]. rewrite !rsum_S, IH. lra. Qed.
Lemma rsum_mult_r n c f : rsum n (fun i => f i * c) = rsum n f * c.
Proof. induction n as [|n IH]; [cbn; lra|]. rewrite !rsum_S, IH. lra. Qed.
Lemma rsum_div n c f : rsum n (fun i => f i / c) = rsum n f / c.
Proof. unfold Rdiv. apply rsum_mult_r. Qed.
Lemma rsum_le n f g : (forall i, (i < n)%nat -> f i <= g i) -> rsum n f <= rsum n g.
Proof.
  induction n as [|n IH]; intros H; [cbn; lra|]. rewrite !rsum_S.
  assert (f n <= g n) by (apply H; lia). assert (rsum n f <= rsum n g) by (apply IH; intros; apply H; lia). lra.
Qed.
Lemma rsum_nonneg n f : (forall i, (i < n)%nat -> 0 <= f i) -> 0 <= rsum n f.
Proof. intros H. rewrite <- (rsum_zero n (fun _ => 0)) by auto. now apply rsum_le. Qed.
Lemma rsum_le_term n f i : (forall j, (j < n)%nat -> 0 <= f j) -> (i < n)%nat -> f i <= rsum n f.
Proof.
  induction n as [|n IH]; intros H Hi; [lia|]. rewrite rsum_S.
  assert (0 <= f n) by (apply H; lia).
  assert (0 <= rsum n f) by (apply rsum_nonneg; intros; apply H; lia).
  destruct (Nat.eq_dec i n) as [->|N]; [lra|].
  assert (f i <= rsum n f) by (apply IH; [intros; apply H; lia|lia]). lra.
Qed.
Lemma rsum_pos n f i : (forall j, (j < n)%nat -> 0 <= f j) -> (i < n)%nat -> 0 < f i -> 0 < rsum n f.
Proof. intros H Hi Hp. pose proof (rsum_le_term n f i H Hi). lra. Qed.
Lemma rsum_pos_all n f : (0 < n)%nat -> (forall j, (j < n)%nat -> 0 < f j) -> 0 < rsum n f.
Proof. intros Hn H. apply (rsum_pos n f 0); [intros; left; auto|assumption|auto]. Qed.
Lemma rsum_zero_inv n f : (forall j, (j < n)%nat -> 0 <= f j) -> rsum n f = 0 -> forall i, (i < n)%nat -> f i = 0.
Proof. intros H E i Hi. pose proof (rsum_le_term n f i H Hi). pose proof (H i Hi). lra. Qed.
Lemma rsum_swap n m f : rsum n (fun i => rsum m (fun j => f i j)) = rsum m (fun j => rsum n (fun i => f i j)).
Proof.
  induction n as [|n IH].
  - rewrite rsum_0. symmetry. apply rsum_zero. reflexivity.
  - rewrite rsum_S, IH, <- rsum_plus. apply rsum_ext. intros j _. now rewrite rsum_S.
Qed.
Lemma rsum_single n k f : (k < n)%nat -> (forall i, (i < n)%nat -> i <> k -> f i = 0) -> rsum n f = f k.
Proof.
  induction n as [|n IH]; intros Hk H; [lia|]. rewrite rsum_S.
  destruct (Nat.eq_dec k n) as [->|N].
  - rewrite (rsum_zero n f); [lra|]. intros i Hi. apply H; lia.
  - rewrite IH, (H n); [lra|lia|lia|lia|]. intros i Hi Hne. apply H; lia.
Qed.
Lemma rsum_abs n f : Rabs (rsum n f) <= rsum n (fun i => Rabs (f i)).
Proof.
  induction n as [|n IH]; [cbn; rewrite Rabs_R0; lra|]. rewrite !rsum_S.
  eapply Rle_trans; [apply Rabs_triang|lra].
Qed.
Lemma rsum_lsum l : rsum (length l) (fun i => nth i l 0) = lsum l.
Proof. unfold rsum. now rewrite vtab_eta. Qed.
Lemma lsum_map_plus {A} (l : list A) f g : lsum (map (fun x => f x + g x) l) = lsum (map f l) + lsum (map g l).
Proof. unfold lsum. induction l as [|x l IH]; cbn in *; [lra|]. rewrite IH. lra. Qed.
Lemma lsum_map_mult_l {A} (l : list A) c f : lsum (map (fun x => c * f x) l) = c * lsum (map f l).
Proof. unfold lsum. induction l as [|x l IH]; cbn in *; [lra|]. rewrite IH. lra. Qed.
Lemma rsum_lt n f g : (forall i, (i < n)%nat -> f i <= g i) -> (exists i, (i < n)%nat /\ f i < g i) ->
  rsum n f < rsum n g.
Proof.
  intros H (i & Hi & Hl). assert (0 < rsum n (fun i => g i - f i)).
  { apply (rsum_pos n _ i); [|assumption|lra]. intros j Hj. specialize (H j Hj). lra. }
  rewrite rsum_minus in H0. lra.
Qed.
Close Scope R_scope.
