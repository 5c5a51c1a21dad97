(** The fast supervised E step in double precision. *)
Require Import Reals ZArith List Bool Arith Lia Lra Psatz Permutation.
From Flocq Require Import Core.Core IEEE754.BinarySingleNaN Relative.
Require Import Verif.Base Verif.Scalar Verif.Mat Verif.HostModel Verif.UtilsModel Verif.BuilderModel Verif.EStepModel Verif.EStepAny Verif.EStepZero.
Require Import Verif.DoubleSpec Verif.DoubleFastSpec Verif.DoubleArith Verif.DoubleUtils Verif.DoubleProofs Verif.DoubleInfer.
Import ListNotations.
Open Scope R_scope.

Section Any.
  Context {T : Type} {O : ops T}.
  (** One coefficient of sum_cols_scaled with weights that are not integers *)
  Definition wacc (r w : nat -> T) (a : T) (j : nat) : T := if eqb (r j) zero then a else add a (mul (r j) (w j)).
  Lemma weighted_coefficient (m : mat T) (y : list T) l : forall r, length (fold_left (fun r j => if eqb (vget y j) zero then r
                          else vtab (length r) (fun i => (vget r i + vget y j * mget m i j)%S)) l r) = length r /\
    forall i, (i < length r)%nat -> vget (fold_left (fun r j => if eqb (vget y j) zero then r
                          else vtab (length r) (fun i => (vget r i + vget y j * mget m i j)%S)) l r) i =
      fold_left (wacc (vget y) (mget m i)) l (vget r i).
  Proof.
    induction l as [|j l IH]; intros r; [split; reflexivity|]. cbn [fold_left]. destruct (IH (if eqb (vget y j) zero then r
      else vtab (length r) (fun i => (vget r i + vget y j * mget m i j)%S))) as [L C].
    assert (E : length (if eqb (vget y j) zero then r else vtab (length r) (fun i => (vget r i + vget y j * mget m i j)%S)) = length r)
      by (destruct (eqb _ _); [reflexivity|apply vtab_length]).
    split; [rewrite L; exact E|]. intros i Hi. rewrite C by (rewrite E; exact Hi). f_equal. unfold wacc.
    destruct (eqb _ _); [reflexivity|]. now rewrite vget_tab.
  Qed.
  Lemma z_coefficient (phi : mat T) r : let z := sum_cols_scaled phi r (vtab (mrows phi) (fun _ => zero)) in
    length z = mrows phi /\ forall i, (i < mrows phi)%nat -> vget z i = fold_left (wacc (vget r) (mget phi i)) (seq 0 (ncols phi)) zero.
  Proof.
    cbv zeta. unfold sum_cols_scaled. destruct (weighted_coefficient phi r (seq 0 (ncols phi)) (vtab (mrows phi) (fun _ => zero))) as [L C]. rewrite vtab_length in *.
    split; [exact L|]. intros i Hi. rewrite C by exact Hi. now rewrite vget_tab.
  Qed.
End Any.

Lemma last_word_found p (X : list Z) n : (exists k, (k < n)%nat /\ p (Xget X k) = true) -> exists j, last_word p X n = Some j.
Proof.
  induction n as [|n IH]; intros (k & Hk & E); [lia|]. cbn [last_word]. destruct (p (Xget X n)) eqn:P; [eauto|]. apply IH. exists k. split; [|exact E].
  destruct (Nat.eq_dec k n) as [->|]; [congruence|lia].
Qed.
Lemma last_word_below p (X : list Z) : forall n j, last_word p X n = Some j -> (j < n)%nat.
Proof. induction n as [|n IH]; intros j E; cbn [last_word] in E; [discriminate|]. destruct (p (Xget X n)); [injection E as <-; lia|]. apply IH in E. lia. Qed.
Lemma some_word (X : list Z) : (forall x, In x X -> (0 <= x)%Z) -> (0 < Zsum X)%Z -> exists k, (k < length X)%nat /\ (0 < Xget X k)%Z.
Proof.
  induction X as [|x X IH]; intros P N; [cbn in N; lia|]. cbn in N. pose proof (P x (or_introl eq_refl)). destruct (Z.eq_dec x 0) as [->|].
  - destruct IH as (k & Hk & E); [intros; apply P; now right|exact N|]. exists (S k). cbn [length]. split; [lia|exact E].
  - exists 0%nat. cbn [length]. split; [lia|]. change (0 < x)%Z. lia.
Qed.

Section Double.
  Variables (lg ex lga : double -> double) (sum : list double -> double).
  Local Hint Extern 0 (ops _) => exact (DO lg ex lga sum) : typeclass_instances.
  Hypothesis Hlg : rough_log lg.
  Hypothesis Hex : rough_exp ex.
  Hypothesis Hsum : forall l, summed l (sum l).

  (** A sum of products of numbers between 0 and 1, one after the other *)
  Lemma weighted_d (r w : nat -> double) n : (Z.of_nat n <= 2 ^ 30)%Z ->
    (forall j, (j < n)%nat -> is_finite (r j) = true /\ 0 <= B2R (r j) <= 1) -> (forall j, (j < n)%nat -> is_finite (w j) = true /\ 0 <= B2R (w j) <= 1) ->
    let a := fold_left (wacc r w) (seq 0 n) zero in let E := rsum n (fun j => B2R (r j) * B2R (w j)) in
    is_finite a = true /\ 0 <= B2R a <= (1 + INR n * (4 * U)) * E + INR n * (4 * T0).
  Proof.
    destruct unit_facts as (PU & SU & PT & ST & _ & _ & _). induction n as [|n IH]; intros Hn Hr Hw a E.
    - subst a E. cbn [seq fold_left INR]. rewrite rsum_0. split; [reflexivity|]. change (B2R (zero : double)) with 0. lra.
    - destruct IH as (Fa & Ba); try lia; try (intros; apply Hr || apply Hw; lia).
      subst a E. rewrite seq_S, fold_left_app, rsum_S. cbn [fold_left plus]. set (a := fold_left (wacc r w) (seq 0 n) zero) in *.
      set (E := rsum n (fun j => B2R (r j) * B2R (w j))) in *. clearbody a. destruct (Hw n ltac:(lia)) as [Fw Bw]. destruct (Hr n ltac:(lia)) as [Fr Br].
      assert (E0 : 0 <= E). { apply rsum_nonneg. intros j Hj. apply Rmult_le_pos; [apply Hr; lia|apply Hw; lia]. }
      assert (E1 : E <= INR n).
      { rewrite <- (Rmult_1_r (INR n)), <- rsum_const. apply rsum_le. intros j Hj. destruct (Hw j ltac:(lia)) as [_ Bj]. destruct (Hr j ltac:(lia)) as [_ Cj]. nra. }
      destruct (INR_small n ltac:(lia)) as [n0 n1]. rewrite S_INR.
      set (t := B2R (r n) * B2R (w n)). assert (T1 : 0 <= t <= 1) by (subst t; nra).
      assert (N0 : 0 <= INR n * (4 * U)) by (apply Rmult_le_pos; lra).
      assert (N1 : INR n * (4 * U) <= / 4) by (apply Rle_trans with (1073741824 * (4 * U)); [apply Rmult_le_compat_r; lra|lra]).
      assert (N2 : 0 <= INR n * (4 * T0)) by (apply Rmult_le_pos; lra).
      assert (N3 : INR n * (4 * T0) <= 1) by (apply Rle_trans with (1073741824 * (4 * T0)); [apply Rmult_le_compat_r; lra|lra]).
      assert (Ut : 0 <= U * t) by (apply Rmult_le_pos; lra). assert (UE : 0 <= U * E) by (apply Rmult_le_pos; lra).
      assert (Nt : 0 <= INR n * (4 * U) * t) by (apply Rmult_le_pos; lra).
      assert (NE : 0 <= INR n * (4 * U) * E <= / 4 * E) by (split; [apply Rmult_le_pos; lra|apply Rmult_le_compat_r; lra]).
      replace ((1 + (INR n + 1) * (4 * U)) * (E + t) + (INR n + 1) * (4 * T0)) with
        ((1 + INR n * (4 * U)) * E + INR n * (4 * T0) + t + INR n * (4 * U) * t + 4 * (U * E) + 4 * (U * t) + 4 * T0) by ring.
      unfold wacc. destruct (eqb (r n) zero) eqn:Z; [split; [exact Fa|]; lra|].
      destruct (mul_in (r n) (w n) Fr Fw 0 1 (rep_Z 0 ltac:(lia)) (rep_Z 1 ltac:(lia))) as (Ft & Vt & Bt); [exact T1|].
      set (y := dmul (r n) (w n)) in *. fold t in Vt.
      pose proof (rnd_error t) as Et. rewrite <- Vt in Et. rewrite (Rabs_pos_eq t) in Et by lra. pose proof (rnd_add_error a y) as Es.
      assert (Hb : (1 + INR n * (4 * U)) * E + INR n * (4 * T0) <= 2 * E + INR n * (4 * T0)) by lra.
      destruct (add_in a y Fa Ft 0 (pow 32) (rep_Z 0 ltac:(lia)) (rep_pow 32 ltac:(lia))) as (F' & V' & B'); [change (pow 32) with 4294967296; lra|].
      rewrite <- V' in Es. rewrite (Rabs_pos_eq (B2R a + B2R y)) in Es by lra.
      change (is_finite (dadd a y) = true /\ 0 <= B2R (dadd a y) <= (1 + INR n * (4 * U)) * E + INR n * (4 * T0) + t + INR n * (4 * U) * t + 4 * (U * E) + 4 * (U * t) + 4 * T0).
      split; [exact F'|]. split; [apply B'|].
      assert (Q : U * (B2R a + B2R y) <= U * (2 * E + INR n * (4 * T0) + 2 * t + T0)).
      { apply Rmult_le_compat_l; [lra|]. apply Rabs_le_inv in Et. assert (U * t <= / 2 * t) by (apply Rmult_le_compat_r; lra). lra. }
      assert (Q2 : U * (INR n * (4 * T0)) <= T0).
      { replace (U * (INR n * (4 * T0))) with (INR n * (4 * U) * T0) by ring. apply Rle_trans with (/ 4 * T0); [apply Rmult_le_compat_r; lra|lra]. }
      assert (Q3 : U * T0 <= T0). { apply Rle_trans with (1 * T0); [apply Rmult_le_compat_r; lra|lra]. }
      rewrite !Rmult_plus_distr_l in Q. replace (U * (2 * E)) with (2 * (U * E)) in Q by ring. replace (U * (2 * t)) with (2 * (U * t)) in Q by ring.
      set (c0 := U * (INR n * (4 * T0))) in *. set (c1 := INR n * (4 * U) * t) in *. set (c2 := (1 + INR n * (4 * U)) * E) in *. set (c3 := U * E) in *. set (c4 := U * t) in *. set (c5 := U * T0) in *. set (c6 := INR n * (4 * T0)) in *.
      rewrite !Rmult_plus_distr_l in Es. set (c7 := U * B2R a) in *. set (c8 := U * B2R y) in *.
      apply Rabs_le_inv in Et, Es. clearbody c0 c1 c2 c3 c4 c5 c6 c7 c8. lra.
  Qed.

  (** A product of a row and a vector *)
  Lemma dot_d (n : nat) (f g : nat -> double) (b : R) k : (Z.of_nat n <= 2 ^ 30)%Z -> (-1000 <= k <= 960)%Z -> 0 <= b <= pow k ->
    (forall i, (i < n)%nat -> is_finite (f i) = true /\ Rabs (B2R (f i)) <= b) -> (forall i, (i < n)%nat -> is_finite (g i) = true /\ 0 <= B2R (g i) <= 2) ->
    let s := redux (vtab n (fun i => mul (f i) (g i))) in
    is_finite s = true /\ Rabs (B2R s) <= 1001 / 1000 * (b * rsum n (fun i => B2R (g i)) + INR n * T0).
  Proof.
    intros Hn Hk Hb Hf Hg s. destruct unit_facts as (PU & SU & PT & ST & _ & _ & E52). destruct (INR_small n Hn) as [n0 n1].
    assert (P2 : pow (k + 1) = 2 * pow k) by (rewrite Z.add_comm, bpow_plus; reflexivity).
    assert (D : forall i, (i < n)%nat -> is_finite (dmul (f i) (g i)) = true /\ Rabs (B2R (dmul (f i) (g i))) <= pow (k + 1) /\ Rabs (B2R (dmul (f i) (g i))) <= (1 + U) * (b * B2R (g i)) + T0).
    { intros i Hi. destruct (Hf i Hi) as [Ff Bf]. destruct (Hg i Hi) as [Fg Bg].
      assert (A : Rabs (B2R (f i) * B2R (g i)) <= b * B2R (g i)) by (rewrite Rabs_mult, (Rabs_pos_eq (B2R (g i))) by lra; apply Rmult_le_compat_r; lra).
      assert (A2 : b * B2R (g i) <= pow (k + 1)) by (rewrite P2, Rmult_comm; apply Rmult_le_compat; lra).
      assert (Rn : rep (- pow (k + 1))) by (replace (- pow (k + 1)) with (IZR (-1) * pow (k + 1)) by lra; apply rep_scale; lia).
      destruct (mul_in (f i) (g i) Ff Fg _ _ Rn (rep_pow (k + 1) ltac:(lia))) as (Fm & Vm & Bm); [apply Rabs_le_inv; lra|].
      split; [exact Fm|]. split; [apply Rabs_le; exact Bm|]. rewrite Vm. pose proof (rnd_error (B2R (f i) * B2R (g i))) as E.
      assert (U * Rabs (B2R (f i) * B2R (g i)) <= U * (b * B2R (g i))) by (apply Rmult_le_compat_l; lra).
      assert (Tr := Rabs_triang (rnd (B2R (f i) * B2R (g i)) - B2R (f i) * B2R (g i)) (B2R (f i) * B2R (g i))). replace (_ - _ + _) with (rnd (B2R (f i) * B2R (g i))) in Tr by ring. lra. }
    destruct (summed_signed (k + 1) (vtab n (fun i => mul (f i) (g i))) s (Hsum _) ltac:(lia)) as (Fs & _ & Es).
    { rewrite vtab_length. lia. }
    { apply Forall_forall. intros x Hx. unfold vtab in Hx. apply in_map_iff in Hx. destruct Hx as (i & <- & Hi). apply in_seq in Hi. destruct (D i ltac:(lia)) as (A & B & _). split; assumption. }
    split; [exact Fs|]. rewrite vtab_length, E52 in Es. pose proof (lval_labs (vtab n (fun i => mul (f i) (g i)))) as Lv.
    set (L := labs (vtab n (fun i => mul (f i) (g i)))) in *. set (v := lval (vtab n (fun i => mul (f i) (g i)))) in *.
    set (G := rsum n (fun i => B2R (g i))). assert (G0 : 0 <= G) by (apply rsum_nonneg; intros i Hi; apply Hg; exact Hi).
    assert (LB : 0 <= L <= (1 + U) * (b * G) + INR n * T0).
    { split; [apply labs_nonneg|]. unfold L, labs. rewrite vtab_map. unfold G. rewrite <- rsum_mult_l, <- rsum_mult_l, <- rsum_const, <- rsum_plus.
      apply (rsum_le n (fun i => Rabs (B2R (dmul (f i) (g i))))). intros i Hi. apply (D i Hi). }
    assert (N1 : INR n * (2 * U) <= / 4000) by (apply Rle_trans with (1073741824 * (2 * U)); [apply Rmult_le_compat_r; lra|lra]).
    assert (NL : INR n * (2 * U) * L <= / 4000 * L) by (apply Rmult_le_compat_r; lra).
    assert (BG : 0 <= b * G) by (apply Rmult_le_pos; lra). assert (UBG : U * (b * G) <= / 4000 * (b * G)) by (apply Rmult_le_compat_r; lra).
    assert (NT : 0 <= INR n * T0) by (apply Rmult_le_pos; lra).
    assert (Tr := Rabs_triang (B2R s - v) v). replace (B2R s - v + v) with (B2R s) in Tr by ring.
    rewrite Rmult_plus_distr_r in LB. set (c := INR n * T0) in *. set (d := b * G) in *. set (e := U * d) in *. clearbody c d e. lra.
  Qed.

  (** the largest coefficient *)
  Lemma max_from_d l : forall b bi i, is_finite b = true -> Forall (fun x : double => is_finite x = true) l ->
    let x := fst (max_from b bi i l) in is_finite x = true /\ B2R b <= B2R x /\ (forall y, In y l -> B2R y <= B2R x) /\ (x = b \/ In x l).
  Proof.
    induction l as [|a l IH]; intros b bi i Fb Fl; cbn [max_from].
    - cbn. split; [exact Fb|]. split; [lra|]. split; [tauto|auto].
    - inversion Fl as [|? ? Fa Fl']; subst. destruct (ltb b a) eqn:L.
      + apply ltb_d in L; [|assumption..]. destruct (IH a i (S i) Fa Fl') as (F & B & A & M). split; [exact F|]. split; [lra|]. split; [intros y [<-|Hy]; auto; lra|].
        right. destruct M as [->|M]; [left; reflexivity|right; exact M].
      + apply ltb_d_false in L; [|assumption..]. destruct (IH b bi (S i) Fb Fl') as (F & B & A & M). split; [exact F|]. split; [lra|]. split; [intros y [<-|Hy]; auto; lra|].
        destruct M as [->|M]; [left; reflexivity|right; right; exact M].
  Qed.
  Lemma in_mall (e : mat double) x : In x (mall e) <-> exists i c, (i < mrows e)%nat /\ (c < ncols e)%nat /\ x = mget e i c.
  Proof.
    unfold mall. rewrite in_concat. unfold vtab. split.
    - intros (l & Hl & Hx). apply in_map_iff in Hl. destruct Hl as (c & <- & Hc). apply in_seq in Hc. unfold mcol, vtab in Hx. apply in_map_iff in Hx. destruct Hx as (i & <- & Hi). apply in_seq in Hi.
      exists i, c. repeat split; lia.
    - intros (i & c & Hi & Hc & ->). exists (mcol e c). split; [apply in_map_iff; exists c; split; [reflexivity|apply in_seq; lia]|]. unfold mcol, vtab. apply in_map_iff. exists i. split; [reflexivity|apply in_seq; lia].
  Qed.
  Lemma max_coeff_d (e : mat double) : (0 < mrows e)%nat -> (0 < ncols e)%nat -> (forall i c, (i < mrows e)%nat -> (c < ncols e)%nat -> is_finite (mget e i c) = true) ->
    exists mx k, max_coeff (mall e) = Some (mx, k) /\ is_finite mx = true /\ (exists i c, (i < mrows e)%nat /\ (c < ncols e)%nat /\ mx = mget e i c) /\
      forall i c, (i < mrows e)%nat -> (c < ncols e)%nat -> B2R (mget e i c) <= B2R mx.
  Proof.
    intros R C F. assert (I0 : In (mget e 0 0) (mall e)) by (apply in_mall; exists 0%nat, 0%nat; auto).
    assert (FA : Forall (fun x => is_finite x = true) (mall e)) by (apply Forall_forall; intros x Hx; apply in_mall in Hx; destruct Hx as (i & c & Hi & Hc & ->); auto).
    assert (IM := in_mall e). destruct (mall e) as [|a l]; [destruct I0|]. inversion FA as [|? ? Fa Fl]; subst. cbn [max_coeff].
    destruct (max_from_d l a 0 1 Fa Fl) as (Fx & Bx & Ax & Mx). destruct (max_from a 0 1 l) as [mx k]. cbn [fst] in *. exists mx, k.
    split; [reflexivity|]. split; [exact Fx|]. split; [apply IM; destruct Mx as [->|Mx]; [left; reflexivity|right; exact Mx]|].
    intros i c Hi Hc. assert (Hin : In (mget e i c) (a :: l)) by (apply IM; eauto). destruct Hin as [<-|Hin]; [exact Bx|auto].
  Qed.

  Section Step.
    Variables (C : double) (X : list Z) (y : nat) (m : params double).
    Hypothesis DL : double_labelled C X y m.
    Notation K := (mrows (p_beta m)).
    Notation V := (ncols (p_beta m)).
    Notation alpha := (p_alpha m).
    Notation eta := (p_eta m).
    Notation N := (Zsum X).
    Notation count n := (IZR (nth n X 0%Z)).
    Notation sound := (sound lg ex lga sum X m).

    Lemma labelled_input : double_input (/ 300) X m.
    Proof.
      destruct (dl_input _ _ _ _ DL) as [A1 A2 A3 A4 A5 A6 A7 A8 A9]. split; try assumption. intros i Hi. destruct (A5 i Hi) as [F B]. split; [exact F|]. lra.
    Qed.
    Notation DI := labelled_input.

    Lemma ratio_d n : (0 < N)%Z -> (n < V)%nat -> is_finite (vget (ratio X N) n) = true /\ 0 <= B2R (vget (ratio X N) n) <= 1 /\
      B2R (vget (ratio X N) n) <= (1 + U) * (count n / IZR N) + T0 /\ (nth n X 0%Z = 0%Z -> B2R (vget (ratio X N) n) = 0).
    Proof.
      intros HN Hn. assert (Xn := count_pos lg ex lga sum X m DI n). assert (N1 : (N < 2 ^ 31)%Z) by apply (di_length _ _ _ DI).
      assert (Le : count n <= IZR N).
      { rewrite <- (count_sum lg ex lga sum X m DI). apply (rsum_le_term V (fun n => count n) n); [|exact Hn]. intros j _. apply (count_pos lg ex lga sum X m DI). }
      apply IZR_lt in HN. destruct (int_d lg ex lga sum (nth n X 0%Z)) as [Fx Vx]. { apply le_IZR in Xn, Le. lia. }
      destruct (int_d lg ex lga sum N) as [FN VN]. { apply lt_IZR in HN. lia. }
      assert (E : vget (ratio X N) n = ddiv (ofZ (nth n X 0%Z)) (ofZ N)).
      { unfold vget, ratio. rewrite (nth_indep _ zero ((fun x : Z => (ofZ x / ofZ N)%S) 0%Z)) by (rewrite map_length, (di_words _ _ _ DI); exact Hn). rewrite (map_nth (fun x => (ofZ x / ofZ N)%S)). reflexivity. }
      rewrite E. assert (Q : 0 <= count n / IZR N <= 1) by (split; [apply Rle_mult_inv_pos; lra|apply Rle_div_l; lra]).
      destruct (div_in (ofZ (nth n X 0%Z)) (ofZ N) Fx 0 1 (rep_Z 0 ltac:(lia)) (rep_Z 1 ltac:(lia))) as (F & W & B); [rewrite VN; lra|rewrite Vx, VN; exact Q|].
      split; [exact F|]. split; [exact B|]. rewrite W, Vx, VN. split.
      - pose proof (rnd_error (count n / IZR N)) as R. rewrite (Rabs_pos_eq (count n / IZR N)) in R by lra. apply Rabs_le_inv in R. lra.
      - intros ->. unfold Rdiv. rewrite Rmult_0_l. apply round_0, valid_rnd_N.
    Qed.

    (** the mean of the topics' probabilities *)
    Lemma z_d s : sound s -> (0 < N)%Z -> let z := sum_cols_scaled (snd s) (ratio X N) (vtab (mrows (snd s)) (fun _ => zero)) in
      length z = K /\ (forall i, (i < K)%nat -> is_finite (vget z i) = true /\ 0 <= B2R (vget z i) <= 2) /\ rsum K (fun i => B2R (vget z i)) <= 101 / 100.
    Proof.
      intros S HN z. destruct (z_coefficient (snd s) (ratio X N)) as [L Cz]. fold z in L, Cz. rewrite (so_rows _ _ _ _ _ _ _ S), (so_cols _ _ _ _ _ _ _ S) in *.
      destruct unit_facts as (PU & SU & PT & ST & E50 & _ & _). destruct (INR_small K ltac:(apply (di_topics _ _ _ DI))) as [K0 K1]. destruct (INR_small V (di_vocabulary _ _ _ DI)) as [V0 V1].
      set (r n := B2R (vget (ratio X N) n)). set (p i n := B2R (mget (snd s) i n)).
      assert (Z : forall i, (i < K)%nat -> is_finite (vget z i) = true /\ 0 <= B2R (vget z i) <= (1 + INR V * (4 * U)) * rsum V (fun n => r n * p i n) + INR V * (4 * T0)).
      { intros i Hi. rewrite (Cz i Hi). apply (weighted_d (vget (ratio X N)) (mget (snd s) i)).
        - apply (di_vocabulary _ _ _ DI).
        - intros n Hn. destruct (ratio_d n HN Hn) as (A & B & _). auto.
        - intros n Hn. apply (so_phi _ _ _ _ _ _ _ S); assumption. }
      assert (HN' := HN). apply IZR_lt in HN'.
      assert (R1 : rsum V r <= 1 + U + INR V * T0).
      { apply Rle_trans with (rsum V (fun n => (1 + U) * (count n / IZR N) + T0)); [apply rsum_le; intros n Hn; apply (ratio_d n HN Hn)|].
        rewrite rsum_plus, rsum_const, rsum_mult_l, rsum_div, (count_sum lg ex lga sum X m DI). unfold Rdiv. rewrite Rinv_r by lra. lra. }
      assert (R2 : rsum K (fun i => rsum V (fun n => r n * p i n)) <= (1 + (INR K + 1) * (8 * U)) * rsum V r).
      { rewrite rsum_swap, <- rsum_mult_l. apply rsum_le. intros n Hn. rewrite rsum_mult_l. destruct (Z.eq_dec (nth n X 0%Z) 0) as [E|E].
        - destruct (ratio_d n HN Hn) as (_ & _ & _ & Z0). unfold r. rewrite (Z0 E). lra.
        - rewrite Rmult_comm. apply Rmult_le_compat_r; [apply (ratio_d n HN Hn)|]. pose proof (so_sum _ _ _ _ _ _ _ S n Hn E) as Q. unfold Rdiv in Q. rewrite E50 in Q. apply Rabs_le_inv in Q. unfold p. lra. }
      assert (KU : 0 <= (INR K + 1) * (8 * U) <= / 100000) by (split; [apply Rmult_le_pos; lra|apply Rle_trans with (1073741825 * (8 * U)); [apply Rmult_le_compat_r; lra|lra]]).
      assert (VU : 0 <= INR V * (4 * U) <= / 100000) by (split; [apply Rmult_le_pos; lra|apply Rle_trans with (1073741824 * (4 * U)); [apply Rmult_le_compat_r; lra|lra]]).
      assert (VT : 0 <= INR V * (4 * T0) <= 4 * U) by (split; [apply Rmult_le_pos; lra|apply Rle_trans with (1073741824 * (4 * T0)); [apply Rmult_le_compat_r; lra|lra]]).
      assert (VT1 : INR V * T0 <= U) by (apply Rle_trans with (1073741824 * T0); [apply Rmult_le_compat_r; lra|lra]).
      assert (KV : INR K * (INR V * (4 * T0)) <= / 100000) by (apply Rle_trans with (1073741824 * (4 * U)); [apply Rmult_le_compat; lra|lra]).
      assert (P0 : 0 <= rsum V r) by (apply rsum_nonneg; intros n Hn; apply (ratio_d n HN Hn)).
      assert (T : rsum K (fun i => B2R (vget z i)) <= 101 / 100).
      { apply Rle_trans with (rsum K (fun i => (1 + INR V * (4 * U)) * rsum V (fun n => r n * p i n) + INR V * (4 * T0))); [apply rsum_le; intros i Hi; apply (Z i Hi)|].
        rewrite rsum_plus, rsum_const, rsum_mult_l. set (q := rsum K (fun i => rsum V (fun n => r n * p i n))) in *.
        assert (q <= 1001 / 1000).
        { eapply Rle_trans; [exact R2|]. apply Rle_trans with ((1 + / 100000) * (1 + / 10000)); [apply Rmult_le_compat; lra|lra]. }
        assert (q0 : 0 <= q) by (apply rsum_nonneg; intros i Hi; apply rsum_nonneg; intros n Hn; apply Rmult_le_pos; [apply (ratio_d n HN Hn)|apply (so_phi _ _ _ _ _ _ _ S i n Hi Hn)]).
        assert ((1 + INR V * (4 * U)) * q <= (1 + / 100000) * (1001 / 1000)) by (apply Rmult_le_compat; lra). lra. }
      split; [exact L|]. split; [|exact T]. intros i Hi. split; [apply (Z i Hi)|]. split; [apply (Z i Hi)|].
      apply Rle_trans with (rsum K (fun i => B2R (vget z i))); [|lra]. apply (rsum_le_term K (fun i => B2R (vget z i)) i); [|exact Hi]. intros j Hj. apply (Z j Hj).
    Qed.

    Lemma classes_pos : (0 < ncols eta)%nat /\ (0 < mrows eta)%nat.
    Proof. pose proof (dl_class _ _ _ _ DL). pose proof (di_topics _ _ _ DI). rewrite (dl_topics _ _ _ _ DL). lia. Qed.

    (** the probabilities of the classes *)
    Lemma softmax_d z : length z = K -> (forall i, (i < K)%nat -> is_finite (vget z i) = true /\ 0 <= B2R (vget z i) <= 2) -> rsum K (fun i => B2R (vget z i)) <= 101 / 100 ->
      exists e, vmapM fast_exp (matT_vec eta z) = Ok e /\ let q := map (fun x => x / redux e)%S e in
        (forall c, (c < ncols eta)%nat -> is_finite (vget q c) = true /\ 0 <= B2R (vget q c) <= 2) /\ rsum (ncols eta) (fun c => B2R (vget q c)) <= 1001 / 1000.
    Proof.
      intros Lz Hz Sz. destruct unit_facts as (PU & SU & PT & ST & E50 & _ & _). destruct classes_pos as [C0 _]. pose proof (dl_classes _ _ _ _ DL) as C1.
      destruct (INR_small K ltac:(apply (di_topics _ _ _ DI))) as [K0 K1]. destruct (INR_small (ncols eta) C1) as [c0 c1].
      assert (L : length (matT_vec eta z) = ncols eta) by (unfold matT_vec; apply vtab_length).
      destruct (vmapM_in fast_exp (matT_vec eta z) (fun _ t => is_finite t = true /\ pow (-497) <= B2R t <= pow 497)) as (e & Ee & Le & Be).
      { rewrite L. intros c Hc. unfold matT_vec. rewrite vget_tab by exact Hc. unfold dot.
        assert (E : vtab (length (mcol eta c)) (fun i => (vget (mcol eta c) i * vget z i)%S) = vtab K (fun i => (mget eta i c * vget z i)%S)).
        { unfold mcol. rewrite vtab_length, (dl_topics _ _ _ _ DL). apply vtab_ext. intros i Hi. now rewrite vget_tab. }
        rewrite E. destruct (dot_d K (fun i => mget eta i c) (vget z) 150 8) as (F & B).
        - apply (di_topics _ _ _ DI).
        - lia.
        - change (pow 8) with 256. lra.
        - intros i Hi. apply (dl_eta _ _ _ _ DL); [rewrite (dl_topics _ _ _ _ DL); exact Hi|exact Hc].
        - exact Hz.
        - apply (fast_exp_wide lg ex lga sum Hex); [exact F|]. apply Rabs_le_inv.
          assert (INR K * T0 <= U) by (apply Rle_trans with (1073741824 * T0); [apply Rmult_le_compat_r; lra|lra]).
          eapply Rle_trans; [exact B|]. lra. }
      rewrite L in *. exists e. split; [exact Ee|]. cbv zeta.
      destruct (normal_d lg ex lga sum Hsum (ncols eta) (vget e) 497 C1 ltac:(lia)) as (N1 & N2 & _).
      { intros c Hc. destruct (Be c Hc) as [F B]. split; [exact F|]. split; [|apply B]. eapply Rle_trans; [|apply B]. apply bpow_ge_0. }
      assert (Ev : vtab (ncols eta) (vget e) = e) by (rewrite <- Le; apply vtab_eta). rewrite Ev in N1, N2.
      assert (Nz : eqb (redux e) zero = false).
      { assert (Se : summed e (redux e)) by exact (Hsum e). destruct (summed_in 497 e _ Se ltac:(lia)) as (Fs & _ & Ms & _).
        - rewrite Le. lia.
        - apply Forall_forall. intros x Hx. apply (In_nth _ _ zero) in Hx. destruct Hx as (c & Hc & <-). rewrite Le in Hc. destruct (Be c Hc) as [F B]. split; [exact F|]. split; [|apply B]. eapply Rle_trans; [|apply B]. apply bpow_ge_0.
        - destruct (eqb (redux e) zero) eqn:Z; [|reflexivity]. apply (is_zero lg ex lga sum) in Z; [|exact Fs]. destruct (Be 0%nat C0) as [_ B]. assert (I0 : In (vget e 0) e) by (apply nth_In; lia).
          specialize (Ms _ I0). pose proof (bpow_gt_0 radix2 (-497)). lra. }
      rewrite Nz in N1, N2.
      assert (Q : forall c, (c < ncols eta)%nat -> vget (map (fun x => x / redux e)%S e) c = ddiv (vget e c) (redux e)).
      { intros c Hc. unfold vget. rewrite (nth_indep _ zero ((fun x => x / redux e)%S zero)) by (rewrite map_length, Le; exact Hc). rewrite (map_nth (fun x => x / redux e)%S). reflexivity. }
      split.
      - intros c Hc. rewrite (Q c Hc). destruct (N1 c Hc) as [F B]. split; [exact F|]. change (0 <= B2R (ddiv (vget e c) (redux e)) <= 1) in B. lra.
      - rewrite (rsum_ext (ncols eta) _ (fun c => B2R (ddiv (vget e c) (redux e)))) by (intros c Hc; now rewrite (Q c Hc)).
        assert (P : exists c, (c < ncols eta)%nat /\ 0 < B2R (vget e c)).
        { exists 0%nat. split; [exact C0|]. eapply Rlt_le_trans; [apply (bpow_gt_0 radix2 (-497))|]. apply (Be 0%nat C0). }
        specialize (N2 P). change (Rabs (rsum (ncols eta) (fun c => B2R (ddiv (vget e c) (redux e))) - 1) <= (INR (ncols eta) + 1) / 2 ^ 50) in N2. unfold Rdiv in N2. rewrite E50 in N2.
        assert ((INR (ncols eta) + 1) * (8 * U) <= / 1000) by (apply Rle_trans with (1073741825 * (8 * U)); [apply Rmult_le_compat_r; lra|lra]). apply Rabs_le_inv in N2. lra.
    Qed.

    (** the scaled coefficients *)
    Lemma scaled_d : exists S mx k, 0 <= S <= pow 900 /\ Rabs (B2R C) * S <= 8 /\ max_coeff (mall eta) = Some (mx, k) /\
      let es := if ltb zero mx then mtab (mrows eta) (ncols eta) (fun i j => (mget eta i j / mx)%S) else eta in
      mrows es = K /\ ncols es = ncols eta /\ forall i c, (i < K)%nat -> (c < ncols eta)%nat -> is_finite (mget es i c) = true /\ Rabs (B2R (mget es i c)) <= 1001 / 1000 * S.
    Proof.
      destruct classes_pos as [C0 R0]. destruct unit_facts as (PU & SU & PT & ST & _ & _ & _).
      destruct (max_coeff_d eta R0 C0) as (mx & k & E & Fm & (i1 & c1 & Hi1 & Hc1 & Em) & Mx). { intros i c Hi Hc. apply (dl_eta _ _ _ _ DL i c Hi Hc). }
      destruct (dl_spread _ _ _ _ DL) as (S & S9 & SC & Sp). assert (P900 : pow 900 = 2 ^ 900) by (rewrite bpow_powerRZ; reflexivity). rewrite <- P900 in S9.
      assert (Rw := dl_topics _ _ _ _ DL).
      exists S, mx, k. assert (S0 : 0 <= S).
      { destruct Sp as [Sp|(i0 & c0 & Hi0 & Hc0 & P0 & Sp)].
        - destruct (Sp 0%nat 0%nat R0 C0) as [_ A]. eapply Rle_trans; [apply Rabs_pos|exact A].
        - specialize (Sp i0 c0 Hi0 Hc0). rewrite Rabs_pos_eq in Sp by lra. apply Rmult_le_reg_r with (B2R (mget eta i0 c0)); [exact P0|]. lra. }
      split; [lra|]. split; [exact SC|]. split; [exact E|]. cbv zeta.
      destruct (ltb zero mx) eqn:Lt.
      - apply (ltb_d lg ex lga sum) in Lt; [|reflexivity|exact Fm]. change (B2R (zero : double)) with 0 in Lt. rewrite ncols_tab. cbn [mrows mtab]. split; [exact Rw|]. split; [reflexivity|].
        destruct Sp as [Sp|(i0 & c0 & Hi0 & Hc0 & P0 & Sp)]; [destruct (Sp i1 c1 Hi1 Hc1) as [A _]; rewrite <- Em in A; lra|].
        assert (S1 : 1 <= S).
        { specialize (Sp i0 c0 Hi0 Hc0). rewrite Rabs_pos_eq in Sp by lra. apply Rmult_le_reg_r with (B2R (mget eta i0 c0)); [exact P0|]. lra. }
        intros i c Hi Hc. rewrite <- Rw in Hi. rewrite mget_tab by assumption. destruct (dl_eta _ _ _ _ DL i c Hi Hc) as [Fe _].
        assert (A : Rabs (B2R (mget eta i c) / B2R mx) <= S).
        { unfold Rdiv. rewrite Rabs_mult, Rabs_inv, (Rabs_pos_eq (B2R mx)) by lra. apply Rle_div_l; [exact Lt|]. eapply Rle_trans; [apply (Sp i c Hi Hc)|]. apply Rmult_le_compat_l; [exact S0|]. apply Mx; assumption. }
        assert (Rn : rep (- pow 900)) by (replace (- pow 900) with (IZR (-1) * pow 900) by lra; apply rep_scale; lia).
        destruct (div_in (mget eta i c) mx Fe _ _ Rn (rep_pow 900 ltac:(lia))) as (F & W & _); [lra|apply Rabs_le_inv; lra|].
        split; [exact F|]. change (Rabs (B2R (ddiv (mget eta i c) mx)) <= 1001 / 1000 * S). rewrite W. pose proof (rnd_error (B2R (mget eta i c) / B2R mx)) as Er.
        assert (Tr := Rabs_triang (rnd (B2R (mget eta i c) / B2R mx) - B2R (mget eta i c) / B2R mx) (B2R (mget eta i c) / B2R mx)).
        replace (_ - _ + _) with (rnd (B2R (mget eta i c) / B2R mx)) in Tr by ring.
        assert (U * Rabs (B2R (mget eta i c) / B2R mx) <= / 4000 * S) by (apply Rmult_le_compat; try lra; apply Rabs_pos). lra.
      - apply (ltb_d_false lg ex lga sum) in Lt; [|reflexivity|exact Fm]. change (B2R (zero : double)) with 0 in Lt. split; [exact Rw|]. split; [reflexivity|].
        intros i c Hi Hc. rewrite <- Rw in Hi. split; [apply (dl_eta _ _ _ _ DL i c Hi Hc)|].
        destruct Sp as [Sp|(i0 & c0 & Hi0 & Hc0 & P0 & Sp)]; [destruct (Sp i c Hi Hc); lra|]. specialize (Mx i0 c0 Hi0 Hc0). lra.
    Qed.

    Lemma class_weights s : sound s -> (0 < N)%Z -> exists e, compute_supervised_approximate_phi 7 (ratio X N) N y (p_beta m) eta (fst s) C (snd s) = Ok (scale_normalize (p_beta m) e) /\
      forall i, (i < K)%nat -> is_finite (vget e i) = true /\ pow (-497) <= B2R (vget e i) <= pow 256.
    Proof.
      intros S HN. destruct unit_facts as (PU & SU & PT & ST & _ & _ & _). destruct (z_d s S HN) as (Lz & Hz & Sz).
      destruct (softmax_d _ Lz Hz Sz) as (ee & Ee & Hq & Sq). destruct scaled_d as (P & mx & k & S9 & SC & Em & Re & Ce & He).
      destruct (psi_d lg ex lga sum Hlg X m 250 s ltac:(lia)) as (psi & Epsi & Lpsi & Bpsi); [|exact S|].
      { replace (INR 250) with 250 by (rewrite INR_IZR_INZ; reflexivity). intros i Hi. apply (di_alpha _ _ _ (dl_input _ _ _ _ DL) i Hi). }
      replace (INR (250 + 8)) with 258 in Bpsi by (rewrite INR_IZR_INZ; reflexivity).
      unfold compute_supervised_approximate_phi. replace (N =? 0)%Z with false by (symmetry; apply Z.eqb_neq; lia). rewrite Epsi. cbn [bind]. cbv zeta in *. rewrite Ee. cbn [bind]. rewrite Em.
      set (es := if ltb zero mx then _ else _) in *. set (q := map (fun x => x / redux ee)%S ee) in *.
      destruct (dl_weight _ _ _ _ DL) as [FC BC]. pose proof (dl_class _ _ _ _ DL) as Hy. destruct (INR_small (ncols eta) (dl_classes _ _ _ _ DL)) as [c0 c1].
      assert (CT : INR (ncols eta) * T0 <= U * / 100000000).
      { apply Rle_trans with (1073741824 * T0); [apply Rmult_le_compat_r; lra|]. lra. }
      set (l := vtab K (fun i => (vget psi i + C * (mget es i y - vget (mat_vec es q) i))%S)).
      destruct (vmapM_in fast_exp l (fun _ t => is_finite t = true /\ pow (-497) <= B2R t <= pow 256)) as (e & E & Le & Be).
      - unfold l. rewrite vtab_length. intros i Hi. rewrite vget_tab by exact Hi. destruct (Bpsi i Hi) as [Fp Bp].
        assert (Ev : vget (mat_vec es q) i = redux (vtab (ncols eta) (fun c => (mget es i c * vget q c)%S))).
        { unfold mat_vec. rewrite vget_tab by (rewrite Re; exact Hi). unfold dot, mrow. rewrite vtab_length, Ce. f_equal. apply vtab_ext. intros c Hc. now rewrite vget_tab. }
        rewrite Ev. destruct (dot_d (ncols eta) (mget es i) (vget q) (1001 / 1000 * P) 901) as (Fd & Bd).
        { apply (dl_classes _ _ _ _ DL). } { lia. } { change 901%Z with (1 + 900)%Z. rewrite bpow_plus. change (pow 1) with 2. lra. } { intros c Hc. apply He; assumption. } { exact Hq. }
        set (mean := redux (vtab (ncols eta) (fun c => (mget es i c * vget q c)%S))) in *. destruct (He i y Hi Hy) as [Fy By].
        assert (BM : Rabs (B2R mean) <= 101 / 100 * P + U).
        { eapply Rle_trans; [exact Bd|]. assert (1001 / 1000 * P * rsum (ncols eta) (fun c => B2R (vget q c)) <= 1001 / 1000 * P * (1001 / 1000)) by (apply Rmult_le_compat_l; lra). lra. }
        assert (BD : Rabs (B2R (mget es i y) - B2R mean) <= 202 / 100 * P + U) by (eapply Rle_trans; [apply Rabs_triang|]; rewrite Rabs_Ropp; lra).
        assert (P9 : pow 902 = 4 * pow 900) by (change 902%Z with (2 + 900)%Z; rewrite bpow_plus; reflexivity).
        assert (Rn : rep (- pow 902)) by (replace (- pow 902) with (IZR (-1) * pow 902) by lra; apply rep_scale; lia).
        assert (one9 : 1 <= pow 900) by (change 1 with (pow 0); apply bpow_le; lia).
        destruct (sub_in (mget es i y) mean Fy Fd _ _ Rn (rep_pow 902 ltac:(lia))) as (Fs & Vs & _); [apply Rabs_le_inv; lra|].
        set (d := dsub (mget es i y) mean) in *. pose proof (rnd_error (B2R (mget es i y) - B2R mean)) as Er. rewrite <- Vs in Er.
        assert (Bs : Rabs (B2R d) <= 203 / 100 * P + 2 * U).
        { assert (Tr := Rabs_triang (B2R d - (B2R (mget es i y) - B2R mean)) (B2R (mget es i y) - B2R mean)). replace (_ - _ + _) with (B2R d) in Tr by ring.
          assert (U * Rabs (B2R (mget es i y) - B2R mean) <= / 1000000 * Rabs (B2R (mget es i y) - B2R mean)) by (apply Rmult_le_compat_r; [apply Rabs_pos|lra]). lra. }
        assert (Bc : Rabs (B2R C * B2R d) <= 17).
        { rewrite Rabs_mult. apply Rle_trans with (Rabs (B2R C) * (203 / 100 * P + 2 * U)); [apply Rmult_le_compat_l; [apply Rabs_pos|exact Bs]|].
          rewrite Rmult_plus_distr_l. replace (Rabs (B2R C) * (203 / 100 * P)) with (203 / 100 * (Rabs (B2R C) * P)) by ring.
          assert (Rabs (B2R C) * (2 * U) <= 2 ^ 30 * (2 * U)) by (apply Rmult_le_compat_r; lra). lra. }
        assert (R17 : rep (-17) /\ rep 17) by (split; apply rep_Z; lia).
        destruct (mul_in C d FC Fs (-17) 17 (proj1 R17) (proj2 R17)) as (Fm & _ & Bm); [apply Rabs_le_inv; exact Bc|].
        destruct (add_in (vget psi i) (dmul C d) Fp Fm (-275) 99) as (Fa & _ & Ba); [apply (rep_Z (-275)); lia|apply (rep_Z 99); lia|lra|].
        apply (fast_exp_d lg ex lga sum Hex); [exact Fa|]. change (-310 <= B2R (dadd (vget psi i) (dmul C d)) <= 100). lra.
      - rewrite E. cbn [bind]. exists e. split; [reflexivity|]. unfold l in Be. rewrite vtab_length in Be. exact Be.
    Qed.

    Lemma fast_step_sound s : sound s -> exists s', (let* phi := compute_supervised_approximate_phi 7 (ratio X N) N y (p_beta m) eta (fst s) C (snd s) in Ok (compute_gamma X alpha phi, phi)) = Ok s' /\ sound s'.
    Proof.
      intros S. destruct (Z.eq_dec N 0) as [Z|Z].
      - unfold compute_supervised_approximate_phi. rewrite Z. cbn [Z.eqb bind]. eexists. split; [reflexivity|]. destruct S as [S1 S2 _ _ S5 S6 S7 _]. now apply (gamma_sound lg ex lga sum X m DI).
      - destruct (count_total lg ex lga sum X m DI) as [N0 _]. apply le_IZR in N0. destruct (class_weights s S ltac:(lia)) as (e & E & Be). rewrite E. cbn [bind]. eexists. split; [reflexivity|].
        now apply (weights_sound lg ex lga sum Hsum X m DI).
    Qed.

    Lemma exp_eta_defined (r : double) : is_finite r = true -> 0 <= B2R r <= 1 -> exists ee, exp_eta_scaled eta r = Ok ee.
    Proof.
      intros Fr Br. unfold exp_eta_scaled, mmapM. cbn [mcols mrows mtab]. rewrite vtab_map.
      destruct (InferProofs.seqM_tab (ncols eta) (fun c => vmapM fast_exp (vtab (mrows eta) (fun i => (mget eta i c * r)%S))) (fun _ _ => True)) as (l & E & _).
      - intros c Hc. destruct (vmapM_in fast_exp (vtab (mrows eta) (fun i => (mget eta i c * r)%S)) (fun _ _ => True)) as (e & E & _).
        + rewrite vtab_length. intros i Hi. rewrite vget_tab by exact Hi. destruct (dl_eta _ _ _ _ DL i c Hi Hc) as [F B].
          destruct (mul_in (mget eta i c) r F Fr (-150) 150) as (Fm & _ & Bm); [apply (rep_Z (-150)); lia|apply (rep_Z 150); lia| |].
          { apply Rabs_le_inv. rewrite Rabs_mult, (Rabs_pos_eq (B2R r)) by lra. apply Rle_trans with (150 * 1); [|lra]. apply Rmult_le_compat; try lra. apply Rabs_pos. }
          destruct (fast_exp_wide lg ex lga sum Hex (dmul (mget eta i c) r) Fm ltac:(lra)) as (e & E & _). exists e. split; [exact E|exact I].
        + exists e. split; [exact E|exact I].
      - rewrite E. cbn [bind]. eauto.
    Qed.
    Lemma products_defined phi : (0 < N)%Z -> exists l, all_products true X (ratio X N) eta phi = Ok l.
    Proof.
      intros HN. unfold all_products. generalize (vtab (ncols eta) (fun _ => one : double)) as acc.
      assert (Hin : forall n, In n (seq 0 (length X)) -> (n < V)%nat) by (intros n Hn; apply in_seq in Hn; rewrite <- (di_words _ _ _ DI); lia).
      revert Hin. generalize (seq 0 (length X)) as l. induction l as [|n l IH]; intros Hin acc; [cbn; eauto|]. cbn [fold_left bind].
      destruct (true && (Xget X n =? 0)%Z)%bool; [apply IH; intros; apply Hin; now right|].
      destruct (ratio_d n HN (Hin n (or_introl eq_refl))) as (F & B & _). destruct (exp_eta_defined _ F B) as (ee & ->). cbn [bind]. apply IH. intros; apply Hin; now right.
    Qed.
    Lemma class_likelihood_defined s : sound s -> (0 < N)%Z -> exists v, compute_supervised_likelihood 7 X y alpha (p_beta m) eta (snd s) (fst s) = Ok v.
    Proof.
      intros S HN. assert (N1 : (N < 2 ^ 31)%Z) by apply (di_length _ _ _ DI).
      assert (EN : int_sum X = Ok N).
      { unfold int_sum. cbv zeta. replace (_ && _)%bool with true; [reflexivity|]. symmetry. apply andb_true_iff. split; [apply Z.leb_le|apply Z.ltb_lt]; unfold Zsum in *; lia. }
      destruct (some_word X (di_counts _ _ _ DI) HN) as (k & Hk & Pk).
      unfold compute_supervised_likelihood. rewrite EN. cbn [bind]. unfold compute_h. destruct (products_defined (snd s) HN) as (l & ->). cbn [bind].
      destruct (last_word_found (fun x => negb (x =? 0)%Z) X (length X)) as (n & En). { exists k. split; [exact Hk|]. apply negb_true_iff, Z.eqb_neq. lia. }
      rewrite En. assert (Hn : (n < V)%nat). { rewrite <- (di_words _ _ _ DI). now apply last_word_below in En. }
      destruct (ratio_d n HN Hn) as (F & B & _). destruct (exp_eta_defined _ F B) as (ee & ->). cbn [bind]. unfold compute_supervised_likelihood_h.
      destruct (likelihood_defined lg ex lga sum Hsum X m DI s S) as (v & ->). cbn [bind]. rewrite EN. cbn [bind].
      destruct (last_word_found (fun x => (0 <? x)%Z) X (length X)) as (n' & ->). { exists k. split; [exact Hk|]. apply Z.ltb_lt. lia. }
      eauto.
    Qed.
    Theorem fast_double cf emit (d : doc double) : d_words d = X -> d_class d = Some (Z.of_nat y) -> (emit = true -> (0 < N)%Z) ->
      exists gamma phi ev, fast_supervised_doc_e_step 7 cf C emit d m = Ok (mk_vparams gamma phi [], ev) /\ double_posterior X m gamma phi /\ (emit = true -> exists v, ev = Some v).
    Proof.
      intros EX Ey Hemit. unfold fast_supervised_doc_e_step. rewrite EX, Ey. destruct (count_total lg ex lga sum X m DI) as [N0 _]. assert (N1 : (N < 2 ^ 31)%Z) by apply (di_length _ _ _ DI). apply le_IZR in N0.
      assert (EN : int_sum X = Ok N).
      { unfold int_sum. cbv zeta. replace (_ && _)%bool with true; [reflexivity|]. symmetry. apply andb_true_iff. split; [apply Z.leb_le|apply Z.ltb_lt]; unfold Zsum in *; lia. }
      rewrite EN. cbn [bind]. replace (sizes_ok d m) with true.
      2:{ symmetry. unfold sizes_ok. rewrite EX, (di_alpha_length _ _ _ DI), (di_words _ _ _ DI), !Nat.eqb_refl. reflexivity. }
      replace (class_ok (Z.of_nat y) m) with true.
      2:{ symmetry. unfold class_ok. rewrite (dl_topics _ _ _ _ DL), Nat.eqb_refl. pose proof (dl_class _ _ _ _ DL). apply andb_true_iff. split; [apply andb_true_iff; split; [reflexivity|apply Z.leb_le; lia]|apply Z.ltb_lt; lia]. }
      cbn [negb andb]. cbv zeta. rewrite Nat2Z.id.
      destruct (em_loop_inv sound fst (fun s => let* phi := compute_supervised_approximate_phi 7 (ratio X N) N y (p_beta m) eta (fst s) C (snd s) in Ok (compute_gamma X alpha phi, phi)) (e_tolerance cf) fast_step_sound
        (e_iterations cf) (EStepModel.zeros K) _ (init_sound lg ex lga sum X m DI)) as ([g phi] & E & S).
      rewrite E. cbn [bind]. pose proof (result_double lg ex lga sum X m DI _ S) as R. cbn [fst snd] in R. unfold report. destruct emit.
      - destruct (class_likelihood_defined _ S (Hemit eq_refl)) as (v & Ev). cbn [fst snd] in Ev. rewrite Ev. cbn [bind]. exists g, phi, (Some v). split; [reflexivity|]. split; [exact R|]. eauto.
      - cbn [bind]. exists g, phi, None. split; [reflexivity|]. split; [exact R|]. discriminate.
    Qed.
  End Step.
End Double.
