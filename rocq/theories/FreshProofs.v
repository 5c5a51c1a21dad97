(** Lemmas about the first models the builder makes, in double precision. *)
Require Import Reals ZArith List Bool Arith Lia Lra Psatz.
From Flocq Require Import Core.Core IEEE754.BinarySingleNaN.
Require Import Verif.Base Verif.Scalar Verif.Mat Verif.HostModel Verif.UtilsModel Verif.BuilderModel Verif.EStepModel Verif.MStepSpec.
Require Import Verif.DoubleSpec Verif.DoubleTrainSpec Verif.DoubleArith Verif.DoubleUtils Verif.DoubleProofs Verif.DoubleTrain Verif.FreshSpec.
Import ListNotations.
Open Scope R_scope.
Local Notation length := List.length.

Lemma in_sum (x : list Z) : (forall c, In c x -> 0 <= c)%Z -> (0 <= fold_right Z.add 0 x)%Z /\ forall c, In c x -> (c <= fold_right Z.add 0 x)%Z.
Proof.
  induction x as [|a x IH]; intros H; cbn; [split; [lia|contradiction]|]. destruct IH as [A B]; [intros c Hc; apply H; now right|].
  assert (0 <= a)%Z by (apply H; now left). split; [lia|]. intros c [->|Hc]; [lia|]. specialize (B c Hc). lia.
Qed.

Lemma seqM_seq {A} (P : nat -> A -> Prop) (g : nat -> outcome A) d K : (forall k, (k < K)%nat -> exists r, g k = Ok r /\ P k r) ->
  exists rows, seqM (map g (seq 0 K)) = Ok rows /\ length rows = K /\ forall k, (k < K)%nat -> P k (nth k rows d).
Proof.
  assert (G : forall n s, (forall k, (s <= k < s + n)%nat -> exists r, g k = Ok r /\ P k r) ->
    exists rows, seqM (map g (seq s n)) = Ok rows /\ length rows = n /\ forall k, (k < n)%nat -> P (s + k)%nat (nth k rows d)).
  { induction n as [|n IH]; intros s H.
    - exists []. split; [reflexivity|]. split; [reflexivity|]. lia.
    - destruct (H s ltac:(lia)) as (r & E & Pr). destruct (IH (S s)) as (rows & Er & L & Q); [intros k Hk; apply H; lia|].
      exists (r :: rows). split; [cbn; rewrite E; cbn; now rewrite Er|]. split; [cbn; now rewrite L|].
      intros [|k] Hk; [now rewrite Nat.add_0_r|]. replace (s + S k)%nat with (S s + k)%nat by lia. apply Q. lia. }
  intros H. apply (G K 0%nat). intros k Hk. apply H. lia.
Qed.

Section Fresh.
  Variables (lg ex lga : double -> double) (sum : list double -> double).
  Local Hint Extern 0 (ops _) => exact (DO lg ex lga sum) : typeclass_instances.
  Hypothesis Hsum : forall l, summed l (sum l).

  (** *** The prior *)
  Lemma inverse_d (K : nat) : (1 <= K <= 300)%nat -> is_finite (inverse K) = true /\ / 300 <= B2R (inverse K) <= 1.
  Proof.
    intros HK. destruct (int_d lg ex lga sum (Z.of_nat K) ltac:(lia)) as [Fz Vz]. destruct (one_d lg ex lga sum) as [F1 V1].
    assert (K1 : 1 <= IZR (Z.of_nat K)) by (apply (IZR_le 1); lia).
    assert (K3 : IZR (Z.of_nat K) <= 300) by (apply IZR_le; lia).
    assert (I0 : 0 < / IZR (Z.of_nat K)) by (apply Rinv_0_lt_compat; lra).
    destruct (div_in one (ofZ (Z.of_nat K)) F1 0 1 (rep_Z 0 ltac:(lia)) (rep_Z 1 ltac:(lia))) as (Fd & Vd & Bd).
    { rewrite Vz. lra. }
    { rewrite V1, Vz. unfold Rdiv. rewrite Rmult_1_l. split; [lra|]. rewrite <- Rinv_1. apply Rinv_le_contravar; lra. }
    unfold inverse. split; [exact Fd|]. split; [|apply Bd].
    destruct (Nat.eq_dec K 300) as [->|N].
    - assert (E : div one (ofZ (Z.of_nat 300)) = @B754_finite 53 1024 false 7686143364045647 (-61) eq_refl) by (apply B2SF_inj; vm_compute; reflexivity).
      rewrite E. unfold B2R, F2R, cond_Zopp. cbn [Fnum Fexp]. change (pow (-61)) with (/ IZR (2 ^ 61)). lra.
    - assert (K9 : IZR (Z.of_nat K) <= 299) by (apply IZR_le; lia).
      change (div one (ofZ (Z.of_nat K))) with (ddiv one (ofZ (Z.of_nat K))). rewrite Vd, V1, Vz. pose proof (rnd_error (1 / IZR (Z.of_nat K))) as E. apply Rabs_le_inv in E. unfold Rdiv in *. rewrite Rmult_1_l in *.
      rewrite (Rabs_pos_eq (/ IZR (Z.of_nat K))) in E by lra.
      assert (I9 : / 299 <= / IZR (Z.of_nat K)) by (apply Rinv_le_contravar; lra).
      assert (P53 : pow (-53) * / IZR (Z.of_nat K) <= pow (-53) * 1).
      { apply Rmult_le_compat_l; [apply bpow_ge_0|]. rewrite <- Rinv_1. apply Rinv_le_contravar; lra. }
      assert (Q53 : pow (-53) <= / 1000000000) by (change (pow (-53)) with (/ IZR (2 ^ 53)); lra).
      assert (Q1075 : pow (-1075) <= pow (-53)) by (apply bpow_le; lia).
      lra.
  Qed.

  (** *** One topic of the seeded initialisation *)
  Lemma seeded_row_d X V N draw : plain_corpus X V -> (Z.of_nat N <= 2 ^ 20)%Z ->
    exists f, seeded_row X N draw V = Ok (vtab V f) /\
      forall w, (w < V)%nat -> is_finite (f w : double) = true /\ 1 <= B2R (f w) <= pow 52.
  Proof.
    intros PC HN.
    assert (G : exists f, seeded_row X N draw V = Ok (vtab V f) /\ forall w, (w < V)%nat -> exists z, is_finite (f w : double) = true /\ B2R (f w) = IZR z /\ (1 <= z <= 1 + Z.of_nat N * 2 ^ 31)%Z).
    { induction N as [|N IH].
      - exists (fun _ => one). split; [reflexivity|]. intros w Hw. exists 1%Z. destruct (one_d lg ex lga sum) as [F1 V1]. split; [exact F1|]. split; [exact V1|lia].
      - destruct IH as (f & E & Hf); [lia|]. unfold seeded_row in *. rewrite seq_S, fold_left_app, E. cbn [fold_left bind]. rewrite Nat.add_0_l.
        set (doc := nth (draw N mod length X) X []).
        assert (Hd : In doc X). { apply nth_In. apply Nat.mod_upper_bound. destruct (pc_documents _ _ PC). lia. }
        destruct (pc_counts _ _ PC doc Hd) as (Ld & Cd & Sd). rewrite Ld, Nat.eqb_refl.
        exists (fun w => add (vget (vtab V f) w) (ofZ (nth w doc 0%Z))). split; [reflexivity|].
        intros w Hw. rewrite vget_tab by exact Hw. destruct (Hf w Hw) as (z & Fz & Vz & Bz).
        assert (Hc : In (nth w doc 0%Z) doc) by (apply nth_In; lia).
        destruct (in_sum doc Cd) as [S0 S1]. specialize (S1 _ Hc). specialize (Cd _ Hc). set (c := nth w doc 0%Z) in *.
        destruct (int_d lg ex lga sum c ltac:(lia)) as [Fc Vc].
        assert (R : rep (IZR (z + c))) by (apply rep_Z; lia).
        destruct (add_in (f w) (ofZ c) Fz Fc (IZR (z + c)) (IZR (z + c)) R R) as (Fa & _ & Ba); [rewrite Vz, Vc, <- plus_IZR; lra|].
        exists (z + c)%Z. split; [exact Fa|]. split; [apply Rle_antisym; apply Ba|lia]. }
    destruct G as (f & E & Hf). exists f. split; [exact E|]. intros w Hw. destruct (Hf w Hw) as (z & Fz & Vz & Bz). split; [exact Fz|]. rewrite Vz.
    split; [apply (IZR_le 1); lia|]. change (pow 52) with (IZR (2 ^ 52)). apply IZR_le. lia.
  Qed.

  (** *** What the first model must be like for C79 and C80 *)
  Definition first_model (K V : nat) (m : params double) : Prop :=
    p_alpha m = vtab K (fun _ => inverse K) /\ mrows (p_beta m) = K /\ ncols (p_beta m) = V /\ double_topics (p_beta m) /\
    forall i n, (i < K)%nat -> (n < V)%nat -> / 2 ^ 250 <= B2R (mget (p_beta m) i n).

  Lemma first_corpus K V X (D : list (doc double)) (m : params double) : (1 <= K <= 300)%nat -> plain_corpus X V -> map d_words D = X -> first_model K V m -> double_corpus D m.
  Proof.
    intros HK PC ED (Ea & Er & Ec & Dt & Lo). constructor.
    - intros ->. cbn in ED. subst X. destruct (pc_documents _ _ PC). cbn in *. lia.
    - rewrite <- (map_length d_words), ED. apply (pc_documents _ _ PC).
    - intros d Hd. assert (Hx : In (d_words d) X) by (rewrite <- ED; now apply in_map). destruct (pc_counts _ _ PC _ Hx) as (L & C & S).
      constructor; rewrite ?Er, ?Ec.
      + lia.
      + apply (pc_words _ _ PC).
      + rewrite Ea. apply vtab_length.
      + exact L.
      + intros i Hi. rewrite Ea, vget_tab by exact Hi. destruct (inverse_d K HK) as (F & B). split; [exact F|]. lra.
      + intros i n Hi Hn. destruct (Dt i) as [T _]; [rewrite Er; exact Hi|]. apply T. rewrite Ec. exact Hn.
      + exact C.
      + exact S.
      + intros n Hn _. exists 0%nat. split; [lia|]. apply Lo; [lia|exact Hn].
    - intros i Hi. rewrite Er in Hi. destruct (pc_some _ _ PC) as (x & c & Hx & Hc & N). rewrite <- ED in Hx. apply in_map_iff in Hx. destruct Hx as (d & <- & Hd).
      apply In_nth with (d := 0%Z) in Hc. destruct Hc as (n & Hn & En). exists d, n. split; [exact Hd|].
      assert (Hx : In (d_words d) X) by (rewrite <- ED; now apply in_map). destruct (pc_counts _ _ PC _ Hx) as (L & _ & _).
      rewrite L in Hn. rewrite Ec. split; [exact Hn|]. split; [now rewrite En|]. apply Lo; assumption.
  Qed.

  Lemma some_word X V : plain_corpus X V -> (0 < V)%nat.
  Proof.
    intros PC. destruct (pc_some _ _ PC) as (x & c & Hx & Hc & _). destruct (pc_counts _ _ PC x Hx) as (L & _). destruct x; [contradiction|]. cbn in L. lia.
  Qed.

  Lemma rows_first K V (f : nat -> nat -> double) (k j : Z) : (Z.of_nat V <= 2 ^ 30)%Z -> (0 < V)%nat -> (-1074 <= k <= 900)%Z -> (-220 <= j - k)%Z -> (j <= k)%Z ->
    (forall i w, (i < K)%nat -> (w < V)%nat -> is_finite (f i w) = true /\ pow j <= B2R (f i w) <= pow k) ->
    let b := mtab K V (fun i w => div (f i w) (redux (vtab V (f i)))) in
    double_topics b /\ forall i n, (i < K)%nat -> (n < V)%nat -> / 2 ^ 250 <= B2R (mget b i n).
  Proof.
    intros HV V0 Hk Hj Hjk Hf b.
    assert (R : forall i, (i < K)%nat -> (forall n, (n < V)%nat -> is_finite (mget b i n) = true /\ 0 <= B2R (mget b i n) <= 1) /\
      Rabs (rsum V (fun n => B2R (mget b i n)) - 1) <= (INR V + 1) / 2 ^ 50 /\ forall n, (n < V)%nat -> / 2 ^ 250 <= B2R (mget b i n)).
    { intros i Hi. assert (Pj : forall w, (w < V)%nat -> is_finite (f i w) = true /\ 0 <= B2R (f i w) <= pow k).
      { intros w Hw. destruct (Hf i w Hi Hw) as [F B]. split; [exact F|]. pose proof (bpow_gt_0 radix2 j). lra. }
      destruct (row_d lg ex lga sum Hsum V (f i) k 0%nat HV Hk Pj V0) as (A & B & C & _ & _).
      { destruct (Hf i 0%nat Hi V0) as [_ Bf]. pose proof (bpow_gt_0 radix2 j). lra. }
      assert (G : forall n, (n < V)%nat -> mget b i n = div (f i n) (redux (vtab V (f i)))) by (intros n Hn; unfold b; now rewrite mget_tab).
      split; [|split].
      - intros n Hn. rewrite G by exact Hn. destruct (A n Hn) as (F & Bn & _). now split.
      - erewrite rsum_ext; [exact B|]. intros n Hn. cbn beta. now rewrite G.
      - intros n Hn. rewrite G by exact Hn. eapply Rle_trans; [|apply (C n j Hn); [apply (Hf i n Hi Hn)|lia]].
        replace (2 ^ 250) with (pow 250) by (now rewrite bpow_powerRZ). rewrite <- (bpow_opp radix2 250). apply bpow_le. lia. }
    split; [|intros i n Hi Hn; now apply R]. intros i Hi. cbn [b mtab mrows ncols] in *. destruct (R i Hi) as (A & B & _).
    assert (Ec : ncols b = V) by (unfold b, ncols, mtab; cbn; apply vtab_length). rewrite Ec. split; [exact A|exact B].
  Qed.

  Lemma seeded_first X V K N draw (p0 : params double) : plain_corpus X V -> (Z.of_nat N <= 2 ^ 20)%Z ->
    exists p, topics_seeded X K N draw p0 = Ok p /\ first_model K V p /\ p_eta p = p_eta p0.
  Proof.
    intros PC HN. pose proof (some_word X V PC) as V0.
    destruct (seqM_seq (fun k r => exists f, r = vtab V f /\ forall w, (w < V)%nat -> is_finite (f w : double) = true /\ 1 <= B2R (f w) <= pow 52)
      (fun k => seeded_row X N (draw k) V) [] K) as (rows & E & L & Q).
    { intros k _. destruct (seeded_row_d X V N (draw k) PC HN) as (f & Ef & Hf). exists (vtab V f). split; [exact Ef|]. now exists f. }
    destruct X as [|d0 X]; [destruct (pc_documents _ _ PC); cbn in *; lia|].
    assert (Ed : length d0 = V) by (apply (pc_counts _ _ PC); now left).
    unfold topics_seeded. rewrite Ed, E. cbn [bind]. eexists. split; [reflexivity|]. split; [|reflexivity].
    set (f := fun k w => vget (nth k rows []) w).
    destruct (rows_first K V f 52 0 (pc_words _ _ PC) V0 ltac:(lia) ltac:(lia) ltac:(lia)) as [T1 T2].
    { intros i w Hi Hw. destruct (Q i Hi) as (g & Eg & Hg). unfold f. rewrite Eg, vget_tab by exact Hw. exact (Hg w Hw). }
    assert (Em : mtab K V (fun i w => div (vget (nth i rows []) w) (redux (nth i rows []))) = mtab K V (fun i w => div (f i w) (redux (vtab V (f i))))).
    { apply mtab_ext. intros i w Hi Hw. destruct (Q i Hi) as (g & Eg & Hg). unfold f. rewrite Eg. do 2 f_equal. apply vtab_ext. intros j Hj. now rewrite vget_tab. }
    rewrite Em. unfold first_model. cbn [p_alpha p_beta]. split; [reflexivity|]. split; [reflexivity|]. split; [unfold ncols, mtab; cbn; apply vtab_length|]. split; [exact T1|exact T2].
  Qed.

  Lemma random_first V K draw (p0 : params double) : (Z.of_nat V <= 2 ^ 30)%Z -> (0 < V)%nat -> usable_draws V K draw ->
    first_model K V (topics_random V K draw p0).
  Proof.
    intros HV V0 U.
    assert (Hf : forall i w, (i < K)%nat -> (w < V)%nat -> is_finite (draw i w) = true /\ pow (-200) <= B2R (draw i w) <= pow 0).
    { intros i w Hi Hw. destruct (U i w Hi Hw) as [F B]. split; [exact F|]. change (-200)%Z with (- (200))%Z. rewrite (bpow_opp radix2 200). replace (pow 200) with (2 ^ 200) by (now rewrite bpow_powerRZ). cbn [bpow]. exact B. }
    destruct (rows_first K V draw 0 (-200) HV V0 ltac:(lia) ltac:(lia) ltac:(lia) Hf) as [T1 T2].
    unfold topics_random, first_model. cbn [p_alpha p_beta].
    assert (Em : normalize_rows (mtab K V (fun k w => draw k w)) = mtab K V (fun i w => div (draw i w) (redux (vtab V (draw i))))).
    { unfold normalize_rows. assert (Ec : ncols (mtab K V (fun k w => draw k w)) = V) by (unfold ncols, mtab; cbn; apply vtab_length). rewrite Ec. cbn [mtab mrows].
      apply mtab_ext. intros i w Hi Hw. change (mk_mat K _) with (mtab K V (fun k w => draw k w)). rewrite mget_tab, mrow_tab by assumption.
      destruct (summed_in 0 (vtab V (draw i)) (sum (vtab V (draw i))) (Hsum _) ltac:(lia)) as (Fs & _ & Ms & _).
      { rewrite vtab_length. lia. }
      { apply Forall_forall. intros z Hz. unfold vtab in Hz. apply in_map_iff in Hz. destruct Hz as (j & <- & Hj). apply in_seq in Hj. destruct (Hf i j Hi ltac:(lia)) as [F B]. split; [exact F|]. pose proof (bpow_gt_0 radix2 (-200)). lra. }
      assert (P : 0 < B2R (sum (vtab V (draw i)))).
      { eapply Rlt_le_trans; [|apply (Ms (draw i w)); unfold vtab; apply in_map_iff; exists w; split; [reflexivity|apply in_seq; lia]].
        destruct (Hf i w Hi Hw) as [_ B]. pose proof (bpow_gt_0 radix2 (-200)). lra. }
      change (redux (vtab V (fun j => draw i j))) with (sum (vtab V (draw i))). destruct (eqb (sum (vtab V (draw i))) zero) eqn:Z; [apply (is_zero lg ex lga sum _ Fs) in Z; lra|reflexivity]. }
    rewrite Em. split; [reflexivity|]. split; [reflexivity|]. split; [unfold ncols, mtab; cbn; apply vtab_length|]. split; [exact T1|exact T2].
  Qed.
  Lemma seeded_sound X V K N draw (p : params double) : plain_corpus X V -> (Z.of_nat N <= 2 ^ 20)%Z ->
    exists p', topics_seeded X K N draw p = Ok p' /\ sound_model K V p' /\ (forall i n, (i < K)%nat -> (n < V)%nat -> / 2 ^ 250 <= B2R (mget (p_beta p') i n)).
  Proof.
    intros PC HN. destruct (seeded_first X V K N draw p PC HN) as (q & E & (F1 & F2 & F3 & F4 & F5) & _). exists q. exact (conj E (conj (conj F1 (conj F2 (conj F3 F4))) F5)).
  Qed.
  Lemma random_sound V K draw (p : params double) : (1 <= Z.of_nat V <= 2 ^ 30)%Z -> usable_draws V K draw ->
    sound_model K V (topics_random V K draw p) /\ (forall i n, (i < K)%nat -> (n < V)%nat -> / 2 ^ 250 <= B2R (mget (p_beta (topics_random V K draw p)) i n)).
  Proof.
    intros HV U. destruct (random_first V K draw p ltac:(lia) ltac:(lia) U) as (F1 & F2 & F3 & F4 & F5). exact (conj (conj F1 (conj F2 (conj F3 F4))) F5).
  Qed.
End Fresh.
