(** Lemmas about the first model of train in the root directory's application, in double precision. *)
Require Import Reals ZArith List Bool Arith Lia Lra Psatz String.
From Flocq Require Import Core.Core IEEE754.BinarySingleNaN.
Require Import Verif.Base Verif.Scalar Verif.Mat Verif.HostModel Verif.UtilsModel Verif.BuilderModel Verif.CorpusModel Verif.EStepModel Verif.MStepSpec Verif.SettingsModel Verif.AppsModel Verif.ShapeSpec
  Verif.CommandModel Verif.CommandSpec Verif.CommandFiles Verif.EStepStop Verif.NumpyProofs Verif.ReproModel.
Require Import Verif.DoubleSpec Verif.DoubleTrainSpec Verif.DoubleClassSpec Verif.DoubleMultiTrainSpec Verif.DoubleCorrTrainSpec Verif.DoubleArith Verif.DoubleUtils Verif.DoubleProofs Verif.DoubleTrain
  Verif.FreshSpec Verif.FreshProofs Verif.FreshTrain Verif.RootModel Verif.RootSpec Verif.RootFreshSpec.
Import ListNotations.
Open Scope R_scope.
Local Notation length := List.length.

(** Some number is at least the mean. *)
Lemma rsum_mean V (f : nat -> R) c : (0 < V)%nat -> INR V * c <= rsum V f -> exists n, (n < V)%nat /\ c <= f n.
Proof.
  intros HV H. destruct (Classical_Prop.classic (exists n, (n < V)%nat /\ c <= f n)) as [E|N]; [exact E|exfalso].
  assert (L : forall n, (n < V)%nat -> f n < c). { intros n Hn. apply Rnot_le_lt. intros C. apply N. now exists n. }
  assert (S : rsum V f < INR V * c).
  { clear N H. induction V as [|V IH]; [lia|]. rewrite rsum_S, S_INR. pose proof (L V ltac:(lia)). destruct V as [|V].
    - rewrite rsum_0. cbn [INR]. lra.
    - assert (rsum (S V) f < INR (S V) * c) by (apply IH; [lia|intros; apply L; lia]). lra. }
  lra.
Qed.

(** The largest label *)
Lemma largest C c r : labels_below C (c :: r) -> fold_left Z.max r c = (Z.of_nat C - 1)%Z.
Proof.
  intros [B I]. assert (G : forall r c, (forall b, In b (c :: r) -> b <= fold_left Z.max r c)%Z /\ In (fold_left Z.max r c) (c :: r)).
  { clear. intros r. induction r as [|a r IH]; intros c; cbn [fold_left]; [split; [intros b [->|[]]; lia|now left]|]. destruct (IH (Z.max c a)) as [A M]. split.
    - intros b [->|[->|Hb]]; [specialize (A (Z.max b a) (or_introl eq_refl)); lia|specialize (A (Z.max c b) (or_introl eq_refl)); lia|apply A; now right].
    - destruct M as [M|M]; [|now right; right]. rewrite <- M. destruct (Z.max_spec c a) as [[_ ->]|[_ ->]]; [now right; left|now left]. }
  destruct (G r c) as [A M]. specialize (A _ I). specialize (B _ M). lia.
Qed.
Lemma bump_length {T} {O : ops T} ys : forall p p' : list T, bump_all p ys = Ok p' -> length p' = length p.
Proof.
  induction ys as [|y ys IH]; intros p p' E; cbn [bump_all] in E; [now injection E as <-|]. destruct (bind_ok _ _ _ E) as (q & Eq & E'). rewrite (IH _ _ E').
  unfold bump in Eq. destruct (_ && _)%bool; [|discriminate]. injection Eq as <-. now rewrite map_length, seq_length.
Qed.
Lemma labelled_in {T} {O : ops T} X y C D d : labelled_docs (T := T) X y = Ok D -> labels_below C y -> In d D ->
  In (d_words d) X /\ exists c, d_class d = Some (Z.of_nat c) /\ (c < C)%nat /\ length (d_priors d) = C.
Proof.
  intros E LB H. unfold labelled_docs in E. destruct (bind_ok _ _ _ E) as (cc & Ec & E1). destruct (Nat.ltb_spec (length y) (length X)) as [|LY]; [discriminate|]. injection E1 as <-.
  unfold vtab in H. apply in_map_iff in H. destruct H as (i & <- & Hi). apply in_seq in Hi. unfold labelled_at. cbn [d_words d_class d_priors]. split; [apply nth_In; lia|].
  assert (Hy : In (nth i y 0%Z) y) by (apply nth_In; lia). destruct LB as [LB LI]. pose proof (LB _ Hy) as B. exists (Z.to_nat (nth i y 0%Z)). rewrite Z2Nat.id by lia. split; [reflexivity|]. split; [lia|].
  unfold new_ccorpus in Ec. destruct y as [|c r]; [contradiction|]. cbn [max_label bind] in Ec. rewrite (largest C c r (conj LB LI)) in Ec. destruct (_ <? 0)%Z; [discriminate|].
  destruct (bind_ok _ _ _ Ec) as (counts & Eb & Ef). injection Ef as <-. cbn [cc_priors]. rewrite map_length, (bump_length _ _ _ Eb), repeat_length. lia.
Qed.
Lemma classes_below C y : labels_below C y -> (Z.of_nat C < 2 ^ 31)%Z -> classes_of y = Ok C.
Proof.
  intros LB H. destruct y as [|c r]; [destruct LB as [_ []]|]. unfold classes_of. rewrite (largest C c r LB). unfold size. rewrite wrap64_small by (destruct LB; lia). f_equal. lia.
Qed.
Lemma words_of {T} X (D : list (doc T)) : map d_words D = X -> corpus_words D = all_words X.
Proof. intros <-. unfold corpus_words, all_words. now rewrite map_map. Qed.

Section Fresh.
  Variables (lg ex lga : double -> double) (sum : list double -> double).
  Local Hint Extern 0 (ops _) => exact (DO lg ex lga sum) : typeclass_instances.
  Hypothesis Hsum : forall l, summed l (sum l).

  (** A word that occurs in no document keeps its one. *)
  Lemma seeded_row_unseen X V N draw row w : plain_corpus X V -> seeded_row X N draw V = Ok row -> (w < V)%nat -> (forall x, In x X -> nth w x 0%Z = 0%Z) -> B2R (vget row w : double) = 1 /\ is_finite (vget row w : double) = true.
  Proof.
    intros PC. revert row. induction N as [|N IH]; intros row E Hw U.
    - cbn in E. injection E as <-. rewrite vget_tab by exact Hw. destruct (one_d lg ex lga sum). now split.
    - unfold seeded_row in *. rewrite seq_S, fold_left_app in E. cbn [fold_left] in E. destruct (bind_ok _ _ _ E) as (r & Er & E1). rewrite Nat.add_0_l in E1.
      set (doc := nth (draw N mod length X) X []) in *. destruct (length doc =? V)%nat; [|discriminate]. injection E1 as <-. rewrite vget_tab by exact Hw.
      destruct (IH r Er Hw U) as [B F]. assert (Hd : In doc X). { apply nth_In. apply Nat.mod_upper_bound. destruct (pc_documents _ _ PC). lia. }
      rewrite (U doc Hd). destruct (int_d lg ex lga sum 0 ltac:(lia)) as [Fc Vc]. assert (R : rep 1) by (apply (rep_Z 1); lia).
      destruct (add_in (vget r w) (ofZ 0) F Fc 1 1 R R) as (Fa & _ & Ba); [rewrite B, Vc; lra|]. split; [apply Rle_antisym; apply Ba|exact Fa].
  Qed.

  Lemma seeded_alive X V K N draw (p0 p : params double) : plain_corpus X V -> (Z.of_nat N <= 2 ^ 20)%Z -> topics_seeded X K N draw p0 = Ok p ->
    forall i, (i < K)%nat -> exists x n, In x X /\ (n < V)%nat /\ nth n x 0%Z <> 0%Z /\ / 2 ^ 40 <= B2R (mget (p_beta p) i n).
  Proof.
    intros PC HN T i Hi. pose proof (some_word X V PC) as V0.
    destruct (seqM_seq (fun k r => exists f, r = vtab V f /\ (forall w, (w < V)%nat -> is_finite (f w : double) = true /\ 1 <= B2R (f w) <= pow 52) /\
        forall w, (w < V)%nat -> (forall x, In x X -> nth w x 0%Z = 0%Z) -> B2R (f w) = 1)
      (fun k => seeded_row X N (draw k) V) [] K) as (rows & E & L & Q).
    { intros k _. destruct (seeded_row_d lg ex lga sum X V N (draw k) PC HN) as (f & Ef & Hf). exists (vtab V f). split; [exact Ef|]. exists f. split; [reflexivity|]. split; [exact Hf|].
      intros w Hw U. destruct (seeded_row_unseen _ _ _ _ _ w PC Ef Hw U) as [B _]. now rewrite vget_tab in B. }
    assert (XV : forall d0 X', X = d0 :: X' -> length d0 = V) by (intros d0 X' ->; apply (pc_counts _ _ PC); now left).
    assert (Ep : p_beta p = mtab K V (fun i w => div (vget (nth i rows []) w) (redux (nth i rows [])))).
    { unfold topics_seeded in T. destruct X as [|d0 X']; [discriminate|]. rewrite (XV _ _ eq_refl), E in T. cbn [bind] in T. now injection T as <-. }
    destruct (Q i Hi) as (f & Ef & Hf & Uf).
    destruct (row_d lg ex lga sum Hsum V f 52 0%nat (pc_words _ _ PC) ltac:(lia)) as (A & B & _ & Ps & _).
    { intros w Hw. destruct (Hf w Hw). split; [assumption|lra]. }
    { exact V0. }
    { destruct (Hf 0%nat V0). lra. }
    set (s := redux (vtab V f)) in *.
    assert (G : forall n, (n < V)%nat -> mget (p_beta p) i n = div (f n) s).
    { intros n Hn. rewrite Ep, mget_tab, Ef by assumption. now rewrite vget_tab. }
    destruct (rsum_mean V (fun n => B2R (div (f n) s)) (/ 2 ^ 40) V0) as (n & Hn & Bn).
    { apply Rabs_le_inv in B. destruct (INR_small V (pc_words _ _ PC)) as [I0 I1]. change (- ((INR V + 1) / 2 ^ 50) <= rsum V (fun n => B2R (div (f n) s)) - 1 <= (INR V + 1) / 2 ^ 50) in B.
      set (S := rsum V _) in *. assert (P40 : / 2 ^ 40 = / IZR (2 ^ 40)) by (f_equal; rewrite (pow_IZR 2 40); reflexivity). assert (P50 : / 2 ^ 50 = / IZR (2 ^ 50)) by (f_equal; rewrite (pow_IZR 2 50); reflexivity).
      unfold Rdiv in B. rewrite P50 in B. rewrite P40. lra. }
    destruct (Classical_Prop.classic (exists x, In x X /\ nth n x 0%Z <> 0%Z)) as [(x & Hx & N0)|NX].
    - exists x, n. rewrite G by exact Hn. auto.
    - assert (U : forall x, In x X -> nth n x 0%Z = 0%Z). { intros x Hx. destruct (Z.eq_dec (nth n x 0%Z) 0) as [|N0]; [assumption|]. exfalso. apply NX. now exists x. }
      destruct (pc_some _ _ PC) as (x & c & Hx & Hc & N0). apply In_nth with (d := 0%Z) in Hc. destruct Hc as (w & Hw & Ew). destruct (pc_counts _ _ PC x Hx) as (Lx & _). rewrite Lx in Hw.
      exists x, w. split; [exact Hx|]. split; [exact Hw|]. split; [now rewrite Ew|]. rewrite G by exact Hw. cbn beta in Bn. eapply Rle_trans; [exact Bn|].
      refine (Rle_trans _ _ _ (Req_le _ _ (proj2 (proj2 (A n Hn)))) (Rle_trans _ _ _ _ (Req_le _ _ (eq_sym (proj2 (proj2 (A w Hw))))))). apply round_le; [apply FLT_exp_valid; reflexivity|apply valid_rnd_N|].
      apply Rmult_le_compat_r; [left; now apply Rinv_0_lt_compat|]. rewrite (Uf n Hn U). apply (Hf w Hw).
  Qed.

  (** *** 1 / K *)
  Lemma inverse_value (K : nat) : (1 <= Z.of_nat K <= 2 ^ 30)%Z -> is_finite (inverse K : double) = true /\ B2R (inverse K : double) = rnd (/ INR K) /\ / (2 * INR K) <= B2R (inverse K : double) <= 1.
  Proof.
    intros HK. destruct (int_d lg ex lga sum (Z.of_nat K) ltac:(lia)) as [Fz Vz]. destruct (one_d lg ex lga sum) as [F1 V1]. rewrite <- INR_IZR_INZ in Vz.
    assert (K1 : 1 <= INR K) by (rewrite INR_IZR_INZ; apply (IZR_le 1); lia). assert (K3 : INR K <= 2 ^ 30) by (rewrite INR_IZR_INZ; change (2 ^ 30) with (IZR 2 ^ 30); rewrite pow_IZR; apply IZR_le; lia).
    assert (I0 : 0 < / INR K) by (apply Rinv_0_lt_compat; lra). assert (I1 : / INR K <= 1) by (rewrite <- Rinv_1; apply Rinv_le_contravar; lra).
    assert (I2 : / 2 ^ 30 <= / INR K) by (apply Rinv_le_contravar; lra).
    destruct (div_in one (ofZ (Z.of_nat K)) F1 0 1 (rep_Z 0 ltac:(lia)) (rep_Z 1 ltac:(lia))) as (Fd & Vd & Bd).
    { rewrite Vz. lra. }
    { rewrite V1, Vz. unfold Rdiv. rewrite Rmult_1_l. lra. }
    unfold inverse. change (div one (ofZ (Z.of_nat K)) : double) with (ddiv one (ofZ (Z.of_nat K))). split; [exact Fd|]. unfold Rdiv in Vd. rewrite V1, Vz, Rmult_1_l in Vd. split; [exact Vd|]. split; [|apply Bd].
    rewrite Vd. pose proof (rnd_error (/ INR K)) as E. apply Rabs_le_inv in E. rewrite (Rabs_pos_eq (/ INR K)) in E by lra. rewrite Rinv_mult.
    assert (Q53 : pow (-53) <= / 4) by (change (pow (-53)) with (/ IZR (2 ^ 53)); lra).
    assert (Q1075 : pow (-1075) <= pow (-40)) by (apply bpow_le; lia). assert (Q40 : pow (-40) = / IZR (2 ^ 40)) by reflexivity. rewrite Q40 in Q1075.
    assert (P53 : pow (-53) * / INR K <= / 4 * / INR K) by (apply Rmult_le_compat_r; lra). lra.
  Qed.
  Lemma inverse_least (n K : nat) : (1 <= K <= n)%nat -> (Z.of_nat n <= 2 ^ 30)%Z -> B2R (inverse n : double) <= B2R (inverse K : double).
  Proof.
    intros HK Hn. destruct (inverse_value K ltac:(lia)) as (_ & -> & _). destruct (inverse_value n ltac:(lia)) as (_ & -> & _).
    apply round_le; [apply FLT_exp_valid; reflexivity|apply valid_rnd_N|]. apply Rinv_le_contravar; [apply lt_0_INR; lia|apply le_INR; lia].
  Qed.
  Lemma inverse_100 : / 100 <= B2R (inverse 100 : double).
  Proof.
    assert (E : inverse 100 = @B754_finite 53 1024 false 5764607523034235 (-59) eq_refl) by (apply B2SF_inj; vm_compute; reflexivity).
    rewrite E. unfold B2R, F2R, cond_Zopp. cbn [Fnum Fexp]. change (pow (-59)) with (/ IZR (2 ^ 59)). lra.
  Qed.
  Lemma inverse_139 : / 140 <= B2R (inverse 139 : double).
  Proof.
    assert (E : inverse 139 = @B754_finite 53 1024 false 8294399313718324 (-60) eq_refl) by (apply B2SF_inj; vm_compute; reflexivity).
    rewrite E. unfold B2R, F2R, cond_Zopp. cbn [Fnum Fexp]. change (pow (-60)) with (/ IZR (2 ^ 60)). lra.
  Qed.

  (** *** The first model: seeded topics, and an eta of equal numbers *)
  Section First.
    Variables (K V C : nat) (X : list (list Z)) (y : list Z) (draw : nat -> nat -> nat) (p0 q : params double) (D : list (doc double)).
    Hypothesis PC : plain_corpus X V.
    Hypothesis SE : topics_seeded X K 30 draw p0 = Ok q.
    Hypothesis LB : labels_below C y.
    Hypothesis LD : labelled_docs X y = Ok D.
    Definition with_classes : params double := mk_params (p_alpha q) (p_beta q) (mtab K C (fun _ _ => inverse C)).

    Lemma first_q : first_model lg ex lga sum K V q.
    Proof. destruct (seeded_first lg ex lga sum Hsum X V K 30 draw p0 PC ltac:(lia)) as (q' & E & F & _). rewrite SE in E. injection E as <-. exact F. Qed.
    Lemma first_docs : map d_words D = X.
    Proof. exact (proj1 (labelled_documents X y D LD)). Qed.
    Lemma with_corpus : (1 <= K <= 300)%nat -> double_corpus D with_classes.
    Proof. intros HK. exact (first_corpus lg ex lga sum K V X D with_classes HK PC first_docs first_q). Qed.
    Lemma with_eta : mrows (p_eta with_classes) = K /\ ncols (p_eta with_classes) = C.
    Proof. split; [reflexivity|]. unfold ncols. cbn. apply vtab_length. Qed.
    Lemma class_some : (1 <= C)%nat.
    Proof. destruct LB as [B I]. specialize (B _ I). lia. Qed.

    Lemma with_input d lowest : In d D -> (1 <= K <= 300)%nat -> lowest <= B2R (inverse K : double) -> double_input lowest (d_words d) with_classes.
    Proof.
      intros Hd HK Lo. pose proof (DoubleTrainSpec.dc_input _ _ (with_corpus HK) d Hd) as [I1 I2 I3 I4 I5 I6 I7 I8 I9]. constructor; try assumption.
      intros i Hi. destruct (I5 i Hi) as [F B]. split; [exact F|]. split; [|apply B]. cbn [with_classes p_alpha]. destruct first_q as (Ea & Er & _). rewrite Ea, vget_tab; [exact Lo|].
      cbn [with_classes p_beta] in Hi. now rewrite Er in Hi.
    Qed.
    Lemma with_double_classes d lowest : In d D -> (1 <= K <= 300)%nat -> lowest <= B2R (inverse K : double) -> (Z.of_nat C <= 2 ^ 29)%Z ->
      exists c, d_class d = Some (Z.of_nat c) /\ (c < length (d_priors d))%nat /\ double_classes lowest (d_words d) c with_classes /\
        forall i, (i < mrows (p_eta with_classes))%nat -> mget (p_eta with_classes) i c = inverse C.
    Proof.
      intros Hd HK Lo HC. destruct (labelled_in X y C D d LD LB Hd) as (_ & c & Ec & Lc & Lp). exists c. split; [exact Ec|]. split; [now rewrite Lp|].
      destruct with_eta as [E1 E2]. assert (G : forall i, (i < mrows (p_eta with_classes))%nat -> mget (p_eta with_classes) i c = inverse C) by (intros i Hi; exact (mget_tab K C (fun _ _ => inverse C) i c Hi Lc)).
      split; [|exact G]. split; [now apply with_input|..].
      - destruct first_q as (_ & Er & _). rewrite E1. cbn [with_classes p_beta]. now rewrite Er.
      - now rewrite E2.
      - intros i Hi. rewrite G by exact Hi. pose proof class_some as C1. destruct (inverse_value C ltac:(lia)) as (F & _ & B). split; [exact F|]. split; [|apply B]. eapply Rle_trans; [|apply B].
        apply Rinv_le_contravar; [apply Rmult_lt_0_compat; [lra|apply lt_0_INR; lia]|]. destruct (INR_small C ltac:(lia)). assert (2 ^ 31 <= 2 ^ 100) by (apply Rle_pow; [lra|lia]). lra.
    Qed.

    Lemma classes_few mu : usual_mu mu -> corresponding_bound mu (all_words X) C -> (Z.of_nat C <= 2 ^ 29)%Z.
    Proof.
      intros [_ M] B. unfold corresponding_bound in B. assert (W : (0 <= all_words X)%Z).
      { unfold all_words. assert (G : forall x, In x X -> (0 <= fold_right Z.add 0 x)%Z) by (intros x Hx; destruct (pc_counts _ _ PC x Hx) as (_ & A & _); exact (proj1 (in_sum x A))).
        clear - G. induction X as [|x X' IH]; cbn; [lia|]. pose proof (G x (or_introl eq_refl)). assert (0 <= fold_right Z.add 0 (map (fold_right Z.add 0) X'))%Z by (apply IH; intros; apply G; now right). lia. }
      apply IZR_le in W. assert (M0 : 0 < B2R mu - 1). { assert (0 < / 2 ^ 30) by (apply Rinv_0_lt_compat, pow_lt; lra). lra. }
      assert (H : INR C <= 2 ^ 29). { apply (Rmult_le_reg_r (B2R mu - 1)); [exact M0|]. lra. }
      rewrite INR_IZR_INZ in H. rewrite (pow_IZR 2 29) in H. apply le_IZR in H. exact H.
    Qed.
    Lemma first_corresponding mu : (1 <= K <= 139)%nat -> (Z.of_nat (length X) <= 2 ^ 28)%Z -> usual_mu mu -> corresponding_bound mu (all_words X) C -> double_corresponding mu D with_classes.
    Proof.
      intros HK HX HM HB. pose proof (classes_few mu HM HB) as HC. pose proof class_some as C1. destruct with_eta as [E1 E2].
      split; [apply with_corpus; lia|..].
      - rewrite <- first_docs, map_length in HX. exact HX.
      - intros d Hd. destruct (with_double_classes d (/ 140) Hd ltac:(lia)) as (c & Ec & _ & Dc & G); [eapply Rle_trans; [exact inverse_139|apply inverse_least; lia]|exact HC|].
        exists c. split; [exact Ec|]. split; [exact Dc|]. intros i Hi. rewrite G by exact Hi. destruct (inverse_value C ltac:(lia)) as (_ & _ & B). eapply Rle_trans; [|apply B].
        apply Rinv_le_contravar; [apply Rmult_lt_0_compat; [lra|apply lt_0_INR; lia]|]. assert (INR C <= 536870912) by (rewrite INR_IZR_INZ; apply (IZR_le _ (2 ^ 29)); exact HC). lra.
      - intros i Hi. destruct first_q as (_ & Er & Ec & _). cbn [with_classes p_beta] in *. rewrite Er in Hi. rewrite Ec. destruct (seeded_alive X V K 30 draw p0 q PC ltac:(lia) SE i Hi) as (x & n & Hx & Hn & N0 & B).
        rewrite <- first_docs in Hx. apply in_map_iff in Hx. destruct Hx as (d & <- & Hd). exists d, n. auto.
      - rewrite E2. lia.
      - exact HM.
      - rewrite E2, (words_of X D first_docs). exact HB.
    Qed.
    Lemma first_labelled mu weight : (1 <= K <= 100)%nat -> (Z.of_nat C <= 2 ^ 29)%Z -> usual_mu mu -> multinomial_bound mu weight (all_words X) C -> double_labelled mu weight D with_classes.
    Proof.
      intros HK HC HM [FW HB]. pose proof class_some as C1. destruct with_eta as [E1 E2]. split; [apply with_corpus; lia|..].
      - intros d Hd. destruct (with_double_classes d (/ 100) Hd ltac:(lia)) as (c & Ec & Lc & Dc & G); [eapply Rle_trans; [exact inverse_100|apply inverse_least; lia]|exact HC|].
        exists c. split; [exact Ec|]. split; [exact Lc|]. split; [exact Dc|split; [exact FW|]|].
        + intros i Hi. rewrite G by exact Hi. eapply Rle_trans; [|exact HB]. apply Rmult_le_compat_l; [apply Rabs_pos|]. destruct (inverse_value C ltac:(lia)) as (_ & _ & B).
          assert (C0 : 0 < INR C) by (apply lt_0_INR; lia). assert (P : 0 < / (2 * INR C)) by (apply Rinv_0_lt_compat; lra). rewrite <- ln_Rinv by lra.
          assert (W : (0 <= all_words X)%Z).
          { unfold all_words. assert (A : forall x, In x X -> (0 <= fold_right Z.add 0 x)%Z) by (intros x Hx; destruct (pc_counts _ _ PC x Hx) as (_ & A & _); exact (proj1 (in_sum x A))).
            clear - A. induction X as [|x X' IH]; cbn; [lia|]. pose proof (A x (or_introl eq_refl)). assert (0 <= fold_right Z.add 0 (map (fold_right Z.add 0) X'))%Z by (apply IH; intros; apply A; now right). lia. }
          apply IZR_le in W. destruct HM as [_ HM]. assert (M0 : 0 < B2R mu - 1). { assert (0 < / 2 ^ 30) by (apply Rinv_0_lt_compat, pow_lt; lra). lra. }
          assert (Q : / B2R (inverse C : double) <= 2 * INR C). { rewrite <- (Rinv_inv (2 * INR C)). apply Rinv_le_contravar; [exact P|apply B]. }
          assert (Q2 : 2 * INR C <= 2 * (IZR (all_words X) + INR C * (B2R mu - 1)) / (B2R mu - 1)). { apply Rle_div_r; [exact M0|]. lra. }
          assert (L : forall a b, 0 < a -> a <= b -> ln a <= ln b). { intros a b Ha [Hab| ->]; [left; now apply ln_increasing|right; reflexivity]. }
          apply L; [apply Rinv_0_lt_compat; lra|lra].
        + destruct first_q as (Ea & Er & _). cbn [with_classes p_alpha p_beta]. rewrite Ea, Er. eapply Rle_trans; [apply (rsum_le K _ (fun _ => 1))|].
          * intros i Hi. rewrite vget_tab by exact Hi. apply (inverse_value K). lia.
          * rewrite rsum_const. assert (INR K <= 100) by (rewrite INR_IZR_INZ; apply (IZR_le _ 100); lia). assert (100 <= 2 ^ 38) by lra. lra.
      - rewrite E2. lia.
      - exact HM.
      - rewrite E2, (words_of X D first_docs). exact HB.
    Qed.
  End First.
End Fresh.

Require Import Verif.NumpyModel Verif.DiskModel Verif.LdaModel.
(** The object of train from scratch, with distributions of classes *)
Section Object.
  Variables (lg ex lga : double -> double) (sum : list double -> double).
  Local Hint Extern 0 (ops _) => exact (DO lg ex lga sum) : typeclass_instances.
  Hypothesis Hsum : forall l, summed l (sum l).
  Variable args : string -> value.
  Variable stol : string -> outcome Z.
  Variable stof : string -> outcome double.
  Variable document_draws : Z -> nat -> nat -> nat.
  Variable hw : nat.
  Variable jk : nat -> NumpyModel.junk.

  Lemma scratch_listener path K n w : scratch_options args stol stof path K n w -> exists l, listeners args stol = Ok l /\ usual_listener l n.
  Proof.
    intros [_ EM _ _ _ _ _ (q & Eq) (s & Es & Hs)]. unfold listeners, snapshot_option. rewrite Eq. cbn [asBool bind]. rewrite Es. cbn [bind]. destruct (Z.ltb_spec 0 s) as [P|P].
    - destruct Hs as [Hs|[H1 H2]]; [lia|]. rewrite EM. cbn [asString bind]. eexists. split; [reflexivity|]. right. exists (NumpyModel.bytes path), (Z.to_nat s).
      rewrite Z2Nat.id by lia. rewrite wrap32_small by lia. repeat split; lia.
    - eexists. split; [reflexivity|]. now left.
  Qed.
  Lemma scratch_built d x y path n w K C mu : scratch_options args stol stof path K n w -> (1 <= K)%nat -> plain_corpus (columns x) (em_rows x) ->
    labels_below C y -> (Z.of_nat C < 2 ^ 31)%Z -> float_arg args stof "--mu" = Ok mu ->
    exists q, topics_seeded (columns x) K 30 (document_draws 0%Z) empty_params = Ok q /\
    (off args "--multinomial" -> on args "--correspondence" -> exists h cf, root_asks double_of args stol stof document_draws jk d x y K (em_rows x) C h /\
      SettingsModel.built hw h = Ok (mk_object (with_classes lg ex lga sum K C q) (Correspondence cf mu) (CorrespondenceM mu) n w)) /\
    (forall weight, on args "--multinomial" -> float_arg args stof "--eta_weight" = Ok weight -> exists h cf, root_asks double_of args stol stof document_draws jk d x y K (em_rows x) C h /\
      SettingsModel.built hw h = Ok (mk_object (with_classes lg ex lga sum K C q) (Multinomial cf mu weight) (MultinomialM mu) n w)).
  Proof.
    intros [C1 C2 (k & K1 & K2) (C3 & C4 & C5 & C6 & C7) (i & I1 & <-) (j & J1 & <-) (ei & t & l & E1 & E2 & E3) _ _] HK PC LB HC MU.
    destruct (seeded_first lg ex lga sum Hsum (columns x) (em_rows x) K 30 (document_draws 0%Z) empty_params PC ltac:(lia)) as (q & SE & (_ & Er & _) & _).
    exists q. split; [exact SE|]. pose proof (classes_below C y LB HC) as CO.
    assert (Z1 : (K =? 0)%nat = false) by (apply Nat.eqb_neq; lia).
    assert (ST : on args "--multinomial" \/ (off args "--multinomial" /\ on args "--correspondence") ->
      start_named double_of args stol document_draws jk d x y K (em_rows x) C [Seeded (columns x) K 30 (document_draws 0%Z); Uniform C]).
    { intros F. rewrite <- K2. exact (start_uniform double_of args stol document_draws jk d x y k C C1 F K1 CO). }
    split.
    - intros F1 F2. eexists _, (mk_econf (size ei) t l). split.
      + eexists i, j, _, _, _. split; [exact I1|]. split; [exact J1|]. split; [eapply e_correspondence; eassumption|]. split; [eapply m_correspondence; eassumption|]. split; [apply ST; now right|reflexivity].
      + unfold SettingsModel.built, configure. cbn [app fold_left bind]. unfold scall_caught. cbn [scall_step bind]. rewrite SE. cbn [bind scall_step]. unfold eta_uniform. rewrite Er, Z1. cbn [bind p_beta p_eta mtab mrows]. rewrite Er, Z1. reflexivity.
    - intros weight F1 F2. eexists _, (mk_econf (size ei) t l). split.
      + eexists i, j, _, _, _. split; [exact I1|]. split; [exact J1|]. split; [eapply e_multinomial; eassumption|]. split; [eapply m_multinomial; eassumption|]. split; [apply ST; now left|reflexivity].
      + unfold SettingsModel.built, configure. cbn [app fold_left bind]. unfold scall_caught. cbn [scall_step bind]. rewrite SE. cbn [bind scall_step]. unfold eta_uniform. rewrite Er, Z1. cbn [bind p_beta p_eta mtab mrows]. rewrite Er, Z1. reflexivity.
  Qed.
End Object.

(** *** Documents to be classified with the model afterwards *)
Require Import Verif.DoubleInferSpec.
Section Query.
  Variables (lg ex lga : double -> double) (sum : list double -> double).
  Local Hint Extern 0 (ops _) => exact (DO lg ex lga sum) : typeclass_instances.

  Lemma query_known K V C X (D : list (doc double)) (m : params double) words : double_corpus D m -> map d_words D = X -> has_size K V C m -> p_alpha m = vtab K (fun _ => inverse K) ->
    double_topics (p_eta m) -> (1 <= K <= 139)%nat -> (1 <= C)%nat -> (Z.of_nat V <= 2 ^ 30)%Z -> known_document X V words -> (0 < fold_right Z.add 0 words)%Z -> double_query 1 words m.
  Proof.
    intros DC EX (SA & (SB1 & SB2 & _) & (SE1 & SE2 & _)) EA DT HK HC HV (L & CN & SW & KN) W0.
    assert (RB : mrows (p_beta m) = K) by congruence. assert (CB : ncols (p_beta m) = V) by congruence. assert (RE : mrows (p_eta m) = K) by congruence. assert (CE : ncols (p_eta m) = C) by congruence.
    assert (DI : double_input (/ 300) words m).
    { pose proof (dc_some _ _ DC) as ND. destruct D as [|d0 D']; [congruence|]. pose proof (DoubleTrainSpec.dc_input _ _ DC d0 (or_introl eq_refl)) as DI. constructor; try apply DI; try assumption; [now rewrite L, CB|].
      intros n Hn N. destruct (KN n N) as (x & Hx & Nx). rewrite <- EX in Hx. apply in_map_iff in Hx. destruct Hx as (e & <- & He). exact (di_supported _ _ _ (DoubleTrainSpec.dc_input _ _ DC e He) n Hn Nx). }
    constructor; try assumption.
    - unfold score_unit. rewrite RB, CB, EA. set (S := rsum K _). set (w := fold_right Z.add 0%Z words) in *.
      assert (W1 : 1 <= IZR w) by (apply (IZR_le 1); lia).
      assert (K139 : INR K <= 139) by (rewrite INR_IZR_INZ; apply (IZR_le _ 139); lia). pose proof (pos_INR K) as K0. destruct (INR_small V HV) as [V0 V1].
      assert (SS : S <= 139). { eapply Rle_trans; [apply (rsum_le K _ (fun _ => 1))|rewrite rsum_const; lra]. intros i Hi. rewrite vget_tab by exact Hi. apply (inverse_value lg ex lga sum K). lia. }
      assert (S0 : 0 <= S). { apply rsum_nonneg. intros i Hi. rewrite vget_tab by exact Hi. destruct (inverse_value lg ex lga sum K ltac:(lia)) as (_ & _ & B & _). eapply Rle_trans; [|exact B]. left. apply Rinv_0_lt_compat. apply Rmult_lt_0_compat; [lra|apply lt_0_INR; lia]. }
      assert (Q : (S + IZR w) / IZR w <= 140). { apply Rle_div_l; [lra|]. lra. }
      assert (Q0 : 0 <= (S + IZR w) / IZR w) by (apply Rle_mult_inv_pos; lra).
      assert (P46 : / 2 ^ 46 = / IZR (2 ^ 46)) by (f_equal; rewrite (pow_IZR 2 46); reflexivity).
      apply (Rle_trans _ ((INR K + INR V + 3) / 2 ^ 46 * 140)).
      + apply Rmult_le_compat_l; [|exact Q]. apply Rle_mult_inv_pos; [lra|apply pow_lt; lra].
      + unfold Rdiv. rewrite P46. lra.
    - congruence.
    - now rewrite CE.
    - intros i c Hi Hc. rewrite RB, <- RE in Hi. destruct (DT i Hi) as [T _]. destruct (T c Hc) as [F B]. split; [exact F|]. rewrite Rabs_pos_eq; lra.
    - apply (Rle_trans _ (2 ^ 0)); [cbn; lra|]. apply Rle_pow; [lra|lia].
  Qed.
End Query.
