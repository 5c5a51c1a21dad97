(** The backtracking line search and the gradient descent in double precision. *)
Require Import Reals ZArith List Bool Arith Lia Lra Permutation.
From Flocq Require Import Core.Core IEEE754.BinarySingleNaN Plus_error.
Require Import Verif.Base Verif.Scalar Verif.Mat Verif.HostModel Verif.UtilsModel Verif.OptModel.
Require Import Verif.DoubleSpec Verif.DoubleSearchSpec Verif.DoubleArith Verif.DoubleUtils Verif.DoubleProofs Verif.DoubleTrainRefute.
Import ListNotations.
Open Scope R_scope.

(** ** Zeros, infinities and NaN *)
Lemma sub_no_minus (x y : double) : x <> B754_zero true -> dsub x y <> B754_zero true.
Proof.
  intros N E. destruct (is_finite x) eqn:Fx; [destruct (is_finite y) eqn:Fy|].
  - pose proof (@Bminus_correct 53 1024 eq_refl eq_refl mode_NE x y Fx Fy) as C.
    destruct (Rlt_bool _ _).
    + destruct C as (V & _ & S). rewrite E in V, S. cbn [B2R Bsign] in V, S. symmetry in V.
      assert (Z : B2R x - B2R y = 0).
      { destruct (Req_dec (B2R x - B2R y) 0) as [Z|Z]; [exact Z|]. exfalso. revert V. unfold Rminus. apply (round_plus_neq_0 radix2 (SpecFloat.fexp 53 1024) (round_mode mode_NE)); [apply generic_format_B2R|rewrite <- B2R_Bopp; apply generic_format_B2R|exact Z]. }
      rewrite Z, Rcompare_Eq in S by reflexivity. symmetry in S. apply andb_true_iff in S. destruct S as [Sx Sy].
      assert (Bx : B2R x = 0). { assert (B2R x <= 0) by (destruct x as [[|]|[|]| |[|] mm ee H]; try discriminate Sx; try (cbn; lra); apply Rlt_le, F2R_lt_0; reflexivity).
        assert (0 <= B2R y) by (destruct y as [[|]|[|]| |[|] mm ee H0]; try discriminate Sy; try (cbn; lra); apply Rlt_le, F2R_gt_0; reflexivity). lra. }
      destruct (finite_zero x Fx Bx) as (b & ->). cbn in Sx. subst b. now apply N.
    + destruct C as [C _]. rewrite E in C. discriminate C.
  - destruct y as [b|b| |b mm ee H]; try discriminate Fy; destruct x as [b'|b'| |b' mm' ee' H']; try discriminate Fx; discriminate E.
  - destruct x as [b|b| |b mm ee H]; try discriminate Fx; destruct y as [b'|b'| |b' mm' ee' H']; try discriminate E; destruct b, b'; discriminate E.
Qed.
Lemma sub_zero (x : double) b : x <> B754_zero true -> dsub x (B754_zero b) = x.
Proof. intros N. destruct x as [[|]|[|]| |[|] mm ee H], b; try reflexivity; now elim N. Qed.
Lemma zero_mul (x : double) : is_finite x = true -> exists b, dmul (B754_zero false) x = B754_zero b.
Proof. intros F. destruct x as [b|b| |b mm ee H]; try discriminate F; eexists; reflexivity. Qed.
Lemma zero_mul_nan (x : double) : is_finite x = false -> dmul (B754_zero false) x = nan.
Proof. intros F. destruct x as [b|b| |b mm ee H]; try discriminate F; reflexivity. Qed.
Lemma mul_not_finite (x y : double) : is_finite y = false -> is_finite (dmul x y) = false.
Proof. intros F. destruct y as [b|b| |b mm ee H]; try discriminate F; destruct x as [b'|b'| |b' mm' ee' H']; reflexivity. Qed.
Lemma add_not_finite_l (x y : double) : is_finite x = false -> is_finite (dadd x y) = false.
Proof. intros F. destruct x as [b|b| |b mm ee H]; try discriminate F; destruct y as [b'|b'| |b' mm' ee' H']; try reflexivity. destruct b, b'; reflexivity. Qed.
Lemma add_not_finite_r (x y : double) : is_finite y = false -> is_finite (dadd x y) = false.
Proof. intros F. destruct y as [b|b| |b mm ee H]; try discriminate F; destruct x as [b'|b'| |b' mm' ee' H']; try reflexivity. destruct b, b'; reflexivity. Qed.
Lemma summed_not_finite l s : summed l s -> forall x, In x l -> is_finite x = false -> is_finite s = false.
Proof.
  intros S. induction S as [|x|l1 s1 l2 s2 l S1 IH1 S2 IH2 P]; intros z Hz F; [destruct Hz|destruct Hz as [<-|[]]; exact F|].
  apply (Permutation_in _ P), in_app_or in Hz. destruct Hz as [Hz|Hz]; [apply add_not_finite_l; now apply (IH1 z)|apply add_not_finite_r; now apply (IH2 z)].
Qed.

(** ** Signs *)
Lemma sign_mul (x y : double) : Bsign x = Bsign y -> Bsign (dmul x y) = false.
Proof.
  intros S. destruct (is_finite x) eqn:Fx; [destruct (is_finite y) eqn:Fy|].
  - pose proof (@Bmult_correct 53 1024 eq_refl eq_refl mode_NE x y) as C. destruct (Rlt_bool _ _).
    + destruct C as (_ & F & C). rewrite Fx, Fy in F. rewrite C; [rewrite S; apply xorb_nilpotent|destruct (dmul x y); try reflexivity; discriminate F].
    + rewrite S, xorb_nilpotent in C. destruct (dmul x y) as [b|b| |b m e H]; try discriminate C; try reflexivity. now injection C as ->.
  - destruct y as [b|b| |b m e H]; try discriminate Fy; destruct x as [b'|b'| |b' m' e' H']; try discriminate Fx; cbn in S |- *; subst; try reflexivity; destruct b; reflexivity.
  - destruct x as [b|b| |b m e H]; try discriminate Fx; destruct y as [b'|b'| |b' m' e' H']; cbn in S |- *; subst; try reflexivity; destruct b'; reflexivity.
Qed.
Lemma nonneg_sign (x : double) : is_finite x = true -> Bsign x = false -> 0 <= B2R x.
Proof. intros F S. destruct x as [b|b| |b m e H]; try discriminate F; cbn in *; [lra|]. subst b. apply Rlt_le, F2R_gt_0. reflexivity. Qed.
Lemma sign_add (x y : double) : Bsign x = false -> Bsign y = false -> Bsign (dadd x y) = false.
Proof.
  intros Sx Sy. destruct (is_finite x) eqn:Fx; [destruct (is_finite y) eqn:Fy|].
  - pose proof (@Bplus_correct 53 1024 eq_refl eq_refl mode_NE x y Fx Fy) as C. pose proof (nonneg_sign x Fx Sx). pose proof (nonneg_sign y Fy Sy). destruct (Rlt_bool _ _).
    + destruct C as (_ & _ & C). rewrite C. destruct (Rcompare_spec (B2R x + B2R y) 0); [lra| |reflexivity]. now rewrite Sx.
    + destruct C as [C _]. rewrite Sx in C. destruct (dadd x y) as [b|b| |b m e H']; try discriminate C; try reflexivity. now injection C as ->.
  - destruct y as [b|b| |b m e H]; try discriminate Fy; destruct x as [b'|b'| |b' m' e' H']; try discriminate Fx; cbn in *; subst; reflexivity.
  - destruct x as [b|b| |b m e H]; try discriminate Fx; destruct y as [b'|b'| |b' m' e' H']; cbn in *; subst; reflexivity.
Qed.
Lemma summed_sign l s : summed l s -> (forall x, In x l -> Bsign x = false) -> Bsign s = false.
Proof.
  intros S. induction S as [|x|l1 s1 l2 s2 l S1 IH1 S2 IH2 P]; intros H; [reflexivity|apply H; now left|].
  apply sign_add; [apply IH1|apply IH2]; intros x Hx; apply H, (Permutation_in _ (Permutation_sym P)), in_or_app; auto.
Qed.

Section Search.
  Variables (lg ex lga : double -> double) (sum : list double -> double).
  Local Hint Extern 0 (ops _) => exact (DO lg ex lga sum) : typeclass_instances.
  Hypothesis Hsum : forall l, summed l (sum l).
  Ltac norm := change (@add double (DO lg ex lga sum)) with dadd in *; change (@sub double (DO lg ex lga sum)) with dsub in *;
    change (@mul double (DO lg ex lga sum)) with dmul in *; change (@div double (DO lg ex lga sum)) with ddiv in *; change (@zero double (DO lg ex lga sum)) with (B754_zero false : double) in *.
  Notation half := (OptModel.half : double).

  (** what the loop's test compares *)
  Lemma test_falls (v0 z v : double) : is_finite v0 = true -> is_finite v = true -> is_nan z = false -> Bsign z = false -> ltb (dsub v0 z) v = false -> B2R v <= B2R v0.
  Proof.
    intros F0 F N S L. destruct (is_finite z) eqn:Fz.
    - pose proof (@Bminus_correct 53 1024 eq_refl eq_refl mode_NE v0 z F0 Fz) as C. pose proof (nonneg_sign z Fz S) as P. destruct (Rlt_bool _ _).
      + destruct C as (V & Fr & _). apply (ltb_d_false lg ex lga sum) in L; [|assumption..]. rewrite V in L. eapply Rle_trans; [exact L|].
        apply round_le_generic; [apply fexp_valid|apply valid_rnd_N|apply generic_format_B2R|lra].
      + destruct C as [C Sx]. rewrite S in Sx. cbn in Sx. rewrite Sx in C. exfalso. destruct (dsub v0 z) as [b|b| |b m e H]; try discriminate C. injection C as ->.
        destruct v as [c|c| |c m e H]; try discriminate F; discriminate L.
    - destruct z as [b|b| |b m e H]; try discriminate Fz; try discriminate N. cbn in S. subst b.
      exfalso. destruct v0 as [c0|c0| |c0 m0 e0 H0]; try discriminate F0; destruct v as [c|c| |c m e H]; try discriminate F; discriminate L.
  Qed.

  Lemma ltb_same (v : double) : ltb v v = false.
  Proof.
    destruct (is_finite v) eqn:F; [|destruct v as [b|[|]| |b m e H]; try discriminate F; reflexivity].
    destruct (ltb v v) eqn:E; [|reflexivity]. apply (ltb_d lg ex lga sum) in E; [lra|assumption..].
  Qed.
  Lemma minus_or (v : double) : v = B754_zero true \/ v <> B754_zero true.
  Proof. destruct v as [[|]|[|]| |b m e H]; [now left|right; discriminate..]. Qed.

  (** the step sizes 2, 1, 1/2, ...: the 1076th is zero *)
  Fixpoint sizes (n : nat) : double := match n with 0%nat => div one half | S k => mul (sizes k) half end.
  Lemma halving_dies : sizes 1076 = B754_zero false.
  Proof. vm_compute. reflexivity. Qed.
  Lemma half_v : is_finite half = true /\ B2R half = / 2.
  Proof. exact (half_d lg ex lga sum). Qed.
  Lemma size_value k : (k <= 1075)%nat -> is_finite (sizes k) = true /\ B2R (sizes k) = pow (1 - Z.of_nat k).
  Proof.
    induction k as [|k IH]; intros H.
    - cbn [sizes]. norm. destruct half_v as [Fh Vh]. destruct (one_d lg ex lga sum) as [F1 V1].
      assert (R : rep 2) by (apply (rep_Z 2); lia).
      destruct (div_in one half F1 2 2 R R) as (A & B & C); [rewrite Vh; lra|rewrite V1, Vh; lra|]. split; [exact A|]. replace (pow (1 - Z.of_nat 0)) with 2 by (cbn; lra). lra.
    - destruct (IH ltac:(lia)) as [F V]. cbn [sizes]. norm. destruct half_v as [Fh Vh].
      assert (E : B2R (sizes k) * B2R half = pow (1 - Z.of_nat (S k))).
      { rewrite V. rewrite Vh. replace (1 - Z.of_nat k)%Z with (1 + (1 - Z.of_nat (S k)))%Z by lia. rewrite bpow_plus. cbn [bpow]. change (Z.pow_pos radix2 1) with 2%Z. lra. }
      assert (R : rep (pow (1 - Z.of_nat (S k)))) by (apply rep_pow; lia).
      destruct (mul_in (sizes k) half F Fh _ _ R R) as (A & B & C); [lra|]. split; [exact A|lra].
  Qed.
  Lemma size_sign k : Bsign (sizes k) = false.
  Proof. induction k as [|k IH]; [vm_compute; reflexivity|]. cbn [sizes]. norm. apply sign_mul. rewrite IH. vm_compute. reflexivity. Qed.

  (** ** Steps *)
  Lemma in_mall (m : mat double) z : In z (mall m) <-> exists i j, (i < mrows m)%nat /\ (j < ncols m)%nat /\ z = mget m i j.
  Proof.
    unfold mall. rewrite in_concat. split.
    - intros (l & Hl & Hz). apply in_map_iff in Hl. destruct Hl as (j & <- & Hj). apply in_map_iff in Hz. destruct Hz as (i & <- & Hi). apply in_seq in Hi, Hj. exists i, j. split; [lia|split; [lia|reflexivity]].
    - intros (i & j & Hi & Hj & ->). exists (mcol m j). split; [apply in_map_iff; exists j; split; [reflexivity|apply in_seq; lia]|apply in_map_iff; exists i; split; [reflexivity|apply in_seq; lia]].
  Qed.
  Lemma entry_tab r c (f : nat -> nat -> double) z : entry (mtab r c f) z <-> exists i j, (i < r)%nat /\ (j < c)%nat /\ z = f i j.
  Proof.
    unfold entry, mtab. cbn [mcols]. split.
    - intros (l & Hl & Hz). apply in_map_iff in Hl. destruct Hl as (j & <- & Hj). apply in_map_iff in Hz. destruct Hz as (i & <- & Hi). apply in_seq in Hi, Hj. exists i, j. split; [lia|split; [lia|reflexivity]].
    - intros (i & j & Hi & Hj & ->). exists (vtab r (fun i => f i j)). split; [apply in_map_iff; exists j; split; [reflexivity|apply in_seq; lia]|apply in_map_iff; exists i; split; [reflexivity|apply in_seq; lia]].
  Qed.
  Lemma entry_get x i j : proper x -> (i < mrows x)%nat -> (j < ncols x)%nat -> entry x (mget x i j).
  Proof. intros P Hi Hj. exists (nth j (mcols x) []). assert (I : In (nth j (mcols x) []) (mcols x)) by now apply nth_In. split; [exact I|]. unfold mget. apply nth_In. unfold proper in P. rewrite Forall_forall in P. now rewrite (P _ I). Qed.
  Lemma proper_tab r c (f : nat -> nat -> double) : proper (mtab r c f).
  Proof. unfold proper, mtab. cbn [mcols mrows]. apply Forall_forall. intros l Hl. apply in_map_iff in Hl. destruct Hl as (j & <- & _). apply vtab_length. Qed.
  Lemma proper_eta x : proper x -> mtab (mrows x) (ncols x) (fun i j => mget x i j) = x.
  Proof.
    intros P. destruct x as [r cs]. unfold mtab, ncols, proper in *. cbn [mrows mcols] in *. f_equal.
    transitivity (vtab (length cs) (fun j => nth j cs [])); [|apply vtab_eta]. apply vtab_ext. intros j Hj. rewrite Forall_forall in P.
    rewrite <- (P (nth j cs [])) by now apply nth_In. unfold mget. cbn [mcols]. apply vtab_eta.
  Qed.
  Lemma step_size x a d : same_size (step x a d) x.
  Proof. split; [reflexivity|apply ncols_tab]. Qed.
  Lemma step_proper x a d : proper (step x a d).
  Proof. apply proper_tab. Qed.
  Lemma step_no_minus x a d : proper x -> no_minus_zero x -> no_minus_zero (step x a d).
  Proof.
    intros P N E. apply entry_tab in E. destruct E as (i & j & Hi & Hj & E). norm. symmetry in E. revert E. apply sub_no_minus.
    intros E. apply N. rewrite <- E. now apply entry_get.
  Qed.
  Lemma step_zero x d : proper x -> no_minus_zero x -> (forall i j, (i < mrows x)%nat -> (j < ncols x)%nat -> is_finite (mget d i j) = true) -> step x (B754_zero false) d = x.
  Proof.
    intros P N F. transitivity (mtab (mrows x) (ncols x) (fun i j => mget x i j)); [|now apply proper_eta]. apply mtab_ext. intros i j Hi Hj. norm.
    destruct (zero_mul _ (F i j Hi Hj)) as (b & ->). apply sub_zero. intros E. apply N. rewrite <- E. now apply entry_get.
  Qed.
  Lemma step_nan x d i j : (i < mrows x)%nat -> (j < ncols x)%nat -> is_finite (mget d i j) = false -> entry (step x (B754_zero false) d) B754_nan.
  Proof. intros Hi Hj F. apply entry_tab. exists i, j. repeat split; try assumption. norm. rewrite (zero_mul_nan _ F). destruct (mget x i j) as [[|]|[|]| |[|] m e H]; reflexivity. Qed.
  Lemma forallb_false {A} (f : A -> bool) l : forallb f l = false -> exists x, In x l /\ f x = false.
  Proof. induction l as [|a l IH]; intros H; [discriminate H|]. cbn in H. destruct (f a) eqn:E; [destruct (IH H) as (x & ? & ?); exists x; split; [now right|assumption]|exists a; split; [now left|assumption]]. Qed.
  Lemma all_or_one (x d : mat double) : (forall i j, (i < mrows x)%nat -> (j < ncols x)%nat -> is_finite (mget d i j) = true) \/
    exists i j, (i < mrows x)%nat /\ (j < ncols x)%nat /\ is_finite (mget d i j) = false.
  Proof.
    destruct (forallb (fun i => forallb (fun j => is_finite (mget d i j)) (seq 0 (ncols x))) (seq 0 (mrows x))) eqn:E.
    - left. intros i j Hi Hj. rewrite forallb_forall in E. specialize (E i ltac:(apply in_seq; lia)). rewrite forallb_forall in E. apply E, in_seq. lia.
    - right. apply forallb_false in E. destruct E as (i & Hi & E). apply forallb_false in E. destruct E as (j & Hj & E). apply in_seq in Hi, Hj. exists i, j. repeat split; try lia. exact E.
  Qed.

  (** ** The loop *)
  Section Loop.
    Variables (p : problem double) (x0 d : mat double) (v0 dec : double).
    Hypotheses (P0 : proper x0) (N0 : no_minus_zero x0) (T0 : forall y, same_size y x0 -> exists v, value p y = Ok v) (V0 : value p x0 = Ok v0).
    Hypothesis Hdec : forall i j, (i < mrows x0)%nat -> (j < ncols x0)%nat -> is_finite (mget d i j) = false -> is_finite dec = false.

    Definition reached (k : nat) (v : double) : Prop := (k = 0%nat /\ v = v0) \/
      ((0 < k)%nat /\ value p (step x0 (sizes k) d) = Ok v /\ ltb (dsub v0 (dmul (sizes 0) dec)) v0 = true).
    Lemma last_test v : reached 1076 v -> ltb (dsub v0 (dmul (sizes 1076) dec)) v = false.
    Proof.
      intros [[H _]|(_ & H & _)]; [discriminate H|]. rewrite halving_dies in *. destruct (all_or_one x0 d) as [A|(i & j & Hi & Hj & A)].
      - rewrite (step_zero _ _ P0 N0 A), V0 in H. injection H as <-. destruct (is_finite dec) eqn:F.
        + destruct (zero_mul _ F) as (b & ->). destruct (minus_or v0) as [->|N]; [destruct b; reflexivity|]. rewrite (sub_zero _ _ N). apply ltb_same.
        + rewrite (zero_mul_nan _ F). destruct v0 as [[|]|[|]| |[|] m e B]; reflexivity.
      - rewrite (zero_mul_nan _ (Hdec _ _ Hi Hj A)). destruct v0 as [[|]|[|]| |[|] m e B]; reflexivity.
    Qed.
    Lemma loop_ends n : forall k v, (k <= 1076)%nat -> (1076 <= k + n)%nat -> reached k v ->
      exists k' v', armijo_loop n half p x0 d v0 dec v (sizes k) = Ok (v', sizes k') /\ (k' <= 1076)%nat /\ reached k' v' /\ ltb (dsub v0 (dmul (sizes k') dec)) v' = false.
    Proof.
      induction n as [|n IH]; intros k v Hk Hn R; cbn [armijo_loop]; norm; destruct (ltb (dsub v0 (dmul (sizes k) dec)) v) eqn:E.
      - assert (k = 1076)%nat by lia. subst k. now rewrite (last_test v R) in E.
      - now exists k, v.
      - assert (k <> 1076)%nat by (intros ->; now rewrite (last_test v R) in E).
        destruct (T0 _ (step_size x0 (sizes (S k)) d)) as (w & W). change (dmul (sizes k) half) with (sizes (S k)). rewrite W. cbn [bind].
        apply IH; [lia..|]. right. split; [lia|]. split; [exact W|]. destruct R as [[-> ->]|(_ & _ & R)]; assumption.
      - now exists k, v.
    Qed.
  End Loop.
End Search.
