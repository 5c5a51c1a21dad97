(** Lemmas on the matrix helpers. *)
Require Import Reals ZArith List Arith Bool Lia Lra.
From Flocq Require Import Core.Core IEEE754.BinarySingleNaN.
Require Import Verif.Base Verif.Scalar Verif.Mat Verif.UtilsModel Verif.UtilsProofs Verif.HelperModel.
Import ListNotations.
Local Open Scope nat_scope.

Lemma nth_skip {A} (l : list A) n i d : nth i (skipn n l) d = nth (n + i) l d.
Proof. revert l. induction n as [|n IH]; intros [|x l]; try reflexivity; [destruct i; reflexivity|]. cbn [skipn Nat.add nth]. apply IH. Qed.
Lemma nth_first {A} (l : list A) n i d : i < n -> nth i (firstn n l) d = nth i l d.
Proof. revert n i. induction l as [|x l IH]; intros [|n] [|i] H; try reflexivity; try lia. cbn. apply IH. lia. Qed.

Section Any.
  Context {T : Type} {O : ops T}.
  Lemma rows_scaled_skip (m m' : mat T) y r : mrows m = mrows m' ->
    (forall i j, i < mrows m -> eqb (vget y i) zero = false -> j < length r -> mget m i j = mget m' i j) ->
    sum_rows_scaled m y r = sum_rows_scaled m' y r.
  Proof.
    intros E H. unfold sum_rows_scaled. rewrite <- E. assert (S : forall i, In i (seq 0 (mrows m)) -> i < mrows m) by (intros i Hi; apply in_seq in Hi; lia).
    revert r H S. generalize (seq 0 (mrows m)) as l. induction l as [|i l IH]; intros r H S; [reflexivity|]. cbn [fold_left].
    assert (Q : (if eqb (vget y i) zero then r else vtab (length r) (fun j => add (vget r j) (mul (vget y i) (mget m i j)))) =
                (if eqb (vget y i) zero then r else vtab (length r) (fun j => add (vget r j) (mul (vget y i) (mget m' i j))))).
    { destruct (eqb (vget y i) zero) eqn:Z; [reflexivity|]. apply vtab_ext. intros j Hj. f_equal. f_equal. apply H; [apply S; now left|exact Z|exact Hj]. }
    rewrite <- Q. apply IH; [|intros; apply S; now right]. intros k j Hk Hz Hj. apply H; try assumption.
    destruct (eqb (vget y i) zero) in Hj; [exact Hj|now rewrite vtab_length in Hj].
  Qed.
  Lemma cols_scaled_skip (m m' : mat T) y r : ncols m = ncols m' ->
    (forall i j, j < ncols m -> eqb (vget y j) zero = false -> i < length r -> mget m i j = mget m' i j) ->
    sum_cols_scaled m y r = sum_cols_scaled m' y r.
  Proof.
    intros E H. unfold sum_cols_scaled. rewrite <- E. assert (S : forall i, In i (seq 0 (ncols m)) -> i < ncols m) by (intros i Hi; apply in_seq in Hi; lia).
    revert r H S. generalize (seq 0 (ncols m)) as l. induction l as [|j l IH]; intros r H S; [reflexivity|]. cbn [fold_left].
    assert (Q : (if eqb (vget y j) zero then r else vtab (length r) (fun i => add (vget r i) (mul (vget y j) (mget m i j)))) =
                (if eqb (vget y j) zero then r else vtab (length r) (fun i => add (vget r i) (mul (vget y j) (mget m' i j))))).
    { destruct (eqb (vget y j) zero) eqn:Z; [reflexivity|]. apply vtab_ext. intros i Hi. f_equal. f_equal. apply H; [apply S; now left|exact Z|exact Hi]. }
    rewrite <- Q. apply IH; [|intros; apply S; now right]. intros k i Hk Hz Hi. apply H; try assumption.
    destruct (eqb (vget y j) zero) in Hi; [exact Hi|now rewrite vtab_length in Hi].
  Qed.
  Lemma cols_scaled_int_skip (m m' : mat T) y r : ncols m = ncols m' ->
    (forall i j, j < ncols m -> nth j y 0%Z <> 0%Z -> i < length r -> mget m i j = mget m' i j) ->
    sum_cols_scaled_int m y r = sum_cols_scaled_int m' y r.
  Proof.
    intros E H. unfold sum_cols_scaled_int. rewrite <- E. assert (S : forall i, In i (seq 0 (ncols m)) -> i < ncols m) by (intros i Hi; apply in_seq in Hi; lia).
    revert r H S. generalize (seq 0 (ncols m)) as l. induction l as [|j l IH]; intros r H S; [reflexivity|]. cbn [fold_left].
    assert (Q : (if (nth j y 0 =? 0)%Z then r else vtab (length r) (fun i => add (vget r i) (mul (ofZ (nth j y 0%Z)) (mget m i j)))) =
                (if (nth j y 0 =? 0)%Z then r else vtab (length r) (fun i => add (vget r i) (mul (ofZ (nth j y 0%Z)) (mget m' i j))))).
    { destruct (Z.eqb_spec (nth j y 0%Z) 0) as [Z|Z]; [reflexivity|]. apply vtab_ext. intros i Hi. f_equal. f_equal. apply H; [apply S; now left|exact Z|exact Hi]. }
    rewrite <- Q. apply IH; [|intros; apply S; now right]. intros i k Hk Hz Hi. apply H; try assumption.
    destruct (nth j y 0 =? 0)%Z in Hi; [exact Hi|now rewrite vtab_length in Hi].
  Qed.
  (** the product is the one of the elements that are not zero *)
  Lemma product_filter (m : mat T) :
    product_of_nonzeros m = fold_left mul (filter (fun x => negb (eqb x zero)) (concat (mcols m))) one.
  Proof.
    unfold product_of_nonzeros. generalize one as p. induction (mcols m) as [|c cs IH]; intros p; [reflexivity|]. cbn [fold_left concat].
    rewrite filter_app, fold_left_app, IH. f_equal. revert p. induction c as [|x c IHc]; intros p; [reflexivity|]. cbn [fold_left filter].
    destruct (eqb x zero); cbn [negb fold_left]; apply IHc.
  Qed.

  (** ** Reshaping *)
  Lemma set_segment_ok v start (x : list T) : start + length x <= length v -> exists w, set_segment v start x = Ok w /\ length w = length v /\
    forall i d, nth i w d = if (start <=? i) && (i <? start + length x) then nth (i - start) x d else nth i v d.
  Proof.
    intros H. unfold set_segment. rewrite (proj2 (Nat.leb_le _ _) H). eexists. split; [reflexivity|]. split.
    - rewrite !app_length, skipn_length, firstn_length. lia.
    - intros i d. destruct (Nat.leb_spec start i) as [A|A].
      + rewrite app_nth2; rewrite firstn_length, min_l by lia; [|lia]. destruct (Nat.ltb_spec i (start + length x)); cbn [andb].
        * apply app_nth1. lia.
        * rewrite app_nth2 by lia. rewrite nth_skip. f_equal. lia.
      + rewrite app_nth1 by (rewrite firstn_length; lia). cbn [andb]. now apply nth_first.
  Qed.
  Lemma reshape_columns_ok r : forall cols c (dst : list T), (forall x, In x cols -> length x = r) -> (c + length cols) * r <= length dst ->
    exists v, reshape_columns r c cols dst = Ok v /\ length v = length dst /\
      (forall j i d, j < length cols -> i < r -> nth ((c + j) * r + i) v d = nth i (nth j cols []) d) /\
      (forall k d, k < c * r \/ (c + length cols) * r <= k -> nth k v d = nth k dst d).
  Proof.
    induction cols as [|x cols IH]; intros c dst L H.
    - exists dst. repeat split; try lia. intros. cbn in *. lia.
    - cbn [length] in H. cbn [reshape_columns]. pose proof (L x (or_introl eq_refl)) as Lx.
      destruct (set_segment_ok dst (c * r) x) as (w & -> & Lw & W); [nia|]. cbn [bind].
      destruct (IH (S c) w) as (v & -> & Lv & V & U); [intros; apply L; now right|nia|]. exists v. split; [reflexivity|]. split; [lia|]. split.
      + intros j i d Hj Hi. cbn [length] in Hj. destruct j as [|j].
        * rewrite Nat.add_0_r. rewrite U by nia. rewrite W, Lx. cbn [nth].
          rewrite (proj2 (Nat.leb_le _ _)), (proj2 (Nat.ltb_lt _ _)) by lia. cbn [andb]. f_equal. lia.
        * cbn [nth]. rewrite <- V by lia. f_equal. f_equal. lia.
      + intros k d Hk. cbn [length] in Hk. rewrite U by nia. rewrite W, Lx.
        destruct (Nat.leb_spec (c * r) k), (Nat.ltb_spec k (c * r + r)); cbn [andb]; try reflexivity. nia.
  Qed.
  Lemma reshape_columns_ub r : forall cols c (dst : list T), (forall x, In x cols -> length x = r) -> length dst < (c + length cols) * r ->
    0 < length cols -> reshape_columns r c cols dst = UB.
  Proof.
    induction cols as [|x cols IH]; intros c dst L H N; [cbn in N; lia|]. cbn [reshape_columns]. pose proof (L x (or_introl eq_refl)) as Lx.
    destruct (Nat.leb_spec (c * r + length x) (length dst)) as [F|F].
    - destruct (set_segment_ok dst (c * r) x F) as (w & -> & Lw & _). cbn [bind]. cbn [length] in H. apply IH; [intros; apply L; now right|nia|].
      destruct cols; [|cbn; lia]. cbn in H. nia.
    - unfold set_segment. now rewrite (proj2 (Nat.leb_gt _ _) F).
  Qed.
  Lemma mcol_length (m : mat T) j : length (mcol m j) = mrows m.
  Proof. apply vtab_length. Qed.
  Lemma columns_length (src : mat T) x : In x (vtab (ncols src) (mcol src)) -> length x = mrows src.
  Proof. unfold vtab. rewrite in_map_iff. intros (j & <- & _). apply mcol_length. Qed.
  Lemma reshape_vector (src : mat T) (dst : list T) :
    (mrows src * ncols src <= length dst -> exists v, reshape_to_vector src dst = Ok v /\ length v = length dst /\
       (forall i j, i < mrows src -> j < ncols src -> vget v (j * mrows src + i) = mget src i j) /\
       (forall k, mrows src * ncols src <= k -> vget v k = vget dst k)) /\
    (length dst < mrows src * ncols src -> reshape_to_vector src dst = UB).
  Proof.
    unfold reshape_to_vector. split.
    - intros H. destruct (reshape_columns_ok (mrows src) (vtab (ncols src) (mcol src)) 0 dst (columns_length src)) as (v & -> & L & V & U); [rewrite vtab_length; lia|].
      exists v. split; [reflexivity|]. split; [exact L|]. rewrite vtab_length in V, U. split.
      + intros i j Hi Hj. unfold vget. specialize (V j i zero Hj Hi). cbn [Nat.add] in V. rewrite V, (vtab_nth (ncols src)) by exact Hj. exact (vtab_nth (mrows src) (fun i => mget src i j) i zero Hi).
      + intros k Hk. apply U. right. lia.
    - intros H. apply reshape_columns_ub; [apply columns_length|rewrite vtab_length; lia|]. rewrite vtab_length. destruct (ncols src); lia.
  Qed.
  Lemma seqM_vtab {A} n (f : nat -> outcome A) (g : nat -> A) : (forall i, i < n -> f i = Ok (g i)) -> seqM (vtab n f) = Ok (vtab n g).
  Proof.
    revert f g. induction n as [|n IH]; intros f g H; [reflexivity|]. rewrite !vtab_S. cbn [seqM]. rewrite (H 0) by lia. cbn [bind].
    rewrite (IH (fun i => f (S i)) (fun i => g (S i))) by (intros; apply H; lia). reflexivity.
  Qed.
  Lemma reshape_matrix (src : list T) (dst : mat T) : mrows dst * ncols dst <= length src ->
    reshape_to_matrix src dst = Ok (mtab (mrows dst) (ncols dst) (fun i j => vget src (j * mrows dst + i))).
  Proof.
    intros H. unfold reshape_to_matrix. rewrite (seqM_vtab _ _ (fun c => vtab (mrows dst) (fun i => vget src (c * mrows dst + i)))); [reflexivity|].
    intros c Hc. unfold get_segment. rewrite (proj2 (Nat.leb_le _ _)) by nia. f_equal. apply (nth_ext _ _ zero zero).
    - rewrite vtab_length, firstn_length, skipn_length. nia.
    - intros i Hi. rewrite firstn_length in Hi. rewrite nth_first, nth_skip, vtab_nth by lia. unfold vget. f_equal.
  Qed.
  Lemma seqM_UB {A} (l : list (outcome A)) : (forall x, In x l -> x = UB \/ exists a, x = Ok a) -> In UB l -> seqM l = UB.
  Proof.
    induction l as [|x l IH]; intros H I; [destruct I|]. cbn [seqM]. destruct (H x (or_introl eq_refl)) as [->|[a ->]]; [reflexivity|]. cbn [bind].
    destruct I as [I|I]; [discriminate|]. now rewrite IH by (auto; intros; apply H; now right).
  Qed.
  Lemma reshape_matrix_ub (src : list T) (dst : mat T) : length src < mrows dst * ncols dst -> reshape_to_matrix src dst = UB.
  Proof.
    intros H. unfold reshape_to_matrix. rewrite seqM_UB; [reflexivity| |].
    - intros x Hx. unfold vtab in Hx. apply in_map_iff in Hx. destruct Hx as (c & <- & _). unfold get_segment. destruct (_ <=? _); eauto.
    - unfold vtab. apply in_map_iff. exists (ncols dst - 1). destruct (ncols dst) as [|n] eqn:E; [lia|]. split; [|apply in_seq; lia].
      unfold get_segment. rewrite (proj2 (Nat.leb_gt _ _)); [reflexivity|]. replace (S n - 1) with n by lia. nia.
  Qed.
  Lemma reshape_round (m dst : mat T) (v0 v : list T) : mrows dst = mrows m -> ncols dst = ncols m ->
    length v0 = mrows m * ncols m -> reshape_to_vector m v0 = Ok v ->
    exists m', reshape_to_matrix v dst = Ok m' /\ mrows m' = mrows m /\ ncols m' = ncols m /\
      forall i j, i < mrows m -> j < ncols m -> mget m' i j = mget m i j.
  Proof.
    intros R C L E. destruct (proj1 (reshape_vector m v0)) as (v' & E' & Lv & V & _); [lia|]. assert (v' = v) as -> by congruence.
    rewrite reshape_matrix by (rewrite R, C; lia). eexists. split; [reflexivity|]. rewrite mrows_tab, ncols_tab. split; [exact R|]. split; [exact C|].
    intros i j Hi Hj. rewrite mget_tab by (now rewrite ?R, ?C). rewrite R. now apply V.
  Qed.
End Any.

Section Reals.
  Variable lg : R -> R.
  Local Hint Extern 0 (ops _) => exact (Rops lg) : typeclass_instances.
  Local Open Scope R_scope.
  Lemma sum_rows_scaled_R (m : mat R) y r :
    sum_rows_scaled m y r = vtab (length r) (fun j => vget r j + rsum (mrows m) (fun i => vget y i * mget m i j)).
  Proof.
    unfold sum_rows_scaled. generalize (mrows m) as n. intros n. revert r. induction n as [|n IH]; intros r.
    - cbn. rewrite <- (vtab_eta r 0) at 1. apply vtab_ext. intros j _. unfold vget. cbn. ring.
    - rewrite seq_S, fold_left_app, IH. cbn [Nat.add fold_left].
      destruct (eqb (vget y n) zero) eqn:Z; [|rewrite vtab_length]; apply vtab_ext; intros j Hj; rewrite rsum_S.
      + cbn in Z. destruct (Req_EM_T (vget y n) 0) as [->|]; [ring|discriminate].
      + rewrite vget_tab by exact Hj. cbn [add mul Rops]. ring.
  Qed.
  Lemma scalar_divide_R y x : (x <> 0 -> scalar_divide y x * x = y) /\ (x = 0 -> scalar_divide y x = 0).
  Proof.
    unfold scalar_divide. cbn [eqb Rops zero div]. destruct (Req_EM_T x 0) as [->|N]; split; intros H; try reflexivity; try (now elim H); try contradiction; now field.
  Qed.
  Lemma product_nonzero (m : mat R) : product_of_nonzeros m <> 0.
  Proof.
    rewrite product_filter. cbn [one mul Rops]. assert (forall l p, p <> 0 -> fold_left Rmult (filter (fun x => negb (eqb x zero)) l) p <> 0) as H.
    { induction l as [|x l IH]; intros p P; [exact P|]. cbn [filter]. cbn [eqb zero Rops]. destruct (Req_EM_T x 0); cbn [negb fold_left]; apply IH; [exact P|].
      now apply Rmult_integral_contrapositive_currified. }
    apply H. lra.
  Qed.
End Reals.

Section Floats.
  Variables prec emax : Z.
  Context {Hprec : Prec_gt_0 prec} {Hemax : Prec_lt_emax prec emax}.
  Notation F := (binary_float prec emax).
  Variables (flg fex flga : F -> F) (fsum : list F -> F).
  Local Hint Extern 0 (ops _) => exact (Fops prec emax flg fex flga fsum) : typeclass_instances.
  (** dividing a finite number never gives NaN *)
  Lemma scalar_divide_not_nan (y x : F) : is_finite y = true -> is_nan x = false -> is_nan (scalar_divide y x) = false.
  Proof.
    intros Fy Nx. unfold scalar_divide. cbn [eqb zero div Fops]. destruct (Beqb x (B754_zero false)) eqn:E; [reflexivity|].
    destruct x as [s|s| |s mx ex Bx]; try discriminate.
    - destruct y as [t|t| |t my ey By]; try discriminate; reflexivity.
    - set (x := B754_finite s mx ex Bx) in *. assert (NZ : B2R x <> 0%R).
      { unfold x. cbn [B2R]. apply (F2R_neq_0 radix2). cbn. destruct s; discriminate. }
      pose proof (Bdiv_correct prec emax Hprec Hemax mode_NE y x NZ) as C. destruct (Rlt_bool _ _).
      + destruct C as (_ & Fin & _). rewrite Fy in Fin. destruct (Bdiv mode_NE y x); try reflexivity; discriminate Fin.
      + destruct (Bdiv mode_NE y x); try reflexivity. cbn in C. unfold binary_overflow in C. cbn in C. discriminate.
  Qed.
End Floats.
