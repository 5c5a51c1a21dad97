(** Proofs about the corpora. *)
Require Import List Arith ZArith Lia Permutation Reals Lra Bool.
Require Import Verif.Base Verif.Scalar Verif.CorpusModel.
Import ListNotations.

Lemma nth_map_seq {A} (f : nat -> A) n i d : i < n -> nth i (map f (seq 0 n)) d = f i.
Proof.
  intros H. rewrite nth_indep with (d' := f 0) by (rewrite map_length, seq_length; lia).
  rewrite map_nth, seq_nth by lia. reflexivity.
Qed.

Lemma swap_perm {A} (d : A) l i j :
  i < length l -> j < length l -> Permutation l (swap d l i j).
Proof.
  intros Hi Hj. apply (Permutation_nth l (swap d l i j) d).
  assert (Hl : length (swap d l i j) = length l)
    by (unfold swap; rewrite map_length, seq_length; reflexivity).
  split; [exact Hl|].
  exists (fun k => if Nat.eqb k i then j else if Nat.eqb k j then i else k).
  repeat split.
  - intros k Hk. destruct (Nat.eqb_spec k i); [assumption|]. destruct (Nat.eqb_spec k j); assumption.
  - intros x y Hx Hy.
    destruct (Nat.eqb_spec x i), (Nat.eqb_spec y i), (Nat.eqb_spec x j), (Nat.eqb_spec y j); subst; lia.
  - intros k Hk. unfold swap. rewrite nth_map_seq by assumption.
    destruct (Nat.eqb k i); [reflexivity|]. destruct (Nat.eqb k j); reflexivity.
Qed.

Lemma shuffle_from_perm draws count i l :
  i + count <= length l -> Permutation l (shuffle_from draws count i l).
Proof.
  revert i l. induction count as [|c IH]; intros i l H; [reflexivity|]. cbn [shuffle_from].
  assert (Hm : draws i mod S i < S i) by (apply Nat.mod_upper_bound; lia).
  assert (P : Permutation l (swap 0 l i (draws i mod S i))) by (apply swap_perm; lia).
  etransitivity; [exact P|]. apply IH. rewrite <- (Permutation_length P). lia.
Qed.

Lemma shuffle_perm draws l : Permutation l (shuffle draws l).
Proof.
  unfold shuffle. destruct l as [|x l]; [reflexivity|].
  apply shuffle_from_perm. cbn. lia.
Qed.

Lemma shuffles_ec ds c :
  let c' := fold_left (fun c d => ec_shuffle d c) ds c in
  Permutation (ec_indices c) (ec_indices c') /\ ec_X c' = ec_X c.
Proof.
  revert c. induction ds as [|d ds IH]; intros c; cbn; [auto|].
  destruct (IH (ec_shuffle d c)) as (P & E). split; [|exact E].
  etransitivity; [|exact P]. apply shuffle_perm.
Qed.

Lemma shuffles_cc {T} ds (c : class_corpus T) :
  let c' := fold_left (fun c d => cc_shuffle d c) ds c in
  Permutation (cc_indices c) (cc_indices c') /\ cc_X c' = cc_X c /\ cc_y c' = cc_y c
  /\ cc_priors c' = cc_priors c.
Proof.
  revert c. induction ds as [|d ds IH]; intros c; cbn; [auto|].
  destruct (IH (cc_shuffle d c)) as (P & E). split; [|exact E].
  etransitivity; [|exact P]. apply shuffle_perm.
Qed.

Lemma map_seq_nth {A B} (f : A -> B) (l : list A) d :
  map (fun i => f (nth i l d)) (seq 0 (length l)) = map f l.
Proof.
  induction l as [|x l IH] using rev_ind; [reflexivity|].
  rewrite app_length. cbn [length]. rewrite Nat.add_1_r, seq_S, !map_app. cbn [map plus].
  rewrite app_nth2, Nat.sub_diag by lia. cbn [nth]. f_equal.
  rewrite <- IH. apply map_ext_in. intros k Hk. apply in_seq in Hk. now rewrite app_nth1 by lia.
Qed.

(** Reading a list through a permutation of its positions. *)
Lemma read_perm {A} (l : list A) idx d :
  Permutation (seq 0 (length l)) idx -> Permutation (map (fun k => nth k l d) idx) l.
Proof.
  intros P. rewrite <- (Permutation_map (fun k => nth k l d) P).
  rewrite (map_seq_nth (fun x => x)), map_id. reflexivity.
Qed.

Lemma nth_idx_lt idx n i : Permutation (seq 0 n) idx -> i < n -> nth i idx 0 < n.
Proof.
  intros P Hi. assert (Hin : In (nth i idx 0) idx).
  { apply nth_In. rewrite <- (Permutation_length P), seq_length. exact Hi. }
  apply (Permutation_in _ (Permutation_sym P)) in Hin. apply in_seq in Hin. lia.
Qed.

Lemma nth_error_nth_lt {A} (l : list A) i d : i < length l -> nth_error l i = Some (nth i l d).
Proof. intros H. now apply nth_error_nth'. Qed.

Lemma ec_permutation X ds :
  let c := fold_left (fun c d => ec_shuffle d c) ds (new_ecorpus X) in
  ec_size c = length X
  /\ exists docs, map (ec_at c) (seq 0 (length X)) = map Ok docs /\ Permutation docs X.
Proof.
  intros c. destruct (shuffles_ec ds (new_ecorpus X)) as (P & E). fold c in P, E.
  cbn in P, E. unfold new_indices in P. split; [unfold ec_size; now rewrite E|].
  exists (map (fun k => nth k X []) (ec_indices c)). split; [|now apply read_perm].
  rewrite map_map. assert (Hl : length (ec_indices c) = length X)
    by (rewrite <- (Permutation_length P), seq_length; reflexivity).
  rewrite <- Hl, <- (map_seq_nth _ (ec_indices c) 0). apply map_ext_in.
  intros i Hi. apply in_seq in Hi. unfold ec_at, get_index.
  rewrite (nth_error_nth_lt _ i 0) by lia. cbn [bind]. rewrite E.
  rewrite (nth_error_nth_lt X _ []); [reflexivity|].
  apply nth_idx_lt; [exact P|lia].
Qed.

Lemma ec_outside X ds i : length X <= i -> ec_at (fold_left (fun c d => ec_shuffle d c) ds (new_ecorpus X)) i = UB.
Proof.
  intros Hi. destruct (shuffles_ec ds (new_ecorpus X)) as (P & _). cbn in P. unfold new_indices in P.
  unfold ec_at, get_index. rewrite (proj2 (nth_error_None _ i)); [reflexivity|]. rewrite <- (Permutation_length P), seq_length. exact Hi.
Qed.

Section Labelled.
  Context {T : Type} {O : ops T}.
  Lemma new_ccorpus_fields X y (c : class_corpus T) :
    new_ccorpus X y = Ok c -> cc_indices c = seq 0 (length X) /\ cc_X c = X /\ cc_y c = y.
  Proof.
    unfold new_ccorpus. destruct (max_label y) as [mx| |]; cbn [bind]; try discriminate.
    destruct (mx + 1 <? 0)%Z; [discriminate|].
    destruct (bump_all _ _) as [p| |]; cbn [bind]; try discriminate.
    intros E. injection E as <-. auto.
  Qed.

  Lemma cc_permutation X y c0 ds :
    length y = length X -> new_ccorpus X y = Ok c0 ->
    let c := fold_left (fun c d => cc_shuffle d c) ds c0 in
    cc_size c = length X
    /\ exists docs, map (cc_at c) (seq 0 (length X)) = map Ok docs /\ Permutation docs (combine X y).
  Proof.
    intros Hy E0 c. destruct (new_ccorpus_fields X y c0 E0) as (F1 & F2 & F3).
    destruct (shuffles_cc ds c0) as (P & E1 & E2 & _). fold c in P, E1, E2.
    rewrite F1 in P. rewrite F2 in E1. rewrite F3 in E2.
    split; [unfold cc_size; now rewrite E1|].
    assert (Hc : length (combine X y) = length X) by (rewrite combine_length; lia).
    exists (map (fun k => nth k (combine X y) ([], 0%Z)) (cc_indices c)).
    split; [|apply read_perm; rewrite Hc; exact P].
    rewrite map_map. assert (Hl : length (cc_indices c) = length X)
      by (rewrite <- (Permutation_length P), seq_length; reflexivity).
    rewrite <- Hl, <- (map_seq_nth _ (cc_indices c) 0). apply map_ext_in.
    intros i Hi. apply in_seq in Hi. unfold cc_at, get_index.
    rewrite (nth_error_nth_lt _ i 0) by lia. cbn [bind]. rewrite E1, E2.
    assert (Hk : nth i (cc_indices c) 0 < length X) by (apply nth_idx_lt; [exact P|lia]).
    rewrite (nth_error_nth_lt X _ []) by assumption.
    rewrite (nth_error_nth_lt y _ 0%Z) by lia. now rewrite combine_nth.
  Qed.
  Lemma cc_outside X y (c0 : class_corpus T) ds i : new_ccorpus X y = Ok c0 -> length X <= i -> cc_at (fold_left (fun c d => cc_shuffle d c) ds c0) i = UB.
  Proof.
    intros E0 Hi. destruct (new_ccorpus_fields X y c0 E0) as (F1 & _). destruct (shuffles_cc ds c0) as (P & _). rewrite F1 in P.
    unfold cc_at, get_index. rewrite (proj2 (nth_error_None _ i)); [reflexivity|]. rewrite <- (Permutation_length P), seq_length. exact Hi.
  Qed.
End Labelled.

(** ** Priors, in exact arithmetic *)
Section Priors.
  Variable lg : R -> R.
  Local Open Scope R_scope.
  Local Instance RO : ops R := Rops lg.

  Definition occ (ys : list Z) (k : nat) : R := INR (count_occ Z.eq_dec ys (Z.of_nat k)).

  Lemma bump_all_count ys : forall p,
    Forall (fun y => 0 <= y < Z.of_nat (length p))%Z ys ->
    exists p', @bump_all R RO p ys = Ok p' /\ length p' = length p
      /\ forall k, (k < length p)%nat -> nth k p' 0 = nth k p 0 + occ ys k.
  Proof.
    induction ys as [|y ys IH]; intros p H.
    - exists p. repeat split. intros k Hk. unfold occ. cbn. lra.
    - inversion H as [|? ? Hy Hys]; subst. cbn [bump_all]. unfold bump.
      replace ((0 <=? y) && (y <? Z.of_nat (length p)))%Z%bool with true
        by (symmetry; apply andb_true_iff; split; [apply Z.leb_le|apply Z.ltb_lt]; lia).
      cbn [bind]. set (p1 := map _ _).
      assert (L1 : length p1 = length p) by (unfold p1; rewrite map_length, seq_length; reflexivity).
      destruct (IH p1) as (p' & E & L & C); [now rewrite L1|].
      exists p'. repeat split; [exact E|congruence|]. intros k Hk. rewrite C by lia.
      unfold p1. rewrite nth_map_seq by assumption. unfold occ. cbn [count_occ].
      destruct (Nat.eqb_spec k (Z.to_nat y)) as [E1|E1]; destruct (Z.eq_dec y (Z.of_nat k)) as [E2|E2];
        try lia.
      + rewrite S_INR. cbn [add one zero RO Rops]. lra.
      + cbn [zero RO Rops]. lra.
  Qed.

  Lemma fold_max_ge r : forall y, (y <= fold_left Z.max r y)%Z /\ Forall (fun z => z <= fold_left Z.max r y)%Z r.
  Proof.
    induction r as [|z r IH]; intros y; cbn; [split; [lia|constructor]|].
    destruct (IH (Z.max y z)) as (A & B). split; [lia|]. constructor; [lia|exact B].
  Qed.

  Lemma sum_pointwise (p : list R) f :
    (forall k, (k < length p)%nat -> nth k p 0 = f k) ->
    fold_right Rplus 0 p = fold_right Rplus 0 (map f (seq 0 (length p))).
  Proof.
    intros H. f_equal. rewrite <- (map_id p) at 1. rewrite <- (map_seq_nth (fun x => x) p 0).
    apply map_ext_in. intros k Hk. apply in_seq in Hk. apply H. lia.
  Qed.

  Lemma fold_sum_app a b : fold_right Rplus 0 (a ++ b) = fold_right Rplus 0 a + fold_right Rplus 0 b.
  Proof. induction a as [|x a IH]; cbn; [lra|]. rewrite IH. lra. Qed.

  Lemma sum_indicator y n a :
    (a <= y < a + n)%nat ->
    fold_right Rplus 0 (map (fun k => if Nat.eq_dec k y then 1 else 0) (seq a n)) = 1.
  Proof.
    revert a. induction n as [|n IH]; intros a H; [lia|]. cbn.
    destruct (Nat.eq_dec a y) as [->|Hne].
    - replace (fold_right Rplus 0 (map _ (seq (S y) n))) with 0; [lra|].
      symmetry. generalize (S y) (Nat.lt_succ_diag_r y). clear. intros b Hb.
      revert b Hb. induction n as [|n IH]; intros b Hb; cbn; [reflexivity|].
      destruct (Nat.eq_dec b y); [lia|]. rewrite IH by lia. lra.
    - rewrite IH by lia. lra.
  Qed.

  Lemma sum_map_plus {A} (f g : A -> R) l :
    fold_right Rplus 0 (map (fun x => f x + g x) l)
    = fold_right Rplus 0 (map f l) + fold_right Rplus 0 (map g l).
  Proof. induction l as [|x l IH]; cbn; [lra|]. rewrite IH. lra. Qed.

  Lemma sum_occ ys n :
    Forall (fun y => 0 <= y < Z.of_nat n)%Z ys ->
    fold_right Rplus 0 (map (occ ys) (seq 0 n)) = INR (length ys).
  Proof.
    induction 1 as [|y ys Hy Hys IH].
    - unfold occ. cbn. induction (seq 0 n) as [|a l IHl]; cbn; [reflexivity|]. rewrite IHl. lra.
    - cbn [length]. rewrite S_INR, <- IH.
      rewrite <- (sum_indicator (Z.to_nat y) n 0) by lia. rewrite <- sum_map_plus. f_equal.
      apply map_ext_in. intros k Hk. apply in_seq in Hk. unfold occ. cbn [count_occ].
      destruct (Z.eq_dec y (Z.of_nat k)), (Nat.eq_dec k (Z.to_nat y)); try lia; rewrite ?S_INR; lra.
  Qed.

  Lemma priors_frequencies X y ds :
    y <> [] -> Forall (fun l => 0 <= l)%Z y ->
    exists c0, @new_ccorpus R RO X y = Ok c0 /\
    let c := fold_left (fun c d => cc_shuffle d c) ds c0 in
    (forall l, (0 <= l)%Z -> (exists l', In l' y /\ (l <= l')%Z) ->
       @get_prior R RO c l = Ok (INR (count_occ Z.eq_dec y l) / INR (length y)))
    /\ fold_right Rplus 0 (cc_priors c) = 1.
  Proof.
    intros Hne Hpos. unfold new_ccorpus.
    destruct y as [|y0 ys]; [congruence|]. cbn [max_label bind].
    set (mx := fold_left Z.max ys y0). set (y := y0 :: ys) in *.
    destruct (fold_max_ge ys y0) as (G1 & G2). fold mx in G1, G2.
    assert (Hmax : Forall (fun l => l <= mx)%Z y) by (constructor; assumption).
    assert (Hmx : (0 <= mx)%Z) by (inversion Hpos; lia).
    destruct (Z.ltb_spec (mx + 1) 0); [lia|].
    set (p0 := repeat zero (Z.to_nat (mx + 1))).
    assert (L0 : length p0 = Z.to_nat (mx + 1)) by apply repeat_length.
    assert (Hrange : Forall (fun l => 0 <= l < Z.of_nat (length p0))%Z y).
    { rewrite Forall_forall in *. intros l Hl. rewrite L0. specialize (Hpos l Hl).
      specialize (Hmax l Hl). lia. }
    destruct (bump_all_count y p0 Hrange) as (p & E & Lp & Cp).
    rewrite E. cbn [bind]. eexists. split; [reflexivity|]. cbn zeta.
    match goal with |- context [fold_left _ ds ?c] => set (c0 := c) end.
    destruct (shuffles_cc ds c0) as (_ & _ & _ & Ep). set (c := fold_left _ ds c0) in *.
    assert (Hp : forall k, (k < length p0)%nat -> nth k p 0 = occ y k).
    { intros k Hk. rewrite Cp by assumption. unfold p0. cbn [zero RO Rops].
      rewrite nth_repeat. lra. }
    assert (Hsum : redux p = INR (length y)).
    { cbn [redux RO Rops]. rewrite (sum_pointwise p (occ y)) by (intros; apply Hp; lia).
      rewrite Lp. now apply sum_occ. }
    assert (Hlen : INR (length y) <> 0) by (apply not_0_INR; unfold y; cbn; lia).
    split.
    - intros l Hl (l' & Hl' & Hle). unfold get_prior. rewrite Ep. cbn [cc_priors c0].
      rewrite map_length, Lp, L0.
      assert (l <= mx)%Z by (rewrite Forall_forall in Hmax; specialize (Hmax l' Hl'); lia).
      replace ((0 <=? l) && (l <? Z.of_nat (Z.to_nat (mx + 1))))%Z%bool with true
        by (symmetry; apply andb_true_iff; split; [apply Z.leb_le|apply Z.ltb_lt]; lia).
      f_equal. cbn [zero RO Rops].
      rewrite (nth_indep _ 0 (div 0 (redux p))) by (rewrite map_length; lia).
      rewrite (map_nth (fun p1 => div p1 (redux p))). rewrite Hp by lia. rewrite Hsum.
      unfold occ. rewrite Z2Nat.id by lia. reflexivity.
    - rewrite Ep. cbn [cc_priors c0]. rewrite Hsum.
      assert (G : forall q s, s <> 0 -> fold_right Rplus 0 (map (fun x => div x s) q) = fold_right Rplus 0 q / s).
      { intros q s Hs. induction q as [|x q IHq]; cbn in *; [field; assumption|].
        rewrite IHq. field. assumption. }
      rewrite G by assumption. cbn [redux RO Rops] in Hsum. rewrite Hsum. field. assumption.
  Qed.
End Priors.

(** A negative label is never accepted. *)
Lemma bump_all_negative {T} {O : ops T} ys : forall p : list T,
  (exists l, In l ys /\ (l < 0)%Z) -> bump_all p ys = UB.
Proof.
  induction ys as [|y ys IH]; intros p (l & Hin & Hl); [destruct Hin|].
  cbn [bump_all]. unfold bump. destruct (Z.leb_spec 0 y) as [Hy|Hy]; cbn [andb].
  - destruct (y <? _)%Z; [|reflexivity]. cbn [bind]. apply IH.
    destruct Hin as [->|Hin]; [lia|eauto].
  - reflexivity.
Qed.

Lemma negative_label_ub {T} {O : ops T} X y :
  (exists l, In l y /\ (l < 0)%Z) -> new_ccorpus (T := T) X y = UB.
Proof.
  intros H. unfold new_ccorpus. destruct y as [|y0 ys]; [reflexivity|]. cbn [max_label bind].
  destruct (_ <? 0)%Z; [reflexivity|]. now rewrite bump_all_negative.
Qed.
