(** The M steps over any scalar type: what an epoch computes, from any state between epochs. *)
Require Import ZArith List Bool Arith Lia.
Require Import Verif.Base Verif.Scalar Verif.Mat Verif.UtilsModel Verif.BuilderModel Verif.EStepModel Verif.OptModel Verif.MStepModel Verif.MStepSpec.
Import ListNotations.

Lemma bind_ok' {A B} (o : outcome A) (f : A -> outcome B) r : bind o f = Ok r -> exists a, o = Ok a /\ f a = Ok r.
Proof. destruct o; cbn; try discriminate. eauto. Qed.
Lemma bind_assoc {A B C} (o : outcome A) (f : A -> outcome B) (g : B -> outcome C) :
  bind (bind o f) g = bind o (fun a => bind (f a) g).
Proof. now destruct o. Qed.

(** doc_m_steps in a row *)
Fixpoint feed {T St} (f : St -> params T -> doc T -> vparams T -> outcome St) (m : params T) (l : list (item T)) (s : St) : outcome St :=
  match l with [] => Ok s | x :: l => let* s := f s m (fst x) (snd x) in feed f m l s end.
Section Run.
  Context {T St : Type} (M : maximizer T St).
  Lemma mrun_app a b m s : mrun M (a ++ b) m s =
    let* (m, s, e) := mrun M a m s in let* (m, s, e') := mrun M b m s in Ok (m, s, e ++ e').
  Proof.
    revert m s. induction a as [|c a IH]; intros m s; cbn [app mrun].
    - cbn [bind]. destruct (mrun M b m s) as [[[m' s'] e']| |]; reflexivity.
    - destruct (match c with MDoc d v => ms_doc M s m d v | MEnd => ms_end M s m end) as [[[m1 s1] e1]| |]; cbn [bind]; [|reflexivity..].
      rewrite IH. destruct (mrun M a m1 s1) as [[[m2 s2] e2]| |]; cbn [bind]; [|reflexivity..].
      destruct (mrun M b m2 s2) as [[[m3 s3] e3]| |]; cbn [bind]; [|reflexivity..]. now rewrite app_assoc.
  Qed.
  (** An M step that only accumulates: doc_m_step changes nothing but its members. *)
  Lemma mrun_docs (f : St -> params T -> doc T -> vparams T -> outcome St) :
    (forall s m d v, ms_doc M s m d v = let* s := f s m d v in Ok (m, s, [])) ->
    forall l m s, mrun M (docs l) m s = let* s := feed f m l s in Ok (m, s, []).
  Proof.
    intros Hf l m. induction l as [|x l IH]; intros s; [reflexivity|]. cbn [docs map mrun feed].
    rewrite Hf. destruct (f s m (fst x) (snd x)) as [s2| |]; cbn [bind]; [|reflexivity..].
    fold (docs l). rewrite IH. destruct (feed f m l s2); reflexivity.
  Qed.
  (** Invariants over histories *)
  Lemma history_inv (Inv : params T -> St -> Prop) (Q : item T -> Prop) :
    (forall s m d v m' s' e, Q (d, v) -> Inv m s -> ms_doc M s m d v = Ok (m', s', e) -> Inv m' s') ->
    (forall s m m' s' e, Inv m s -> ms_end M s m = Ok (m', s', e) -> Inv m' s') ->
    forall h m s m' s' e, Forall Q (items h) -> Inv m s -> mrun M h m s = Ok (m', s', e) -> Inv m' s'.
  Proof.
    intros HD HE. induction h as [|c h IH]; intros m s m' s' e Hq Hi E; cbn [mrun] in E; [now injection E as <- <- <-|].
    apply bind_ok' in E. destruct E as ([[m1 s1] e1] & E1 & E). apply bind_ok' in E. destruct E as ([[m2 s2] e2] & E2 & E).
    injection E as <- <- <-. destruct c as [d v|]; cbn [items] in Hq.
    - inversion Hq; subst. eapply IH; [eassumption| |eassumption]. eapply HD; eassumption.
    - eapply IH; [eassumption| |eassumption]. eapply HE; eassumption.
  Qed.
  Lemma history_end (Inv : params T -> St -> Prop) (Q : item T -> Prop) :
    (forall s m d v m' s' e, Q (d, v) -> Inv m s -> ms_doc M s m d v = Ok (m', s', e) -> Inv m' s') ->
    (forall s m m' s' e, Inv m s -> ms_end M s m = Ok (m', s', e) -> Inv m' s') ->
    forall h m s m' s' e, Forall Q (items (h ++ [MEnd])) -> Inv m s -> mrun M (h ++ [MEnd]) m s = Ok (m', s', e) ->
    exists m1 s1 e1, Inv m1 s1 /\ ms_end M s1 m1 = Ok (m', s', e1).
  Proof.
    intros HD HE h m s m' s' e Hq Hi E. rewrite mrun_app in E.
    apply bind_ok' in E. destruct E as ([[m1 s1] e1] & E1 & E). apply bind_ok' in E. destruct E as ([[m2 s2] e2] & E2 & E).
    injection E as <- <- <-. cbn [mrun] in E2. apply bind_ok' in E2. destruct E2 as ([[m3 s3] e3] & E3 & E2). injection E2 as <- <- <-.
    exists m1, s1, e3. split; [|assumption].
    refine (history_inv Inv Q HD HE h m s m1 s1 e1 _ Hi E1).
    clear - Hq. induction h as [|[d v|] h IH]; cbn in *; [constructor| |auto]. inversion Hq; subst. constructor; auto.
  Qed.
End Run.

(** ** Growing buffers *)
Section Buffers.
  Context {A : Type}.
  Lemma seqM_app (a b : list (outcome A)) : seqM (a ++ b) = let* x := seqM a in let* y := seqM b in Ok (x ++ y).
  Proof.
    induction a as [|o a IH]; cbn [app seqM bind]; [now destruct (seqM b)|].
    destruct o; cbn [bind]; [|reflexivity..]. rewrite IH. destruct (seqM a); cbn [bind]; [|reflexivity..]. now destruct (seqM b).
  Qed.
  Lemma load_some (l : list A) : load (map Some l) = Ok l.
  Proof. unfold load. induction l as [|x l IH]; [reflexivity|]. cbn. cbn in IH. rewrite IH. reflexivity. Qed.
  Lemma resize_length n (l : list (option A)) : length (resize n l) = n.
  Proof. unfold resize. rewrite app_length, firstn_length, repeat_length. lia. Qed.
  Lemma resize_firstn k n (l : list (option A)) : k <= n -> k <= length l -> firstn k (resize n l) = firstn k l.
  Proof.
    intros Hk Hl. unfold resize. rewrite firstn_app, firstn_firstn, firstn_length.
    replace (Nat.min k n) with k by lia. replace (k - Nat.min n (length l)) with 0 by lia. cbn. apply app_nil_r.
  Qed.
  Lemma store_ok i (a : A) l : i < length l -> store i a l = Ok (firstn i l ++ Some a :: skipn (S i) l).
  Proof. intros H. unfold store. apply Nat.ltb_lt in H. now rewrite H. Qed.
  Lemma store_length i (a : A) l l' : store i a l = Ok l' -> length l' = length l /\ i < length l /\ firstn (S i) l' = firstn i l ++ [Some a].
  Proof.
    unfold store. destruct (Nat.ltb_spec i (length l)) as [H|]; [|discriminate]. intros E.
    assert (E' : firstn i l ++ Some a :: skipn (S i) l = l') by congruence. rewrite <- E'. clear E E'.
    split; [rewrite app_length, firstn_length; change (length (Some a :: skipn (S i) l)) with (S (length (skipn (S i) l)));
            rewrite skipn_length; lia|]. split; [assumption|].
    rewrite firstn_app, firstn_firstn, firstn_length. replace (Nat.min (S i) i) with i by lia.
    replace (S i - Nat.min i (length l)) with 1 by lia. reflexivity.
  Qed.
  (** the first entries are known *)
  Definition holds (xs : list A) (l : list (option A)) : Prop := length xs <= length l /\ firstn (length xs) l = map Some xs.
  Lemma holds_nil l : holds [] l.
  Proof. split; [cbn; lia|reflexivity]. Qed.
  Lemma holds_resize xs n l : length xs <= n -> holds xs l -> holds xs (resize n l).
  Proof. intros Hn [H1 H2]. split; [rewrite resize_length; lia|]. now rewrite resize_firstn. Qed.
  Lemma holds_store xs a l : holds xs l -> length xs < length l -> exists l', store (length xs) a l = Ok l' /\ holds (xs ++ [a]) l' /\ length l' = length l.
  Proof.
    intros [H1 H2] Hl. exists (firstn (length xs) l ++ Some a :: skipn (S (length xs)) l). rewrite store_ok by assumption.
    split; [reflexivity|]. destruct (store_length (length xs) a l _ (store_ok _ _ _ Hl)) as (B1 & B2 & B3). split; [|assumption]. split.
    - rewrite B1, app_length. cbn. lia.
    - rewrite app_length. cbn [length]. replace (length xs + 1) with (S (length xs)) by lia. rewrite B3, H2, map_app. reflexivity.
  Qed.
  Lemma holds_exact xs l : holds xs l -> resize (length xs) l = map Some xs.
  Proof. intros [H1 H2]. unfold resize. replace (length xs - length l) with 0 by lia. cbn. now rewrite app_nil_r. Qed.
End Buffers.

Section Any.
  Context {T : Type} {O : ops T}.
  Variables K V : nat.
  Hypothesis HK : 0 < K.

  (** ** b_ *)
  Definition zeros : mat T := mtab K V (fun _ _ => zero).
  (** b_ between epochs *)
  Definition fresh (b : mat T) : Prop := b = empty_mat \/ b = zeros.
  Definition shaped (b : mat T) : Prop := b = empty_mat \/ (mrows b = K /\ ncols b = V).

  Lemma weigh_add (b : mat T) x : mrows b = K -> ncols b = V -> sized K V x ->
    madd b (weigh (v_phi (snd x)) (d_words (fst x))) =
    mtab K V (fun i n => add (mget b i n) (assigned x i n)).
  Proof.
    intros Hr Hc (S1 & S2 & S3 & S4). unfold madd. rewrite Hr, Hc. apply mtab_ext. intros i n Hi Hn.
    unfold weigh. rewrite S2, S3, mget_tab by assumption. reflexivity.
  Qed.
  Lemma word_counts_snoc l x : word_counts K V (l ++ [x]) =
    mtab K V (fun i n => add (mget (word_counts K V l) i n) (assigned x i n)).
  Proof. unfold word_counts, totals. now rewrite fold_left_app. Qed.
  Lemma word_counts_shape l : mrows (word_counts K V l) = K /\ ncols (word_counts K V l) = V.
  Proof. destruct l as [|x l] using rev_ind; [|rewrite word_counts_snoc]; (split; [reflexivity|apply ncols_tab]). Qed.
  Lemma zero_size_test (x : item T) : sized K V x -> Nat.eqb (length (d_words (fst x))) (ncols (v_phi (snd x))) = true.
  Proof. intros (S1 & S2 & S3 & S4). rewrite S1, S3. apply Nat.eqb_refl. Qed.
  Lemma unsupervised_doc_ok (b : mat T) x : mrows b = K -> ncols b = V -> sized K V x ->
    unsupervised_doc b (fst x) (snd x) = Ok (madd b (weigh (v_phi (snd x)) (d_words (fst x)))).
  Proof.
    intros Hr Hc S. unfold unsupervised_doc. rewrite zero_size_test by assumption. cbn [negb].
    destruct (Nat.eqb_spec (mrows b) 0); [lia|]. destruct S as (S1 & S2 & S3 & S4). unfold same_size, weigh.
    rewrite mrows_tab, ncols_tab, Hr, Hc, S2, S3, !Nat.eqb_refl. reflexivity.
  Qed.
  Lemma unsupervised_doc_fresh (b : mat T) x : fresh b -> sized K V x ->
    unsupervised_doc b (fst x) (snd x) = Ok (word_counts K V [x]).
  Proof.
    intros Hb S. assert (Z : unsupervised_doc b (fst x) (snd x) = unsupervised_doc zeros (fst x) (snd x)).
    { destruct Hb as [-> | ->]; [|reflexivity]. unfold unsupervised_doc. destruct S as (S1 & S2 & S3 & S4).
      cbn [mrows empty_mat Nat.eqb]. unfold zeros. rewrite mrows_tab. destruct (Nat.eqb_spec K 0); [lia|].
      unfold mzero. now rewrite S2, S3. }
    rewrite Z, unsupervised_doc_ok by (try assumption; try reflexivity; apply ncols_tab).
    f_equal. rewrite weigh_add by (try assumption; try reflexivity; apply ncols_tab). reflexivity.
  Qed.
  Lemma unsupervised_doc_shaped (b b' : mat T) x : shaped b -> sized K V x -> unsupervised_doc b (fst x) (snd x) = Ok b' ->
    mrows b' = K /\ ncols b' = V.
  Proof.
    intros [->|[Hr Hc]] S E.
    - rewrite (unsupervised_doc_fresh empty_mat x) in E by (try assumption; now left). injection E as <-. apply word_counts_shape.
    - rewrite unsupervised_doc_ok in E by assumption. injection E as <-. unfold madd. now rewrite mrows_tab, ncols_tab.
  Qed.
  (** the same started anywhere between epochs *)
  Definition started (b : mat T) (l : list (item T)) : mat T := if Nat.eqb (length l) 0 then b else word_counts K V l.
  Lemma unsupervised_next b l x : fresh b -> sized K V x ->
    unsupervised_doc (started b l) (fst x) (snd x) = Ok (started b (l ++ [x])).
  Proof.
    intros Hb S. unfold started. rewrite app_length. cbn [length]. destruct (Nat.eqb_spec (length l) 0) as [E|E].
    - apply length_zero_iff_nil in E. subst l. cbn [length Nat.add Nat.eqb app]. now apply unsupervised_doc_fresh.
    - destruct (Nat.eqb_spec (length l + 1) 0); [lia|]. destruct (word_counts_shape l) as [Hr Hc].
      rewrite unsupervised_doc_ok by assumption. f_equal. rewrite word_counts_snoc. now apply weigh_add.
  Qed.
  Lemma started_cons b l : l <> [] -> started b l = word_counts K V l.
  Proof. destruct l; [congruence|reflexivity]. Qed.
  Lemma beta_eq l : unsupervised_beta (word_counts K V l) = over_row_sums K V (word_counts K V l).
  Proof.
    destruct (word_counts_shape l) as [Hr Hc]. unfold unsupervised_beta, over_row_sums. rewrite Hr, Hc. apply mtab_ext. intros i n Hi Hn.
    f_equal. unfold row_sums. rewrite Hr, vget_tab by assumption. unfold mrow. now rewrite Hc.
  Qed.
  Lemma m_shaped (b : mat T) m : shaped b -> fresh (snd (unsupervised_m b m)).
  Proof.
    intros [->|[Hr Hc]]; unfold unsupervised_m; cbn [snd].
    - left. reflexivity.
    - right. unfold mzero, zeros. now rewrite Hr, Hc.
  Qed.

  (** ** UnsupervisedMStep *)
  Lemma unsupervised_epoch b l m : fresh b -> Forall (sized K V) l -> l <> [] ->
    mrun unsupervised_maximizer (epoch l) m b = Ok (set_beta m (over_row_sums K V (word_counts K V l)), zeros, []).
  Proof.
    intros Hb Hs Hl. unfold epoch. rewrite mrun_app.
    rewrite (mrun_docs unsupervised_maximizer (fun b _ d v => unsupervised_doc b d v)) by reflexivity.
    assert (E : forall t, feed (fun b _ d v => unsupervised_doc b d v) m l (started b t) = Ok (started b (t ++ l))).
    { clear Hl. induction l as [|x l IH]; intros t; [now rewrite app_nil_r|]. inversion Hs; subst.
      cbn [feed]. rewrite unsupervised_next by assumption. cbn [bind]. rewrite IH by assumption. now rewrite <- app_assoc. }
    specialize (E []). change (started b []) with b in E. cbn [app] in E.
    rewrite E. cbn [bind mrun ms_end unsupervised_maximizer unsupervised_m app]. rewrite started_cons by assumption.
    rewrite beta_eq. destruct (word_counts_shape l) as [Hr Hc]. unfold mzero. now rewrite Hr, Hc.
  Qed.
  Lemma unsupervised_history h m m' b' e : Forall (sized K V) (items (h ++ [MEnd])) ->
    mrun unsupervised_maximizer (h ++ [MEnd]) m empty_mat = Ok (m', b', e) -> fresh b'.
  Proof.
    intros Hs E. destruct (history_end unsupervised_maximizer (fun _ => shaped) (sized K V)) with (5 := E) as (m1 & b1 & e1 & I & E1).
    - intros b m0 d v m1 b1 e0 Q I H. cbn in H. apply bind_ok' in H. destruct H as (b2 & H & H2). injection H2 as <- <- <-.
      right. exact (unsupervised_doc_shaped b b2 (d, v) I Q H).
    - intros b m0 m1 b1 e0 I H. cbn in H. injection H as <- <- <-. destruct (m_shaped b m0 I) as [F|F]; cbn [snd unsupervised_m] in F; rewrite F; [now left|].
      right. unfold zeros. now rewrite mrows_tab, ncols_tab.
    - exact Hs.
    - now left.
    - cbn in E1. injection E1 as <- <- <-. exact (m_shaped b1 m1 I).
  Qed.

  (** ** FastSupervisedMStep *)
  (** The state after the labelled items [l] and all items [a], started from [s0] *)
  Definition fast_idle (s : fast T) : Prop :=
    fresh (f_b s) /\ f_docs s = 0 /\ length (f_z s) = length (f_y s) /\ (length (f_z s) <> 0 -> f_rows s = K).
  Definition fast_at (s0 : fast T) (feat : item T -> list T) (a l : list (item T)) (s : fast T) : Prop :=
    f_b s = started (f_b s0) a /\ f_docs s = length l /\ length (f_z s) = length (f_y s) /\
    (length (f_z s) <> 0 -> f_rows s = K) /\
    holds (map feat l) (f_z s) /\ holds (map class_of l) (f_y s).

  Lemma z_bar_eq m x : length (p_alpha m) = K -> z_bar m (snd x) = mixture K (p_alpha m) x.
  Proof. intros H. unfold z_bar, mixture, normalize_vec, excess. rewrite H. reflexivity. Qed.
  Lemma fast_doc_next s0 m a l s x c : length (p_alpha m) = K -> fast_idle s0 -> fast_at s0 (mixture K (p_alpha m)) a l s -> sized K V x ->
    d_class (fst x) = Some c ->
    exists s', fast_doc s m (fst x) (snd x) = Ok s' /\ fast_at s0 (mixture K (p_alpha m)) (a ++ [x]) (l ++ [x]) s'.
  Proof.
    intros Ha (I1 & _) (A1 & A2 & A3 & A4 & A5 & A6) S Hc. unfold fast_doc.
    rewrite A1, unsupervised_next by assumption. cbn [bind]. rewrite Ha, Hc, A2.
    set (z := if Nat.leb (length (f_z s)) (length l) then resize (Datatypes.S (length l)) (f_z s) else f_z s).
    set (y := if Nat.leb (length (f_z s)) (length l) then resize (Datatypes.S (length l)) (f_y s) else f_y s).
    assert (Hz : holds (map (mixture K (p_alpha m)) l) z /\ length l < length z).
    { unfold z. destruct (Nat.leb_spec (length (f_z s)) (length l)) as [L|L]; [|now split].
      split; [apply holds_resize; [rewrite map_length; lia|assumption]|rewrite resize_length; lia]. }
    assert (Hy : holds (map class_of l) y /\ length l < length y).
    { unfold y. destruct (Nat.leb_spec (length (f_z s)) (length l)) as [L|L]; [|split; [assumption|lia]].
      split; [apply holds_resize; [rewrite map_length; lia|assumption]|rewrite resize_length; lia]. }
    assert (LL : length z = length y).
    { unfold z, y. destruct (Nat.leb _ _); [now rewrite !resize_length|assumption]. }
    destruct Hz as [Hz Lz], Hy as [Hy Ly].
    destruct (holds_store (map class_of l) (class_of x) y Hy) as (y' & Y1 & Y2 & Y3); [now rewrite map_length|].
    rewrite map_length in Y1. unfold class_of in Y1 at 1. rewrite Hc in Y1. rewrite Y1. cbn [bind].
    assert (Rw : (if Nat.eqb (length (f_z s)) 0 then K else f_rows s) = K).
    { destruct (Nat.eqb_spec (length (f_z s)) 0) as [E|E]; [reflexivity|now apply A4]. }
    rewrite Rw. destruct S as (S1 & S2 & S3 & S4). rewrite S4, !Nat.eqb_refl. cbn [andb negb].
    destruct (holds_store (map (mixture K (p_alpha m)) l) (mixture K (p_alpha m) x) z Hz) as (z' & Z1 & Z2 & Z3); [now rewrite map_length|].
    rewrite map_length in Z1. rewrite <- (z_bar_eq m x Ha) in Z1. rewrite Z1. cbn [bind]. eexists. split; [reflexivity|].
    repeat split; cbn [f_b f_docs f_z f_y f_rows].
    - rewrite app_length. cbn. lia.
    - lia.
    - rewrite map_app. apply Z2.
    - rewrite map_app. apply Z2.
    - rewrite map_app. apply Y2.
    - rewrite map_app. apply Y2.
  Qed.
  Lemma fast_idle_at s feat : fast_idle s -> fast_at s feat [] [] s.
  Proof. intros (I1 & I2 & I3 & I4). repeat split; try assumption; apply holds_nil || (cbn; lia). Qed.
  Lemma fast_at_prepare s0 m feat a l s : fast_at s0 feat a l s -> a <> [] ->
    exists s', fast_prepare s m = Ok (set_beta m (over_row_sums K V (word_counts K V a)), s',
                                     mk_mat (f_rows s) (map feat l), map class_of l).
  Proof.
    intros (A1 & A2 & A3 & A4 & A5 & A6) Ha. unfold fast_prepare, unsupervised_m. rewrite A1, A2, started_cons by assumption.
    rewrite beta_eq. pose proof (holds_exact _ _ A5) as E5. pose proof (holds_exact _ _ A6) as E6. rewrite map_length in E5, E6.
    rewrite E5, E6, !load_some. cbn [bind]. eexists. reflexivity.
  Qed.

  (** items the semi-supervised M step trains on *)
  Lemma semi_docs s0 m l s a t : length (p_alpha m) = K -> fast_idle s0 -> fast_at s0 (mixture K (p_alpha m)) a t s ->
    Forall (sized K V) l -> Forall (fun x => d_class (fst x) <> None) l ->
    exists s', feed semi_doc m l s = Ok s' /\
      fast_at s0 (mixture K (p_alpha m)) (a ++ l) (t ++ filter labelled l) s'.
  Proof.
    intros Ha I. revert s a t. induction l as [|x l IH]; intros s a t At Hs Hc.
    - exists s. split; [reflexivity|]. cbn [filter]. now rewrite !app_nil_r.
    - inversion Hs as [|? ? S1 S2]; subst. inversion Hc as [|? ? C1 C2]; subst. cbn [feed filter].
      destruct (d_class (fst x)) as [c|] eqn:Cx; [|congruence].
      assert (X : exists s1, semi_doc s m (fst x) (snd x) = Ok s1 /\ fast_at s0 (mixture K (p_alpha m)) (a ++ [x]) (t ++ if labelled x then [x] else []) s1).
      { unfold semi_doc, labelled. rewrite Cx. destruct (Z.ltb_spec c 0) as [N|N].
        - destruct At as (A1 & A2 & A3 & A4 & A5 & A6). rewrite A1, (unsupervised_next _ _ x (proj1 I) S1). cbn [bind].
          eexists. split; [reflexivity|]. replace (0 <=? c)%Z with false by (symmetry; apply Z.leb_gt; lia). rewrite app_nil_r.
          repeat split; try assumption; apply A5 || apply A6.
        - replace (0 <=? c)%Z with true by (symmetry; apply Z.leb_le; lia). exact (fast_doc_next s0 m a t s x c Ha I At S1 Cx). }
      destruct X as (s1 & E1 & At1). rewrite E1. cbn [bind].
      destruct (IH s1 (a ++ [x]) (t ++ if labelled x then [x] else []) At1 S2 C2) as (s' & E & A). exists s'. split; [exact E|].
      rewrite <- !app_assoc in A. cbn [app] in A. destruct (labelled x); exact A.
  Qed.
  Lemma fast_docs s0 m l s t : length (p_alpha m) = K -> fast_idle s0 -> fast_at s0 (mixture K (p_alpha m)) t t s ->
    Forall (sized K V) l -> Forall (fun x => d_class (fst x) <> None) l ->
    exists s', feed fast_doc m l s = Ok s' /\
      fast_at s0 (mixture K (p_alpha m)) (t ++ l) (t ++ l) s'.
  Proof.
    intros Ha I. revert s t. induction l as [|x l IH]; intros s t At Hs Hc.
    - exists s. split; [reflexivity|]. now rewrite !app_nil_r.
    - inversion Hs as [|? ? S1 S2]; subst. inversion Hc as [|? ? C1 C2]; subst. cbn [feed].
      destruct (d_class (fst x)) as [c|] eqn:Cx; [|congruence].
      destruct (fast_doc_next s0 m t t s x c Ha I At S1 Cx) as (s1 & E1 & At1). rewrite E1. cbn [bind].
      destruct (IH s1 (t ++ [x]) At1 S2 C2) as (s' & E & A). exists s'. split; [exact E|].
      rewrite <- !app_assoc in A. exact A.
  Qed.

  (** mlr of an empty training set is undefined whatever the matrix *)
  Lemma mlr_rows r r' (l : list (item T)) (f : item T -> list T) L : (l = [] \/ r = r') ->
    mlr (mk_mat r (map f l)) (map class_of l) L = mlr (mk_mat r' (map f l)) (map class_of l) L.
  Proof. intros [->| ->]; reflexivity. Qed.

  Lemma fast_end fuel limit tolerance L s0 m a l s : fast_at s0 (mixture K (p_alpha m)) a l s -> a <> [] ->
    visible (fast_m fuel limit tolerance L s m) =
    let* (eta, e) := trained fuel limit tolerance L K l m in
    Ok (mk_params (p_alpha m) (over_row_sums K V (word_counts K V a)) eta, e).
  Proof.
    intros At Ha. unfold fast_m. assert (Hr : l = [] \/ f_rows s = K).
    { destruct l as [|x l]; [now left|]. right. destruct At as (A1 & A2 & A3 & A4 & A5 & A6). apply A4. destruct A5 as [A5 _].
      cbn in A5. lia. }
    destruct (fast_at_prepare s0 m _ a l s At Ha) as (s' & E). rewrite E. cbn [bind]. unfold trained.
    rewrite (mlr_rows (f_rows s) K l (mixture K (p_alpha m)) L Hr).
    destruct (mlr _ _ _) as [p| |]; cbn [bind visible]; [|reflexivity..].
    cbn [set_beta p_eta]. destruct (fit_eta fuel limit tolerance p (p_eta m)) as [[eta e]| |]; reflexivity.
  Qed.
  Lemma fast_epoch fuel limit tolerance L s l m : fast_idle s -> length (p_alpha m) = K ->
    Forall (sized K V) l -> Forall (fun x => d_class (fst x) <> None) l -> l <> [] ->
    visible (mrun (fast_maximizer fuel limit tolerance L) (epoch l) m s) =
    let* (eta, e) := trained fuel limit tolerance L K l m in
    Ok (mk_params (p_alpha m) (over_row_sums K V (word_counts K V l)) eta, e).
  Proof.
    intros I Ha Hs Hc Hl. unfold epoch. rewrite mrun_app, (mrun_docs _ fast_doc) by reflexivity.
    destruct (fast_docs s m l s [] Ha I (fast_idle_at s _ I) Hs Hc) as (s' & E & At). rewrite E. cbn [bind mrun ms_end fast_maximizer app] in *.
    rewrite <- (fast_end fuel limit tolerance L s m l l s' At Hl).
    destruct (fast_m fuel limit tolerance L s' m) as [[[m2 s2] e2]| |]; cbn [bind visible]; [|reflexivity..]. now rewrite app_nil_r.
  Qed.
  Lemma semi_epoch fuel limit tolerance L s l m : fast_idle s -> length (p_alpha m) = K ->
    Forall (sized K V) l -> Forall (fun x => d_class (fst x) <> None) l -> l <> [] ->
    visible (mrun (semi_maximizer fuel limit tolerance L) (epoch l) m s) =
    let* (eta, e) := trained fuel limit tolerance L K (filter labelled l) m in
    Ok (mk_params (p_alpha m) (over_row_sums K V (word_counts K V l)) eta, e).
  Proof.
    intros I Ha Hs Hc Hl. unfold epoch. rewrite mrun_app, (mrun_docs _ semi_doc) by reflexivity.
    destruct (semi_docs s m l s [] [] Ha I (fast_idle_at s _ I) Hs Hc) as (s' & E & At). rewrite E. cbn [bind mrun ms_end semi_maximizer app] in *.
    rewrite <- (fast_end fuel limit tolerance L s m l (filter labelled l) s' At Hl).
    destruct (fast_m fuel limit tolerance L s' m) as [[[m2 s2] e2]| |]; cbn [bind visible]; [|reflexivity..]. now rewrite app_nil_r.
  Qed.

  (** between any two calls *)
  Definition fast_inv (m : params T) (s : fast T) : Prop :=
    length (p_alpha m) = K /\ shaped (f_b s) /\ f_docs s <= length (f_z s) /\ length (f_z s) = length (f_y s) /\
    (length (f_z s) <> 0 -> f_rows s = K).
  Lemma unsupervised_doc_b (b b' : mat T) x : shaped b -> sized K V x -> unsupervised_doc b (fst x) (snd x) = Ok b' -> shaped b'.
  Proof. intros H S E. right. exact (unsupervised_doc_shaped b b' x H S E). Qed.
  Lemma fast_doc_inv s m x s' : fast_inv m s -> sized K V x -> fast_doc s m (fst x) (snd x) = Ok s' -> fast_inv m s'.
  Proof.
    intros (I0 & I1 & I2 & I3 & I4) S E. unfold fast_doc in E. apply bind_ok' in E. destruct E as (b & Eb & E).
    destruct (d_class (fst x)) as [c|]; [|discriminate]. apply bind_ok' in E. destruct E as (y & Ey & E).
    destruct (negb _) eqn:N; [discriminate|]. apply bind_ok' in E. destruct E as (z & Ez & E). injection E as <-.
    apply negb_false_iff, andb_prop in N. destruct N as [_ N]. apply Nat.eqb_eq in N. rewrite I0 in *.
    apply store_length in Ey, Ez. destruct Ey as (Y1 & Y2 & _), Ez as (Z1 & Z2 & _).
    unfold fast_inv. cbn [f_b f_rows f_z f_y f_docs]. split; [assumption|]. split; [exact (unsupervised_doc_b _ _ _ I1 S Eb)|].
    rewrite Z1, Y1. split; [lia|]. split; [|now rewrite N]. destruct (Nat.leb _ _); [now rewrite !resize_length|assumption].
  Qed.
  Lemma semi_doc_inv s m x s' : fast_inv m s -> sized K V x -> semi_doc s m (fst x) (snd x) = Ok s' -> fast_inv m s'.
  Proof.
    intros I S E. unfold semi_doc in E. destruct (d_class (fst x)) as [c|] eqn:C; [|discriminate].
    destruct (c <? 0)%Z; [|now apply (fast_doc_inv s m x)].
    apply bind_ok' in E. destruct E as (b & Eb & E). injection E as <-. destruct I as (I0 & I1 & I2 & I3 & I4).
    repeat split; try assumption. exact (unsupervised_doc_b _ _ _ I1 S Eb).
  Qed.
  Lemma fast_prepare_inv s m m' s' X y : fast_inv m s -> fast_prepare s m = Ok (m', s', X, y) ->
    fast_inv m' s' /\ fast_idle s' /\ p_alpha m' = p_alpha m.
  Proof.
    intros (I0 & I1 & I2 & I3 & I4) E. unfold fast_prepare, unsupervised_m in E.
    apply bind_ok' in E. destruct E as (ys & Ey & E). apply bind_ok' in E. destruct E as (zs & Ez & E). injection E as <- <- <- <-.
    pose proof (m_shaped (f_b s) m I1) as F. cbn [snd unsupervised_m] in F.
    assert (F' : shaped (mzero (mrows (f_b s)) (ncols (f_b s)))).
    { destruct F as [F|F]; rewrite F; [now left|]. right. unfold zeros. now rewrite mrows_tab, ncols_tab. }
    unfold fast_inv, fast_idle. cbn [f_b f_rows f_z f_y f_docs p_alpha set_beta]. rewrite !resize_length.
    repeat split; try assumption; try lia; intros; apply I4; lia.
  Qed.
  Lemma fast_m_inv fuel limit tolerance L s m m' s' e : fast_inv m s -> fast_m fuel limit tolerance L s m = Ok (m', s', e) ->
    fast_inv m' s' /\ fast_idle s'.
  Proof.
    intros I E. unfold fast_m in E. apply bind_ok' in E. destruct E as ([[[m1 s1] X] y] & E1 & E).
    apply bind_ok' in E. destruct E as (p & Ep & E). apply bind_ok' in E. destruct E as ([eta ev] & Ee & E). injection E as <- <- <-.
    destruct (fast_prepare_inv _ _ _ _ _ _ I E1) as (A & B & C). split; [|assumption].
    destruct A as (A0 & A). split; [exact A0|exact A].
  Qed.
  Lemma fast_new_inv m : length (p_alpha m) = K -> fast_inv m new_fast.
  Proof. intros H. split; [assumption|]. split; [now left|]. cbn. repeat split; lia. Qed.
  Lemma fast_new_idle : fast_idle new_fast.
  Proof. split; [now left|]. cbn. repeat split; lia. Qed.
  Lemma fast_history fuel limit tolerance L h m m' s' e : length (p_alpha m) = K -> Forall (sized K V) (items (h ++ [MEnd])) ->
    mrun (fast_maximizer fuel limit tolerance L) (h ++ [MEnd]) m new_fast = Ok (m', s', e) -> fast_idle s' /\ length (p_alpha m') = K.
  Proof.
    intros Ha Hs E. destruct (history_end (fast_maximizer fuel limit tolerance L) fast_inv (sized K V)) with (5 := E) as (m1 & b1 & e1 & I & E1).
    - intros s m0 d v m1 s1 e0 Q I H. cbn in H. apply bind_ok' in H. destruct H as (s2 & H & H2). injection H2 as <- <- <-.
      exact (fast_doc_inv s m0 (d, v) s2 I Q H).
    - intros s m0 m1 s1 e0 I H. cbn in H. now apply (fast_m_inv fuel limit tolerance L s m0 m1 s1 e0 I) in H.
    - exact Hs.
    - now apply fast_new_inv.
    - cbn in E1. apply (fast_m_inv fuel limit tolerance L _ _ _ _ _ I) in E1. split; [apply E1|]. apply (proj1 E1).
  Qed.
  Lemma semi_history fuel limit tolerance L h m m' s' e : length (p_alpha m) = K -> Forall (sized K V) (items (h ++ [MEnd])) ->
    mrun (semi_maximizer fuel limit tolerance L) (h ++ [MEnd]) m new_fast = Ok (m', s', e) -> fast_idle s' /\ length (p_alpha m') = K.
  Proof.
    intros Ha Hs E. destruct (history_end (semi_maximizer fuel limit tolerance L) fast_inv (sized K V)) with (5 := E) as (m1 & b1 & e1 & I & E1).
    - intros s m0 d v m1 s1 e0 Q I H. cbn in H. apply bind_ok' in H. destruct H as (s2 & H & H2). injection H2 as <- <- <-.
      exact (semi_doc_inv s m0 (d, v) s2 I Q H).
    - intros s m0 m1 s1 e0 I H. cbn in H. now apply (fast_m_inv fuel limit tolerance L s m0 m1 s1 e0 I) in H.
    - exact Hs.
    - now apply fast_new_inv.
    - cbn in E1. apply (fast_m_inv fuel limit tolerance L _ _ _ _ _ I) in E1. split; [apply E1|]. apply (proj1 E1).
  Qed.

  (** ** SupervisedMStep *)
  Definition sup_idle (s : sup T) : Prop := fast_idle (su_fast s) /\ length (su_var s) = length (f_z (su_fast s)).
  Definition sup_at (s0 : sup T) (m : params T) (l : list (item T)) (s : sup T) : Prop :=
    fast_at (su_fast s0) (mean_topics K (p_alpha m)) l l (su_fast s) /\
    length (su_var s) = length (f_z (su_fast s)) /\ holds (map (second_moment K V) l) (su_var s).
  Lemma z_bar_n_eq m x : length (p_alpha m) = K -> z_bar_n m (snd x) (words_in x) = mean_topics K (p_alpha m) x.
  Proof. intros H. unfold z_bar_n, mean_topics, excess. now rewrite vtab_map, H. Qed.
  Lemma z_var_eq x : sized K V x -> z_var (snd x) (d_words (fst x)) (div one (ofZ (words_in x * words_in x))) = second_moment K V x.
  Proof.
    intros (S1 & S2 & S3 & S4). unfold z_var, second_moment. unfold weigh at 1 2. rewrite !mrows_tab, S2. apply mtab_ext. intros i j Hi Hj.
    f_equal. unfold dot, weigh. rewrite S2, S3, !mrow_tab, vtab_length by assumption. f_equal. apply vtab_ext. intros n Hn.
    now rewrite !vget_tab by assumption.
  Qed.
  Lemma int_sum_short (x : item T) : short x -> int_sum (d_words (fst x)) = Ok (words_in x) /\ int_square (words_in x) = Ok (words_in x * words_in x)%Z.
  Proof.
    unfold short. intros H2. split.
    - unfold int_sum. fold (words_in x). replace ((- 2 ^ 31 <=? words_in x) && (words_in x <? 2 ^ 31))%Z with true; [reflexivity|].
      symmetry. apply andb_true_intro. change (2 ^ 31)%Z with 2147483648%Z in *. split; [apply Z.leb_le|apply Z.ltb_lt]; nia.
    - unfold int_square. apply Z.ltb_lt in H2. now rewrite H2.
  Qed.
  Lemma sup_doc_next s0 m l s x : length (p_alpha m) = K -> sup_idle s0 -> sup_at s0 m l s -> sized K V x -> short x ->
    d_class (fst x) <> None ->
    exists s', sup_doc s m (fst x) (snd x) = Ok s' /\ sup_at s0 m (l ++ [x]) s'.
  Proof.
    intros Ha [(I1 & _) _] ((A1 & A2 & A3 & A4 & A5 & A6) & B1 & B2) S Hshort Hc.
    destruct (d_class (fst x)) as [c|] eqn:Cx; [|congruence]. destruct (int_sum_short x Hshort) as [N1 N2].
    unfold sup_doc. rewrite A1, unsupervised_next by assumption. cbn [bind]. rewrite N1. cbn [bind]. rewrite Ha, Cx, A2.
    set (g := Nat.leb (length (f_z (su_fast s))) (length l)).
    set (z := if g then resize (Datatypes.S (length l)) (f_z (su_fast s)) else f_z (su_fast s)).
    set (y := if g then resize (Datatypes.S (length l)) (f_y (su_fast s)) else f_y (su_fast s)).
    set (v := if g then resize (Datatypes.S (length l)) (su_var s) else su_var s).
    assert (LL : length z = length y /\ length v = length z /\ length l < length z).
    { unfold z, y, v, g. destruct (Nat.leb_spec (length (f_z (su_fast s))) (length l)); [rewrite !resize_length|]; repeat split; lia. }
    destruct LL as (L1 & L2 & L3).
    assert (Hz : holds (map (mean_topics K (p_alpha m)) l) z).
    { unfold z. destruct g; [|assumption]. apply holds_resize; [rewrite map_length; lia|assumption]. }
    assert (Hy : holds (map class_of l) y).
    { unfold y. destruct g; [|assumption]. apply holds_resize; [rewrite map_length; lia|assumption]. }
    assert (Hv : holds (map (second_moment K V) l) v).
    { unfold v. destruct g; [|assumption]. apply holds_resize; [rewrite map_length; lia|assumption]. }
    destruct (holds_store (map class_of l) (class_of x) y Hy) as (y' & Y1 & Y2 & Y3); [rewrite map_length; lia|].
    rewrite map_length in Y1. unfold class_of in Y1 at 1. rewrite Cx in Y1. rewrite Y1. cbn [bind].
    assert (Rw : (if Nat.eqb (length (f_z (su_fast s))) 0 then K else f_rows (su_fast s)) = K).
    { destruct (Nat.eqb_spec (length (f_z (su_fast s))) 0) as [E|E]; [reflexivity|now apply A4]. }
    rewrite Rw. pose proof S as (S1 & S2 & S3 & S4). rewrite S4, !Nat.eqb_refl. cbn [andb negb].
    destruct (holds_store _ (mean_topics K (p_alpha m) x) z Hz) as (z' & Z1 & Z2 & Z3); [rewrite map_length; lia|].
    rewrite map_length in Z1. rewrite <- (z_bar_n_eq m x Ha) in Z1. rewrite Z1. cbn [bind]. rewrite N2. cbn [bind].
    destruct (holds_store _ (second_moment K V x) v Hv) as (v' & V1 & V2 & V3); [rewrite map_length; lia|].
    rewrite map_length in V1. rewrite <- (z_var_eq x S) in V1. rewrite V1. cbn [bind].
    eexists. split; [reflexivity|].
    unfold sup_at, fast_at. cbn [su_fast su_var f_b f_docs f_z f_y f_rows]. rewrite !map_app, app_length. cbn [map length].
    repeat split; try (apply Z2 || apply Y2 || apply V2 || lia).
  Qed.
  Lemma sup_docs s0 m l s t : length (p_alpha m) = K -> sup_idle s0 -> sup_at s0 m t s ->
    Forall (sized K V) l -> Forall short l -> Forall (fun x => d_class (fst x) <> None) l ->
    exists s', feed sup_doc m l s = Ok s' /\ sup_at s0 m (t ++ l) s'.
  Proof.
    intros Ha I. revert s t. induction l as [|x l IH]; intros s t At Hs Hsh Hc.
    - exists s. split; [reflexivity|]. now rewrite !app_nil_r.
    - inversion Hs as [|? ? S1 S2]; subst. inversion Hc as [|? ? C1 C2]; subst. inversion Hsh as [|? ? D1 D2]; subst. cbn [feed].
      destruct (sup_doc_next s0 m t s x Ha I At S1 D1 C1) as (s1 & E1 & At1). rewrite E1. cbn [bind].
      destruct (IH s1 (t ++ [x]) At1 S2 D2 C2) as (s' & E & A). exists s'. split; [exact E|].
      rewrite <- !app_assoc in A. exact A.
  Qed.
  Lemma so_rows r r' (l : list (item T)) (f : item T -> list T) g L : (l = [] \/ r = r') ->
    so (mk_mat r (map f l)) (map g l) (map class_of l) L = so (mk_mat r' (map f l)) (map g l) (map class_of l) L.
  Proof. intros [->| ->]; reflexivity. Qed.
  Lemma sup_epoch fuel limit tolerance L s l m : sup_idle s -> length (p_alpha m) = K ->
    Forall (sized K V) l -> Forall short l -> Forall (fun x => d_class (fst x) <> None) l -> l <> [] ->
    visible (mrun (sup_maximizer fuel limit tolerance L) (epoch l) m s) =
    let* (eta, e) := trained_slda fuel limit tolerance L K V l m in
    Ok (mk_params (p_alpha m) (over_row_sums K V (word_counts K V l)) eta, e).
  Proof.
    intros I Ha Hs Hsh Hc Hl. unfold epoch. rewrite mrun_app, (mrun_docs _ sup_doc) by reflexivity.
    assert (At0 : sup_at s m [] s). { split; [apply fast_idle_at; apply I|]. split; [apply I|apply holds_nil]. }
    destruct (sup_docs s m l s [] Ha I At0 Hs Hsh Hc) as (s' & E & At). rewrite E. cbn [bind mrun ms_end sup_maximizer app] in *.
    destruct At as (At & B1 & B2).
    assert (Hr : l = [] \/ f_rows (su_fast s') = K).
    { destruct l as [|x r]; [now left|]. right. destruct At as (A1 & A2 & A3 & A4 & A5 & A6). apply A4. destruct A5 as [A5 _]. cbn in A5. lia. }
    assert (R : visible (sup_m fuel limit tolerance L s' m) =
                let* (eta, e) := trained_slda fuel limit tolerance L K V l m in
                Ok (mk_params (p_alpha m) (over_row_sums K V (word_counts K V l)) eta, e)).
    { unfold sup_m, sup_prepare. destruct (fast_at_prepare (su_fast s) m _ l l (su_fast s') At Hl) as (s2 & E2). rewrite E2.
      pose proof (proj1 (proj2 At)) as Hd. rewrite Hd. pose proof (holds_exact _ _ B2) as B3. rewrite map_length in B3.
      cbn [bind]. rewrite B3, load_some. cbn [bind]. unfold trained_slda. rewrite (so_rows (f_rows (su_fast s')) K l _ _ L Hr).
      destruct (so _ _ _ _) as [p| |]; cbn [bind visible]; [|reflexivity..].
      cbn [set_beta p_eta]. destruct (fit_eta fuel limit tolerance p (p_eta m)) as [[eta e]| |]; reflexivity. }
    rewrite <- R. destruct (sup_m fuel limit tolerance L s' m) as [[[m2 s2] e2]| |]; cbn [bind visible]; [|reflexivity..]. now rewrite app_nil_r.
  Qed.
  Definition sup_inv (m : params T) (s : sup T) : Prop := fast_inv m (su_fast s) /\ length (su_var s) = length (f_z (su_fast s)).
  Lemma sup_doc_inv s m x s' : sup_inv m s -> sized K V x -> sup_doc s m (fst x) (snd x) = Ok s' -> sup_inv m s'.
  Proof.
    intros ((I0 & I1 & I2 & I3 & I4) & I5) S E. unfold sup_doc in E. apply bind_ok' in E. destruct E as (b & Eb & E).
    apply bind_ok' in E. destruct E as (N & EN & E).
    destruct (d_class (fst x)) as [c|]; [|discriminate]. apply bind_ok' in E. destruct E as (y & Ey & E).
    destruct (negb _) eqn:NN; [discriminate|]. apply bind_ok' in E. destruct E as (z & Ez & E).
    apply bind_ok' in E. destruct E as (sq & Es & E). apply bind_ok' in E. destruct E as (v & Ev & E). injection E as <-.
    apply negb_false_iff, andb_prop in NN. destruct NN as [_ NN]. apply Nat.eqb_eq in NN. rewrite I0 in *.
    apply store_length in Ey, Ez, Ev. destruct Ey as (Y1 & Y2 & _), Ez as (Z1 & Z2 & _), Ev as (V1 & V2 & _).
    unfold sup_inv, fast_inv. cbn [su_fast su_var f_b f_rows f_z f_y f_docs]. rewrite Z1, Y1, V1, NN.
    split; [|destruct (Nat.leb _ _); [now rewrite !resize_length|assumption]].
    split; [assumption|]. split; [exact (unsupervised_doc_b _ _ _ I1 S Eb)|]. split; [lia|]. split; [|reflexivity].
    destruct (Nat.leb _ _); [now rewrite !resize_length|assumption].
  Qed.
  Lemma sup_m_inv fuel limit tolerance L s m m' s' e : sup_inv m s -> sup_m fuel limit tolerance L s m = Ok (m', s', e) ->
    sup_inv m' s' /\ sup_idle s'.
  Proof.
    intros [I I5] E. unfold sup_m, sup_prepare in E. apply bind_ok' in E. destruct E as ([[[[m1 s1] X] W] y] & E1 & E).
    apply bind_ok' in E1. destruct E1 as ([[[m2 s2] X2] y2] & E2 & E1). apply bind_ok' in E1. destruct E1 as (vs & Ev & E1).
    injection E1 as <- <- <- <- <-.
    apply bind_ok' in E. destruct E as (p & Ep & E). apply bind_ok' in E. destruct E as ([eta ev] & Ee & E). injection E as <- <- <-.
    destruct (fast_prepare_inv _ _ _ _ _ _ I E2) as (A & B & C).
    assert (LV : length (resize (f_docs (su_fast s)) (su_var s)) = length (f_z s2)).
    { rewrite resize_length. unfold fast_prepare, unsupervised_m in E2.
      apply bind_ok' in E2. destruct E2 as (ys & Ey & E2). apply bind_ok' in E2. destruct E2 as (zs & Ez & E2). injection E2 as <- <- <- <-.
      cbn [f_z]. now rewrite resize_length. }
    destruct A as (A0 & A). repeat split; cbn [su_fast su_var]; try assumption; try (apply A || apply B).
  Qed.
  Lemma sup_history fuel limit tolerance L h m m' s' e : length (p_alpha m) = K -> Forall (sized K V) (items (h ++ [MEnd])) ->
    mrun (sup_maximizer fuel limit tolerance L) (h ++ [MEnd]) m new_sup = Ok (m', s', e) -> sup_idle s' /\ length (p_alpha m') = K.
  Proof.
    intros Ha Hs E. destruct (history_end (sup_maximizer fuel limit tolerance L) sup_inv (sized K V)) with (5 := E) as (m1 & b1 & e1 & I & E1).
    - intros s m0 d v m1 s1 e0 Q I H. cbn in H. apply bind_ok' in H. destruct H as (s2 & H & H2). injection H2 as <- <- <-.
      exact (sup_doc_inv s m0 (d, v) s2 I Q H).
    - intros s m0 m1 s1 e0 I H. cbn in H. now apply (sup_m_inv fuel limit tolerance L s m0 m1 s1 e0 I) in H.
    - exact Hs.
    - split; [now apply fast_new_inv|reflexivity].
    - cbn in E1. apply (sup_m_inv fuel limit tolerance L _ _ _ _ _ I) in E1. split; [apply E1|]. apply (proj1 E1).
  Qed.
  (** ** MultinomialSupervisedMStep, CorrespondenceSupervisedMStep *)
  Variable C : nat.
  (** what differs between the two *)
  Variable scaled : item T -> mat T.
  Variable a : item T -> nat -> nat -> T.
  Hypothesis Hscaled : forall x, sized K V x -> scaled x = mtab K V (a x).
  Definition stats_fresh (s : stats T) : Prop :=
    st_b s = empty_mat \/ (st_b s = zeros /\ st_h s = mtab K C (fun _ _ => zero) /\ st_log s = Some zero).
  Definition stats_shaped (s : stats T) : Prop :=
    (st_b s = empty_mat /\ st_log s = None) \/ (mrows (st_b s) = K /\ ncols (st_b s) = V /\ mrows (st_h s) = K /\ ncols (st_h s) = C /\ exists l, st_log s = Some l).
  Definition stats_at (m : params T) (l : list (item T)) (s : stats T) : Prop :=
    st_b s = totals K V a l /\ st_h s = class_totals K V C a l /\ st_log s = Some (class_log K V a (p_eta m) l).
  Lemma totals_snoc l x : totals K V a (l ++ [x]) = mtab K V (fun i n => add (mget (totals K V a l) i n) (a x i n)).
  Proof. unfold totals. now rewrite fold_left_app. Qed.
  Lemma totals_shape l : mrows (totals K V a l) = K /\ ncols (totals K V a l) = V.
  Proof. destruct l as [|x l] using rev_ind; [|rewrite totals_snoc]; (split; [reflexivity|apply ncols_tab]). Qed.
  Lemma class_totals_snoc l x : class_totals K V C a (l ++ [x]) = mtab K C (fun i c =>
      if Nat.eqb c (Z.to_nat (class_of x)) then add (mget (class_totals K V C a l) i c) (redux (vtab V (fun n => a x i n)))
      else mget (class_totals K V C a l) i c).
  Proof. unfold class_totals. now rewrite fold_left_app. Qed.
  Lemma class_totals_shape l : mrows (class_totals K V C a l) = K /\ ncols (class_totals K V C a l) = C.
  Proof. destruct l as [|x l] using rev_ind; [|rewrite class_totals_snoc]; (split; [reflexivity|apply ncols_tab]). Qed.
  Lemma stats_doc_shaped s m x c : sized K V x -> (0 <= c < Z.of_nat C)%Z -> mrows (p_eta m) = K -> ncols (p_eta m) = C ->
    mrows (st_b s) = K -> ncols (st_b s) = V -> mrows (st_h s) = K -> ncols (st_h s) = C -> forall l, st_log s = Some l ->
    stats_doc (scaled x) s m c =
    Ok (mk_stats (mtab K V (fun i n => add (mget (st_b s) i n) (a x i n)))
         (mtab K C (fun i j => if Nat.eqb j (Z.to_nat c) then add (mget (st_h s) i j) (redux (vtab V (fun n => a x i n))) else mget (st_h s) i j))
         (Some (add l (redux (vtab K (fun i => mul (redux (vtab V (fun n => a x i n))) (slog (mget (p_eta m) i (Z.to_nat c))))))))).
  Proof.
    intros S Hc E1 E2 B1 B2 H1 H2 l Hl. unfold stats_doc. rewrite B1. destruct (Nat.eqb_spec K 0) as [|_]; [lia|].
    rewrite (Hscaled x S). unfold same_size. rewrite !mrows_tab, !ncols_tab, B1, B2, H1, H2, E1, E2, !Nat.eqb_refl.
    replace (0 <=? c)%Z with true by (symmetry; apply Z.leb_le; lia). replace (c <? Z.of_nat C)%Z with true by (symmetry; apply Z.ltb_lt; lia).
    cbn [andb negb]. rewrite Hl.
    assert (RS : forall i, i < K -> vget (row_sums (mtab K V (a x))) i = redux (vtab V (fun n => a x i n))).
    { intros i Hi. unfold row_sums. rewrite mrows_tab, vget_tab by assumption. now rewrite mrow_tab. }
    do 2 f_equal.
    - unfold madd. rewrite B1, B2. apply mtab_ext. intros i n Hi Hn. now rewrite mget_tab.
    - apply mtab_ext. intros i j Hi Hj. destruct (Nat.eqb j (Z.to_nat c)); [|reflexivity]. now rewrite RS.
    - do 2 f_equal. unfold dot. f_equal. unfold row_sums at 1. rewrite vtab_length, mrows_tab. apply vtab_ext. intros i Hi.
      rewrite RS by assumption. f_equal. unfold vget. unfold mcol. rewrite vtab_map, E1. now rewrite (vtab_nth K _ i) by assumption.
  Qed.
  Lemma stats_doc_fresh s m x c : sized K V x -> mrows (p_eta m) = K -> ncols (p_eta m) = C -> stats_fresh s ->
    stats_doc (scaled x) s m c = stats_doc (scaled x) (mk_stats zeros (mtab K C (fun _ _ => zero)) (Some zero)) m c.
  Proof.
    intros S E1 E2 F. unfold stats_doc. cbn [st_b st_h st_log]. unfold zeros at 1. rewrite mrows_tab. destruct (Nat.eqb_spec K 0) as [|_]; [lia|].
    destruct F as [F|(F1 & F2 & F3)].
    - rewrite F. rewrite (Hscaled x S), E1, E2. cbn [empty_mat mrows Nat.eqb]. rewrite mrows_tab, ncols_tab. cbn [st_b st_h st_log].
      destruct (Nat.eqb_spec (mrows zeros) 0) as [Z|_]; [unfold zeros in Z; rewrite mrows_tab in Z; lia|]. reflexivity.
    - destruct s as [b h lg]. cbn [st_b st_h st_log] in *. subst.
      destruct (Nat.eqb_spec (mrows zeros) 0) as [Z|_]; [unfold zeros in Z; rewrite mrows_tab in Z; lia|]. reflexivity.
  Qed.
  Definition stats_started (s0 : stats T) m (l : list (item T)) (s : stats T) : Prop :=
    (l = [] /\ s = s0) \/ (l <> [] /\ stats_at m l s).
  Variable sdoc : stats T -> params T -> doc T -> vparams T -> outcome (stats T).
  Variable Q : item T -> Prop.
  Hypothesis Hsdoc : forall s m x c, sized K V x -> Q x -> d_class (fst x) = Some c ->
    sdoc s m (fst x) (snd x) = stats_doc (scaled x) s m c.
  Lemma stats_next s0 m l s x : mrows (p_eta m) = K -> ncols (p_eta m) = C -> stats_fresh s0 -> stats_started s0 m l s ->
    sized K V x -> Q x -> classified C x ->
    exists s', sdoc s m (fst x) (snd x) = Ok s' /\ stats_started s0 m (l ++ [x]) s'.
  Proof.
    intros E1 E2 F St S Ht (c & Hc & Rc). rewrite (Hsdoc s m x c S Ht Hc).
    assert (Cx : class_of x = c) by (unfold class_of; now rewrite Hc).
    destruct St as [[-> ->]|[Hl (A1 & A2 & A3)]].
    - rewrite (stats_doc_fresh s0 m x c S E1 E2 F).
      rewrite (stats_doc_shaped _ m x c S Rc E1 E2) with (l := zero); try reflexivity; try apply ncols_tab.
      eexists. split; [reflexivity|]. right. split; [discriminate|]. unfold stats_at, totals, class_totals, class_log.
      cbn [app fold_left st_b st_h st_log]. rewrite Cx. repeat split.
    - destruct (totals_shape l) as [T1 T2]. destruct (class_totals_shape l) as [T3 T4].
      rewrite (stats_doc_shaped s m x c S Rc E1 E2) with (l := class_log K V a (p_eta m) l); try assumption; try (rewrite ?A1, ?A2; assumption).
      eexists. split; [reflexivity|]. right. split; [now destruct l|]. unfold stats_at. cbn [st_b st_h st_log].
      rewrite totals_snoc, class_totals_snoc, A1, A2, Cx. repeat split. unfold class_log. rewrite fold_left_app. cbn [fold_left]. now rewrite Cx.
  Qed.
  Lemma stats_docs s0 m l s t : mrows (p_eta m) = K -> ncols (p_eta m) = C -> stats_fresh s0 -> stats_started s0 m t s ->
    Forall (sized K V) l -> Forall Q l -> Forall (classified C) l ->
    exists s', feed sdoc m l s = Ok s' /\ stats_started s0 m (t ++ l) s'.
  Proof.
    intros E1 E2 F. revert s t. induction l as [|x l IH]; intros s t At Hs Ht Hc.
    - exists s. split; [reflexivity|]. now rewrite app_nil_r.
    - inversion Hs as [|? ? S1 S2]; subst. inversion Hc as [|? ? C1 C2]; subst. inversion Ht as [|? ? D1 D2]; subst. cbn [feed].
      destruct (stats_next s0 m t s x E1 E2 F At S1 D1 C1) as (s1 & X1 & At1). rewrite X1. cbn [bind].
      destruct (IH s1 (t ++ [x]) At1 S2 D2 C2) as (s' & E & A). exists s'. split; [exact E|]. now rewrite <- app_assoc in A.
  Qed.
  Variable mu : T.
  Let M := mk_maximizer (fun s m d v => let* s := sdoc s m d v in Ok (m, s, [])) (stats_m mu).
  Definition smoothed (h : mat T) : mat T := mtab K C (fun i c => sub (add (mget h i c) mu) one).
  Lemma stats_epoch s l m : stats_fresh s -> mrows (p_eta m) = K -> ncols (p_eta m) = C ->
    Forall (sized K V) l -> Forall Q l -> Forall (classified C) l -> l <> [] ->
    visible (mrun M (epoch l) m s) =
    Ok (mk_params (p_alpha m) (normalize_rows (totals K V a l)) (normalize_rows (smoothed (class_totals K V C a l))),
        [class_log K V a (p_eta m) l]).
  Proof.
    intros F E1 E2 Hs Ht Hc Hl. unfold epoch. rewrite mrun_app, (mrun_docs M sdoc) by reflexivity.
    destruct (stats_docs s m l s [] E1 E2 F) as (s' & E & At); try assumption; [now left|]. rewrite E. cbn [bind mrun ms_end M app] in *.
    destruct At as [[? _]|[_ (A1 & A2 & A3)]]; [congruence|]. unfold stats_m. rewrite A1, A2, A3. cbn [bind visible app].
    destruct (class_totals_shape l) as [-> ->]. reflexivity.
  Qed.
  Definition stats_inv (m : params T) (s : stats T) : Prop := mrows (p_eta m) = K /\ ncols (p_eta m) = C /\ stats_shaped s.
  Lemma stats_history h m m' s' e : mrows (p_eta m) = K -> ncols (p_eta m) = C ->
    Forall (fun x => sized K V x /\ Q x /\ classified C x) (items (h ++ [MEnd])) ->
    mrun M (h ++ [MEnd]) m new_stats = Ok (m', s', e) -> stats_fresh s' /\ mrows (p_eta m') = K /\ ncols (p_eta m') = C.
  Proof.
    intros E1 E2 Hs E.
    assert (END : forall s m0 m1 s1 e0, stats_inv m0 s -> ms_end M s m0 = Ok (m1, s1, e0) -> stats_inv m1 s1 /\ stats_fresh s1).
    { intros s m0 m1 s1 e0 (I1 & I2 & I3) H. cbn in H. unfold stats_m in H. destruct (st_log s) as [l|] eqn:EL; [|discriminate].
      injection H as <- <- <-. destruct I3 as [[_ I3]|(J1 & J2 & J3 & J4 & _)]; [congruence|].
      unfold stats_inv, stats_shaped, stats_fresh. cbn [p_eta st_b st_h st_log]. unfold normalize_rows, mzero, zeros.
      rewrite !mrows_tab, !ncols_tab, J1, J2, J3, J4. split; [|now right].
      split; [reflexivity|]. split; [reflexivity|]. right. repeat split. eauto. }
    destruct (history_end M stats_inv (fun x => sized K V x /\ Q x /\ classified C x)) with (5 := E) as (m1 & s1 & e1 & I & X).
    - intros s m0 d v m1 s1 e0 (Q1 & Q2 & c & Q3 & Q4) (I1 & I2 & I3) H. cbn in H. pose proof (Hsdoc s m0 (d, v) c Q1 Q2 Q3) as HD. cbn [fst snd] in HD. rewrite HD in H. clear HD.
      assert (ST : exists s', stats_doc (scaled (d, v)) s m0 c = Ok s' /\ stats_shaped s').
      { destruct I3 as [[I3 _]|(J1 & J2 & J3 & J4 & l & J5)].
        - rewrite (stats_doc_fresh s m0 (d, v) c Q1 I1 I2) by now left.
          rewrite (stats_doc_shaped _ m0 (d, v) c Q1 Q4 I1 I2) with (l := zero); try reflexivity; try apply ncols_tab.
          eexists. split; [reflexivity|]. right. cbn [st_b st_h st_log]. rewrite !mrows_tab, !ncols_tab. repeat split. eauto.
        - rewrite (stats_doc_shaped _ m0 (d, v) c Q1 Q4 I1 I2) with (l := l); try assumption.
          eexists. split; [reflexivity|]. right. cbn [st_b st_h st_log]. rewrite !mrows_tab, !ncols_tab. repeat split. eauto. }
      destruct ST as (s2 & X & Y). rewrite X in H. cbn [bind] in H. injection H as <- <- <-. repeat split; assumption.
    - intros s m0 m1 s1 e0 I H. now apply END in H.
    - exact Hs.
    - split; [assumption|]. split; [assumption|]. left. split; reflexivity.
    - apply END in X; [|assumption]. split; [apply X|]. split; apply (proj1 X).
  Qed.
End Any.
