(** The online M step over any scalar type. *)
Require Import ZArith List Bool Arith Lia.
Require Import Verif.Base Verif.Scalar Verif.Mat Verif.UtilsModel Verif.BuilderModel Verif.EStepModel Verif.OptModel Verif.MStepModel Verif.MStepSpec Verif.MStepAny.
Import ListNotations.

Lemma batches_short {A} B (l : list A) : length l < B -> batches B l = [].
Proof. intros H. unfold batches. now rewrite Nat.div_small. Qed.
Lemma batches_cons {A} B (b l : list A) : 0 < B -> length b = B -> batches B (b ++ l) = b :: batches B l.
Proof.
  intros HB Hb. unfold batches. rewrite app_length, Hb. replace (B + length l) with (length l + 1 * B) by lia.
  rewrite Nat.div_add by lia. replace (length l / B + 1) with (S (length l / B)) by lia. cbn [seq map]. f_equal.
  - cbn [Nat.mul skipn]. rewrite firstn_app, Hb, Nat.sub_diag, <- Hb, firstn_all. cbn. apply app_nil_r.
  - rewrite <- seq_shift, map_map. apply map_ext. intros k. f_equal. rewrite skipn_app.
    rewrite skipn_all2 by (cbn; lia). cbn [app]. f_equal. cbn. lia.
Qed.
Lemma batches_length {A} B (l : list A) : length (batches B l) = length l / B.
Proof. unfold batches. now rewrite map_length, seq_length. Qed.

Lemma firstn_skipn_comm' {A} B a n (l : list A) : a + B <= n -> firstn B (skipn a l) = firstn B (skipn a (firstn n l)).
Proof. intros H. rewrite skipn_firstn_comm, firstn_firstn. f_equal. lia. Qed.
Lemma Forall_firstn' {A} (P : A -> Prop) n l : Forall P l -> Forall P (firstn n l).
Proof. intros H. revert n. induction H; intros [|n]; cbn; constructor; auto. Qed.

Section Online.
  Context {T : Type} {O : ops T}.
  Variables K V : nat.
  Hypothesis HK : 0 < K.
  Variable cf : oconf T.
  Notation B := (o_minibatch cf).
  Notation C := (length (o_class_weights cf)).
  Hypothesis HB : 0 < B.

  (** The state after the documents [seen] of full batches and [blk] of the current one. *)
  Definition online_at (alpha : list T) (seen blk : list (item T)) (vel : mat T) (s : online T) : Prop :=
    on_b s = word_counts K V (seen ++ blk) /\
    (exists old, on_z s = mtab K B (fun i j => if Nat.ltb j (length blk) then vget (nth j (map (proportions K alpha) blk) []) i else old i j)) /\
    (exists rest, on_y s = map class_of blk ++ rest /\ length blk + length rest = B) /\
    on_velocity s = vel /\ mrows vel = K /\ ncols vel = C /\ on_seen s = length blk.
  Definition online_alloc : online T :=
    mk_online (mzero K V) (mzero K B) (repeat 0%Z B) (mzero K C) 0.
  Lemma online_alloc_at alpha : online_at alpha [] [] (mzero K C) online_alloc.
  Proof.
    unfold online_at, online_alloc. cbn [on_b on_z on_y on_velocity on_seen app length]. repeat split.
    - exists (fun _ _ => zero). reflexivity.
    - exists (repeat 0%Z B). split; [reflexivity|]. now rewrite repeat_length.
    - apply ncols_tab.
  Qed.
  Lemma online_doc_alloc m x : sized K V x -> online_doc cf new_online m (fst x) (snd x) = online_doc cf online_alloc m (fst x) (snd x).
  Proof.
    intros (S1 & S2 & S3 & S4). unfold online_doc. rewrite S2, S3. cbn [on_b new_online online_alloc mrows empty_mat Nat.eqb on_seen].
    destruct (Nat.eqb_spec (mrows (mzero K V)) 0) as [Z|_]; [cbn in Z; lia|]. reflexivity.
  Qed.
  Lemma proportions_length alpha x : length (proportions K alpha x) = K.
  Proof. unfold proportions, excess. now rewrite map_length, vtab_length. Qed.

  (** one document: the state it leaves before the test for a full batch *)
  Lemma online_doc_next m seen blk vel s x c : model_sized K V cf m -> online_at (p_alpha m) seen blk vel s -> length blk < B ->
    sized K V x -> d_class (fst x) = Some c ->
    exists s', online_at (p_alpha m) seen (blk ++ [x]) vel s' /\
      online_doc cf s m (fst x) (snd x) =
      if Nat.leb B (length blk + 1) then online_m cf s' m else Ok (m, s', []).
  Proof.
    intros (M1 & M2 & M3 & M4 & M5) (A1 & (old & A2) & (rest & A3 & A4) & A5 & A6 & A7 & A8) L S Hc.
    destruct (word_counts_shape K V (seen ++ blk)) as [Hr Hn]. pose proof S as (S1 & S2 & S3 & S4).
    unfold online_doc. rewrite Hc, A1, Hr. destruct (Nat.eqb_spec K 0); [lia|].
    unfold same_size. rewrite A1, A2, A3, A8, Hr, Hn, !mrows_tab, ncols_tab, S1, S2, S3, S4, M1, !Nat.eqb_refl.
    apply Nat.ltb_lt in L as L'. rewrite L'. cbn [andb negb on_seen].
    eexists. split; [|replace (length blk + 1) with (Datatypes.S (length blk)) by lia; reflexivity].
    unfold online_at. cbn [on_b on_z on_y on_velocity on_seen]. split; [|split; [|split; [|split; [|split; [|split]]]]]; try assumption.
    - rewrite app_assoc, (word_counts_snoc K V). now apply weigh_add.
    - exists old. unfold set_col. rewrite mrows_tab, ncols_tab. apply mtab_ext. intros i j Hi Hj.
      rewrite app_length. cbn [length]. rewrite map_app. cbn [map].
      destruct (Nat.eqb_spec j (length blk)) as [->|Ne].
      + replace (Nat.ltb (length blk) (length blk + 1)) with true by (symmetry; apply Nat.ltb_lt; lia).
        rewrite app_nth2 by (rewrite map_length; lia). rewrite map_length, Nat.sub_diag. cbn [nth]. unfold proportions, excess.
        reflexivity.
      + rewrite mget_tab by assumption. destruct (Nat.ltb_spec j (length blk)) as [Q|Q].
        * replace (Nat.ltb j (length blk + 1)) with true by (symmetry; apply Nat.ltb_lt; lia). now rewrite app_nth1 by (rewrite map_length; lia).
        * now replace (Nat.ltb j (length blk + 1)) with false by (symmetry; apply Nat.ltb_ge; lia).
    - destruct rest as [|r rest]; [cbn in A4; lia|]. exists rest. rewrite map_app, app_length. cbn [map length app] in *. split; [|lia].
      assert (X : class_of x = c) by (unfold class_of; now rewrite Hc). rewrite X.
      rewrite firstn_app, firstn_all2 by (rewrite map_length; lia). rewrite map_length, Nat.sub_diag. cbn [firstn]. rewrite app_nil_r.
      rewrite <- app_assoc. f_equal. cbn [app]. f_equal.
      replace (Datatypes.S (length blk)) with (length (map class_of blk ++ [r])) by (rewrite app_length, map_length; cbn; lia).
      change (map class_of blk ++ r :: rest) with (map class_of blk ++ [r] ++ rest). rewrite app_assoc, skipn_app, skipn_all, Nat.sub_diag. reflexivity.
    - rewrite app_length. cbn. lia.
  Qed.

  Definition next_model (seen b : list (item T)) (m : params T) (eta : mat T) : params T :=
    let w := o_beta_weight cf in
    mk_params (p_alpha m)
      (mtab K V (fun i n => add (mul w (mget (p_beta m) i n)) (mul (sub one w) (mget (over_row_sums K V (word_counts K V (seen ++ b))) i n)))) eta.
  Lemma online_m_full m seen b vel s : model_sized K V cf m -> online_at (p_alpha m) seen b vel s -> length b = B ->
    online_m cf s m =
    let* p := mlr (mk_mat K (map (proportions K (p_alpha m)) b)) (map class_of b) (o_L cf) in
    let* g := gradient p (p_eta m) in
    let vel := mtab K C (fun i c => sub (mul (o_momentum cf) (mget vel i c)) (mul (o_rate cf) (mget g i c))) in
    let eta := mtab K C (fun i c => add (mget (p_eta m) i c) (mget vel i c)) in
    let* v := value p eta in
    Ok (next_model seen b m eta, mk_online (on_b s) (on_z s) (on_y s) vel 0, [opp v]).
  Proof.
    intros (M1 & M2 & M3 & M4 & M5) (A1 & (old & A2) & (rest & A3 & A4) & A5 & A6 & A7 & A8) L.
    destruct (word_counts_shape K V (seen ++ b)) as [Hr Hn]. unfold online_m. rewrite A8, L, Nat.ltb_irrefl.
    unfold same_size. rewrite A1, A5, M2, M3, M4, M5, A6, A7, Hr, Hn, !Nat.eqb_refl. cbn [andb negb].
    assert (Z : on_z s = mk_mat K (map (proportions K (p_alpha m)) b)).
    { rewrite A2. transitivity (mtab K B (fun i j => vget (nth j (map (proportions K (p_alpha m)) b) []) i)).
      - apply mtab_ext. intros i j Hi Hj. rewrite L. now replace (Nat.ltb j B) with true by (symmetry; now apply Nat.ltb_lt).
      - unfold mtab. f_equal. transitivity (vtab B (fun j => nth j (map (proportions K (p_alpha m)) b) [])).
        + apply vtab_ext. intros j Hj. rewrite <- L in Hj.
          transitivity (vtab (length (nth j (map (proportions K (p_alpha m)) b) [])) (fun i => nth i (nth j (map (proportions K (p_alpha m)) b) []) zero)); [|apply vtab_eta].
          f_equal. clear - Hj. revert j Hj. induction b as [|x l IH]; intros [|j] Hj; cbn in *; try lia; [now rewrite proportions_length|].
          apply IH. lia.
        + rewrite <- L. rewrite <- (map_length (proportions K (p_alpha m)) b). apply vtab_eta. }
    assert (Y : on_y s = map class_of b).
    { rewrite A3. destruct rest; [apply app_nil_r|cbn in A4; lia]. }
    rewrite <- A1, Z, Y. destruct (mlr _ _ _) as [p| |]; cbn [bind]; [|reflexivity..].
    destruct (gradient p (p_eta m)) as [g| |]; cbn [bind]; [|reflexivity..]. unfold madd. rewrite M4, M5.
    destruct (value p _) as [v| |]; cbn [bind]; [|reflexivity..]. do 3 f_equal. unfold next_model. f_equal.
    apply mtab_ext. intros i n Hi Hn'. do 2 f_equal. unfold over_row_sums. rewrite mget_tab by assumption. rewrite A1. f_equal.
    unfold row_sums. rewrite Hr, vget_tab by assumption. unfold mrow. now rewrite Hn.
  Qed.

  Lemma online_run h : forall m seen blk vel s, model_sized K V cf m -> online_at (p_alpha m) seen blk vel s -> length blk < B ->
    Forall (sized K V) (items h) -> Forall has_class (items h) ->
    visible (mrun (online_maximizer cf) h m s) = online_updates cf K V (batches B (blk ++ items h)) seen m vel.
  Proof.
    induction h as [|c h IH]; intros m seen blk vel s Hm At Hl Hs Hc.
    - cbn [mrun visible items]. rewrite app_nil_r, batches_short by assumption. reflexivity.
    - destruct c as [d v|]; cbn [items] in *.
      + inversion Hs as [|? ? S1 S2]; subst. inversion Hc as [|? ? C1 C2]; subst. unfold has_class in C1. cbn [fst] in C1.
        destruct (d_class d) as [c|] eqn:Cx; [|congruence].
        destruct (online_doc_next m seen blk vel s (d, v) c Hm At Hl S1 Cx) as (s' & At' & E). cbn [fst snd] in E.
        cbn [mrun ms_doc online_maximizer]. rewrite E. replace (blk ++ (d, v) :: items h) with ((blk ++ [(d, v)]) ++ items h) by (now rewrite <- app_assoc).
        destruct (Nat.leb_spec B (length blk + 1)) as [F|F].
        * assert (LB : length (blk ++ [(d, v)]) = B) by (rewrite app_length; cbn; lia).
          rewrite batches_cons by assumption. rewrite (online_m_full m seen (blk ++ [(d, v)]) vel s' Hm At' LB). cbn [online_updates].
          destruct (mlr _ _ _) as [p| |]; cbn [bind visible]; [|reflexivity..].
          destruct (gradient p (p_eta m)) as [g| |]; cbn [bind visible]; [|reflexivity..].
          destruct (value p _) as [val| |]; cbn [bind visible]; [|reflexivity..].
          specialize (IH (next_model seen (blk ++ [(d, v)]) m (mtab K C (fun i c0 => add (mget (p_eta m) i c0) (mget (mtab K C (fun i0 c1 => sub (mul (o_momentum cf) (mget vel i0 c1)) (mul (o_rate cf) (mget g i0 c1)))) i c0)))) (seen ++ blk ++ [(d, v)]) []
                      (mtab K C (fun i c => sub (mul (o_momentum cf) (mget vel i c)) (mul (o_rate cf) (mget g i c))))
                      (mk_online (on_b s') (on_z s') (on_y s') (mtab K C (fun i c => sub (mul (o_momentum cf) (mget vel i c)) (mul (o_rate cf) (mget g i c)))) 0)).
          cbn [app] in IH. unfold next_model in *. rewrite <- IH; clear IH; try assumption.
          -- destruct (mrun _ h _ _) as [[[m2 s2] e2]| |]; reflexivity.
          -- destruct Hm as (M1 & M2 & M3 & M4 & M5). unfold model_sized. cbn [p_alpha p_beta p_eta].
             rewrite !mrows_tab, !ncols_tab. repeat split; assumption.
          -- destruct At' as (A1 & (old & A2) & (rest & A3 & A4) & A5 & A6 & A7 & A8). unfold online_at.
             cbn [on_b on_z on_y on_velocity on_seen]. rewrite !ncols_tab, !mrows_tab. rewrite app_nil_r. repeat split; try assumption.
             ++ exists (fun i j => if Nat.ltb j (length (blk ++ [(d, v)])) then vget (nth j (map (proportions K (p_alpha m)) (blk ++ [(d, v)])) []) i else old i j).
                rewrite A2. reflexivity.
             ++ exists (on_y s'). split; [reflexivity|]. rewrite A3, app_length, map_length. cbn [length]. lia.
        * cbn [bind]. rewrite <- (IH m seen (blk ++ [(d, v)]) vel s' Hm At'); try assumption; [|rewrite app_length; cbn; lia].
          destruct (mrun _ h m s') as [[[m2 s2] e2]| |]; reflexivity.
      + cbn [mrun ms_end online_maximizer]. unfold online_m at 1. pose proof At as (_ & _ & _ & _ & _ & _ & A8). rewrite A8.
        apply Nat.ltb_lt in Hl as Hl'. rewrite Hl'. cbn [bind]. rewrite <- (IH m seen blk vel s Hm At Hl Hs Hc).
        destruct (mrun _ h m s) as [[[m2 s2] e2]| |]; reflexivity.
  Qed.
  (** from a new object *)
  Lemma online_fresh h m : model_sized K V cf m -> Forall (sized K V) (items h) -> Forall has_class (items h) ->
    visible (mrun (online_maximizer cf) h m new_online) = visible (mrun (online_maximizer cf) h m online_alloc).
  Proof.
    induction h as [|c h IH]; intros Hm Hs Hc; [reflexivity|]. destruct c as [d v|]; cbn [items] in *.
    - inversion Hs; subst. cbn [mrun ms_doc online_maximizer]. pose proof (online_doc_alloc m (d, v)) as E. cbn [fst snd] in E. now rewrite E.
    - cbn [mrun ms_end online_maximizer]. unfold online_m. cbn [on_seen new_online online_alloc].
      apply Nat.ltb_lt in HB as HB'. rewrite HB'. cbn [bind]. specialize (IH Hm Hs Hc).
      destruct (mrun _ h m new_online) as [[[m2 s2] e2]| |], (mrun _ h m online_alloc) as [[[m3 s3] e3]| |]; cbn [bind visible] in *; congruence.
  Qed.
  Lemma online_explicit h m : model_sized K V cf m -> Forall (sized K V) (items h) -> Forall has_class (items h) ->
    visible (mrun (online_maximizer cf) h m new_online) = online_updates cf K V (batches B (items h)) [] m (mzero K C).
  Proof.
    intros Hm Hs Hc. rewrite online_fresh by assumption. apply (online_run h m [] [] (mzero K C) online_alloc Hm); try assumption.
    apply online_alloc_at.
  Qed.
  Lemma online_updates_events bs : forall seen m vel m' e, online_updates cf K V bs seen m vel = Ok (m', e) -> length e = length bs.
  Proof.
    induction bs as [|b bs IH]; intros seen m vel m' e E; cbn [online_updates] in E; [now injection E as <- <-|].
    apply bind_ok' in E. destruct E as (p & _ & E). apply bind_ok' in E. destruct E as (g & _ & E).
    apply bind_ok' in E. destruct E as (v & _ & E). apply bind_ok' in E. destruct E as ([m2 e2] & E2 & E). injection E as <- <-.
    cbn [length]. f_equal. exact (IH _ _ _ _ _ E2).
  Qed.
End Online.

Section More.
  Context {T : Type} {O : ops T}.
  Variables K V : nat.
  Lemma mrun_visible {St} (M : maximizer T St) h m s m' e : visible (mrun M h m s) = Ok (m', e) -> exists s', mrun M h m s = Ok (m', s', e).
  Proof. destruct (mrun M h m s) as [[[? s'] ?]| |]; cbn; intros E; try discriminate. injection E as -> ->. eauto. Qed.
  Lemma online_number (cf : oconf T) : 0 < K -> 0 < o_minibatch cf ->
    forall h m m' s e, model_sized K V cf m -> Forall (sized K V) (items h) -> Forall has_class (items h) ->
      mrun (online_maximizer cf) h m new_online = Ok (m', s, e) -> length e = length (items h) / o_minibatch cf.
  Proof.
    intros HK HB h m m' s e Hm Hs Hc E. pose proof (online_explicit K V HK cf HB h m Hm Hs Hc) as X. rewrite E in X. cbn [visible] in X.
    symmetry in X. apply (online_updates_events K V) in X. now rewrite X, batches_length.
  Qed.
  Lemma batches_firstn {A} B (l : list A) : 0 < B -> batches B (firstn (length l / B * B) l) = batches B l.
  Proof.
    intros HB. unfold batches. pose proof (Nat.mul_div_le (length l) B ltac:(lia)) as L. rewrite firstn_length, Nat.min_l by lia.
    rewrite Nat.div_mul by lia. apply map_ext_in. intros k Hk. apply in_seq in Hk.
    symmetry. apply firstn_skipn_comm'. nia.
  Qed.
  Lemma online_epochs (cf : oconf T) : 0 < K -> 0 < o_minibatch cf ->
    forall h h' m, model_sized K V cf m -> Forall (sized K V) (items h) -> Forall has_class (items h) ->
      items h' = firstn (length (items h) / o_minibatch cf * o_minibatch cf) (items h) ->
      visible (mrun (online_maximizer cf) h m new_online) = visible (mrun (online_maximizer cf) h' m new_online).
  Proof.
    intros HK HB h h' m Hm Hs Hc E. rewrite !(online_explicit K V HK cf HB); try assumption.
    - now rewrite E, batches_firstn.
    - rewrite E. now apply Forall_firstn'.
    - rewrite E. now apply Forall_firstn'.
  Qed.
  Lemma online_weights (w w' : list T) L minibatch momentum rate beta_weight : length w = length w' ->
    forall h m s, mrun (online_maximizer (mk_oconf w L minibatch momentum rate beta_weight)) h m s =
                  mrun (online_maximizer (mk_oconf w' L minibatch momentum rate beta_weight)) h m s.
  Proof.
    intros E. set (c1 := mk_oconf w L minibatch momentum rate beta_weight). set (c2 := mk_oconf w' L minibatch momentum rate beta_weight).
    assert (X : forall s m d v, ms_doc (online_maximizer c1) s m d v = ms_doc (online_maximizer c2) s m d v).
    { intros s m d v. subst c1 c2. cbn [ms_doc online_maximizer]. unfold online_doc. cbn [o_class_weights o_minibatch]. rewrite E. reflexivity. }
    assert (Y : forall s m, ms_end (online_maximizer c1) s m = ms_end (online_maximizer c2) s m) by reflexivity.
    induction h as [|c h IH]; intros m s; [reflexivity|]. cbn [mrun]. destruct c as [d v|].
    - rewrite X. destruct (ms_doc (online_maximizer c2) s m d v) as [[[m1 s1] e1]| |]; cbn [bind]; [|reflexivity..]. now rewrite IH.
    - rewrite Y. destruct (ms_end (online_maximizer c2) s m) as [[[m1 s1] e1]| |]; cbn [bind]; [|reflexivity..]. now rewrite IH.
  Qed.
End More.
