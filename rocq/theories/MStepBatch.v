(** All batch M steps at once, and the semi-supervised one compared with the others; any scalar type. *)
Require Import ZArith List Bool Arith Lia.
Require Import Verif.Base Verif.Scalar Verif.Mat Verif.UtilsModel Verif.BuilderModel Verif.EStepModel Verif.OptModel Verif.MStepModel Verif.MStepSpec Verif.MStepAny.
Import ListNotations.

Section Batch.
  Context {T : Type} {O : ops T}.
  Variables K V C : nat.
  Hypothesis HK : 0 < K.

  (** *** multinomial and correspondence *)
  Definition scaled_m (x : item T) : mat T := weigh (v_phi (snd x)) (d_words (fst x)).
  Lemma scaled_m_eq x : sized K V x -> scaled_m x = mtab K V (assigned x).
  Proof. intros (S1 & S2 & S3 & S4). unfold scaled_m, weigh. now rewrite S2, S3. Qed.
  Lemma multinomial_doc_eq s m (x : item T) c : sized K V x -> True -> d_class (fst x) = Some c ->
    multinomial_doc s m (fst x) (snd x) = stats_doc (scaled_m x) s m c.
  Proof. intros (S1 & S2 & S3 & S4) _ Hc. unfold multinomial_doc. now rewrite Hc, S1, S3, Nat.eqb_refl. Qed.
  Definition scaled_c (x : item T) : mat T :=
    mtab (mrows (v_phi (snd x))) (ncols (v_phi (snd x))) (fun i n =>
      mul (mget (v_phi (snd x)) i n) (mul (ofZ (Xget (d_words (fst x)) n)) (vget (v_tau (snd x)) n))).
  Lemma scaled_c_eq x : sized K V x -> scaled_c x = mtab K V (assigned_tau x).
  Proof. intros (S1 & S2 & S3 & S4). unfold scaled_c. now rewrite S2, S3. Qed.
  Lemma correspondence_doc_eq s m (x : item T) c : sized K V x -> with_tau V x -> d_class (fst x) = Some c ->
    correspondence_doc s m (fst x) (snd x) = stats_doc (scaled_c x) s m c.
  Proof. intros (S1 & S2 & S3 & S4) Ht Hc. unfold with_tau in Ht. unfold correspondence_doc, scaled_c. now rewrite Hc, S1, S3, Ht, !Nat.eqb_refl. Qed.
  Definition multinomial_epoch mu s l m := stats_epoch K V HK C scaled_m assigned scaled_m_eq multinomial_doc (fun _ => True) multinomial_doc_eq mu s l m.
  Definition correspondence_epoch mu s l m := stats_epoch K V HK C scaled_c assigned_tau scaled_c_eq correspondence_doc (with_tau V) correspondence_doc_eq mu s l m.

  (** *** what they have in common *)
  Lemma Forall_and_l {A} (P Q : A -> Prop) l : Forall (fun x => P x /\ Q x) l -> Forall P l.
  Proof. apply Forall_impl. tauto. Qed.
  Lemma Forall_and_r {A} (P Q : A -> Prop) l : Forall (fun x => P x /\ Q x) l -> Forall Q l.
  Proof. apply Forall_impl. tauto. Qed.
  Lemma visible_ok {St} (r : outcome (params T * St * list T)) m s e : r = Ok (m, s, e) -> visible r = Ok (m, e).
  Proof. intros ->. reflexivity. Qed.
  Lemma batch_common St M new a P Q : batch_step K V C St M new a P Q ->
    exists idle : St -> Prop, idle new /\
      (forall h m m' s' e, P m -> Forall (fun x => sized K V x /\ Q x) (items (h ++ [MEnd])) ->
         mrun M (h ++ [MEnd]) m new = Ok (m', s', e) -> idle s' /\ P m') /\
      (forall s l m, idle s -> P m -> Forall (fun x => sized K V x /\ Q x) l -> l <> [] ->
         visible (mrun M (epoch l) m s) = visible (mrun M (epoch l) m new) /\
         forall m' s' e, mrun M (epoch l) m s = Ok (m', s', e) ->
           p_alpha m' = p_alpha m /\
           (p_beta m' = over_row_sums K V (totals K V a l) \/ p_beta m' = normalize_rows (totals K V a l))).
  Proof.
    intros B. destruct B.
    - exists (fresh K V). split; [now left|]. split.
      + intros h m m' s' e _ Hs E. split; [|exact I]. apply Forall_and_l in Hs. exact (unsupervised_history K V HK h m m' s' e Hs E).
      + intros s l m Hi _ Hs Hl. apply Forall_and_l in Hs. rewrite !(unsupervised_epoch K V HK) by (try assumption; now left).
        split; [reflexivity|]. intros m' s' e E. injection E as <- <- <-. split; [reflexivity|]. now left.
    - exists (fast_idle K V). split; [exact (fast_new_idle K V HK)|]. split.
      + intros h m m' s' e Ha Hs E. apply Forall_and_l in Hs. exact (fast_history K V HK fuel limit tolerance L h m m' s' e Ha Hs E).
      + intros s l m Hi Ha Hs Hl. pose proof (Forall_and_r _ _ _ Hs) as Hc. apply Forall_and_l in Hs.
        rewrite !(fast_epoch K V HK) by (try assumption; exact (fast_new_idle K V HK)). split; [reflexivity|].
        intros m' s' e E. apply visible_ok in E. rewrite (fast_epoch K V HK) in E by assumption.
        apply bind_ok' in E. destruct E as ([eta ev] & _ & E). injection E as <- <-. split; [reflexivity|]. now left.
    - exists (fast_idle K V). split; [exact (fast_new_idle K V HK)|]. split.
      + intros h m m' s' e Ha Hs E. apply Forall_and_l in Hs. exact (semi_history K V HK fuel limit tolerance L h m m' s' e Ha Hs E).
      + intros s l m Hi Ha Hs Hl. pose proof (Forall_and_r _ _ _ Hs) as Hc. apply Forall_and_l in Hs.
        rewrite !(semi_epoch K V HK) by (try assumption; exact (fast_new_idle K V HK)). split; [reflexivity|].
        intros m' s' e E. apply visible_ok in E. rewrite (semi_epoch K V HK) in E by assumption.
        apply bind_ok' in E. destruct E as ([eta ev] & _ & E). injection E as <- <-. split; [reflexivity|]. now left.
    - exists (sup_idle K V). assert (N : sup_idle K V new_sup) by (split; [exact (fast_new_idle K V HK)|reflexivity]). split; [exact N|]. split.
      + intros h m m' s' e Ha Hs E. apply Forall_and_l in Hs. exact (sup_history K V HK fuel limit tolerance L h m m' s' e Ha Hs E).
      + intros s l m Hi Ha Hs Hl. pose proof (Forall_and_r _ _ _ Hs) as Hc. apply Forall_and_l in Hs.
        pose proof (Forall_and_r _ _ _ Hc) as Hsh. apply Forall_and_l in Hc.
        rewrite !(sup_epoch K V HK) by assumption. split; [reflexivity|].
        intros m' s' e E. apply visible_ok in E. rewrite (sup_epoch K V HK) in E by assumption.
        apply bind_ok' in E. destruct E as ([eta ev] & _ & E). injection E as <- <-. split; [reflexivity|]. now left.
    - exists (stats_fresh K V C). assert (N : stats_fresh K V C new_stats) by now left. split; [exact N|]. split.
      + intros h m m' s' e [E1 E2] Hs E. apply (stats_history K V HK C scaled_m assigned scaled_m_eq multinomial_doc (fun _ => True) multinomial_doc_eq mu h m m' s' e E1 E2); [|exact E].
        revert Hs. apply Forall_impl. tauto.
      + intros s l m Hi [E1 E2] Hs Hl. pose proof (Forall_and_r _ _ _ Hs) as Hc. apply Forall_and_l in Hs.
        assert (Tr : Forall (fun _ : item T => True) l) by (apply Forall_forall; intros; exact I).
        change (multinomial_maximizer mu) with (mk_maximizer (fun s m d v => let* s := multinomial_doc s m d v in Ok (m, s, [])) (stats_m mu)).
        rewrite !multinomial_epoch by assumption. split; [reflexivity|].
        intros m' s' e E. apply visible_ok in E. rewrite multinomial_epoch in E by assumption. injection E as <- <-.
        split; [reflexivity|]. now right.
    - exists (stats_fresh K V C). assert (N : stats_fresh K V C new_stats) by now left. split; [exact N|]. split.
      + intros h m m' s' e [E1 E2] Hs E. apply (stats_history K V HK C scaled_c assigned_tau scaled_c_eq correspondence_doc (with_tau V) correspondence_doc_eq mu h m m' s' e E1 E2); [|exact E].
        revert Hs. apply Forall_impl. tauto.
      + intros s l m Hi [E1 E2] Hs Hl. pose proof (Forall_and_r _ _ _ Hs) as Hc. apply Forall_and_l in Hs.
        pose proof (Forall_and_r _ _ _ Hc) as Tr. apply Forall_and_l in Hc.
        change (correspondence_maximizer mu) with (mk_maximizer (fun s m d v => let* s := correspondence_doc s m d v in Ok (m, s, [])) (stats_m mu)).
        rewrite !correspondence_epoch by assumption. split; [reflexivity|].
        intros m' s' e E. apply visible_ok in E. rewrite correspondence_epoch in E by assumption. injection E as <- <-.
        split; [reflexivity|]. now right.
  Qed.
  (** after complete epochs *)
  Lemma batch_between St M new a P Q : batch_step K V C St M new a P Q ->
    forall h m0 m s e, P m0 -> between_epochs h -> Forall (fun x => sized K V x /\ Q x) (items h) ->
      mrun M h m0 new = Ok (m, s, e) ->
    P m /\ forall l, Forall (fun x => sized K V x /\ Q x) l -> l <> [] ->
      visible (mrun M (epoch l) m s) = visible (mrun M (epoch l) m new) /\
      forall m' s' e, mrun M (epoch l) m s = Ok (m', s', e) ->
        p_alpha m' = p_alpha m /\
        (p_beta m' = over_row_sums K V (totals K V a l) \/ p_beta m' = normalize_rows (totals K V a l)).
  Proof.
    intros B h m0 m s e Hp Hh Hs E. destruct (batch_common St M new a P Q B) as (idle & I0 & I1 & I2).
    assert (X : idle s /\ P m).
    { destruct Hh as [->|(h' & ->)]; [cbn in E; injection E as <- <- <-; now split|]. exact (I1 h' m0 m s e Hp Hs E). }
    split; [apply X|]. intros l Hl Hn. apply I2; tauto.
  Qed.

  (** ** Semi-supervised, supervised, unsupervised *)
  Definition same_data (s t : fast T) : Prop :=
    f_rows s = f_rows t /\ f_z s = f_z t /\ f_y s = f_y t /\ f_docs s = f_docs t /\ shaped K V (f_b s) /\ shaped K V (f_b t).
  Definition same_eta (m n : params T) : Prop := p_alpha m = p_alpha n /\ p_eta m = p_eta n.
  Lemma unsupervised_doc_total (b : mat T) x : shaped K V b -> sized K V x -> exists b', unsupervised_doc b (fst x) (snd x) = Ok b' /\ shaped K V b'.
  Proof.
    intros [->|[H1 H2]] S.
    - rewrite (unsupervised_doc_fresh K V HK empty_mat x) by (try assumption; now left). eexists. split; [reflexivity|]. right. apply word_counts_shape.
    - rewrite (unsupervised_doc_ok K V HK b x H1 H2 S). eexists. split; [reflexivity|]. right. unfold madd. now rewrite mrows_tab, ncols_tab.
  Qed.
  Lemma semi_fast_run fuel limit tolerance L (h : list (mcall T)) : forall m n s t, same_data s t -> same_eta m n ->
    Forall (fun x => sized K V x /\ has_class x) (items h) ->
    weights (mrun (semi_maximizer fuel limit tolerance L) h m s) =
    weights (mrun (fast_maximizer fuel limit tolerance L) (labelled_only h) n t).
  Proof.
    induction h as [|c h IH]; intros m n s t D E Hs.
    - cbn. destruct E as [_ ->]. reflexivity.
    - destruct c as [d v|]; cbn [items labelled_only] in *.
      + inversion Hs as [|? ? [S Hc] Hs']; subst. destruct D as (D1 & D2 & D3 & D4 & D5 & D6).
        destruct (unsupervised_doc_total (f_b s) (d, v) D5 S) as (b1 & B1 & B2).
        destruct (unsupervised_doc_total (f_b t) (d, v) D6 S) as (b2 & B3 & B4). cbn [fst snd] in *.
        cbn [mrun ms_doc semi_maximizer]. unfold semi_doc. unfold has_class in Hc. cbn [fst] in Hc. unfold labelled. cbn [fst].
        destruct (d_class d) as [c|] eqn:Cx; [|congruence]. destruct (Z.ltb_spec c 0) as [N|N].
        * replace (0 <=? c)%Z with false by (symmetry; apply Z.leb_gt; lia). rewrite B1. cbn [bind].
          rewrite <- (IH m n (mk_fast b1 (f_rows s) (f_z s) (f_y s) (f_docs s)) t); try assumption.
          -- destruct (mrun _ h m _) as [[[? ?] ?]| |]; reflexivity.
          -- repeat split; assumption.
        * replace (0 <=? c)%Z with true by (symmetry; apply Z.leb_le; lia). cbn [mrun ms_doc fast_maximizer].
          unfold fast_doc. rewrite Cx, B1, B3. cbn [bind]. rewrite D1, D2, D3, D4, (proj1 E).
          destruct (store _ c _) as [y| |]; cbn [bind weights]; [|reflexivity..].
          destruct (negb _); [reflexivity|]. unfold z_bar. rewrite (proj1 E).
          match goal with |- context [store ?i ?a ?l] => destruct (store i a l) as [z| |] end; cbn [bind weights]; [|reflexivity..].
          match goal with |- context [mrun (semi_maximizer _ _ _ _) h m ?s1] => match goal with |- context [mrun (fast_maximizer _ _ _ _) _ n ?t1] =>
            specialize (IH m n s1 t1) end end.
          match type of IH with ?A -> ?B -> ?C -> _ => assert (HA : A) by (repeat split; assumption); specialize (IH HA E Hs') end.
          destruct (mrun _ h m _) as [[[? ?] ?]| |], (mrun _ (labelled_only h) n _) as [[[? ?] ?]| |]; cbn [bind weights app] in *; congruence.
      + cbn [mrun ms_end semi_maximizer fast_maximizer]. destruct D as (D1 & D2 & D3 & D4 & D5 & D6).
        unfold fast_m, fast_prepare, unsupervised_m. rewrite D1, D2, D3, D4.
        destruct (load _) as [ys| |]; cbn [bind weights]; [|reflexivity..].
        destruct (load (resize _ (f_z t))) as [zs| |]; cbn [bind weights]; [|reflexivity..].
        destruct (mlr _ _ _) as [p| |]; cbn [bind weights]; [|reflexivity..]. cbn [set_beta p_eta]. rewrite (proj2 E).
        destruct (fit_eta _ _ _ p (p_eta n)) as [[eta ev]| |]; cbn [bind weights]; [|reflexivity..].
        match goal with |- context [mrun (semi_maximizer _ _ _ _) h ?m1 ?s1] => match goal with |- context [mrun (fast_maximizer _ _ _ _) _ ?n1 ?t1] =>
            specialize (IH m1 n1 s1 t1) end end.
        assert (SH : forall b : mat T, shaped K V b -> shaped K V (mzero (mrows b) (ncols b))).
        { intros b [->|[H1 H2]]; [now left|]. right. unfold mzero. now rewrite mrows_tab, ncols_tab. }
        match type of IH with ?A -> ?B -> ?C -> _ =>
          assert (HA : A) by (repeat split; now apply SH); assert (HB : B) by (split; [exact (proj1 E)|reflexivity]); specialize (IH HA HB Hs) end.
        destruct (mrun _ h _ _) as [[[? ?] ?]| |], (mrun _ (labelled_only h) _ _) as [[[? ?] ?]| |]; cbn [bind weights app] in *; congruence.
  Qed.
  Lemma semi_topics_run fuel limit tolerance L h : forall (m n : params T) s m' s' e, p_beta m = p_beta n ->
    mrun (semi_maximizer fuel limit tolerance L) h m s = Ok (m', s', e) ->
    topics (mrun unsupervised_maximizer h n (f_b s)) = Ok (p_beta m').
  Proof.
    induction h as [|c h IH]; intros m n s m' s' e Eb E; cbn [mrun] in *.
    - injection E as <- <- <-. cbn. now rewrite Eb.
    - apply bind_ok' in E. destruct E as ([[m1 s1] e1] & E1 & E). apply bind_ok' in E. destruct E as ([[m2 s2] e2] & E2 & E). injection E as <- <- <-.
      destruct c as [d v|].
      + cbn [ms_doc semi_maximizer unsupervised_maximizer] in *. apply bind_ok' in E1. destruct E1 as (s3 & E1 & E3). injection E3 as <- <- <-.
        assert (X : unsupervised_doc (f_b s) d v = Ok (f_b s3)).
        { unfold semi_doc, fast_doc in E1. destruct (d_class d); [|discriminate]. destruct (z <? 0)%Z.
          - apply bind_ok' in E1. destruct E1 as (b & -> & E1). injection E1 as <-. reflexivity.
          - apply bind_ok' in E1. destruct E1 as (b & -> & E1). apply bind_ok' in E1. destruct E1 as (y & _ & E1).
            destruct (negb _); [discriminate|]. apply bind_ok' in E1. destruct E1 as (z' & _ & E1). injection E1 as <-. reflexivity. }
        rewrite X. cbn [bind]. specialize (IH m n s3 m2 s2 e2 Eb E2). destruct (mrun _ h n _) as [[[? ?] ?]| |]; cbn [bind topics] in *; congruence.
      + cbn [ms_end semi_maximizer unsupervised_maximizer] in *. unfold fast_m in E1.
        apply bind_ok' in E1. destruct E1 as ([[[m3 s3] X] y] & E1 & E3). apply bind_ok' in E3. destruct E3 as (p & _ & E3).
        apply bind_ok' in E3. destruct E3 as ([eta ev] & _ & E3). injection E3 as <- <- <-.
        unfold fast_prepare, unsupervised_m in *. apply bind_ok' in E1. destruct E1 as (ys & _ & E1). apply bind_ok' in E1. destruct E1 as (zs & _ & E1).
        injection E1 as <- <- _ _. cbn [bind].
        specialize (IH (set_eta (set_beta m (unsupervised_beta (f_b s))) eta) (set_beta n (unsupervised_beta (f_b s))) _ m2 s2 e2 eq_refl E2).
        cbn [f_b] in IH. destruct (mrun _ h _ _) as [[[? ?] ?]| |]; cbn [bind topics] in *; congruence.
  Qed.
  Lemma semi_fast fuel limit tolerance L : forall (h : list (mcall T)) m, Forall (fun x => sized K V x /\ has_class x) (items h) ->
    weights (mrun (semi_maximizer fuel limit tolerance L) h m new_fast) =
    weights (mrun (fast_maximizer fuel limit tolerance L) (labelled_only h) m new_fast).
  Proof.
    intros h m Hs. apply semi_fast_run; [|split; reflexivity|assumption]. repeat split; now left.
  Qed.
  Lemma batch_topics St M new a P Q : batch_step K V C St M new a P Q ->
    forall h m0 m s e, P m0 -> between_epochs h -> Forall (fun x => sized K V x /\ Q x) (items h) -> mrun M h m0 new = Ok (m, s, e) ->
    forall g n0 n t f, P n0 -> between_epochs g -> Forall (fun x => sized K V x /\ Q x) (items g) -> mrun M g n0 new = Ok (n, t, f) ->
    forall l m' s' e' n' t' f', Forall (fun x => sized K V x /\ Q x) l -> l <> [] ->
      mrun M (epoch l) m s = Ok (m', s', e') -> mrun M (epoch l) n t = Ok (n', t', f') -> p_beta m' = p_beta n'.
  Proof.
    intros B h m0 m s e HP Hh Hi E g n0 n t f HP' Hg Hi' E' l m' s' e' n' t' f' Hl Hn R1 R2.
    assert (D : (forall u, P u -> forall h m s e, P m -> between_epochs h -> Forall (fun x => sized K V x /\ Q x) (items h) -> mrun M h m new = Ok (u, s, e) ->
                 forall u' s' e', mrun M (epoch l) u s = Ok (u', s', e') -> p_beta u' = over_row_sums K V (totals K V a l)) \/
                (forall u, P u -> forall h m s e, P m -> between_epochs h -> Forall (fun x => sized K V x /\ Q x) (items h) -> mrun M h m new = Ok (u, s, e) ->
                 forall u' s' e', mrun M (epoch l) u s = Ok (u', s', e') -> p_beta u' = normalize_rows (totals K V a l))).
    { clear - B HK Hl Hn. destruct (batch_common St M new a P Q B) as (idle & I0 & I1 & _).
      pose proof (batch_between St M new a P Q B) as BB.
      destruct B; [left|left|left|left|right|right]; intros u Hu h m s e Hm Hh Hi E u' s' e' R;
        destruct (BB h m u s e Hm Hh Hi E) as [_ X]; destruct (X l Hl Hn) as [Y _]; apply visible_ok in R; rewrite Y in R.
      - rewrite (unsupervised_epoch K V HK empty_mat l u (or_introl eq_refl) (Forall_and_l _ _ _ Hl) Hn) in R. injection R as <- <-. reflexivity.
      - rewrite (fast_epoch K V HK fuel limit tolerance L new_fast l u (fast_new_idle K V HK) Hu (Forall_and_l _ _ _ Hl) (Forall_and_r _ _ _ Hl) Hn) in R.
        apply bind_ok' in R. destruct R as ([eta ev] & _ & R). injection R as <- <-. reflexivity.
      - rewrite (semi_epoch K V HK fuel limit tolerance L new_fast l u (fast_new_idle K V HK) Hu (Forall_and_l _ _ _ Hl) (Forall_and_r _ _ _ Hl) Hn) in R.
        apply bind_ok' in R. destruct R as ([eta ev] & _ & R). injection R as <- <-. reflexivity.
      - pose proof (Forall_and_r _ _ _ Hl) as Hc.
        rewrite (sup_epoch K V HK fuel limit tolerance L new_sup l u (conj (fast_new_idle K V HK) eq_refl) Hu (Forall_and_l _ _ _ Hl) (Forall_and_r _ _ _ Hc) (Forall_and_l _ _ _ Hc) Hn) in R.
        apply bind_ok' in R. destruct R as ([eta ev] & _ & R). injection R as <- <-. reflexivity.
      - destruct Hu as [U1 U2]. pose proof (Forall_and_r _ _ _ Hl) as Hc.
        change (multinomial_maximizer mu) with (mk_maximizer (fun s m d v => let* s := multinomial_doc s m d v in Ok (m, s, [])) (stats_m mu)) in R.
        rewrite (multinomial_epoch mu new_stats l u (or_introl eq_refl) U1 U2 (Forall_and_l _ _ _ Hl) (proj2 (Forall_forall _ _) (fun _ _ => I)) Hc Hn) in R.
        injection R as <- <-. reflexivity.
      - destruct Hu as [U1 U2]. pose proof (Forall_and_r _ _ _ Hl) as Hc.
        change (correspondence_maximizer mu) with (mk_maximizer (fun s m d v => let* s := correspondence_doc s m d v in Ok (m, s, [])) (stats_m mu)) in R.
        rewrite (correspondence_epoch mu new_stats l u (or_introl eq_refl) U1 U2 (Forall_and_l _ _ _ Hl) (Forall_and_r _ _ _ Hc) (Forall_and_l _ _ _ Hc) Hn) in R.
        injection R as <- <-. reflexivity. }
    pose proof (proj1 (batch_between St M new a P Q B h m0 m s e HP Hh Hi E)) as Pm.
    pose proof (proj1 (batch_between St M new a P Q B g n0 n t f HP' Hg Hi' E')) as Pn.
    destruct D as [D|D]; rewrite (D m Pm h m0 s e HP Hh Hi E _ _ _ R1), (D n Pn g n0 t f HP' Hg Hi' E' _ _ _ R2); reflexivity.
  Qed.
End Batch.

Section More.
  Context {T : Type} {O : ops T}.
  Variables K V : nat.
  Lemma weights_visible {St} (r : outcome (params T * St * list T)) (q : outcome (mat T * list T)) f :
    visible r = (let* (eta, e) := q in Ok (f eta, e)) -> (forall eta, p_eta (f eta) = eta) -> weights r = q.
  Proof.
    intros H Hf. destruct r as [[[m s] e]| |], q as [[eta e']| |]; cbn in *; congruence.
  Qed.
  Lemma fast_weights fuel limit tolerance L : 0 < K ->
    forall h m0 m s e, length (p_alpha m0) = K -> between_epochs h -> Forall (fun x => sized K V x /\ has_class x) (items h) ->
      mrun (fast_maximizer fuel limit tolerance L) h m0 new_fast = Ok (m, s, e) ->
    forall l, Forall (fun x => sized K V x /\ has_class x) l -> l <> [] ->
      weights (mrun (fast_maximizer fuel limit tolerance L) (epoch l) m s) = trained fuel limit tolerance L K l m.
  Proof.
    intros HK h m0 m s e Ha Hh Hi E l Hl Hn.
    destruct (batch_between K V 0 HK _ _ _ _ _ _ (step_fast K V 0 fuel limit tolerance L) h m0 m s e Ha Hh Hi E) as [A X]. destruct (X l Hl Hn) as [Y _].
    rewrite (fast_epoch K V HK fuel limit tolerance L new_fast l m (fast_new_idle K V HK) A (Forall_and_l _ _ _ Hl) (Forall_and_r _ _ _ Hl) Hn) in Y.
    exact (weights_visible _ _ (fun eta => mk_params (p_alpha m) (over_row_sums K V (word_counts K V l)) eta) Y (fun _ => eq_refl)).
  Qed.
  Lemma semi_weights fuel limit tolerance L : 0 < K ->
    forall h m0 m s e, length (p_alpha m0) = K -> between_epochs h -> Forall (fun x => sized K V x /\ has_class x) (items h) ->
      mrun (semi_maximizer fuel limit tolerance L) h m0 new_fast = Ok (m, s, e) ->
    forall l, Forall (fun x => sized K V x /\ has_class x) l -> l <> [] ->
      weights (mrun (semi_maximizer fuel limit tolerance L) (epoch l) m s) = trained fuel limit tolerance L K (filter labelled l) m.
  Proof.
    intros HK h m0 m s e Ha Hh Hi E l Hl Hn.
    destruct (batch_between K V 0 HK _ _ _ _ _ _ (step_semi K V 0 fuel limit tolerance L) h m0 m s e Ha Hh Hi E) as [A X]. destruct (X l Hl Hn) as [Y _].
    rewrite (semi_epoch K V HK fuel limit tolerance L new_fast l m (fast_new_idle K V HK) A (Forall_and_l _ _ _ Hl) (Forall_and_r _ _ _ Hl) Hn) in Y.
    exact (weights_visible _ _ (fun eta => mk_params (p_alpha m) (over_row_sums K V (word_counts K V l)) eta) Y (fun _ => eq_refl)).
  Qed.
  Lemma sup_weights fuel limit tolerance L : 0 < K ->
    forall h m0 m s e, length (p_alpha m0) = K -> between_epochs h -> Forall (fun x => sized K V x /\ has_class x /\ short x) (items h) ->
      mrun (sup_maximizer fuel limit tolerance L) h m0 new_sup = Ok (m, s, e) ->
    forall l, Forall (fun x => sized K V x /\ has_class x /\ short x) l -> l <> [] ->
      weights (mrun (sup_maximizer fuel limit tolerance L) (epoch l) m s) = trained_slda fuel limit tolerance L K V l m.
  Proof.
    intros HK h m0 m s e Ha Hh Hi E l Hl Hn.
    destruct (batch_between K V 0 HK _ _ _ _ _ _ (step_slda K V 0 fuel limit tolerance L) h m0 m s e Ha Hh Hi E) as [A X]. destruct (X l Hl Hn) as [Y _].
    pose proof (Forall_and_r _ _ _ Hl) as Hc.
    rewrite (sup_epoch K V HK fuel limit tolerance L new_sup l m (conj (fast_new_idle K V HK) eq_refl) A (Forall_and_l _ _ _ Hl) (Forall_and_r _ _ _ Hc) (Forall_and_l _ _ _ Hc) Hn) in Y.
    exact (weights_visible _ _ (fun eta => mk_params (p_alpha m) (over_row_sums K V (word_counts K V l)) eta) Y (fun _ => eq_refl)).
  Qed.
  Lemma semi_no_labels fuel limit tolerance L : 0 < K ->
    forall m (l : list (item T)), length (p_alpha m) = K -> Forall (fun x => sized K V x /\ has_class x) l -> l <> [] -> filter labelled l = [] ->
      mrun (semi_maximizer fuel limit tolerance L) (epoch l) m new_fast = UB.
  Proof.
    intros HK m l Ha Hl Hn Hf.
    pose proof (semi_epoch K V HK fuel limit tolerance L new_fast l m (fast_new_idle K V HK) Ha (Forall_and_l _ _ _ Hl) (Forall_and_r _ _ _ Hl) Hn) as Y.
    rewrite Hf in Y. cbn in Y. destruct (mrun _ _ _ _) as [[[? ?] ?]| |]; cbn in Y; congruence.
  Qed.
End More.
