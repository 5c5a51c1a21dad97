(** The sLDA E step in exact arithmetic: invariants of the incremental updates. *)
Require Import Reals ZArith List Arith Bool Lia Lra.
Require Import Verif.Base Verif.Scalar Verif.Mat Verif.UtilsModel Verif.UtilsProofs Verif.DigammaProofs.
Require Import Verif.BuilderModel Verif.EStepModel Verif.EStepSpec Verif.EStepReal Verif.EStepElbo.
Import ListNotations.
Open Scope R_scope.

(** ** Products *)
Lemma rprod_S_l n f : rprod (S n) f = f O * rprod n (fun i => f (S i)).
Proof. unfold rprod. rewrite vtab_S. reflexivity. Qed.
Lemma rprod_S n f : rprod (S n) f = rprod n f * f n.
Proof.
  revert f; induction n as [|n IH]; intros f; [unfold rprod; cbn; ring|].
  rewrite rprod_S_l, IH, (rprod_S_l n f). ring.
Qed.
Lemma rprod_ext n f g : (forall i, (i < n)%nat -> f i = g i) -> rprod n f = rprod n g.
Proof. intros H. unfold rprod. f_equal. now apply vtab_ext. Qed.
Lemma rprod_pos n f : (forall i, (i < n)%nat -> 0 < f i) -> 0 < rprod n f.
Proof.
  induction n as [|n IH]; intros H; [unfold rprod; cbn; lra|]. rewrite rprod_S.
  apply Rmult_lt_0_compat; [apply IH; intros; apply H; lia|apply H; lia].
Qed.
Lemma rprod_one n f : (forall i, (i < n)%nat -> f i = 1) -> rprod n f = 1.
Proof.
  induction n as [|n IH]; intros H; [reflexivity|]. rewrite rprod_S, IH, H by (auto with arith). ring.
Qed.
Lemma rprod_but n k f : (k < n)%nat -> rprod n f = rprod n (fun l => if Nat.eqb l k then 1 else f l) * f k.
Proof.
  induction n as [|n IH]; intros Hk; [lia|]. rewrite !rprod_S. destruct (Nat.eq_dec k n) as [->|N].
  - rewrite Nat.eqb_refl. rewrite (rprod_ext n (fun l => if Nat.eqb l n then 1 else f l) f).
    + ring.
    + intros i Hi. destruct (Nat.eqb_spec i n); [lia|reflexivity].
  - rewrite IH by lia. destruct (Nat.eqb_spec n k); [lia|]. ring.
Qed.

Section Slda.
  Variable lg : R -> R.
  Local Hint Extern 0 (ops _) => exact (Rops lg) : typeclass_instances.
  Notation fexp := (fexp lg).
  Notation dig := (dig lg).
  Variables (X : list Z) (m : params R) (yz : Z).
  Hypothesis PI : proper_input X m.
  Hypothesis HC : class_in_range yz m.
  Hypothesis HS : forall n, (n < ncols (p_beta m))%nat -> nth n X 0%Z <> 0%Z -> supported (p_beta m) n.
  Notation K := (mrows (p_beta m)).
  Notation V := (ncols (p_beta m)).
  Notation C := (ncols (p_eta m)).
  Notation N := (Zsum X).
  Notation y := (Z.to_nat yz).
  Notation r n := (IZR (nth n X 0%Z) / IZR N).
  Notation wf := (word_factor fexp X N (p_eta m)).

  Definition simplex_phi (phi : mat R) : Prop :=
    mrows phi = K /\ ncols phi = V /\
    forall n, (n < V)%nat -> (forall i, (i < K)%nat -> 0 <= mget phi i n) /\ rsum K (fun i => mget phi i n) = 1.

  Lemma ratio_R n : (n < V)%nat -> vget (ratio X N) n = r n.
  Proof.
    intros Hn. unfold ratio. unfold vget. rewrite <- (pi_words _ _ PI) in Hn.
    rewrite (nth_indep _ zero (div (ofZ 0) (ofZ N))) by (now rewrite map_length).
    rewrite (map_nth (fun x => div (ofZ x) (ofZ N)) X 0%Z n). reflexivity.
  Qed.

  Lemma exp_eta_get n : (n < V)%nat -> exp_eta_scaled (p_eta m) (vget (ratio X N) n) =
    Ok (mtab K C (fun i c => fexp (mget (p_eta m) i c * r n))).
  Proof. intros Hn. rewrite (exp_eta_R lg), ratio_R by assumption. now rewrite (proj1 HC). Qed.

  Lemma factor_get n c v phi : (n < V)%nat -> (c < C)%nat -> mrows phi = K ->
    (forall i, (i < K)%nat -> vget v i = mget phi i n) ->
    vget (matT_vec (mtab K C (fun i c => fexp (mget (p_eta m) i c * r n))) v) c = wf phi c n.
  Proof.
    intros Hn Hc Hr Hv. rewrite (matT_vec_get lg) by (now rewrite ncols_tab). rewrite mrows_tab.
    unfold word_factor. rewrite Hr. apply rsum_ext. intros i Hi. now rewrite mget_tab, Hv.
  Qed.
  Lemma factor_pos phi c n : simplex_phi phi -> (n < V)%nat -> 0 < wf phi c n.
  Proof.
    intros (Hr & Hc & H) Hn. destruct (H n Hn) as [H0 H1]. unfold word_factor. rewrite Hr.
    destruct (Rle_lt_or_eq_dec 0 (rsum K (fun i => fexp (mget (p_eta m) i c * r n) * mget phi i n))) as [L|E].
    - apply rsum_nonneg. intros i Hi. apply Rmult_le_pos; [left; apply fexp_pos|auto].
    - exact L.
    - exfalso. assert (rsum K (fun i => mget phi i n) = 0); [|lra]. apply rsum_zero. intros i Hi.
      assert (Z : fexp (mget (p_eta m) i c * r n) * mget phi i n = 0).
      { apply (rsum_zero_inv K (fun i => fexp (mget (p_eta m) i c * r n) * mget phi i n)); [|now symmetry|assumption].
        intros j Hj. apply Rmult_le_pos; [left; apply fexp_pos|auto]. }
      apply Rmult_integral in Z. pose proof (fexp_pos lg (mget (p_eta m) i c * r n)). lra.
  Qed.
  Lemma mcol_get (phi : mat R) n i : mrows phi = K -> (i < K)%nat -> vget (mcol phi n) i = mget phi i n.
  Proof. intros Hr Hi. unfold mcol. rewrite vget_tab by (now rewrite Hr). reflexivity. Qed.

  (** all_products, absent words included, is the product of the factors *)
  Lemma all_products_R phi : simplex_phi phi ->
    exists p, all_products false X (ratio X N) (p_eta m) phi = Ok p /\ length p = C /\
      forall c, (c < C)%nat -> vget p c = rprod V (wf phi c).
  Proof.
    intros HP. unfold all_products. rewrite (pi_words _ _ PI).
    assert (G : forall k j p, (j + k = V)%nat -> length p = C -> (forall c, (c < C)%nat -> vget p c = rprod j (wf phi c)) ->
      exists p', fold_left (fun acc n => let* products := acc in
        if (false && (Xget X n =? 0)%Z)%bool then Ok products
        else let* ee := exp_eta_scaled (p_eta m) (vget (ratio X N) n) in
             Ok (vzip mul products (matT_vec ee (mcol phi n)))) (seq j k) (Ok p) = Ok p' /\
        length p' = C /\ forall c, (c < C)%nat -> vget p' c = rprod V (wf phi c)).
    { induction k as [|k IH]; intros j p Hj Hl Hp.
      - exists p. replace V with j by lia. auto.
      - cbn [seq fold_left bind andb]. rewrite exp_eta_get by lia. cbn [bind]. apply IH; [lia| |].
        + unfold vzip. now rewrite vtab_length.
        + intros c Hc. unfold vzip. rewrite vget_tab by lia. rewrite (factor_get j c _ phi); [|lia|assumption|apply HP|].
          * rewrite rprod_S, <- Hp by assumption. reflexivity.
          * intros i Hi. apply mcol_get; [apply HP|assumption]. }
    apply (G V 0%nat); [lia|apply vtab_length|]. intros c Hc. rewrite vget_tab by assumption. reflexivity.
  Qed.

  (** ** The fixed-point iteration *)
  Definition simplex_vec (v : list R) : Prop :=
    length v = K /\ (forall i, (i < K)%nat -> 0 <= vget v i) /\ rsum K (vget v) = 1.
  Lemma fixed_point_R n psi h v : (n < V)%nat -> nth n X 0%Z <> 0%Z -> length v = K ->
    exists v', fixed_point (Xget X n) (vget (ratio X N) n) y (mcol (p_beta m) n) (p_eta m) psi h v = Ok v' /\ simplex_vec v'.
  Proof.
    intros Hn HX Hl. unfold fixed_point. rewrite (vmapM_fexp lg). cbn [bind]. cbv zeta. eexists. split; [reflexivity|].
    rewrite vtab_map. set (e := vtab (length v) _). set (p := vzip mul (mcol (p_beta m) n) e).
    assert (Lp : length p = K) by (unfold p, vzip, mcol; now rewrite !vtab_length).
    assert (Hp : forall i, (i < K)%nat -> exists f, 0 < f /\ vget p i = mget (p_beta m) i n * f).
    { intros i Hi. unfold p, vzip. rewrite vget_tab by (unfold mcol; now rewrite vtab_length).
      rewrite mcol_get by auto. eexists. split; [|reflexivity]. unfold e. rewrite vget_tab by lia. apply fexp_pos. }
    assert (Pn : forall i, (i < K)%nat -> 0 <= vget p i).
    { intros i Hi. destruct (Hp i Hi) as (f & Hf & ->). apply Rmult_le_pos; [now apply (pi_beta_nonneg _ _ PI)|lra]. }
    assert (S : 0 < rsum K (vget p)).
    { destruct (HS n Hn HX) as (i & Hi & Nz). apply (rsum_pos K (vget p) i); [assumption..|].
      destruct (Hp i Hi) as (f & Hf & ->). apply Rmult_lt_0_compat; [|assumption].
      pose proof (pi_beta_nonneg _ _ PI i n Hi Hn). lra. }
    rewrite (redux_R lg), Lp. cbn [div Rops].
    assert (G : forall i, (i < K)%nat -> vget (map (fun x => x / rsum K (vget p)) p) i = vget p i / rsum K (vget p)).
    { intros i Hi. now rewrite (vget_map lg (fun x => x / rsum K (vget p))) by lia. }
    split; [now rewrite map_length|]. split.
    - intros i Hi. rewrite G by assumption. apply Rmult_le_pos; [auto|]. left. now apply Rinv_0_lt_compat.
    - rewrite (rsum_ext K _ (fun i => vget p i / rsum K (vget p))) by exact G. rewrite rsum_div. field. lra.
  Qed.
  Lemma fixed_points_R n psi h k : forall v, (n < V)%nat -> nth n X 0%Z <> 0%Z -> simplex_vec v ->
    exists v', fixed_points k (Xget X n) (vget (ratio X N) n) y (mcol (p_beta m) n) (p_eta m) psi h v = Ok v' /\ simplex_vec v'.
  Proof.
    induction k as [|k IH]; intros v Hn HX Hv; [exists v; auto|]. cbn [fixed_points].
    destruct (fixed_point_R n psi h v Hn HX) as (v' & -> & Hv'); [apply Hv|]. cbn [bind]. now apply IH.
  Qed.

  (** ** One word *)
  Variable dfuel : nat.
  Hypothesis Hfuel : (7 <= dfuel)%nat.

  Notation slda_ok := (consistent fexp X N m).
  (** after the words below [j]: h is the documented one for the last word seen *)
  Definition h_ok (j : nat) (s : slda R) : Prop :=
    forall n, last_word (fun x => negb (x =? 0)%Z) X j = Some n ->
      exists h, s_h s = Some h /\ length h = K /\
        forall i, (i < K)%nat -> vget h i = documented_h fexp X N (p_eta m) (s_phi s) n i.

  Lemma gamma_pos g phi : simplex_phi phi -> length g = K ->
    (forall i, (i < K)%nat -> vget g i = vget (p_alpha m) i + rsum V (fun n => IZR (nth n X 0%Z) * mget phi i n)) ->
    forall x, In x g -> 0 < x.
  Proof.
    intros (_ & _ & Hp) Hl Hg x Hx. destruct (in_vget lg g x Hx) as (i & Hi & ->). rewrite Hl in Hi. rewrite Hg by assumption.
    pose proof (pi_alpha_pos _ _ PI i Hi).
    assert (0 <= rsum V (fun n => IZR (nth n X 0%Z) * mget phi i n)); [|lra].
    apply rsum_nonneg. intros n Hn. apply Rmult_le_pos; [|now apply (Hp n Hn)].
    apply (IZR_le 0). apply counts_nth. apply (pi_counts _ _ PI).
  Qed.

  Lemma documented_h_same phi phi' n i : mrows phi = mrows phi' -> ncols phi = ncols phi' ->
    (forall j l, (j < mrows phi)%nat -> (l < ncols phi)%nat -> l <> n -> mget phi j l = mget phi' j l) ->
    documented_h fexp X N (p_eta m) phi n i = documented_h fexp X N (p_eta m) phi' n i.
  Proof.
    intros Hr Hc H. unfold documented_h. apply rsum_ext. intros c _. f_equal. rewrite <- Hc. apply rprod_ext. intros l Hl.
    destruct (Nat.eqb_spec l n) as [E|E]; [reflexivity|]. unfold word_factor. rewrite <- Hr. apply rsum_ext. intros j Hj.
    now rewrite H.
  Qed.

  Lemma slda_word_ok fpi s n : slda_ok s -> (n < V)%nat ->
    exists s', slda_word dfuel X (ratio X N) y (p_beta m) (p_eta m) fpi s n = Ok s' /\ slda_ok s' /\ (h_ok n s -> h_ok (S n) s') /\
      (nth n X 0%Z <> 0%Z -> exists h, s_h s' = Some h /\ forall i, (i < K)%nat ->
         vget h i = documented_h fexp X N (p_eta m) (s_phi s) n i).
  Proof.
    intros SO Hn. unfold slda_word. destruct (Z.eqb_spec (Xget X n) 0) as [Z|NZ].
    { exists s. split; [reflexivity|]. split; [exact SO|]. split; [|intros Q; contradiction].
      intros HO k. cbn [last_word]. rewrite Z. cbn. apply HO. }
    unfold Xget in NZ. rewrite exp_eta_get by assumption. cbn [bind]. cbv zeta.
    destruct SO as [Pr Pc Pn Hgl Hg Hpl Hp]. assert (Hphi : simplex_phi (s_phi s)) by (split; [assumption|split; assumption]).
    set (ee := mtab K C (fun i c => fexp (mget (p_eta m) i c * r n))).
    set (old := mcol (s_phi s) n). set (products := vzip div (s_products s) (matT_vec ee old)).
    assert (HB : forall c, (c < C)%nat -> vget products c =
      rprod V (fun l => if Nat.eqb l n then 1 else wf (s_phi s) c l)).
    { intros c Hc. unfold products, vzip. rewrite vget_tab by lia. rewrite Hp by assumption.
      unfold ee, old. rewrite (factor_get n c _ (s_phi s)); [|assumption..|intros; now apply mcol_get].
      cbn [div Rops]. rewrite (rprod_but V n (wf (s_phi s) c)) by assumption.
      pose proof (factor_pos (s_phi s) c n Hphi Hn). field. lra. }
    set (h := mat_vec ee products).
    assert (HH : forall i, (i < K)%nat -> vget h i = documented_h fexp X N (p_eta m) (s_phi s) n i).
    { intros i Hi. unfold h, mat_vec. change (mrows ee) with K. rewrite vget_tab by assumption.
      rewrite (dot_R lg). unfold mrow. rewrite vtab_length. unfold ee at 1. rewrite ncols_tab.
      unfold documented_h. rewrite Pc. apply rsum_ext. intros c Hc. rewrite vget_tab by (unfold ee; now rewrite ncols_tab).
      unfold ee. rewrite mget_tab by assumption. rewrite HB by assumption. ring. }
    assert (So : simplex_vec old).
    { destruct (Pn n Hn) as [P0 P1]. unfold old. split; [unfold mcol; now rewrite vtab_length|]. split.
      - intros i Hi. rewrite mcol_get by assumption. auto.
      - rewrite (rsum_ext K _ (fun i => mget (s_phi s) i n)); [assumption|]. intros i Hi. now apply mcol_get. }
    destruct (fixed_points_R n (s_psi s) h fpi old Hn NZ So) as (new & -> & Sn). cbn [bind].
    set (phi' := set_col (s_phi s) n new).
    assert (PG : forall i l, (i < K)%nat -> (l < V)%nat -> mget phi' i l = if Nat.eqb l n then vget new i else mget (s_phi s) i l).
    { intros i l Hi Hl. unfold phi', set_col. rewrite mget_tab by lia. reflexivity. }
    assert (Hphi' : simplex_phi phi').
    { split; [exact Pr|]. split; [unfold phi', set_col; now rewrite ncols_tab|]. intros l Hl.
      destruct (Nat.eq_dec l n) as [->|NE].
      - split.
        + intros i Hi. rewrite PG, Nat.eqb_refl by assumption. now apply Sn.
        + rewrite (rsum_ext K _ (vget new)); [apply Sn|]. intros i Hi. now rewrite PG, Nat.eqb_refl.
      - destruct (Pn l Hl) as [P0 P1]. split.
        + intros i Hi. rewrite PG by assumption. destruct (Nat.eqb_spec l n); [contradiction|auto].
        + rewrite (rsum_ext K _ (fun i => mget (s_phi s) i l)); [exact P1|]. intros i Hi. rewrite PG by assumption.
          destruct (Nat.eqb_spec l n); [contradiction|reflexivity]. }
    set (gamma' := vtab (length (s_gamma s)) _).
    assert (Hg' : forall i, (i < K)%nat -> vget gamma' i = vget (p_alpha m) i + rsum V (fun l => IZR (nth l X 0%Z) * mget phi' i l)).
    { intros i Hi. unfold gamma'. rewrite vget_tab by lia. rewrite Hg by assumption. cbn [add mul sub ofZ Rops].
      rewrite (mcol_get (s_phi s) n i Pr Hi : vget old i = _). unfold Xget.
      rewrite Rplus_assoc. f_equal.
      rewrite (rsum_ext V (fun l => IZR (nth l X 0%Z) * mget phi' i l) (fun l => IZR (nth l X 0%Z) * mget (s_phi s) i l +
         (if Nat.eqb l n then IZR (nth n X 0%Z) * (vget new i - mget (s_phi s) i n) else 0))).
      - rewrite rsum_plus. f_equal. rewrite (rsum_single V n); [now rewrite Nat.eqb_refl|assumption|].
        intros l Hl NE. destruct (Nat.eqb_spec l n); [contradiction|reflexivity].
      - intros l Hl. rewrite PG by assumption. destruct (Nat.eqb_spec l n) as [->|]; ring. }
    assert (Lg' : length gamma' = K) by (unfold gamma'; now rewrite vtab_length).
    rewrite (psi_of_R lg dfuel Hfuel) by (apply (gamma_pos gamma' phi'); assumption). cbn [bind].
    eexists. split; [reflexivity|]. split; [|split].
    - constructor; cbn [s_phi s_gamma s_products]; try apply Hphi'; auto.
      + unfold vzip. unfold products, vzip. now rewrite !vtab_length.
      + intros c Hc. unfold vzip at 1. rewrite vget_tab by (unfold products, vzip; now rewrite vtab_length, Hpl).
        rewrite HB by assumption. unfold ee. rewrite (factor_get n c new phi'); [|assumption|assumption|exact Pr|].
        * cbn [mul Rops]. rewrite (rprod_but V n (wf phi' c)) by assumption. f_equal. apply rprod_ext. intros l Hl.
          destruct (Nat.eqb_spec l n) as [E|E]; [reflexivity|]. unfold word_factor. change (mrows phi') with (mrows (s_phi s)). rewrite Pr.
          apply rsum_ext. intros i Hi. rewrite PG by assumption. destruct (Nat.eqb_spec l n); [contradiction|reflexivity].
        * intros i Hi. now rewrite PG, Nat.eqb_refl.
    - intros _ k. cbn [last_word]. unfold Xget. destruct (Z.eqb_spec (nth n X 0%Z) 0) as [|_]; [contradiction|]. cbn [negb].
      intros E. injection E as <-. exists h. cbn [s_h]. split; [reflexivity|]. split; [apply vtab_length|].
      intros i Hi. rewrite HH by assumption. cbn [s_phi]. apply documented_h_same; [reflexivity|unfold phi', set_col; now rewrite ncols_tab|].
      intros j l Hj Hl NE. rewrite PG by lia. destruct (Nat.eqb_spec l n); [contradiction|reflexivity].
    - intros _. exists h. split; [reflexivity|exact HH].
  Qed.

  Lemma slda_words_ok fpi k : forall j s, (j + k = V)%nat -> slda_ok s -> h_ok j s ->
    exists s', fold_left (fun acc n => let* s := acc in slda_word dfuel X (ratio X N) y (p_beta m) (p_eta m) fpi s n)
                 (seq j k) (Ok s) = Ok s' /\ slda_ok s' /\ h_ok V s'.
  Proof.
    induction k as [|k IH]; intros j s Hj SO HO.
    - exists s. replace V with j by lia. auto.
    - cbn [seq fold_left bind]. destruct (slda_word_ok fpi s j SO ltac:(lia)) as (s' & -> & SO' & HO' & _).
      apply IH; [lia|assumption|auto].
  Qed.

  (** One outer iteration. *)
  Definition state_ok (gamma : list R) (phi : mat R) : Prop :=
    simplex_phi phi /\ length gamma = K /\
    forall i, (i < K)%nat -> vget gamma i = vget (p_alpha m) i + rsum V (fun n => IZR (nth n X 0%Z) * mget phi i n).

  Lemma phi_gamma_ok fpi phi gamma h : state_ok gamma phi ->
    exists s, compute_supervised_phi_gamma dfuel X (ratio X N) y (p_beta m) (p_eta m) fpi phi gamma h = Ok s /\ slda_ok s /\ h_ok V s.
  Proof.
    intros (Hp & Hl & Hg). unfold compute_supervised_phi_gamma.
    rewrite (psi_of_R lg dfuel Hfuel) by (apply (gamma_pos gamma phi); assumption). cbn [bind].
    destruct (all_products_R phi Hp) as (p & -> & Lp & Hpr). cbn [bind]. rewrite (pi_words _ _ PI).
    apply slda_words_ok; [lia| |intros n Q; discriminate]. constructor; try apply Hp; auto.
  Qed.

  (** ** The E step *)
  Lemma init_ok : state_ok (init_gamma (p_alpha m) N K) (init_phi K (length X)).
  Proof.
    destruct (good_init lg X m PI) as ((Pr & Pc & Pn & Ps) & Hl & Hg). cbn [fst snd] in *. split; [|split; assumption].
    split; [exact Pr|]. split; [exact Pc|]. intros n Hn. split; [intros; now apply Pn|].
    assert (0 < INR K) by (apply lt_0_INR, (pi_topics _ _ PI)).
    rewrite (rsum_ext K _ (fun _ => 1 / INR K)); [rewrite rsum_const; field; lra|].
    intros i Hi. unfold init_phi. rewrite mget_tab by (assumption || (rewrite (pi_words _ _ PI); assumption)).
    cbn [div one ofZ Rops]. now rewrite <- INR_IZR_INZ.
  Qed.

  Lemma state_valid gamma phi : state_ok gamma phi -> valid_posterior X m gamma phi.
  Proof.
    intros ((Pr & Pc & Pn) & Hl & Hg). apply (good_valid lg X m). split; [|split; assumption].
    split; [exact Pr|]. split; [exact Pc|]. split; [intros i n Hi Hn; now apply Pn|]. intros n Hn. left. now apply Pn.
  Qed.
  Lemma state_good gamma phi : state_ok gamma phi -> good lg X m (gamma, phi).
  Proof.
    intros ((Pr & Pc & Pn) & Hl & Hg). split; [|split; assumption].
    split; [exact Pr|]. split; [exact Pc|]. split; [intros i n Hi Hn; now apply Pn|]. intros n Hn. left. now apply Pn.
  Qed.

  Definition step fpi (s : list R * mat R * option (list R)) : outcome (list R * mat R * option (list R)) :=
    let* q := compute_supervised_phi_gamma dfuel X (ratio X N) y (p_beta m) (p_eta m) fpi (snd (fst s)) (fst (fst s)) (snd s) in
    Ok (s_gamma q, s_phi q, s_h q).
  (** h after at least one iteration *)
  Definition post (s : list R * mat R * option (list R)) : Prop :=
    state_ok (fst (fst s)) (snd (fst s)) /\
    forall n, last_word (fun x => negb (x =? 0)%Z) X V = Some n ->
      exists h, snd s = Some h /\ length h = K /\
        forall i, (i < K)%nat -> vget h i = documented_h fexp X N (p_eta m) (snd (fst s)) n i.
  Lemma step_ok fpi s : state_ok (fst (fst s)) (snd (fst s)) -> exists s', step fpi s = Ok s' /\ post s'.
  Proof.
    intros H. unfold step. destruct (phi_gamma_ok fpi _ _ (snd s) H) as (q & -> & SO & HO). cbn [bind].
    eexists. split; [reflexivity|]. split; cbn [fst snd]; [|exact HO]. split; [split; [|split]; apply SO|]. split; apply SO.
  Qed.

  Lemma slda_no_report cf fpi d : d_words d = X -> d_class d = Some yz ->
    exists gamma phi, supervised_doc_e_step dfuel cf fpi false d m = Ok (mk_vparams gamma phi [], None) /\
      valid_posterior X m gamma phi.
  Proof.
    intros E Ey. unfold supervised_doc_e_step. rewrite E, (int_sum_ok lg X m PI). cbn [bind]. rewrite Ey.
    rewrite (sizes_ok_true lg X m PI d E), (class_ok_true m yz HC). cbn [negb andb].
    destruct (em_loop_inv lg (fun s => state_ok (fst (fst s)) (snd (fst s))) (fun s => fst (fst s)) (step fpi) (e_tolerance cf)) with
      (limit := e_iterations cf) (old := zeros (O:=Rops lg) K)
      (s := (init_gamma (p_alpha m) N K, init_phi K (length X), @None (list R))) as ([[gamma phi] h] & Ee & Hs).
    - intros s Hs. destruct (step_ok fpi s Hs) as (s' & Es & Hp). exists s'. split; [exact Es|apply Hp].
    - exact init_ok.
    - unfold step in Ee. rewrite Ee. cbn [bind report]. exists gamma, phi. split; [reflexivity|]. now apply state_valid.
  Qed.

  Lemma last_word_lt p j n : last_word p X j = Some n -> (n < j)%nat /\ p (Xget X n) = true.
  Proof.
    induction j as [|j IH]; cbn; [discriminate|]. destruct (p (Xget X j)) eqn:P.
    - intros H. injection H as <-. auto.
    - intros H. destruct (IH H). auto.
  Qed.
  Lemma last_word_same j : last_word (fun x => (0 <? x)%Z) X j = last_word (fun x => negb (x =? 0)%Z) X j.
  Proof.
    induction j as [|j IH]; [reflexivity|]. cbn. rewrite IH. unfold Xget. pose proof (counts_nth X j (pi_counts _ _ PI)).
    destruct (Z.ltb_spec 0 (nth j X 0%Z)), (Z.eqb_spec (nth j X 0%Z) 0); cbn; try reflexivity; lia.
  Qed.

  Lemma h_dot phi n h : simplex_phi phi -> (n < V)%nat -> length h = K ->
    (forall i, (i < K)%nat -> vget h i = documented_h fexp X N (p_eta m) phi n i) ->
    dot h (mcol phi n) = class_normaliser fexp X N (p_eta m) phi.
  Proof.
    intros (Pr & Pc & _) Hn Hl Hh. rewrite (dot_R lg), Hl.
    rewrite (rsum_ext K _ (fun i => rsum C (fun c =>
      rprod V (fun l => if Nat.eqb l n then 1 else wf phi c l) * (fexp (mget (p_eta m) i c * r n) * mget phi i n)))).
    2:{ intros i Hi. rewrite Hh, mcol_get by assumption. unfold documented_h. rewrite Pc, <- rsum_mult_r. apply rsum_ext. intros c Hc. ring. }
    rewrite rsum_swap. unfold class_normaliser. apply rsum_ext. intros c Hc. rewrite rsum_mult_l, Pc.
    rewrite (rprod_but V n (wf phi c)) by assumption. unfold word_factor at 3. rewrite Pr. reflexivity.
  Qed.

  (** sum over the words of X_n phi_n . eta_y, as computed *)
  Lemma eta_term phi : simplex_phi phi -> dot (matT_vec phi (mcol (p_eta m) y)) (cast X) =
    rsum V (fun n => IZR (nth n X 0%Z) * rsum K (fun i => mget phi i n * mget (p_eta m) i y)).
  Proof.
    intros (Pr & Pc & _). rewrite (dot_R lg). unfold matT_vec at 1. rewrite vtab_length, Pc. apply rsum_ext. intros n Hn.
    rewrite (matT_vec_get lg) by lia. rewrite Rmult_comm. f_equal.
    - unfold cast, vget. rewrite (nth_indep _ zero (ofZ 0)) by (rewrite map_length, (pi_words _ _ PI); assumption).
      rewrite (map_nth ofZ X 0%Z n). reflexivity.
    - rewrite Pr. apply rsum_ext. intros i Hi. f_equal. unfold mcol. rewrite vget_tab by (rewrite (proj1 HC); assumption). reflexivity.
  Qed.

  Lemma slda_report cf fpi d : d_words d = X -> d_class d = Some yz ->
    (0 < e_iterations cf)%nat -> e_tolerance cf <= (rsum K (vget (p_alpha m)) + IZR N) / INR K ->
    (exists n, (0 < nth n X 0)%Z) ->
    exists gamma phi v l, supervised_doc_e_step dfuel cf fpi true d m = Ok (mk_vparams gamma phi [], Some v) /\
      valid_posterior X m gamma phi /\
      compute_unsupervised_likelihood dfuel X (p_alpha m) (p_beta m) phi gamma = Ok l /\
      v = l + rsum V (fun n => IZR (nth n X 0%Z) * rsum K (fun i => mget phi i n * mget (p_eta m) i y)) / IZR N
            - ln (class_normaliser fexp X N (p_eta m) phi).
  Proof.
    intros E Ey Hit Htol NE. unfold supervised_doc_e_step. rewrite E, (int_sum_ok lg X m PI). cbn [bind]. rewrite Ey.
    rewrite (sizes_ok_true lg X m PI d E), (class_ok_true m yz HC). cbn [negb andb].
    destruct (e_iterations cf) as [|lim]; [lia|]. cbn [em_loop].
    assert (CV : converged (zeros K) (init_gamma (p_alpha m) N K) (e_tolerance cf) = false).
    { assert (LI : length (init_gamma (p_alpha m) N K) = K) by (unfold init_gamma; rewrite map_length; apply (pi_alpha _ _ PI)).
      unfold converged. rewrite LI.
      assert (HK : 0 < INR K) by (apply lt_0_INR, (pi_topics _ _ PI)).
      cbn [ltb div ofZ Rops]. rewrite <- INR_IZR_INZ. destruct (Rlt_dec _ _) as [L|]; [|reflexivity]. exfalso.
      apply (Rlt_not_le _ _ L). eapply Rle_trans; [exact Htol|]. right. unfold Rdiv. f_equal.
      rewrite (redux_tab lg). transitivity (rsum K (fun i => vget (p_alpha m) i + IZR N / INR K)).
      - rewrite rsum_plus, rsum_const. change (rsum K (fun i => vget (p_alpha m) i)) with (rsum K (vget (p_alpha m))). field. lra.
      - apply rsum_ext. intros i Hi. unfold zeros. rewrite vget_tab by assumption. unfold init_gamma.
        rewrite (vget_map lg (fun a => add a (div (ofZ N) (ofZ (Z.of_nat K))))) by (now rewrite (pi_alpha _ _ PI)).
        cbn [sabs sub add div zero ofZ Rops]. rewrite <- INR_IZR_INZ. rewrite Rabs_left1; [ring|].
        pose proof (pi_alpha_pos _ _ PI i Hi). assert (0 <= IZR N / INR K); [|lra].
        apply Rmult_le_pos; [apply (IZR_le 0), Zsum_nonneg, (pi_counts _ _ PI)|left; now apply Rinv_0_lt_compat]. }
    cbn [fst snd]. rewrite CV.
    destruct (step_ok fpi (init_gamma (p_alpha m) N K, init_phi K (length X), None) init_ok) as (s1 & E1 & P1).
    unfold step in E1. cbn [fst snd] in E1. rewrite E1. cbn [bind].
    destruct (em_loop_inv lg post (fun s => fst (fst s)) (step fpi) (e_tolerance cf)) with
      (limit := lim) (old := init_gamma (p_alpha m) N K) (s := s1) as ([[gamma phi] h] & Ee & Hs & Hh).
    - intros s Hs. destruct (step_ok fpi s (proj1 Hs)) as (s' & Es & Hp). exists s'. auto.
    - exact P1.
    - unfold step in Ee. rewrite Ee. cbn [bind fst snd report] in *.
      destruct (unsupervised_likelihood_ok lg X m PI dfuel Hfuel _ (state_good _ _ Hs)) as (l & El). cbn [fst snd] in El.
      unfold compute_supervised_likelihood_h. rewrite El. cbn [bind]. rewrite (int_sum_ok lg X m PI). cbn [bind].
      rewrite last_word_same, (pi_words _ _ PI).
      destruct (nonempty_lt X NE) as (k & Hk & Hk2). rewrite (pi_words _ _ PI) in Hk.
      destruct (last_word_some X (fun x => negb (x =? 0)%Z) V k Hk) as (n & En).
      { unfold Xget. destruct (Z.eqb_spec (nth k X 0%Z) 0); [lia|reflexivity]. }
      rewrite En. destruct (Hh n En) as (hv & -> & Lh & Hv). cbn [bind].
      eexists gamma, phi, _, l. split; [reflexivity|]. split; [now apply state_valid|]. split; [exact El|].
      cbn [add opp div slog ofZ Rops]. rewrite eta_term by apply Hs. rewrite (h_dot phi n hv (proj1 Hs)); auto.
      apply last_word_lt in En. apply En.
  Qed.
End Slda.

Lemma phi_gamma_consistent : forall (lg : R -> R) (X : list Z) (m : params R) (y : Z) (fpi : nat) phi gamma h,
  let O := Rops lg in let N := fold_right Z.add 0%Z X in
  let K := mrows (p_beta m) in let V := ncols (p_beta m) in
  proper_input X m -> class_in_range y m ->
  (forall n, (n < V)%nat -> nth n X 0%Z <> 0%Z -> supported (p_beta m) n) ->
  (mrows phi = K /\ ncols phi = V /\ forall n, (n < V)%nat ->
     (forall i, (i < K)%nat -> 0 <= mget phi i n) /\ rsum K (fun i => mget phi i n) = 1) ->
  (length gamma = K /\ forall i, (i < K)%nat ->
     vget gamma i = vget (p_alpha m) i + rsum V (fun n => IZR (nth n X 0%Z) * mget phi i n)) ->
  exists s, compute_supervised_phi_gamma 7 X (ratio X N) (Z.to_nat y) (p_beta m) (p_eta m) fpi phi gamma h = Ok s /\
    consistent (fexp lg) X N m s.
Proof.
  intros lg X m y fpi phi gamma h O N K V PI HC HS Hp Hg.
  destruct (phi_gamma_ok lg X m y PI HC HS 7 (le_n 7) fpi phi gamma h) as (s & E & S & _).
  - split; assumption.
  - exists s. split; assumption.
Qed.
Lemma slda_word_consistent : forall (lg : R -> R) (X : list Z) (m : params R) (y : Z) (fpi : nat) (s : slda R) (n : nat),
  let O := Rops lg in let N := fold_right Z.add 0%Z X in
  proper_input X m -> class_in_range y m ->
  (forall n, (n < ncols (p_beta m))%nat -> nth n X 0%Z <> 0%Z -> supported (p_beta m) n) ->
  consistent (fexp lg) X N m s -> (n < ncols (p_beta m))%nat ->
  exists s', slda_word 7 X (ratio X N) (Z.to_nat y) (p_beta m) (p_eta m) fpi s n = Ok s' /\
    consistent (fexp lg) X N m s' /\
    (nth n X 0%Z <> 0%Z -> exists h, s_h s' = Some h /\
       forall i, (i < mrows (p_beta m))%nat -> vget h i = documented_h (fexp lg) X N (p_eta m) (s_phi s) n i).
Proof.
  intros lg X m y fpi s n O N PI HC HS SO Hn.
  destruct (slda_word_ok lg X m y PI HC HS 7 (le_n 7) fpi s n SO Hn) as (s' & E & S' & _ & H).
  exists s'. split; [exact E|split; [exact S'|exact H]].
Qed.
