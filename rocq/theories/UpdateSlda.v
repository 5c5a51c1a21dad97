(** The fixed-point iterations of the sLDA E step do not decrease the bound at words that occur once. *)
Require Import Reals ZArith List Arith Bool Lia Lra.
Require Import Verif.Base Verif.Scalar Verif.Mat Verif.UtilsModel Verif.UtilsSpec Verif.UtilsProofs Verif.DigammaProofs.
Require Import Verif.BuilderModel Verif.EStepModel Verif.EStepSpec Verif.EStepReal Verif.EStepOpt Verif.EStepZero Verif.EStepElbo Verif.EStepStop Verif.EStepSlda.
Require Import Verif.UpdateSpec Verif.UpdateProofs.
Import ListNotations.
Open Scope R_scope.

Section Any.
  Context {T : Type} {O : ops T}.
  Lemma slda_word_parts dfuel X Xr y beta eta fpi (s s' : slda T) n : nth n X 0%Z <> 0%Z ->
    slda_word dfuel X Xr y beta eta fpi s n = Ok s' ->
    exists ee new h, h = mat_vec ee (vzip div (s_products s) (matT_vec ee (mcol (s_phi s) n))) /\
      exp_eta_scaled eta (vget Xr n) = Ok ee /\
      fixed_points fpi (Xget X n) (vget Xr n) y (mcol beta n) eta (s_psi s) h (mcol (s_phi s) n) = Ok new /\
      s_phi s' = set_col (s_phi s) n new /\ s_h s' = Some h /\ psi_of dfuel (s_gamma s') = Ok (s_psi s').
  Proof.
    intros NZ. unfold slda_word. unfold Xget at 1. destruct (Z.eqb_spec (nth n X 0%Z) 0) as [|_]; [contradiction|]. cbv zeta. intros E.
    apply bind_ok in E as (ee & E1 & E). apply bind_ok in E as (new & E2 & E). apply bind_ok in E as (ps & E3 & E). injection E as <-.
    eexists ee, new, _. split; [reflexivity|]. cbn [s_phi s_h s_gamma s_psi]. auto.
  Qed.
End Any.

Lemma Zsum_ge X x : (forall x, In x X -> (0 <= x)%Z) -> In x X -> (x <= Zsum X)%Z.
Proof.
  intros H I. induction X as [|a X IH]; [destruct I|]. cbn [Zsum fold_right]. change (fold_right Z.add 0%Z X) with (Zsum X).
  assert (0 <= Zsum X)%Z by (apply Zsum_nonneg; intros; apply H; now right).
  destruct I as [<-|I]; [lia|]. pose proof (H a (or_introl eq_refl)). specialize (IH (fun z Hz => H z (or_intror Hz)) I). lia.
Qed.

Section Slda.
  Variable lg : R -> R.
  Local Hint Extern 0 (ops _) => exact (Rops lg) : typeclass_instances.
  Variable dfuel : nat.
  Hypothesis Hfuel : (7 <= dfuel)%nat.
  Notation fexp := (fexp lg).
  Notation dig := (dig lg).
  Variables (psi : R -> R) (X : list Z) (m : params R) (yz : Z).
  Hypothesis Hpsi : is_digamma psi.
  Hypothesis PI : proper_input X m.
  Hypothesis HC : class_in_range yz m.
  Hypothesis HS : forall n, (n < ncols (p_beta m))%nat -> nth n X 0%Z <> 0%Z -> supported (p_beta m) n.
  Notation K := (mrows (p_beta m)).
  Notation V := (ncols (p_beta m)).
  Notation N := (Zsum X).
  Notation y := (Z.to_nat yz).

  (** distributions over the topics that can emit word n *)
  Definition fits (n : nat) (v : list R) : Prop := simplex_vec lg m v /\ forall i, (i < K)%nat -> mget (p_beta m) i n = 0 -> vget v i = 0.
  Variables (gamma h : list R) (n : nat) (eps : R).
  Hypothesis Hg : length gamma = K.
  Hypothesis Hpos : forall i, (i < K)%nat -> 0 < vget gamma i.
  Hypothesis Hn : (n < V)%nat.
  Hypothesis H1 : nth n X 0%Z = 1%Z.
  Hypothesis Lh : length h = K.
  Hypothesis Ph : forall i, (i < K)%nat -> 0 < vget h i.
  Notation worth i := (e_ln_theta psi m gamma i + mget (p_eta m) i y / IZR N).
  Notation hv v := (rsum K (fun i => vget h i * vget v i)).
  Hypothesis He : forall i v, (i < K)%nat -> simplex_vec lg m v ->
    Rmax 1 (Rabs (psi (vget gamma i) + mget (p_eta m) i y / IZR N - vget h i / hv v)) / 1023 + 3 / 10 ^ 9 <= eps.
  Definition one_bound (v : list R) : R := rsum K (fun i => vget v i * (worth i + ln (mget (p_beta m) i n) - ln (vget v i))) - ln (hv v).

  Lemma Npos : (0 < N)%Z.
  Proof.
    pose proof (nth_In X 0%Z (eq_ind_r (fun k => (n < k)%nat) Hn (pi_words _ _ PI))) as I. rewrite H1 in I.
    pose proof (Zsum_ge X _ (pi_counts _ _ PI) I). lia.
  Qed.
  Lemma hv_pos v : simplex_vec lg m v -> 0 < hv v.
  Proof.
    intros (_ & V0 & V1). destruct (Rle_lt_or_eq_dec 0 (hv v)) as [L|E]; [|exact L|].
    - apply rsum_nonneg. intros i Hi. apply Rmult_le_pos; [left; now apply Ph|now apply V0].
    - exfalso. assert (rsum K (vget v) = 0); [|lra]. apply rsum_zero. intros i Hi.
      assert (Z : vget h i * vget v i = 0).
      { apply (rsum_zero_inv K (fun i => vget h i * vget v i)); [|now symmetry|exact Hi]. intros j Hj. apply Rmult_le_pos; [left; now apply Ph|now apply V0]. }
      apply Rmult_integral in Z. pose proof (Ph i Hi). lra.
  Qed.

  Lemma fixed_point_value v : fits n v -> let t := / hv v in
    let f i := fexp (dig (vget gamma i) + mget (p_eta m) i y / IZR N - vget h i * t) in
    exists v', fixed_point (Xget X n) (vget (ratio X N) n) y (mcol (p_beta m) n) (p_eta m) (map dig gamma) h v = Ok v' /\ fits n v' /\
      forall i, (i < K)%nat -> vget v' i = mget (p_beta m) i n * f i / rsum K (fun i => mget (p_beta m) i n * f i).
  Proof.
    intros [Sv Fv] t f. pose proof (hv_pos v Sv) as HP.
    destruct (fixed_point_R lg X m yz PI HS n (map dig gamma) h v Hn) as (v' & E & S'); [rewrite H1; discriminate|apply Sv|].
    exists v'. split; [exact E|].
    assert (G : forall i, (i < K)%nat -> vget v' i = mget (p_beta m) i n * f i / rsum K (fun i => mget (p_beta m) i n * f i)).
    { unfold fixed_point in E. rewrite (vmapM_fexp lg) in E. cbn [bind] in E. cbv zeta in E. match type of E with Ok ?a = Ok v' => assert (E' : a = v') by exact (f_equal (fun o => match o with Ok b => b | _ => v end) E) end. rewrite <- E'. clear E E' S'. rewrite vtab_map.
      set (p := vzip _ _ _). assert (Lp : length p = K) by (unfold p, vzip, mcol; now rewrite !vtab_length).
      assert (P : forall i, (i < K)%nat -> vget p i = mget (p_beta m) i n * f i).
      { intros i Hi. unfold p, vzip. rewrite vget_tab by (unfold mcol; now rewrite vtab_length). rewrite (mcol_get lg m) by auto.
        rewrite vget_tab by (now rewrite (proj1 Sv)). cbn [add sub mul Rops]. f_equal. unfold f. f_equal.
        rewrite (vget_map lg dig) by (now rewrite Hg). rewrite (ratio_R lg X m PI n Hn), H1. unfold Xget. rewrite H1. rewrite (dot_R lg), Lh. cbn [div one ofZ Rops].
        unfold t. field. split; [lra|]. apply IZR_neq. pose proof Npos. lia. }
      intros i Hi. rewrite (vget_map lg (fun x => div x (redux p))) by lia. rewrite P by assumption. rewrite (redux_R lg), Lp, (rsum_ext K _ _ P). reflexivity. }
    split; [|exact G]. split; [exact S'|]. intros i Hi Z. rewrite G by assumption. rewrite Z. unfold Rdiv. ring.
  Qed.

  Lemma fixed_point_bound v : fits n v ->
    exists v', fixed_point (Xget X n) (vget (ratio X N) n) y (mcol (p_beta m) n) (p_eta m) (map dig gamma) h v = Ok v' /\ fits n v' /\
      one_bound v <= one_bound v' + 2 * eps.
  Proof.
    intros Fv. pose proof (hv_pos v (proj1 Fv)) as HP. destruct (fixed_point_value v Fv) as (v' & E & F' & G). cbv zeta in G. exists v'. split; [exact E|]. split; [exact F'|].
    pose proof (hv_pos v' (proj1 F')) as HP'.
    set (f := fun i => fexp (dig (vget gamma i) + mget (p_eta m) i y / IZR N - vget h i * / hv v)).
    assert (G' : forall i, (i < K)%nat -> vget v' i = mget (p_beta m) i n * f i / rsum K (fun i => mget (p_beta m) i n * f i)) by exact G. clear G. rename G' into G.
    set (c := - psi (rsum K (vget gamma))).
    set (T := fun i => worth i - vget h i / hv v).
    set (w := fun i => mget (p_beta m) i n * exp (T i)). set (u := fun i => mget (p_beta m) i n * (exp c * f i)).
    assert (FP : forall i, 0 < f i) by (intros i; apply fexp_pos). pose proof (exp_pos c) as CP.
    assert (L : forall i, (i < K)%nat -> mget (p_beta m) i n <> 0 -> ln (w i) = T i + ln (mget (p_beta m) i n)).
    { intros i Hi Nb. unfold w. rewrite ln_mult, ln_exp; [ring| |apply exp_pos]. pose proof (pi_beta_nonneg _ _ PI i n Hi Hn). lra. }
    assert (S0 : rsum K (fun i => mget (p_beta m) i n * f i) <> 0).
    { intros Z. destruct F' as ((_ & _ & S') & _). rewrite (rsum_ext K _ (fun _ => 0)) in S'; [rewrite rsum_const in S'; lra|]. intros i Hi. rewrite G by assumption. rewrite Z. unfold Rdiv. rewrite Rinv_0. ring. }
    assert (EU : rsum K u = exp c * rsum K (fun i => mget (p_beta m) i n * f i)) by (rewrite <- rsum_mult_l; apply rsum_ext; intros i _; unfold u; ring).
    assert (GU : forall i, (i < K)%nat -> vget v' i = u i / rsum K u).
    { intros i Hi. rewrite G by assumption. rewrite EU. unfold u. field. split; [exact S0|lra]. }
    assert (B : rsum K (fun i => vget v i * (ln (w i) - ln (vget v i))) <= rsum K (fun i => u i / rsum K u * (ln (w i) - ln (u i / rsum K u))) + 2 * eps).
    { apply (gibbs_approx K w u eps (vget v)).
      - intros i Hi. pose proof (pi_beta_nonneg _ _ PI i n Hi Hn) as Bp. pose proof (FP i). pose proof (exp_pos (T i)).
        assert (0 < exp c * f i) by now apply Rmult_lt_0_compat.
        split; [unfold u; apply Rmult_le_pos; lra|]. split.
        + unfold w, u. split; intros Z; apply Rmult_integral in Z as [Z|Z]; try lra; rewrite Z; ring.
        + intros NU. assert (NB : mget (p_beta m) i n <> 0) by (intros Z; apply NU; unfold u; rewrite Z; ring).
          rewrite L by assumption. unfold u. rewrite !ln_mult, ln_exp by (lra || assumption).
          replace (_ - _) with (ln (f i) - (psi (vget gamma i) + mget (p_eta m) i y / IZR N - vget h i / hv v)) by (unfold T, c, e_ln_theta; ring).
          eapply Rle_trans; [apply (fexp_near lg _ _ (1 / 10 ^ 9))|].
          * pose proof (dig_accurate lg psi _ Hpsi (Hpos i Hi)) as A. unfold Rdiv at 4.
            replace (_ - _) with (dig (vget gamma i) - psi (vget gamma i)) by (unfold Rdiv; ring). exact A.
          * specialize (He i v Hi (proj1 Fv)). lra.
      - apply Fv.
      - intros i Hi. destruct Fv as ((_ & V0 & _) & Fv). split; [now apply V0|]. intros Z. apply Fv; [exact Hi|]. unfold w in Z. apply Rmult_integral in Z as [Z|Z]; [exact Z|]. pose proof (exp_pos (T i)). lra. }
    assert (R1 : forall x, fits n x -> rsum K (fun i => vget x i * (ln (w i) - ln (vget x i))) = one_bound x + ln (hv x) - hv x / hv v).
    { intros x [Sx Fx]. unfold one_bound. replace (hv x / hv v) with (rsum K (fun i => vget x i * (vget h i / hv v))).
      2: { rewrite <- rsum_div. apply rsum_ext. intros i _. unfold Rdiv. ring. }
      assert (D : rsum K (fun i => vget x i * (ln (w i) - ln (vget x i))) =
        rsum K (fun i => vget x i * (worth i + ln (mget (p_beta m) i n) - ln (vget x i))) - rsum K (fun i => vget x i * (vget h i / hv v))); [|lra].
      rewrite <- rsum_minus. apply rsum_ext. intros i Hi. destruct (Req_dec (mget (p_beta m) i n) 0) as [Z|Z].
      - rewrite (Fx i Hi Z). ring.
      - rewrite L by assumption. unfold T. ring. }
    rewrite (R1 v Fv) in B. rewrite (rsum_ext K (fun i => u i / rsum K u * (ln (w i) - ln (u i / rsum K u))) (fun i => vget v' i * (ln (w i) - ln (vget v' i)))) in B by (intros i Hi; rewrite (GU i Hi); reflexivity).
    rewrite (R1 v' F') in B. replace (hv v / hv v) with 1 in B by (field; lra).
    pose proof (ln_le_minus_1 (hv v' / hv v) ltac:(now apply Rdiv_lt_0_compat)) as LL. unfold Rdiv in LL at 1. rewrite ln_mult, ln_Rinv in LL by (assumption || now apply Rinv_0_lt_compat). lra.
  Qed.
  Lemma fixed_points_bound k : forall v, fits n v ->
    exists v', fixed_points k (Xget X n) (vget (ratio X N) n) y (mcol (p_beta m) n) (p_eta m) (map dig gamma) h v = Ok v' /\ fits n v' /\
      one_bound v <= one_bound v' + 2 * eps * INR k.
  Proof.
    induction k as [|k IH]; intros v Fv.
    - exists v. split; [reflexivity|]. split; [exact Fv|]. cbn [INR]. lra.
    - destruct (fixed_point_bound v Fv) as (v1 & E1 & F1 & B1). destruct (IH v1 F1) as (v2 & E2 & F2 & B2). exists v2.
      split; [cbn [fixed_points]; rewrite E1; exact E2|]. split; [exact F2|]. rewrite S_INR. lra.
  Qed.
End Slda.

Section Word.
  Variable lg : R -> R.
  Local Hint Extern 0 (ops _) => exact (Rops lg) : typeclass_instances.
  Notation fexp := (fexp lg).
  Lemma slda_word_bound psi X m yz fpi (s : slda R) n eps :
    let N := fold_right Z.add 0%Z X in let K := mrows (p_beta m) in let y := Z.to_nat yz in
    is_digamma psi -> proper_input X m -> class_in_range yz m ->
    (forall n, (n < ncols (p_beta m))%nat -> nth n X 0%Z <> 0%Z -> supported (p_beta m) n) ->
    consistent fexp X N m s -> psi_of 7 (s_gamma s) = Ok (s_psi s) -> competitor X (p_beta m) (s_phi s) ->
    (n < ncols (p_beta m))%nat -> nth n X 0%Z = 1%Z ->
    (forall i q, (i < K)%nat -> distribution K q ->
       let h := documented_h fexp X N (p_eta m) (s_phi s) n in
       Rmax 1 (Rabs (psi (vget (s_gamma s) i) + mget (p_eta m) i y / IZR N - h i / rsum K (fun k => h k * vget q k))) / 1023 + 3 / 10 ^ 9 <= eps) ->
    exists s', slda_word 7 X (ratio X N) y (p_beta m) (p_eta m) fpi s n = Ok s' /\
      psi_of 7 (s_gamma s') = Ok (s_psi s') /\ competitor X (p_beta m) (s_phi s') /\
      slda_bound fexp psi X m (s_gamma s) y (s_phi s) <= slda_bound fexp psi X m (s_gamma s) y (s_phi s') + 2 * eps * INR fpi.
  Proof.
    intros N K y Hpsi PI HC HS CO EP CP Hn H1 He. pose proof (slda_word_ok lg X m yz PI HC HS 7 (le_n 7) fpi s n CO Hn) as (s' & E & CO' & _ & Hh).
    exists s'. split; [exact E|]. assert (NZ : nth n X 0%Z <> 0%Z) by (rewrite H1; discriminate).
    destruct (Hh NZ) as (h & Eh & Vh). clear Hh.
    destruct (slda_word_parts 7 X (ratio X N) y (p_beta m) (p_eta m) fpi s s' n NZ E) as (ee & new & h' & Dh & Ee & Ef & Es & Eh' & Ep).
    rewrite Eh in Eh'. injection Eh' as <-. split; [exact Ep|].
    change N with (Zsum X) in Ee. rewrite (exp_eta_get lg X m yz PI HC n Hn) in Ee. injection Ee as <-.
    assert (Lh : length h = K) by (rewrite Dh; unfold mat_vec; now rewrite vtab_length). clear Dh.
    destruct CO as [Pr Pc Pn Hgl Hgv _ _]. pose proof CO' as [Pr' Pc' Pn' _ _ _ _].
    assert (SP : simplex_phi lg m (s_phi s)) by (split; [exact Pr|split; assumption]).
    assert (SP' : simplex_phi lg m (s_phi s')) by (split; [exact Pr'|split; assumption]).
    assert (Gp : forall x, In x (s_gamma s) -> 0 < x) by (apply (gamma_pos lg X m PI (s_gamma s) (s_phi s)); assumption).
    rewrite (psi_of_R lg 7 (le_n 7)) in EP by exact Gp. injection EP as EP. rewrite <- EP in Ef.
    assert (Ph : forall i, (i < K)%nat -> 0 < vget h i).
    { intros i Hi. rewrite Vh by exact Hi. unfold documented_h. apply rsum_pos_all; [destruct HC; lia|]. intros c Hc. apply Rmult_lt_0_compat; [|apply fexp_pos].
      apply rprod_pos. intros l Hl. destruct (Nat.eqb l n); [lra|]. apply (factor_pos lg X m (s_phi s) c l SP). now rewrite <- Pc. }
    assert (So : fits lg m n (mcol (s_phi s) n)).
    { split; [split; [|split]|].
      - unfold mcol. now rewrite vtab_length.
      - intros i Hi. rewrite (mcol_get lg m) by assumption. now apply Pn.
      - rewrite (rsum_ext K _ (fun i => mget (s_phi s) i n)); [now apply Pn|]. intros i Hi. now apply (mcol_get lg m).
      - intros i Hi Z. rewrite (mcol_get lg m) by assumption. now apply (CP n Hn NZ). }
    destruct (fixed_points_bound lg 7 (le_n 7) psi X m yz Hpsi PI HS (s_gamma s) h n eps Hgl) with (k := fpi) (v := mcol (s_phi s) n) as (new' & Ef' & Fn & B).
    - intros i Hi. apply Gp. apply nth_In. now rewrite Hgl.
    - exact Hn.
    - exact H1.
    - exact Lh.
    - exact Ph.
    - intros i v Hi Sv. specialize (He i v Hi Sv). cbv zeta in He. rewrite <- Vh in He by exact Hi.
      rewrite (rsum_ext K (fun k => documented_h fexp X N (p_eta m) (s_phi s) n k * vget v k) (fun k => vget h k * vget v k)) in He by (intros k Hk; now rewrite Vh). exact He.
    - exact So.
    - change (Zsum X) with N in Ef'. fold y in Ef'. rewrite Ef in Ef'. injection Ef' as <-.
      assert (PG : forall i l, (i < K)%nat -> (l < ncols (p_beta m))%nat -> mget (s_phi s') i l = if Nat.eqb l n then vget new i else mget (s_phi s) i l).
      { intros i l Hi Hl. rewrite Es. unfold set_col. rewrite mget_tab by lia. reflexivity. }
      split.
      { intros l Hl NX. fold K. destruct (CP l Hl NX) as [Q1 Q2]. destruct (Nat.eq_dec l n) as [->|NE].
        - split.
          + rewrite (rsum_ext K _ (vget new)); [apply Fn|]. intros i Hi. now rewrite PG, Nat.eqb_refl.
          + intros i Hi. rewrite PG, Nat.eqb_refl by assumption. split; [now apply Fn|]. intros Z. now apply Fn.
        - assert (NE' := NE). apply Nat.eqb_neq in NE'. split.
          + rewrite (rsum_ext K _ (fun i => mget (s_phi s) i l)); [exact Q1|]. intros i Hi. now rewrite PG, NE'.
          + intros i Hi. rewrite PG, NE' by assumption. now apply Q2. }
      assert (W : forall phi, simplex_phi lg m phi -> (forall i l, (i < K)%nat -> (l < ncols (p_beta m))%nat -> l <> n -> mget phi i l = mget (s_phi s) i l) ->
        slda_bound fexp psi X m (s_gamma s) y phi =
        rsum (ncols (p_beta m)) (fun l => if Nat.eqb l n then 0 else IZR (nth l X 0%Z) * rsum K (fun i => mget (s_phi s) i l *
          (e_ln_theta psi m (s_gamma s) i + mget (p_eta m) i y / IZR N + ln (mget (p_beta m) i l) - ln (mget (s_phi s) i l)))) +
        one_bound lg psi X m yz (s_gamma s) h n (mcol phi n)).
      { intros phi Sphi Same. unfold slda_bound. fold N. change N with (Zsum X). rewrite <- (h_dot lg X m phi n h Sphi Hn Lh).
        2: { intros i Hi. rewrite Vh by exact Hi. apply (documented_h_same lg X m); [now rewrite Pr, (proj1 Sphi)|now rewrite Pc, (proj1 (proj2 Sphi))|].
             intros j l Hj Hl NE. symmetry. apply Same; [unfold K; lia|lia|exact NE]. }
        rewrite (dot_R lg), Lh. unfold one_bound. fold K. change (Zsum X) with N. fold y.
        set (F := fun l => rsum K (fun i => mget phi i l * (e_ln_theta psi m (s_gamma s) i + mget (p_eta m) i y / IZR N + ln (mget (p_beta m) i l) - ln (mget phi i l)))).
        assert (A : rsum K (fun i => vget (mcol phi n) i * (e_ln_theta psi m (s_gamma s) i + mget (p_eta m) i y / IZR N + ln (mget (p_beta m) i n) - ln (vget (mcol phi n) i))) = F n).
        { apply rsum_ext. intros i Hi. rewrite (mcol_get lg m) by (try exact Hi; apply Sphi). reflexivity. }
        assert (B' : word_part X (p_beta m) (fun i _ => e_ln_theta psi m (s_gamma s) i + mget (p_eta m) i y / IZR N) phi =
          rsum (ncols (p_beta m)) (fun l => if Nat.eqb l n then 0 else IZR (nth l X 0%Z) * rsum K (fun i => mget (s_phi s) i l *
            (e_ln_theta psi m (s_gamma s) i + mget (p_eta m) i y / IZR N + ln (mget (p_beta m) i l) - ln (mget (s_phi s) i l)))) +
          rsum (ncols (p_beta m)) (fun l => if Nat.eqb l n then F n else 0)).
        { rewrite <- rsum_plus. unfold word_part. fold K. apply rsum_ext. intros l Hl. destruct (Nat.eqb_spec l n) as [->|NE].
          - rewrite H1. fold (F n). ring.
          - rewrite Rplus_0_r. f_equal. apply rsum_ext. intros i Hi. now rewrite Same. }
        rewrite (rsum_single (ncols (p_beta m)) n (fun l => if Nat.eqb l n then F n else 0) Hn) in B' by (intros l Hl NE; apply Nat.eqb_neq in NE; rewrite NE; reflexivity).
        rewrite Nat.eqb_refl in B'.
        rewrite A, B'. ring. }
      rewrite (W (s_phi s) SP) by reflexivity. rewrite (W (s_phi s') SP').
      2: { intros i l Hi Hl NE. rewrite PG by assumption. apply Nat.eqb_neq in NE as ->. reflexivity. }
      assert (mcol (s_phi s') n = new) as ->.
      { apply nth_ext with (d := 0) (d' := 0); [unfold mcol; rewrite vtab_length, Pr'; symmetry; apply Fn|]. unfold mcol at 1. rewrite vtab_length. intros i Hi.
        rewrite Pr' in Hi. change (vget (mcol (s_phi s') n) i = vget new i). rewrite (mcol_get lg m) by assumption. now rewrite PG, Nat.eqb_refl. }
      lra.
  Qed.
End Word.
