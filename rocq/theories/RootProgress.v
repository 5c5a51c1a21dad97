(** Lemmas about the lines of TrainingProgress. *)
Require Import Reals ZArith List Bool Arith Lia Lra.
From Flocq Require Import Core.Core IEEE754.BinarySingleNaN.
Require Import Verif.Base Verif.Scalar Verif.Mat Verif.UtilsModel Verif.BuilderModel Verif.EStepModel Verif.MStepModel Verif.PoolModel Verif.LdaModel Verif.AppsModel Verif.AppsSpec Verif.AppsProofs Verif.AppsPrint
  Verif.PrintSpec Verif.PrintProofs Verif.RootModel Verif.RootSpec Verif.RootListen Verif.HostModel Verif.DoubleSpec Verif.DoubleArith.
Import ListNotations.
Local Open Scope nat_scope.
Local Open Scope list_scope.

Lemma iteration_app {T} (a b : list (tline T)) : iteration_lines (a ++ b) = iteration_lines a ++ iteration_lines b.
Proof. induction a as [|[] a IH]; cbn; rewrite ?IH; reflexivity. Qed.
Lemma document_app {T} (a b : list (tline T)) : document_lines (a ++ b) = document_lines a ++ document_lines b.
Proof. induction a as [|[] a IH]; cbn; rewrite ?IH; reflexivity. Qed.
Lemma logistic_app {T} (a b : list (tline T)) : logistic_lines (a ++ b) = logistic_lines a ++ logistic_lines b.
Proof. induction a as [|[] a IH]; cbn; rewrite ?IH; reflexivity. Qed.
Lemma likelihood_app {T} (a b : list (tline T)) : likelihood_lines (a ++ b) = likelihood_lines a ++ likelihood_lines b.
Proof. induction a as [|[] a IH]; cbn; rewrite ?IH; reflexivity. Qed.

Section Any.
  Context {T : Type} {O : ops T}.
  Variable finite : T -> bool.
  Notation keep := (fun x => finite x && ltb x zero)%bool.
  Notation event := (tprogress_event finite).

  Lemma kept_length es : length (kept keep es) <= expectations es.
  Proof. induction es as [|[[x|]| |] es IH]; cbn; try lia. destruct (finite x && ltb x zero)%bool; cbn; lia. Qed.

  Lemma progress_events (es : list (notice T)) : Forall not_end es -> forall e m n s c, (c <= e)%nat ->
    (Z.of_nat (e + expectations es) < 2 ^ 31)%Z -> (Z.of_nat (m + length (told es)) < 2 ^ 31)%Z ->
    exists out, hear event (mk_tprogress (Z.of_nat e) (Z.of_nat m) n s (Z.of_nat c)) es
      = Ok (mk_tprogress (Z.of_nat (e + expectations es)) (Z.of_nat (m + length (told es))) n (fold_left add (kept keep es) s) (Z.of_nat (c + length (kept keep es))), out)
      /\ iteration_lines out = (if (e =? 0) && negb (expectations es =? 0) then [n] else [])%bool
      /\ multiples 100 (e + expectations es) = multiples 100 e ++ document_lines out
      /\ logistic_lines out = told es /\ likelihood_lines out = [].
  Proof.
    induction 1 as [|a es Ha _ IH]; intros e m n s c Hc He Hm.
    - exists []. cbn. rewrite !Nat.add_0_r, app_nil_r, andb_false_r. auto.
    - destruct a as [r|x|]; cbn in Ha; try contradiction; cbn [expectations told length hear] in *.
      + set (head := if e =? 0 then [TIteration (T := T) n] else []).
        set (docs := if (S e mod 100 =? 0) then [TDocuments (T := T) (Z.of_nat (S e))] else []).
        assert (E : exists s' c', c' <= S e /\ event (mk_tprogress (Z.of_nat e) (Z.of_nat m) n s (Z.of_nat c)) (Expectation r)
          = Ok (mk_tprogress (Z.of_nat (S e)) (Z.of_nat m) n s' (Z.of_nat c'), head ++ docs) /\
          fold_left add (kept keep (Expectation r :: es)) s = fold_left add (kept keep es) s' /\ c + length (kept keep (Expectation r :: es)) = c' + length (kept keep es)).
        { cbn [tprogress_event tp_e tp_m tp_em tp_likelihood tp_count]. rewrite incr_ok by lia. cbn [bind]. replace (Z.of_nat e + 1)%Z with (Z.of_nat (S e)) by lia.
          replace (if (Z.of_nat e =? 0)%Z then [TIteration n] else []) with head by (unfold head; destruct (Nat.eqb_spec e 0); destruct (Z.eqb_spec (Z.of_nat e) 0); lia || reflexivity).
          replace (if (Z.rem (Z.of_nat (S e)) 100 =? 0)%Z then [TDocuments (Z.of_nat (S e))] else []) with docs.
          2:{ unfold docs. rewrite Z.rem_mod_nonneg by lia. change 100%Z with (Z.of_nat 100). rewrite <- Nat2Z.inj_mod.
              destruct (Nat.eqb_spec (S e mod 100) 0); destruct (Z.eqb_spec (Z.of_nat (S e mod 100)) 0); lia || reflexivity. }
          destruct r as [x|]; [|exists s, c; cbn [kept]; auto 10]. cbn [kept].
          destruct (finite x && ltb x zero)%bool; [|exists s, c; auto 10]. exists (add s x), (S c). rewrite incr_ok by lia. cbn [bind fold_left length].
          replace (Z.of_nat c + 1)%Z with (Z.of_nat (S c)) by lia. repeat split; lia. }
        destruct E as (s' & c' & Hc' & -> & E2 & E3). cbn [bind]. rewrite E2, E3.
        destruct (IH (S e) m n s' c' Hc' ltac:(lia) Hm) as (out & F1 & F2 & F3 & F4 & F5). rewrite F1. cbn [bind].
        exists ((head ++ docs) ++ out). split; [rewrite Nat.add_succ_comm; reflexivity|].
        rewrite !iteration_app, !document_app, !logistic_app, !likelihood_app, F2, F4, F5. cbn [Nat.eqb andb].
        split; [unfold head, docs; destruct (e =? 0), (S e mod 100 =? 0); reflexivity|].
        split; [rewrite <- Nat.add_succ_comm, F3, multiples_succ, <- app_assoc by lia; f_equal; f_equal; unfold head, docs; destruct (e =? 0), (S e mod 100 =? 0); reflexivity|].
        split; unfold head, docs; destruct (e =? 0), (S e mod 100 =? 0); reflexivity.
      + cbn [tprogress_event tp_e tp_m tp_em tp_likelihood tp_count]. rewrite incr_ok by lia. cbn [bind]. replace (Z.of_nat m + 1)%Z with (Z.of_nat (S m)) by lia.
        destruct (IH e (S m) n s c Hc He ltac:(lia)) as (out & F1 & F2 & F3 & F4 & F5). rewrite F1. cbn [bind]. exists ([TLogistic x] ++ out).
        split; [rewrite Nat.add_succ_comm; reflexivity|]. cbn [app iteration_lines document_lines logistic_lines likelihood_lines]. rewrite F4. auto.
  Qed.

  (** The lines of one epoch, the [n]-th *)
  Definition lines_of (n : Z) (es : list (notice T)) (out : list (tline T)) : Prop :=
    iteration_lines out = (if expectations es =? 0 then [] else [n]) /\ document_lines out = multiples 100 (expectations es) /\ logistic_lines out = told es /\
    likelihood_lines out = (let s := fold_left add (kept keep es) zero in if ltb s zero then [div s (ofZ (Z.of_nat (length (kept keep es))))] else []).
  Lemma progress_epoch es m n : Forall not_end es -> (Z.of_nat (expectations es) < 2 ^ 31)%Z -> (Z.of_nat (length (told es)) < 2 ^ 31)%Z -> (n + 1 < 2 ^ 31)%Z ->
    exists out, hear event (mk_tprogress 0 0 n zero 0) (es ++ [EpochEnd m]) = Ok (mk_tprogress 0 0 (n + 1) zero 0, out) /\ lines_of n es out.
  Proof.
    intros H1 H2 H3 H4. destruct (progress_events es H1 0 0 n zero 0 (le_n 0) H2 H3) as (out & F1 & F2 & F3 & F4 & F5). cbn [Z.of_nat Nat.add] in F1.
    rewrite hear_app, F1. cbn [bind hear tprogress_event tp_e tp_m tp_em tp_likelihood tp_count]. rewrite incr_ok by lia. cbn [bind]. eexists. split; [reflexivity|].
    rewrite app_nil_r. unfold lines_of. rewrite iteration_app, document_app, logistic_app, likelihood_app, F2, F4, F5. cbn [Nat.eqb andb Nat.add app] in *.
    change (multiples 100 0) with (@nil Z) in F3. rewrite F3. cbv zeta. set (s := fold_left add (kept keep es) zero). clearbody s.
    destruct (ltb s zero), (expectations es =? 0); cbn; rewrite ?app_nil_r; auto.
  Qed.
  Lemma progress_run eps ms D : Forall2 (an_epoch D) eps ms -> (Z.of_nat D < 2 ^ 31)%Z -> Forall (fun e => Z.of_nat (length (told (fst e))) < 2 ^ 31)%Z eps -> forall n,
    (n + Z.of_nat (length ms) < 2 ^ 31)%Z ->
    exists l outs, hear event (mk_tprogress 0 0 n zero 0) (in_turn eps) = Ok (l, List.concat outs) /\
      length outs = length eps /\ forall j e out, nth_error eps j = Some e -> nth_error outs j = Some out -> lines_of (n + Z.of_nat j) (fst e) out.
  Proof.
    intros H HD. induction H as [|[es e] m eps ms (A1 & A2 & A3) _ IH]; intros HF n Hn.
    - exists (mk_tprogress 0 0 n zero 0), []. split; [reflexivity|]. split; [reflexivity|]. intros [|j]; discriminate.
    - inversion HF as [|? ? F1 F2]; subst. cbn [fst snd length] in *. destruct (progress_epoch es m n A1 HD F1 ltac:(lia)) as (out & E & L).
      destruct (IH F2 (n + 1)%Z ltac:(lia)) as (l & outs & E' & L1 & L2). exists l, (out :: outs). split; [|split; [cbn; now rewrite L1|]].
      + unfold in_turn in *. cbn [map List.concat fst snd]. rewrite A3, hear_app, E. cbn [bind]. rewrite E'. reflexivity.
      + intros [|j] e' out' E1 E2; cbn [nth_error] in E1, E2.
        * injection E1 as <-. injection E2 as <-. rewrite Z.add_0_r. exact L.
        * specialize (L2 j e' out' E1 E2). replace (n + Z.of_nat (S j))%Z with (n + 1 + Z.of_nat j)%Z by lia. exact L2.
  Qed.
End Any.

(** During a training *)
Lemma told_turn {T} (eps : list (list (notice T) * notice T)) : (forall e, In e eps -> exists m, snd e = EpochEnd m) -> told (in_turn eps) = List.concat (map (fun e => told (fst e)) eps).
Proof.
  induction eps as [|[es e] eps IH]; intros H; [reflexivity|]. unfold in_turn in *. cbn [map List.concat fst snd]. rewrite !told_app, IH by (intros x Hx; apply H; now right).
  destruct (H _ (or_introl eq_refl)) as (m & E). cbn [snd] in E. subst e. cbn [told]. now rewrite app_nil_r.
Qed.
Lemma epochs_end {T} D (eps : list (list (notice T) * notice T)) ms : Forall2 (an_epoch D) eps ms -> forall e, In e eps -> exists m, snd e = EpochEnd m.
Proof. induction 1 as [|x m eps ms (_ & _ & E) _ IH]; intros e H; [destruct H|destruct H as [<-|H]; eauto]. Qed.
Lemma progress_heard {T} {O : ops T} finite dfuel {St} (M : maximizer T St) k W docs st p tr ms st' p' :
  fit_heard dfuel M k W docs st p tr ms st' p' -> (Z.of_nat (length docs) < 2 ^ 31)%Z -> (Z.of_nat (length (told tr)) < 2 ^ 31)%Z -> (Z.of_nat (length ms) + 1 < 2 ^ 31)%Z ->
  exists eps l outs, tr = in_turn eps /\ length eps = length ms /\ length outs = length ms /\
    hear (tprogress_event finite) new_tprogress tr = Ok (l, List.concat outs) /\
    forall j e out, nth_error eps j = Some e -> nth_error outs j = Some out -> expectations (fst e) = length docs /\ lines_of finite (1 + Z.of_nat j) (fst e) out.
Proof.
  intros H HD HT HM. destruct (heard_split _ _ _ _ _ _ _ _ _ _ _ H) as (eps & -> & A & _). rewrite (told_turn eps (epochs_end _ _ _ A)) in HT.
  assert (F : Forall (fun e => Z.of_nat (length (told (fst e))) < 2 ^ 31)%Z eps).
  { clear - HT. induction eps as [|e eps IH]; [constructor|]. cbn [map List.concat] in HT. rewrite app_length in HT. constructor; [lia|apply IH; lia]. }
  assert (LE : length eps = length ms) by (clear - A; induction A as [|? ? ? ? _ _ IH]; [reflexivity|cbn; now rewrite IH]). destruct (progress_run finite eps ms _ A HD F 1%Z ltac:(lia)) as (l & outs & E & L1 & L2).
  exists eps, l, outs. split; [reflexivity|]. split; [exact LE|]. split; [congruence|]. split; [exact E|]. intros j e out N1 N2. split; [|exact (L2 j e out N1 N2)].
  clear - A N1. revert j N1. induction A as [|x m eps ms (_ & X & _) _ IH]; intros [|j] N; try discriminate N; [injection N as <-; exact X|exact (IH j N)].
Qed.

(** ** The likelihood, exactly *)
Section Exact.
  Variable lg : R -> R.
  Local Hint Extern 0 (ops _) => exact (Rops lg) : typeclass_instances.
  Lemma kept_reported es : kept (fun x => true && ltb (ops := Rops lg) x zero)%bool es = reported es.
  Proof. induction es as [|[[x|]| |] es IH]; cbn in *; rewrite ?IH; auto. destruct (Rlt_dec x 0); cbn; rewrite ?IH; reflexivity. Qed.
  Lemma fold_total l : forall a, fold_left Rplus l a = (a + total l)%R.
  Proof. induction l as [|x l IH]; intros a; cbn; [lra|]. rewrite IH. unfold total. lra. Qed.
  Lemma line_R es : (let s := fold_left (@add R (Rops lg)) (kept (fun x => true && ltb (ops := Rops lg) x zero)%bool es) (@zero R (Rops lg)) in
      if ltb (ops := Rops lg) s zero then [div s (ofZ (Z.of_nat (length (kept (fun x => true && ltb (ops := Rops lg) x zero)%bool es))))] else [])
    = match reported es with [] => [] | _ => [mean (reported es)] end.
  Proof.
    rewrite kept_reported. pose proof (reported_negative es) as N. cbn [add zero div ofZ ltb Rops]. cbv zeta. rewrite fold_total, Rplus_0_l, <- INR_IZR_INZ.
    destruct (reported es) as [|x l]; [cbn; destruct (Rlt_dec 0 0); [lra|reflexivity]|]. inversion N as [|? ? N1 N2]; subst.
    pose proof (total_nonpos _ N2). destruct (Rlt_dec (total (x :: l)) 0) as [_|H']; [reflexivity|]. exfalso. apply H'. unfold total in *. cbn. lra.
  Qed.
End Exact.

(** ** The likelihood in binary64 *)
Section Double.
  Local Open Scope R_scope.
  Variables (lg ex lga : double -> double) (sum : list double -> double).
  Local Instance DO : ops double := double_ops lg ex lga sum.
  Definition below (x : double) : Prop := is_finite x = true /\ - pow 900 <= B2R x < 0.
  Lemma kept_negative es : kept (fun x => is_finite x && ltb x zero)%bool es = kept (fun x => is_finite x && Rlt_bool (B2R x) 0)%bool es.
  Proof.
    induction es as [|e es IH]; [reflexivity|]. destruct e as [[x|]| |]; cbn [kept]; auto. rewrite IH. destruct (is_finite x) eqn:F; [|reflexivity]. cbn [andb].
    cbn [ltb DO double_ops Fops]. rewrite Bltb_correct by (exact F || reflexivity). reflexivity.
  Qed.
  Lemma kept_below es : Forall (fun e => match e with Expectation (Some x) => is_finite x = true -> - pow 900 <= B2R x | _ => True end) es ->
    Forall below (kept (fun x => is_finite x && ltb x zero)%bool es).
  Proof.
    induction 1 as [|e es He _ IH]; [constructor|]. destruct e as [[x|]| |]; cbn [kept]; auto. destruct (is_finite x) eqn:F; [|exact IH]. cbn [andb].
    destruct (ltb x zero) eqn:L; [|exact IH]. constructor; [|exact IH]. split; [exact F|]. split; [apply He; reflexivity|].
    cbn [ltb DO double_ops Fops] in L. rewrite Bltb_correct in L by (exact F || reflexivity). destruct (Rlt_bool_spec (B2R x) (B2R (zero : double))) as [H|H]; [exact H|discriminate].
  Qed.
  Lemma add_below l : Forall below l -> forall s j, is_finite s = true -> - (INR j * pow 900) <= B2R s <= 0 -> (Z.of_nat (j + length l) < 2 ^ 31)%Z -> forall S,
    S <= 0 -> Rabs (B2R s - S) <= INR j * pow (-52) * - S ->
    let s' := fold_left add l s in let S' := S + fold_right Rplus 0 (map B2R l) in
    is_finite s' = true /\ - (INR (j + length l) * pow 900) <= B2R s' <= 0 /\ (l <> [] -> B2R s' < 0) /\ Rabs (B2R s' - S') <= INR (j + length l) * pow (-52) * - S'.
  Proof.
    induction 1 as [|x l [Fx Bx] _ IH]; intros s j Fs Bs HJ S HS HE.
    - cbn. rewrite Nat.add_0_r, Rplus_0_r. split; [exact Fs|]. split; [exact Bs|]. split; [easy|exact HE].
    - cbn [length fold_left map fold_right] in *. assert (J : 0 <= INR j) by apply pos_INR. pose proof (bpow_ge_0 radix2 900) as P9.
      destruct (add_in s x Fs Fx (- (INR (Datatypes.S j) * pow 900)) (B2R x)) as (F1 & V1 & B1).
      + rewrite INR_IZR_INZ, Ropp_mult_distr_l, <- opp_IZR. apply rep_scale; lia.
      + apply rep_val, Fx.
      + rewrite S_INR. lra.
      + change (add s x) with (dadd s x). set (s1 := dadd s x) in *.
        assert (E1 : Rabs (B2R s1 - (S + B2R x)) <= INR (Datatypes.S j) * pow (-52) * - (S + B2R x)).
        { pose proof (rnd_add_error s x) as RE. rewrite <- V1 in RE. clear V1. rewrite S_INR.
          assert (U : pow (-52) = 2 * pow (-53)) by (change (-52)%Z with (1 + -53)%Z; rewrite bpow_plus; reflexivity).
          assert (U0 : 0 < pow (-53)) by apply bpow_gt_0.
          assert (HJu : INR j * pow (-53) <= / 2).
          { apply Rle_trans with (pow 31 * pow (-53)); [apply Rmult_le_compat_r; [lra|]; rewrite INR_IZR_INZ, <- IZR_Zpower by lia; apply IZR_le; change (radix2 ^ 31)%Z with (2 ^ 31)%Z; lia|].
            rewrite <- bpow_plus. change (/ 2) with (pow (-1)). apply bpow_le. lia. }
          rewrite U in *. set (u := pow (-53)) in *. set (a := INR j) in *. clearbody u a.
          set (d := B2R s - S) in *. assert (D : Rabs d <= a * (2 * u) * - S) by exact HE.
          replace (B2R s1 - (S + B2R x)) with ((B2R s1 - (B2R s + B2R x)) + d) by (unfold d; ring).
          eapply Rle_trans; [apply Rabs_triang|].
          assert (Rabs (B2R s + B2R x) <= Rabs d + - (S + B2R x)).
          { replace (B2R s + B2R x) with (d + (S + B2R x)) by (unfold d; ring). eapply Rle_trans; [apply Rabs_triang|]. rewrite (Rabs_left1 (S + B2R x)) by lra. lra. }
          assert (D' : Rabs d <= a * (2 * u) * - (S + B2R x)). { eapply Rle_trans; [exact D|]. apply Rmult_le_compat_l; [nra|lra]. }
          set (Q := - (S + B2R x)) in *. assert (0 <= Q) by (unfold Q; lra). clearbody Q.
          apply Rle_trans with (u * (Rabs d + Q) + Rabs d); [apply Rplus_le_compat_r; eapply Rle_trans; [exact RE|apply Rmult_le_compat_l; lra]|].
          assert (u * Rabs d <= u * Q); [|nra]. apply Rmult_le_compat_l; [lra|]. eapply Rle_trans; [exact D'|]. nra. }
        destruct (IH s1 (Datatypes.S j) F1 ltac:(lra) ltac:(lia) (S + B2R x) ltac:(lra) E1) as (G1 & G2 & G3 & G4).
        rewrite Nat.add_succ_r. cbn [Nat.add] in *. split; [exact G1|]. split; [exact G2|]. split.
        * intros _. destruct l as [|y l]; [cbn; lra|]. apply G3. discriminate.
        * rewrite <- Rplus_assoc. exact G4.
  Qed.
  Lemma line_d l : Forall below l -> l <> [] -> (Z.of_nat (length l) < 2 ^ 31)%Z ->
    let s := fold_left add l zero in let x := div s (ofZ (Z.of_nat (length l))) in let m := mean (map B2R l) in
    ltb s zero = true /\ is_finite x = true /\ Rabs (B2R x - m) <= INR (S (length l)) * pow (-52) * Rabs m + pow (-1075).
  Proof.
    intros HB HN HL s x m. destruct (add_below l HB (@zero double DO) 0 eq_refl) with (S := 0) as (F & B & N & E); [cbn; lra|exact HL|lra|cbn; rewrite Rminus_0_r, Rabs_R0; lra|].
    fold s in F, B, N, E. specialize (N HN). rewrite Rplus_0_l in E. cbn [Nat.add] in *.
    split; [cbn [ltb DO double_ops Fops]; rewrite Bltb_correct by (exact F || reflexivity); apply Rlt_bool_true; exact N|].
    destruct (ofZ_in (Z.of_nat (length l)) ltac:(lia)) as [Fn Vn]. cbv zeta in Vn. rewrite <- INR_IZR_INZ in Vn.
    set (c := binary_normalize 53 1024 eq_refl eq_refl mode_NE (Z.of_nat (length l)) 0 false) in *.
    assert (P : 1 <= INR (length l)) by (change 1 with (INR 1); apply le_INR; destruct l; [congruence|cbn; lia]).
    destruct (div_in s c F (- pow 900) 0) as (Fx & Vx & _).
    - replace (- pow 900) with (IZR (-1) * pow 900) by (simpl; ring). apply rep_scale; lia.
    - apply (rep_Z 0). lia.
    - rewrite Vn. lra.
    - rewrite Vn. split.
      + apply Rmult_le_reg_r with (INR (length l)); [lra|]. unfold Rdiv. rewrite Rmult_assoc, Rinv_l by lra. lra.
      + apply Rmult_le_reg_r with (INR (length l)); [lra|]. unfold Rdiv. rewrite Rmult_assoc, Rinv_l by lra. lra.
    - change (ddiv s c) with x in *. split; [exact Fx|]. rewrite Vx, Vn. set (S := fold_right Rplus 0 (map B2R l)) in *.
      assert (M : m = S / INR (length l)) by (unfold m, mean; rewrite map_length; reflexivity). rewrite M.
      assert (S0 : S <= 0).
      { unfold S. clear - HB. induction HB as [|y l [_ Hy] _ IH]; cbn; [lra|]. lra. }
      clear Vx Fx M m x. set (n := INR (length l)) in *. pose proof (rnd_error (B2R s / n)) as RE. rewrite S_INR. fold n.
      assert (HJu : n * pow (-53) <= / 2).
      { apply Rle_trans with (pow 31 * pow (-53)); [apply Rmult_le_compat_r; [apply bpow_ge_0|]; unfold n; rewrite INR_IZR_INZ, <- IZR_Zpower by lia; apply IZR_le; change (radix2 ^ 31)%Z with (2 ^ 31)%Z; lia|].
        rewrite <- bpow_plus. change (/ 2) with (pow (-1)). apply bpow_le. lia. }
      assert (U : pow (-52) = 2 * pow (-53)) by (change (-52)%Z with (1 + -53)%Z; rewrite bpow_plus; reflexivity). assert (U0 : 0 < pow (-53)) by apply bpow_gt_0.
      rewrite U in *. set (u := pow (-53)) in *. set (w := pow (-1075)) in *. clearbody u w n S.
      assert (I : 0 < / n) by (apply Rinv_0_lt_compat; lra).
      assert (Q : Rabs (S / n) = - S / n) by (unfold Rdiv; rewrite Rabs_mult, (Rabs_left1 S), (Rabs_pos_eq (/ n)) by lra; reflexivity).
      assert (D : Rabs (B2R s / n - S / n) <= n * (2 * u) * Rabs (S / n)).
      { replace (B2R s / n - S / n) with ((B2R s - S) * / n) by (unfold Rdiv; ring). rewrite Rabs_mult, (Rabs_pos_eq (/ n)), Q by lra. unfold Rdiv. rewrite <- Rmult_assoc. apply Rmult_le_compat_r; lra. }
      set (q := Rabs (S / n)) in *. assert (q0 : 0 <= q) by apply Rabs_pos.
      assert (T : Rabs (B2R s / n) <= q + n * (2 * u) * q).
      { replace (B2R s / n) with (S / n + (B2R s / n - S / n)) by ring. eapply Rle_trans; [apply Rabs_triang|]. fold q. lra. }
      replace (rnd (B2R s / n) - S / n) with ((rnd (B2R s / n) - B2R s / n) + (B2R s / n - S / n)) by ring.
      eapply Rle_trans; [apply Rabs_triang|]. clearbody q.
      assert (u * Rabs (B2R s / n) <= u * (q + n * (2 * u) * q)) by (apply Rmult_le_compat_l; lra).
      assert (n * (2 * u) * q <= q) by nra. nra.
  Qed.
End Double.
