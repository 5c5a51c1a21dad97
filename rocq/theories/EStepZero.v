(** With zero supervised parameters, or zero weight, the fast supervised E step is the unsupervised one. *)
Require Import Reals ZArith List Arith Bool Lia Lra.
Require Import Verif.Base Verif.Scalar Verif.Mat Verif.UtilsModel Verif.UtilsProofs Verif.DigammaProofs.
Require Import Verif.BuilderModel Verif.EStepModel Verif.EStepSpec Verif.EStepAny Verif.EStepReal.
Import ListNotations.
Open Scope R_scope.

Section MaxCoeff.
  Context {T : Type} {O : ops T}.
  Lemma max_from_in v : forall b bi i, fst (max_from b bi i v) = b \/ In (fst (max_from b bi i v)) v.
  Proof.
    induction v as [|x v IH]; intros b bi i; [now left|]. cbn. destruct (ltb b x).
    - destruct (IH x i (S i)) as [->|H]; auto.
    - destruct (IH b bi (S i)) as [->|H]; auto.
  Qed.
  Lemma max_coeff_in v a i : max_coeff v = Some (a, i) -> In a v.
  Proof.
    destruct v as [|x v]; [discriminate|]. cbn. intros H. injection H as H.
    pose proof (max_from_in v x 0 1) as G. rewrite H in G. cbn in G. intuition.
  Qed.
  Lemma mall_in (m : mat T) x : In x (mall m) -> exists i j, (i < mrows m)%nat /\ (j < ncols m)%nat /\ x = mget m i j.
  Proof.
    unfold mall. rewrite in_concat. intros (c & Hc & Hx). unfold vtab in Hc. apply in_map_iff in Hc as (j & <- & Hj).
    apply in_seq in Hj. unfold mcol, vtab in Hx. apply in_map_iff in Hx as (i & <- & Hi). apply in_seq in Hi.
    exists i, j. repeat split; lia.
  Qed.
End MaxCoeff.

Section Zero.
  Variable lg : R -> R.
  Local Hint Extern 0 (ops _) => exact (Rops lg) : typeclass_instances.
  Variable dfuel : nat.
  Hypothesis Hfuel : (7 <= dfuel)%nat.
  Variables (X : list Z) (m : params R).
  Hypothesis PI : @proper_input (Rops lg) X m.
  Notation K := (mrows (p_beta m)).
  Notation V := (ncols (p_beta m)).

  Definition no_supervision (w : R) : Prop :=
    w = 0 \/ forall i c, (i < mrows (p_eta m))%nat -> (c < ncols (p_eta m))%nat -> mget (p_eta m) i c = 0.

  Lemma mat_vec_get (a : mat R) v i : (i < mrows a)%nat -> vget (mat_vec a v) i = rsum (ncols a) (fun j => mget a i j * vget v j).
  Proof.
    intros Hi. unfold mat_vec. rewrite vget_tab by assumption. unfold dot, mrow. rewrite vtab_length.
    change (rsum (ncols a) (fun j => vget (vtab (ncols a) (fun j => mget a i j)) j * vget v j) = rsum (ncols a) (fun j => mget a i j * vget v j)).
    apply rsum_ext. intros j Hj. now rewrite vget_tab.
  Qed.

  Lemma approximate_phi_zero y w s : no_supervision w -> class_in_range y m -> good lg X m s -> Zsum X <> 0%Z ->
    compute_supervised_approximate_phi dfuel (ratio X (Zsum X)) (Zsum X) (Z.to_nat y) (p_beta m) (p_eta m) (fst s) w (snd s) =
    compute_unsupervised_phi dfuel (p_beta m) (fst s).
  Proof.
    intros NS [C1 C2] H HN. pose proof (pi_topics _ _ PI) as HK.
    rewrite (unsupervised_phi_R lg X m PI dfuel Hfuel s H).
    unfold compute_supervised_approximate_phi. rewrite (proj2 (Z.eqb_neq _ _) HN).
    rewrite (psi_of_R lg dfuel Hfuel) by now apply (good_pos_in lg X m PI). cbn [bind]. rewrite (vmapM_fexp lg). cbn [bind]. cbv zeta.
    destruct (max_coeff_some lg (mall (p_eta m))) as (mx & bi & Emx).
    { intros E. apply (f_equal (@length R)) in E. rewrite (mall_length), C1 in E. cbn [length] in E.
      apply Nat.eq_mul_0 in E. destruct E; lia. }
    rewrite Emx. cbv beta iota. rewrite (vmapM_fexp lg). cbn [bind]. f_equal. f_equal. f_equal.
    assert (L : length (fst s) = K) by apply H.
    apply nth_ext with (d := 0) (d' := 0); [now rewrite vtab_length, map_length|].
    rewrite vtab_length. intros i Hi. rewrite (vtab_nth K _ i 0 Hi).
    change (vget (map (dig lg) (fst s)) i + w * (mget (if ltb 0 mx then mtab (mrows (p_eta m)) (ncols (p_eta m)) (fun i j => mget (p_eta m) i j / mx)
      else p_eta m) i (Z.to_nat y) - vget (mat_vec (if ltb 0 mx then mtab (mrows (p_eta m)) (ncols (p_eta m)) (fun i j => mget (p_eta m) i j / mx)
      else p_eta m) (map (fun x => x / redux (map (fexp lg) (matT_vec (p_eta m) (sum_cols_scaled (snd s) (ratio X (Zsum X)) (vtab (mrows (snd s)) (fun _ => 0))))))
       (map (fexp lg) (matT_vec (p_eta m) (sum_cols_scaled (snd s) (ratio X (Zsum X)) (vtab (mrows (snd s)) (fun _ => 0))))))) i) = vget (map (dig lg) (fst s)) i).
    destruct NS as [->|Z0]; [ring|].
    assert (mx = 0) as ->.
    { apply max_coeff_in, mall_in in Emx as (a & b & Ha & Hb & ->). now apply Z0. }
    cbn [ltb Rops]. destruct (Rlt_dec 0 0); [lra|].
    rewrite mat_vec_get by lia. rewrite Z0 by lia. rewrite rsum_zero; [ring|].
    intros c Hc. rewrite Z0 by lia. ring.
  Qed.

  Lemma gamma_empty phi : Zsum X = 0%Z -> compute_gamma X (p_alpha m) phi = p_alpha m.
  Proof.
    intros Z0. assert (A : forall n, nth n X 0%Z = 0%Z).
    { intros n. assert (H := pi_counts _ _ PI). clear -Z0 H. revert n. induction X as [|x l IH]; intros [|n]; try reflexivity.
      - cbn in *. assert (0 <= x)%Z by (apply H; now left).
        assert (0 <= Zsum l)%Z by (apply Zsum_nonneg; intros; apply H; now right). unfold Zsum in *. lia.
      - cbn in *. apply IH; [|intros; apply H; now right].
        assert (0 <= x)%Z by (apply H; now left).
        assert (0 <= Zsum l)%Z by (apply Zsum_nonneg; intros; apply H; now right). unfold Zsum in *. lia. }
    rewrite (compute_gamma_R lg). transitivity (vtab (length (p_alpha m)) (fun i => nth i (p_alpha m) 0)); [|apply vtab_eta].
    apply vtab_ext. intros i Hi. rewrite rsum_zero; [unfold vget; cbn; ring|]. intros n _. rewrite A. ring.
  Qed.

  Lemma no_supervision_same cf w emit emit' d y : d_words d = X -> d_class d = Some y -> class_in_range y m ->
    no_supervision w -> (emit = true -> exists n, (0 < nth n X 0)%Z) ->
    exists gamma phi phi' ev ev',
      fast_supervised_doc_e_step dfuel cf w emit d m = Ok (mk_vparams gamma phi [], ev) /\
      unsupervised_doc_e_step dfuel cf emit' d m = Ok (mk_vparams gamma phi' [], ev') /\
      (Zsum X <> 0%Z -> phi = phi').
  Proof.
    intros E Ey Hy NS NE.
    destruct (fast_valid lg X m PI dfuel Hfuel cf w emit d y E Ey Hy NE) as (g1 & p1 & e1 & E1 & _).
    destruct (unsupervised_valid lg X m PI dfuel Hfuel cf emit' d E) as (g2 & p2 & e2 & E2 & _).
    exists g1, p1, p2, e1, e2. rewrite E1.
    assert (G : g1 = g2 /\ (Zsum X <> 0%Z -> p1 = p2)).
    { unfold fast_supervised_doc_e_step in E1. rewrite E, Ey in E1.
      rewrite (int_sum_ok lg X m PI) in E1. cbn [bind] in E1.
      rewrite (sizes_ok_true lg X m PI d E), (class_ok_true m y Hy) in E1. cbn [negb andb] in E1.
      unfold unsupervised_doc_e_step in E2. rewrite E in E2.
      rewrite (int_sum_ok lg X m PI) in E2. cbn [bind] in E2. rewrite (sizes_ok_true lg X m PI d E) in E2. cbn [negb] in E2.
      match type of E1 with bind ?a _ = _ => set (A := a) in E1 end.
      match type of E2 with bind ?a _ = _ => set (B := a) in E2 end.
      assert (R : orel (fun s s' => fst s = fst s' /\ (Zsum X <> 0%Z -> snd s = snd s') /\ good lg X m s /\ good lg X m s') A B).
      { apply em_loop_rel.
        - intros s s' H. apply H.
        - intros s s' (H1 & H2 & H3 & H4).
          destruct (Z.eq_dec (Zsum X) 0) as [Z|Z].
          + destruct (approximate_phi_good lg X m PI dfuel Hfuel y w s Hy H3) as (phi & Ep & Gp).
            rewrite Ep. cbn [bind].
            pose proof (unsupervised_phi_R lg X m PI dfuel Hfuel s' H4) as Eq.
            rewrite Eq. cbn [bind orel].
            cbn [fst snd]. split; [|split; [congruence|split]].
            * now rewrite !gamma_empty.
            * now apply (good_next lg X m PI).
            * apply (good_next lg X m PI). now apply (unsupervised_phi_good lg X m PI).
          + pose proof (approximate_phi_zero y w s NS Hy H3 Z) as Ep. rewrite Ep.
            rewrite H1. pose proof (unsupervised_phi_R lg X m PI dfuel Hfuel s' H4) as Eq.
            rewrite Eq. cbn [bind orel].
            cbn [fst snd]. split; [reflexivity|split; [reflexivity|split]];
              apply (good_next lg X m PI); now apply (unsupervised_phi_good lg X m PI).
        - cbn [fst snd]. split; [reflexivity|]. split; [reflexivity|]. split; apply (good_init lg X m PI). }
      destruct A as [[ga pa]| |]; try discriminate. destruct B as [[gb pb]| |]; try discriminate.
      cbn [orel bind fst snd] in *. destruct R as (R1 & R2 & _).
      destruct (report emit _) as [x| |]; cbn [bind] in E1; try discriminate.
      destruct (report emit' _) as [x'| |]; cbn [bind] in E2; try discriminate.
      injection E1 as <- <- _. injection E2 as <- <- _. auto. }
    destruct G as [<- G]. auto.
  Qed.
End Zero.
