(** Concrete inputs for the theorems on ascent. *)
Require Import Reals ZArith List Arith Lra Lia.
Require Import Verif.Base Verif.Scalar Verif.Mat Verif.RealLemmas Verif.UtilsModel Verif.UtilsSpec Verif.UtilsProofs Verif.DigammaProofs Verif.EStepElbo.
Require Import Verif.BuilderModel Verif.EStepModel Verif.EStepSpec Verif.LgammaSpec Verif.LgammaProofs.
Require Import Verif.UpdateSpec Verif.UpdateCases.
Import ListNotations.
Open Scope R_scope.

Lemma climbing_functions : exists lg psi, is_lgamma lg /\ is_digamma psi.
Proof. destruct lgamma_exists as [lg HL], digamma_exists as [psi HP]. now exists lg, psi. Qed.
Lemma psi_range psi (n : nat) (a b c : nat -> R) : is_digamma psi -> (forall i, (i < n)%nat -> 0 < a i) ->
  exists e, forall i x, (i < n)%nat -> a i <= x <= b i -> Rabs (psi x + c i) <= e.
Proof.
  intros P A. destruct (bounded_above n (fun i => Rmax (Rabs (psi (a i) + c i)) (Rabs (psi (b i) + c i)))) as [e He]. exists e. intros i x Hi [L U].
  specialize (He i Hi). cbv beta in He. pose proof (A i Hi). assert (psi (a i) <= psi x) by (apply digamma_increasing; auto; lra).
  assert (psi x <= psi (b i)) by (apply digamma_increasing; auto; lra).
  pose proof (Rmax_l (Rabs (psi (a i) + c i)) (Rabs (psi (b i) + c i))). pose proof (Rmax_r (Rabs (psi (a i) + c i)) (Rabs (psi (b i) + c i))).
  assert (Q1 : Rabs (psi (a i) + c i) <= e) by lra. assert (Q2 : Rabs (psi (b i) + c i) <= e) by lra. apply Rabs_le_inv in Q1, Q2. apply Rabs_le. lra.
Qed.
Lemma climbing_case : forall lg psi w, let O := Rops lg in is_digamma psi ->
  let m := generative_model in let d := mk_doc [2; 1]%Z (Some 1%Z) 1 [1/2; 1/2] in let X := d_words d in
  proper_input X m /\ (forall n, (n < 2)%nat -> nth n X 0%Z <> 0%Z -> supported (p_beta m) n) /\
  class_in_range 1 m /\ competitor X (p_beta m) once_phi /\ competitor X (p_beta m) (start_phi m) /\
  ~ mean_change (vtab 2 (fun _ => 0)) (start_gamma X m) < 1 / 100 /\
  (exists eps, forall i x, (i < 2)%nat -> vget (p_alpha m) i <= x <= vget (p_alpha m) i + 3 -> Rmax 1 (Rabs (psi x)) / 1023 + 3 / 10 ^ 9 <= eps) /\
  (exists eps, forall i x, (i < 2)%nat -> vget (p_alpha m) i <= x <= vget (p_alpha m) i + 3 ->
     Rmax 1 (Rabs (psi x - psi (rsum 2 (vget (p_alpha m)) + 3) + w * ln (mget (p_eta m) i 1) - 1)) / 1023 + 5 / 10 ^ 9 <= eps).
Proof.
  intros lg psi w O HP m d X.
  assert (A : forall i, (i < 2)%nat -> 0 < vget (p_alpha m) i) by (intros [|[|i]] Hi; [| |lia]; unfold vget; cbn; lra).
  split; [apply (generative_input lg); [reflexivity|intros x [<-|[<-|[]]]; lia|reflexivity]|].
  split; [intros n Hn _; now apply (once_supported lg)|]. split; [split; [reflexivity|cbn; lia]|]. split; [|split; [|split; [|split]]].
  - intros n Hn _. apply (once_competitor lg); [exact Hn|]. destruct n as [|[|n]]; [discriminate..|cbn in Hn; lia].
  - intros n Hn _. change (ncols (p_beta m)) with 2%nat in Hn. change (mrows (p_beta m)) with 2%nat. split.
    + unfold start_phi. rewrite (rsum_ext 2 _ (fun _ => 1 / 2)); [cbn; lra|]. intros i Hi. rewrite mget_tab by assumption. cbn. lra.
    + intros i Hi. unfold start_phi. rewrite mget_tab by assumption. split; [cbn; lra|]. intros Z. destruct i as [|[|i]], n as [|[|n]]; try lia; unfold mget, vget in Z; cbn in Z; lra.
  - unfold mean_change, start_gamma. cbn. unfold vget. cbn. rewrite !Rabs_minus_sym with (x := 0). rewrite !Rabs_pos_eq by lra. lra.
  - destruct (psi_range psi 2 (vget (p_alpha m)) (fun i => vget (p_alpha m) i + 3) (fun _ => 0) HP A) as [e He].
    exists (Rmax 1 e / 1023 + 3 / 10 ^ 9). intros i x Hi Hx. specialize (He i x Hi Hx). rewrite Rplus_0_r in He.
    apply Rplus_le_compat_r. apply Rmult_le_compat_r; [lra|]. now apply Rle_max_compat_l.
  - destruct (psi_range psi 2 (vget (p_alpha m)) (fun i => vget (p_alpha m) i + 3)
      (fun i => - psi (rsum 2 (vget (p_alpha m)) + 3) + w * ln (mget (p_eta m) i 1) - 1) HP A) as [e He].
    exists (Rmax 1 e / 1023 + 5 / 10 ^ 9). intros i x Hi Hx. specialize (He i x Hi Hx).
    apply Rplus_le_compat_r. apply Rmult_le_compat_r; [lra|]. apply Rle_max_compat_l.
    eapply Rle_trans; [|exact He]. right. f_equal. ring.
Qed.
(** A document with each of the two words once, for sLDA. *)
Lemma climbing_once : forall lg psi, let O := Rops lg in is_digamma psi ->
  let m := generative_model in let d := mk_doc [1; 1]%Z (Some 1%Z) 1 [1/2; 1/2] in let X := d_words d in
  proper_input X m /\ (forall n, (n < 2)%nat -> nth n X 0%Z <> 0%Z -> supported (p_beta m) n) /\
  class_in_range 1 m /\ competitor X (p_beta m) (start_phi m) /\ (forall x, In x X -> (x <= 1)%Z) /\
  exists rho eps,
    (forall i k c, (i < 2)%nat -> (k < 2)%nat -> (c < 2)%nat -> fexp lg (mget (p_eta m) i c / 2) <= rho * fexp lg (mget (p_eta m) k c / 2)) /\
    (forall i g r, (i < 2)%nat -> vget (p_alpha m) i <= g <= vget (p_alpha m) i + 2 -> 0 <= r <= rho ->
       Rmax 1 (Rabs (psi g + mget (p_eta m) i 1 / 2 - r)) / 1023 + 3 / 10 ^ 9 <= eps).
Proof.
  intros lg psi O HP m d X.
  assert (A : forall i, (i < 2)%nat -> 0 < vget (p_alpha m) i) by (intros [|[|i]] Hi; [| |lia]; unfold vget; cbn; lra).
  split; [apply (generative_input lg); [reflexivity|intros x [<-|[<-|[]]]; lia|reflexivity]|].
  split; [intros n Hn _; now apply (once_supported lg)|]. split; [split; [reflexivity|cbn; lia]|]. split; [|split].
  - intros n Hn _. change (ncols (p_beta m)) with 2%nat in Hn. change (mrows (p_beta m)) with 2%nat. split.
    + unfold start_phi. rewrite (rsum_ext 2 _ (fun _ => 1 / 2)); [cbn; lra|]. intros i Hi. rewrite mget_tab by assumption. cbn. lra.
    + intros i Hi. unfold start_phi. rewrite mget_tab by assumption. split; [cbn; lra|]. intros Z. destruct i as [|[|i]], n as [|[|n]]; try lia; unfold mget, vget in Z; cbn in Z; lra.
  - intros x [<-|[<-|[]]]; lia.
  - destruct (bounded_above2 2 2 (fun i c => fexp lg (mget (p_eta m) i c / 2))) as [top Ht].
    destruct (bounded_below 2 (fun k => Rmin (fexp lg (mget (p_eta m) k 0 / 2)) (fexp lg (mget (p_eta m) k 1 / 2)))) as (low & Pl & Hl).
    { intros k _. apply Rmin_glb_lt; apply fexp_pos. }
    assert (Lk : forall k c, (k < 2)%nat -> (c < 2)%nat -> low <= fexp lg (mget (p_eta m) k c / 2)).
    { intros k c Hk Hc. eapply Rle_trans; [now apply (Hl k)|]. destruct c as [|[|c]]; [apply Rmin_l|apply Rmin_r|lia]. }
    assert (Pt : 0 < top) by (eapply Rlt_le_trans; [|apply (Ht 0%nat 0%nat); lia]; apply fexp_pos).
    destruct (psi_range psi 2 (vget (p_alpha m)) (fun i => vget (p_alpha m) i + 2) (fun i => mget (p_eta m) i 1 / 2) HP A) as [e He].
    exists (top / low), (Rmax 1 (e + top / low) / 1023 + 3 / 10 ^ 9). split.
    + intros i k c Hi Hk Hc. eapply Rle_trans; [now apply Ht|]. apply Rle_trans with (top / low * low); [right; field; lra|].
      apply Rmult_le_compat_l; [left; now apply Rdiv_lt_0_compat|now apply Lk].
    + intros i g r Hi Hg Hr. specialize (He i g Hi Hg). apply Rplus_le_compat_r. apply Rmult_le_compat_r; [lra|]. apply Rle_max_compat_l.
      eapply Rle_trans; [apply Rabs_triang|]. rewrite Rabs_Ropp, (Rabs_pos_eq r) by lra. lra.
Qed.
