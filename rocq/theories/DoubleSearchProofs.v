(** The line search and the gradient descent in double precision: they end, and what they return. *)
Require Import Reals ZArith List Bool Arith Lia Lra Permutation.
From Flocq Require Import Core.Core IEEE754.BinarySingleNaN.
Require Import Verif.Base Verif.Scalar Verif.Mat Verif.HostModel Verif.UtilsModel Verif.OptModel.
Require Import Verif.DoubleSpec Verif.DoubleSearchSpec Verif.DoubleArith Verif.DoubleUtils Verif.DoubleProofs Verif.DoubleTrainRefute Verif.DoubleSearch.
Import ListNotations.
Open Scope R_scope.

Lemma mul_nan (a z : double) : is_finite a = true -> B2R a <> 0 -> is_nan z = false -> is_nan (dmul a z) = false.
Proof.
  intros F N Z. destruct a as [b|b| |b m e H]; try discriminate F; [now elim N|].
  destruct (is_finite z) eqn:Fz; [|destruct z as [b'|b'| |b' m' e' H']; try discriminate Fz; try discriminate Z; reflexivity].
  pose proof (@Bmult_correct 53 1024 eq_refl eq_refl mode_NE (B754_finite b m e H) z) as C. destruct (Rlt_bool _ _).
  - destruct C as (_ & C & _). rewrite Fz in C. cbn [is_finite andb] in C. revert C. generalize (dmul (B754_finite b m e H) z). intros [| | |] C; try reflexivity; discriminate C.
  - revert C. generalize (dmul (B754_finite b m e H) z). intros [| | |] C; try reflexivity; discriminate C.
Qed.
Lemma div_not_finite (x y : double) : is_finite x = false -> is_finite (ddiv x y) = false.
Proof. intros F. destruct x as [b|b| |b mm ee H]; try discriminate F; destruct y as [b'|b'| |b' mm' ee' H']; reflexivity. Qed.

Section SearchProofs.
  Variables (lg ex lga : double -> double) (sum : list double -> double).
  Local Hint Extern 0 (ops _) => exact (DO lg ex lga sum) : typeclass_instances.
  Hypothesis Hsum : forall l, summed l (sum l).
  Ltac norm := change (@add double (DO lg ex lga sum)) with dadd in *; change (@sub double (DO lg ex lga sum)) with dsub in *;
    change (@mul double (DO lg ex lga sum)) with dmul in *; change (@div double (DO lg ex lga sum)) with ddiv in *; change (@zero double (DO lg ex lga sum)) with (B754_zero false : double) in *.
  Notation half := (OptModel.half : double).
  Notation sizes := (DoubleSearch.sizes lg ex lga sum).
  Notation redux_d := (@redux double (DO lg ex lga sum)).

  Definition decrease_of (beta : double) (g d : mat double) : double :=
    dmul beta (redux_d (mall (mtab (mrows g) (ncols g) (fun i j => dmul (mget g i j) (mget d i j))))).
  Lemma decrease_not_finite beta g d i j : (i < mrows g)%nat -> (j < ncols g)%nat -> is_finite (mget d i j) = false -> is_finite (decrease_of beta g d) = false.
  Proof.
    intros Hi Hj F. unfold decrease_of. apply mul_not_finite. eapply summed_not_finite; [apply Hsum| |apply (mul_not_finite (mget g i j) _ F)].
    apply (in_mall lg ex lga sum). exists i, j. rewrite ncols_tab. split; [exact Hi|split; [exact Hj|]]. now rewrite mget_tab.
  Qed.
  Lemma decrease_sign beta g : Bsign beta = false -> Bsign (decrease_of beta g g) = false.
  Proof.
    intros B. unfold decrease_of. apply sign_mul. rewrite B. symmetry. eapply summed_sign; [apply Hsum|]. intros x Hx. apply (in_mall lg ex lga sum) in Hx.
    destruct Hx as (i & j & Hi & Hj & ->). rewrite ncols_tab in Hj. rewrite mrows_tab in Hi. rewrite mget_tab by assumption. now apply sign_mul.
  Qed.

  (** ** One search *)
  Definition ended (p : problem double) (x0 d : mat double) (v0 dec : double) (k : nat) (v : double) : Prop := (k <= 1076)%nat /\
    reached lg ex lga sum p x0 d v0 dec k v /\ ltb (dsub v0 (dmul (sizes k) dec)) v = false.
  Lemma search_ends p beta x0 g d fuel : proper x0 -> no_minus_zero x0 -> (forall y, same_size y x0 -> exists v, value p y = Ok v) -> same_size g x0 -> (1076 <= fuel)%nat ->
    exists k v v0, value p x0 = Ok v0 /\ armijo_search fuel beta half p x0 g d = Ok (step x0 (sizes k) d, v) /\ ended p x0 d v0 (decrease_of beta g d) k v.
  Proof.
    intros P N T G Hf. destruct (T x0 (conj eq_refl eq_refl)) as (v0 & V0). unfold armijo_search. rewrite V0. cbn [bind]. norm. fold (decrease_of beta g d).
    destruct (loop_ends lg ex lga sum p x0 d v0 (decrease_of beta g d) P N T V0) with (n := fuel) (k := 0%nat) (v := v0) as (k & v & E & Hk & R & L); [|lia|lia|now left|].
    - intros i j Hi Hj F. destruct G as [G1 G2]. apply (decrease_not_finite _ _ _ i j); [now rewrite G1|now rewrite G2|exact F].
    - exists k, v, v0. split; [reflexivity|]. change (ddiv one half) with (sizes 0). rewrite E. cbn [bind]. split; [reflexivity|]. unfold ended. split; [exact Hk|]. split; [exact R|exact L].
  Qed.
  Lemma search_falls p beta x0 g v0 k v : proper x0 -> no_minus_zero x0 -> passes_nan p -> same_size g x0 -> value p x0 = Ok v0 -> Bsign beta = false ->
    ended p x0 g v0 (decrease_of beta g g) k v -> is_finite v0 = true -> is_finite v = true -> B2R v <= B2R v0.
  Proof.
    intros P N Q G V0 B (Hk & R & L) F0 F. destruct R as [[-> ->]|(Kp & V & L0)]; [lra|]. destruct (Nat.eq_dec k 1076) as [->|Nk].
    - rewrite halving_dies in V. destruct (all_or_one lg ex lga sum x0 g) as [A|(i & j & Hi & Hj & A)].
      + rewrite (step_zero _ _ _ _ _ _ P N A) in V. rewrite V0 in V. injection V as <-. lra.
      + rewrite (Q _ _ (step_proper _ _ _ _ _ _ _) V (step_nan lg ex lga sum _ _ _ _ Hi Hj A)) in F. discriminate F.
    - destruct (size_value lg ex lga sum k ltac:(lia)) as [Fk Vk]. apply (test_falls lg ex lga sum v0 _ v F0 F) in L; [exact L| |].
      + apply mul_nan; [exact Fk|rewrite Vk; apply Rgt_not_eq, bpow_gt_0|]. destruct (decrease_of beta g g) as [| | |]; try reflexivity. exfalso. revert L0. generalize (sizes 0).
        intros [| | |] L0; destruct v0 as [| | |]; discriminate L0.
      + apply sign_mul. rewrite size_sign. symmetry. now apply decrease_sign.
  Qed.

  (** in terms of the steps *)
  Lemma search_result p beta x0 g d fuel : proper x0 -> no_minus_zero x0 -> (forall y, same_size y x0 -> exists v, value p y = Ok v) -> same_size g x0 -> (1076 <= fuel)%nat ->
    exists x v v0 a, armijo_search fuel beta half p x0 g d = Ok (x, v) /\ value p x0 = Ok v0 /\ x = step x0 a d /\ is_finite a = true /\
      ltb (dsub v0 (dmul a (decrease_of beta g d))) v = false /\
      ((B2R a = 2 /\ v = v0) \/ ((B2R a = 0 \/ exists j, (j <= 1074)%nat /\ B2R a = pow (- Z.of_nat j)) /\ value p x = Ok v)).
  Proof.
    intros P N T G Hf. destruct (search_ends p beta x0 g d fuel P N T G Hf) as (k & v & v0 & V0 & E & Hk & R & L). exists (step x0 (sizes k) d), v, v0, (sizes k).
    split; [exact E|]. split; [exact V0|]. split; [reflexivity|]. destruct (Nat.eq_dec k 1076) as [->|Nk].
    - rewrite halving_dies in *. split; [reflexivity|]. split; [exact L|]. right. split; [now left|]. destruct R as [[X _]|(_ & R & _)]; [discriminate X|]. rewrite halving_dies in R. exact R.
    - destruct (size_value lg ex lga sum k ltac:(lia)) as [Fk Vk]. split; [exact Fk|]. split; [exact L|]. destruct R as [[-> ->]|(K & R & _)].
      + left. split; [rewrite Vk; cbn; lra|reflexivity].
      + right. split; [|exact R]. right. exists (k - 1)%nat. split; [lia|]. rewrite Vk. f_equal. lia.
  Qed.

  (** ** The descent *)
  Lemma minimize_ends p limit tolerance fuel beta : (1076 <= fuel)%nat -> forall n x v iterations (s : option double * list double),
    proper x -> no_minus_zero x -> total p x -> (limit <= iterations + n)%nat ->
    exists x' s', minimize n (armijo_search fuel beta half) (m_progress limit tolerance) p x v iterations s = Ok (x', s') /\ proper x' /\ no_minus_zero x' /\ same_size x' x.
  Proof.
    intros Hf. induction n as [|n IH]; intros x v it s P N T Hn; cbn [minimize]; unfold m_progress at 1.
    - replace (Nat.ltb it limit) with false by (symmetry; apply Nat.ltb_ge; lia). cbn [andb]. eexists _, _. split; [reflexivity|]. now split.
    - match goal with |- context [if ?c then _ else _] => destruct c end; [|eexists _, _; split; [reflexivity|now split]].
      destruct (T x (conj eq_refl eq_refl)) as (_ & g & G & Sg). rewrite G. cbn [bind].
      destruct (search_ends p beta x g g fuel P N (fun y S => proj1 (T y S)) Sg Hf) as (k & w & v0 & V0 & E & R). rewrite E. cbn [bind].
      pose proof (step_size lg ex lga sum x (sizes k) g) as Sx. destruct (IH (step x (sizes k) g) w (S it) (Some v, (- v)%S :: snd s)) as (x' & s' & E' & P' & N' & S').
      + apply step_proper.
      + now apply step_no_minus.
      + intros y [Y1 Y2]. destruct Sx as [X1 X2]. destruct (T y) as (A & g' & B & C1 & C2); [split; congruence|]. split; [exact A|]. exists g'. split; [exact B|split; congruence].
      + lia.
      + exists x', s'. split; [exact E'|]. destruct Sx, S'. split; [exact P'|]. split; [exact N'|]. split; congruence.
  Qed.

  Lemma fit_eta_ends p limit tolerance fuel eta : (1076 <= fuel)%nat -> (limit <= fuel)%nat -> proper eta -> no_minus_zero eta -> total p eta ->
    exists eta' reports, fit_eta fuel limit tolerance p eta = Ok (eta', reports) /\ proper eta' /\ no_minus_zero eta' /\ same_size eta' eta.
  Proof.
    intros Hf Hl P N T. unfold fit_eta. destruct (T eta (conj eq_refl eq_refl)) as ((v & V) & _). rewrite V. cbn [bind].
    destruct (minimize_ends p limit tolerance fuel (one / ofZ 1000)%S Hf fuel eta v 0 (None, []) P N T ltac:(lia)) as (x' & s' & E & H). rewrite E. cbn [bind]. eexists _, _. split; [reflexivity|exact H].
  Qed.

  (** ** The reports *)
  Lemma snoc_falls l a b : never_falls (l ++ [a]) -> (is_finite a = true -> is_finite b = true -> B2R a <= B2R b) -> never_falls ((l ++ [a]) ++ [b]).
  Proof. induction l as [|x [|y l] IH]; intros H Hab; [cbn; tauto|cbn in *; tauto|]. destruct H as [H1 H2]. split; [exact H1|]. now apply IH. Qed.
  Lemma ratio_zero (tolerance v : double) : is_finite tolerance = true -> 0 <= B2R tolerance -> ltb tolerance (ddiv (dsub v v) v) = false.
  Proof.
    intros Ft Pt. destruct (is_finite v) eqn:F; [|destruct v as [b|[|]| |b m e H]; try discriminate F; destruct tolerance as [b'|b'| |b' m' e' H']; reflexivity].
    assert (Z : B2R (dsub v v) = 0 /\ is_finite (dsub v v) = true).
    { assert (R : rep 0) by (apply (rep_Z 0); lia). destruct (sub_in v v F F 0 0 R R) as (A & _ & B); [lra|]. split; [lra|exact A]. }
    destruct Z as [Z Zf]. destruct (finite_zero _ Zf Z) as (b & ->). destruct v as [b'|b'| |b' m e H]; try discriminate F; [destruct tolerance; reflexivity|].
    cbn [Bdiv]. match goal with |- ltb _ ?q = _ => assert (Q : is_finite q = true /\ B2R q = 0) by (split; reflexivity) end. destruct Q as [Fq Vq].
    match goal with |- ?t = false => destruct t eqn:E end; [|reflexivity]. apply (ltb_d lg ex lga sum) in E; [|assumption..]. rewrite Vq in E. lra.
  Qed.
  Lemma ratio_not_finite (tolerance i v : double) : is_finite v = false -> ltb tolerance (ddiv (dsub i v) v) = false.
  Proof. intros F. destruct v as [b|[|]| |b m e H]; try discriminate F; destruct i as [c|[|]| |c n f B]; destruct tolerance as [b'|b'| |b' m' e' H']; reflexivity. Qed.
  Lemma start_not_finite (v : double) : is_finite v = false -> eqb (dsub v v) (B754_zero false) = false.
  Proof. intros F. destruct v as [b|[|]| |b m e H]; try discriminate F; reflexivity. Qed.

  Section Reports.
    Variables (p : problem double) (limit fuel : nat) (tolerance beta v00 : double).
    Hypotheses (Hf : (1076 <= fuel)%nat) (Ft : is_finite tolerance = true) (Pt : 0 <= B2R tolerance) (Hbeta : Bsign beta = false) (Q : passes_nan p).
    (** the last report is minus the objective, no larger than at the start; or it is the same as the one before *)
    Definition closing (x : mat double) (reports : list double) : Prop := exists v rest, reports = (- v)%S :: rest /\
      ((value p x = Ok v /\ (is_finite v00 = true -> is_finite v = true -> B2R v <= B2R v00)) \/ exists rest', rest = (- v)%S :: rest').
    Lemma minimize_reports : forall n x v iterations (s : option double * list double) x' s',
      proper x -> no_minus_zero x -> total p x ->
      (value p x = Ok v /\ (is_finite v00 = true -> is_finite v = true -> B2R v <= B2R v00)) \/ fst s = Some v -> (fst s = None \/ exists w rest, fst s = Some w /\ snd s = (- w)%S :: rest) -> never_falls (rev ((- v)%S :: snd s)) ->
      minimize n (armijo_search fuel beta half) (m_progress limit tolerance) p x v iterations s = Ok (x', s') ->
      never_falls (rev (snd s')) /\ closing x' (snd s').
    Proof.
      induction n as [|n IH]; intros x v it s x' s' P N T Hv Hs Hr; cbn [minimize]; unfold m_progress at 1; intros E.
      all: match type of E with (if ?c then _ else _) = _ => destruct c eqn:G end.
      - discriminate E.
      - injection E as <- <-. split; [exact Hr|]. exists v, (snd s). split; [reflexivity|]. destruct Hv as [Hv|Hv]; [now left|right].
        destruct Hs as [Hs|(w & rest & Hs & Hl)]; [congruence|]. exists rest. rewrite Hl. congruence.
      - apply andb_prop in G. destruct G as [_ G]. norm.
        assert (Fv : is_finite v = true).
        { destruct (is_finite v) eqn:F; [reflexivity|]. destruct (fst s); [now rewrite (ratio_not_finite _ _ _ F) in G|]. rewrite (start_not_finite _ F), andb_false_r in G. discriminate G. }
        destruct Hv as [[Hv Hle]|Hv]; [|rewrite Hv, (ratio_zero _ _ Ft Pt) in G; discriminate G].
        destruct (T x (conj eq_refl eq_refl)) as (_ & g & Eg & Sg). rewrite Eg in E. cbn [bind] in E.
        destruct (search_ends p beta x g g fuel P N (fun y S => proj1 (T y S)) Sg Hf) as (k & w & v0 & V0 & Es & R). rewrite Es in E. cbn [bind] in E.
        rewrite Hv in V0. injection V0 as <-. pose proof (search_falls p beta x g v k w P N Q Sg Hv Hbeta R Fv) as Fall.
        pose proof (step_size lg ex lga sum x (sizes k) g) as Sx. apply IH in E; [exact E| | | | | |].
        + apply step_proper.
        + now apply step_no_minus.
        + intros y [Y1 Y2]. destruct Sx as [X1 X2]. destruct (T y) as (A & g' & B & C1 & C2); [split; congruence|]. split; [exact A|]. exists g'. split; [exact B|split; congruence].
        + cbn [fst]. destruct R as (_ & [[_ ->]|(_ & R & _)] & _); [now right|left]. split; [exact R|]. intros F0 Fw. eapply Rle_trans; [now apply Fall|]. now apply Hle.
        + right. exists v, (snd s). split; reflexivity.
        + cbn [snd rev] in Hr |- *. apply snoc_falls; [exact Hr|]. change (@opp double (DO lg ex lga sum)) with (@Bopp 53 1024). rewrite !is_finite_Bopp, !B2R_Bopp. intros _ Fw. apply Ropp_le_contravar. now apply Fall.
      - injection E as <- <-. split; [exact Hr|]. exists v, (snd s). split; [reflexivity|]. destruct Hv as [Hv|Hv]; [now left|right].
        destruct Hs as [Hs|(w & rest & Hs & Hl)]; [congruence|]. exists rest. rewrite Hl. congruence.
    Qed.
  End Reports.

  Lemma fit_eta_reports p limit tolerance fuel eta eta' v0 reports : (1076 <= fuel)%nat -> is_finite tolerance = true -> 0 <= B2R tolerance -> passes_nan p ->
    proper eta -> no_minus_zero eta -> total p eta -> value p eta = Ok v0 -> fit_eta fuel limit tolerance p eta = Ok (eta', reports) ->
    never_falls reports /\ exists v rest, reports = rest ++ [(- v)%S] /\
      ((value p eta' = Ok v /\ (is_finite v0 = true -> is_finite v = true -> B2R v <= B2R v0)) \/ exists rest', rest = rest' ++ [(- v)%S]).
  Proof.
    intros Hf Ft Pt Q P N T V E. unfold fit_eta in E. rewrite V in E. cbn [bind] in E.
    destruct (minimize _ _ _ _ _ _ _ _) as [[x' s']| |] eqn:M; cbn [bind] in E; try discriminate E. injection E as <- <-.
    apply (minimize_reports p limit fuel tolerance (one / ofZ 1000)%S v0 Hf Ft Pt) in M; try assumption.
    - destruct M as [A (v & rest & E & B)]. split; [exact A|]. rewrite E. exists v, (rev rest). split; [reflexivity|]. destruct B as [B|(rest' & ->)]; [now left|right; now exists (rev rest')].
    - vm_compute. reflexivity.
    - left. split; [exact V|]. intros. lra.
    - now left.
    - exact I.
  Qed.

  (** ** The objectives of the library *)
  Definition plus_norm (lik L : double) (eta : mat double) : double := (- lik + L * squared_norm eta / ofZ 2)%S.
  Lemma norm_nan lik L eta : proper eta -> entry eta B754_nan -> is_finite (plus_norm lik L eta) = false.
  Proof.
    intros P (c & Hc & Hz). unfold plus_norm. norm. apply add_not_finite_r, div_not_finite, mul_not_finite. unfold squared_norm.
    apply (summed_not_finite _ _ (Hsum _) B754_nan); [|reflexivity]. apply in_map_iff. exists B754_nan. split; [reflexivity|].
    destruct (In_nth _ _ [] Hc) as (j & Hj & Ej). destruct (In_nth _ _ (zero : double) Hz) as (i & Hi & Ei). apply (in_mall lg ex lga sum). exists i, j.
    unfold proper in P. rewrite Forall_forall in P. rewrite (P _ Hc) in Hi. split; [exact Hi|split; [exact Hj|]]. unfold mget. now rewrite Ej.
  Qed.
End SearchProofs.
