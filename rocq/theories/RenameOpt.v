(** The optimisation of eta under renumbering, in exact arithmetic. *)
Require Import Reals ZArith List Arith Bool Lia Lra Permutation.
Require Import Verif.Base Verif.Scalar Verif.Mat Verif.UtilsModel Verif.UtilsProofs
  Verif.BuilderModel Verif.EStepModel Verif.OptModel Verif.OptSpec Verif.OptProofs Verif.MStepAny Verif.LdaModel Verif.TrainPerm Verif.RenameSpec Verif.RenameBase Verif.RenameEStep.
Import ListNotations.
Local Open Scope nat_scope.

Section Real.
  Variable lg : R -> R.
  Local Hint Extern 0 (ops _) => exact (Rops lg) : typeclass_instances.
  Variables K V C : nat.
  Variable a : naming.
  Hypothesis Pa : valid_naming K V C a.
  Notation sk := (topic_at a). Notation sv := (word_at a). Notation sc := (class_at a).
  Let Pk : permutes K sk := proj1 Pa.
  Let Pc : permutes C sc := proj2 (proj2 Pa).
  Notation kren := (list_renamed (A := R) 0%R K sk).
  Notation cren := (list_renamed (A := R) 0%R C sc).
  Notation eren := (mat_renamed K C sk sc).

  (** ** Gradient descent *)
  Definition problem_renamed (p p' : problem R) : Prop := forall e e', eren e e' ->
    sim eq (value p e) (value p' e') /\ sim eren (gradient p e) (gradient p' e').
  Lemma step_renamed x x' al d d' : eren x x' -> eren d d' -> eren (step x al d) (step x' al d').
  Proof.
    intros Hx Hd. unfold step. apply (mren_tab' lg K C sk sc Pk Pc); [exact Hx|]. intros i j Hi Hj.
    now rewrite (mren_get lg K C sk sc x x'), (mren_get lg K C sk sc d d').
  Qed.
  Lemma armijo_sim p p' fuel beta tau x x' g g' d d' : problem_renamed p p' -> eren x x' -> eren g g' -> eren d d' ->
    sim (fun r r' => eren (fst r) (fst r') /\ snd r' = snd r) (armijo_search fuel beta tau p x g d) (armijo_search fuel beta tau p' x' g' d').
  Proof.
    intros Hp Hx Hg Hd. unfold armijo_search. apply (sim_bind eq); [now apply Hp|]. intros v ? <-.
    rewrite (mren_mall lg K C sk sc Pk Pc (mtab (mrows g) (ncols g) (fun i j => mul (mget g i j) (mget d i j))) (mtab (mrows g') (ncols g') (fun i j => mul (mget g' i j) (mget d' i j)))).
    2: { apply (mren_tab' lg K C sk sc Pk Pc); [exact Hg|]. intros i j Hi Hj. now rewrite (mren_get lg K C sk sc g g'), (mren_get lg K C sk sc d d'). }
    apply (sim_bind eq).
    - generalize (mul beta (redux (mall (mtab (mrows g) (ncols g) (fun i j => mul (mget g i j) (mget d i j)))))) as dec. intros dec.
      generalize v at 2 4 as w. generalize (div one tau) as al. induction fuel as [|n IH]; intros al w; cbn [armijo_loop]; (apply sim_if; [reflexivity| |apply sim_refl]); [apply sim_throw|].
      apply (sim_bind eq); [apply Hp; now apply step_renamed|]. intros w' ? <-. apply IH.
    - intros [w al] ? <-. apply sim_ok. cbn [fst snd]. split; [now apply step_renamed|reflexivity].
  Qed.
  Lemma minimize_sim {St} p p' (search : problem R -> mat R -> mat R -> mat R -> outcome (mat R * R)) (progress : St -> R -> nat -> bool * St) :
    problem_renamed p p' ->
    (forall x x' g g' d d', eren x x' -> eren g g' -> eren d d' -> sim (fun r r' => eren (fst r) (fst r') /\ snd r' = snd r) (search p x g d) (search p' x' g' d')) ->
    forall fuel x x' v it s, eren x x' ->
    sim (fun r r' => eren (fst r) (fst r') /\ snd r' = snd r) (minimize fuel search progress p x v it s) (minimize fuel search progress p' x' v it s).
  Proof.
    intros Hp Hs. induction fuel as [|n IH]; intros x x' v it s Hx; cbn [minimize]; destruct (progress s v it) as [[] s2];
      try (apply sim_ok; now split); [apply sim_throw|].
    apply (sim_bind eren); [now apply Hp|]. intros g g' Hg. apply (sim_bind (fun r r' : mat R * R => eren (fst r) (fst r') /\ snd r' = snd r)); [now apply Hs|].
    intros [y w] [y' w'] [Hy Hw]. cbn [fst snd] in *. subst w'. now apply IH.
  Qed.
  Lemma fit_eta_sim p p' fuel limit tolerance e e' : problem_renamed p p' -> eren e e' ->
    sim (fun r r' => eren (fst r) (fst r') /\ snd r' = snd r) (fit_eta fuel limit tolerance p e) (fit_eta fuel limit tolerance p' e').
  Proof.
    intros Hp He. unfold fit_eta. apply (sim_bind eq); [now apply Hp|]. intros v ? <-.
    apply (sim_bind (fun r r' : mat R * (option R * list R) => eren (fst r) (fst r') /\ snd r' = snd r)).
    - apply minimize_sim; [exact Hp| |exact He]. intros. now apply armijo_sim.
    - intros [y s] [y' s'] [Hy Hs]. cbn [fst snd] in *. subst s'. apply sim_ok. now split.
  Qed.

  (** ** Labels *)
  Lemma label_range y y' : label_renamed C a y y' -> (0 <= y < Z.of_nat C)%Z -> (0 <= y' < Z.of_nat C)%Z /\ Z.to_nat y = sc (Z.to_nat y').
  Proof. intros [[H ->]|[H ->]] Hy; [|tauto]. split; [exact H|apply Nat2Z.id]. Qed.
  Lemma label_sign y y' : label_renamed C a y y' -> (0 <=? y')%Z = (0 <=? y)%Z.
  Proof. intros [[H ->]|[H ->]]; [|reflexivity]. symmetry. rewrite (proj2 (Z.leb_le 0 y')) by lia. apply Z.leb_le. lia. Qed.
  Lemma label_eqb y y' c : label_renamed C a y y' -> c < C -> (y =? Z.of_nat (sc c))%Z = (y' =? Z.of_nat c)%Z.
  Proof.
    intros [[H ->]|[H ->]] Hc.
    - destruct (Z.eqb_spec y' (Z.of_nat c)) as [->|N]; [rewrite Nat2Z.id; apply Z.eqb_refl|]. apply Z.eqb_neq. intros E. apply Nat2Z.inj in E.
      apply N. apply (proj2 Pc) in E; lia.
    - destruct Pc as [P1 _]. specialize (P1 c Hc). destruct (Z.eqb_spec y' (Z.of_nat (sc c))), (Z.eqb_spec y' (Z.of_nat c)); lia || reflexivity.
  Qed.
  Lemma nat_label_eqb y y' c : y' < C -> c < C -> y = sc y' -> Nat.eqb (sc c) y = Nat.eqb c y'.
  Proof.
    intros H1 H2 ->. destruct (Nat.eqb_spec c y') as [->|N]; [apply Nat.eqb_refl|]. apply Nat.eqb_neq. intros E. apply N. now apply (proj2 Pc) in E.
  Qed.
  Notation yren := (Forall2 (label_renamed C a)).
  Lemma count_renamed y y' c : yren y y' -> c < C -> count_label (T := R) y' c = count_label y (sc c).
  Proof.
    intros H Hc. unfold count_label. generalize (zero : R) as n. induction H as [|u u' y y' Hu H IH]; intros n; cbn; [reflexivity|].
    rewrite (label_eqb u u' c Hu Hc). apply IH.
  Qed.
  Lemma yren_length y y' : yren y y' -> length y' = length y.
  Proof. induction 1; cbn; congruence. Qed.
  Lemma yren_sign y y' : yren y y' -> forallb (fun l => 0 <=? l)%Z y' = forallb (fun l => 0 <=? l)%Z y.
  Proof. induction 1 as [|u u' y y' Hu H IH]; cbn; [reflexivity|]. now rewrite IH, (label_sign u u' Hu). Qed.
  Lemma weights_sim y y' : yren y y' -> largest y' = largest y ->
    sim (fun w w' => length w' = length w /\ forall c, c < C -> c < length w -> sc c < length w -> vget w' c = vget w (sc c))
      (class_weights (T := R) y) (class_weights y').
  Proof.
    intros H HL. unfold class_weights. destruct y as [|u y0] eqn:Ey; [apply sim_fail|]. rewrite <- Ey in *. assert (Ny : y <> []) by (rewrite Ey; discriminate).
    assert (Ny' : y' <> []) by (intros ->; apply yren_length in H; rewrite Ey in H; discriminate). clear Ey u y0.
    destruct (max_label y) as [m| |] eqn:E; [cbn [bind]|apply sim_throw|apply sim_fail]. destruct (forallb _ y) eqn:F; [cbn [andb]|apply sim_fail].
    assert (G : forall l, In l y -> (0 <= l)%Z) by (intros l Hl; rewrite forallb_forall in F; apply Z.leb_le; now apply F).
    pose proof F as F'. rewrite <- (yren_sign y y' H) in F'.
    assert (G' : forall l, In l y' -> (0 <= l)%Z) by (intros l Hl; rewrite forallb_forall in F'; apply Z.leb_le; now apply F').
    rewrite (max_label_R y Ny G) in E. rewrite (max_label_R y' Ny' G'), HL, F'. cbn [bind andb]. injection E as ->.
    apply sim_if; [reflexivity| |apply sim_fail]. apply sim_ok. rewrite !vtab_length. split; [reflexivity|].
    intros c Hc H1 H2. rewrite !vget_tab by assumption. now rewrite (yren_length y y' H), (count_renamed y y' c H Hc).
  Qed.

  (** ** The two problems *)
  Section Sets.
    Context {A : Type} (f f' : A -> list R) (v v' : A -> mat R) (c : A -> Z).
    Notation class := (class c).
    Definition example_renamed (x x' : A) : Prop := kren (f x) (f' x') /\ label_renamed C a (c x) (c x').
    Definition varied_renamed (x x' : A) : Prop := example_renamed x x' /\ mat_renamed K K sk sk (v x) (v' x').
    Definition in_range (x : A) : Prop := (0 <= c x < Z.of_nat C)%Z.
    Definition weighed (w w' : list R) (x x' : A) : Prop := vget w' (class x') = vget w (class x).

    Lemma column_renamed x x' : example_renamed x x' -> kren (column K f x) (column K f' x').
    Proof. intros [(L1 & L2 & H) _]. unfold column. apply vren_tab; [exact Pk|]. intros i Hi. now apply H. Qed.
    Lemma class_renamed x x' : example_renamed x x' -> in_range x -> class x' < C /\ class x = sc (class x').
    Proof. intros [_ H] Hx. destruct (label_range _ _ H Hx) as [H1 H2]. unfold TrainPerm.class. split; [lia|exact H2]. Qed.

    Lemma fits_renamed l l' w w' e e' : Forall2 example_renamed l l' -> length w' = length w -> (length w = Z.to_nat (largest (map c l)) + 1) -> largest (map c l') = largest (map c l) ->
      eren e e' -> fits (mk_mat K (map f l)) (map c l) w e = true -> fits (mk_mat K (map f' l')) (map c l') w' e' = true /\ Forall in_range l.
    Proof.
      intros Hl Hw Lw HL He. destruct (rows_of _ _ _ _ _ _ _ He) as (E1 & E2 & E3 & E4). unfold fits, ncols at 1 3. cbn [mrows mcols]. rewrite !map_length, E1, E2, E3, E4, Nat.eqb_refl, !Nat.leb_refl. cbn [andb].
      rewrite !forallb_forall. intros F. assert (Rg : Forall in_range l).
      { apply Forall_forall. intros x Hx. specialize (F (c x) (in_map c _ _ Hx)). rewrite !andb_true_iff, Z.leb_le, !Z.ltb_lt in F. unfold in_range. lia. }
      split; [|exact Rg]. intros y' Hy. pose proof (largest_ge (map c l') y' Hy) as M. apply in_map_iff in Hy. destruct Hy as (x' & <- & Hx').
      assert (X : exists x, In x l /\ example_renamed x x'). { clear - Hl Hx'. induction Hl as [|x z l l' H _ IH]; [destruct Hx'|]. destruct Hx' as [->|Hx']; [exists x; cbn; tauto|]. destruct (IH Hx') as (y & ? & ?). exists y. cbn. tauto. }
      destruct X as (x & Hx & [_ Hr]). rewrite Forall_forall in Rg. destruct (label_range _ _ Hr (Rg x Hx)) as [Q _].
      rewrite !andb_true_iff, Z.leb_le, !Z.ltb_lt. pose proof (largest_nonneg (map c l)). lia.
    Qed.
    Lemma scores_renamed e e' x x' : eren e e' -> example_renamed x x' -> cren (matT_vec e (column K f x)) (matT_vec e' (column K f' x')).
    Proof. intros He Hx. apply (mren_matT_vec lg K C sk sc Pk Pc); [exact He|now apply column_renamed]. Qed.
    Lemma squared_norm_renamed e e' : eren e e' -> squared_norm e' = squared_norm e.
    Proof. intros He. unfold squared_norm. now apply (mren_mall_map lg K C sk sc Pk Pc). Qed.

    Lemma fold_eq {B} (F F' : B -> A -> B) l l' : Forall2 (fun x x' => forall b, F' b x' = F b x) l l' -> forall b, fold_left F' l' b = fold_left F l b.
    Proof. induction 1 as [|x x' l l' H _ IH]; intros b; cbn; [reflexivity|]. now rewrite H. Qed.
    Lemma fold_rel {B} (rel : B -> B -> Prop) (F F' : B -> A -> B) l l' : Forall2 (fun x x' => forall b b', rel b b' -> rel (F b x) (F' b' x')) l l' ->
      forall b b', rel b b' -> rel (fold_left F l b) (fold_left F' l' b').
    Proof. induction 1 as [|x x' l l' H _ IH]; intros b b' Hb; cbn; [exact Hb|]. apply IH. now apply H. Qed.
    Lemma Forall2_and (P Q : A -> A -> Prop) l l' : Forall2 P l l' -> Forall2 Q l l' -> Forall2 (fun x x' => P x x' /\ Q x x') l l'.
    Proof. intros H. revert H. induction 1; intros H2; inversion H2; subst; constructor; auto. Qed.
    Lemma Forall2_left (P : A -> Prop) (Q : A -> A -> Prop) l l' : Forall P l -> Forall2 Q l l' -> Forall2 (fun x x' => P x /\ Q x x') l l'.
    Proof. intros H. induction 1; inversion H; subst; constructor; auto. Qed.
    Lemma Forall2_impl (P Q : A -> A -> Prop) l l' : (forall x x', P x x' -> Q x x') -> Forall2 P l l' -> Forall2 Q l l'.
    Proof. intros H. induction 1; constructor; auto. Qed.

    Lemma weighed_all l l' w w' : Forall2 example_renamed l l' -> Forall in_range l -> (length w = Z.to_nat (largest (map c l)) + 1) -> largest (map c l') = largest (map c l) ->
      (forall k, k < C -> k < length w -> sc k < length w -> vget w' k = vget w (sc k)) -> Forall2 (weighed w w') l l'.
    Proof.
      intros Hl Rg Lw HL H. assert (M : forall x, In x l -> class x < length w).
      { intros x Hx. rewrite Forall_forall in Rg. specialize (Rg x Hx). pose proof (largest_ge _ _ (in_map c _ _ Hx)). unfold in_range, TrainPerm.class in *. lia. }
      assert (M' : forall x, In x l' -> class x < length w). { intros x Hx. pose proof (largest_ge _ _ (in_map c _ _ Hx)). unfold TrainPerm.class in *. lia. }
      clear HL Lw. induction Hl as [|x x' l l' Hx _ IH]; [constructor|]. inversion Rg; subst. constructor; [|apply IH; auto; intros; [apply M|apply M']; now right].
      destruct (class_renamed x x' Hx H2) as [C1 C2]. unfold weighed. rewrite C2. apply H; [exact C1|apply M'; now left|]. rewrite <- C2. apply M. now left.
    Qed.

    (** multinomial logistic regression *)
    Definition mlr_term (g : A -> list R) (w : list R) (e : mat R) (l : R) (x : A) : R :=
      sub (add l (mul (vget w (class x)) (vget (matT_vec e (column K g x)) (class x)))) (mul (vget w (class x)) (slog (redux (map sexp (matT_vec e (column K g x)))))).
    Lemma mlr_value_fold (g : A -> list R) (x0 : A) (l : list A) w L e : mlr_value (mk_mat K (map g l)) (map c l) w L e =
      if negb (fits (mk_mat K (map g l)) (map c l) w e) then UB else
      Ok (add (opp (fold_left (mlr_term g w e) l zero)) (div (mul L (squared_norm e)) (ofZ 2))).
    Proof.
      unfold mlr_value. destruct (negb _); [reflexivity|]. do 3 f_equal. rewrite map_length. apply (fold_left_nth (mlr_term g w e) _ x0).
      intros b d Hd. unfold mlr_term. rewrite (set_label c l x0 d Hd), (set_col_get lg K g l x0 d Hd). reflexivity.
    Qed.
    Lemma mlr_term_renamed w w' e e' x x' : eren e e' -> example_renamed x x' -> in_range x -> weighed w w' x x' -> forall b, mlr_term f' w' e' b x' = mlr_term f w e b x.
    Proof.
      intros He Hx Hr Hw b. pose proof (scores_renamed e e' x x' He Hx) as Hs. destruct (class_renamed x x' Hx Hr) as [C1 C2].
      unfold mlr_term. rewrite Hw, (vren_get lg C sc _ _ _ Hs C1), <- C2. rewrite (vren_sum lg C sc _ _ sexp Pc Hs). reflexivity.
    Qed.
    Definition mlr_part (g : A -> list R) (w : list R) (e : mat R) (b : mat R) (x : A) : mat R :=
      mtab (mrows e) (ncols e) (fun i k =>
        add (mget (mtab (mrows e) (ncols e) (fun i k => if Nat.eqb k (class x) then sub (mget b i k) (mul (vget w (class x)) (nth i (g x) 0%R)) else mget b i k)) i k)
        (div (mul (vget w (class x)) (mul (nth i (g x) 0%R) (vget (map sexp (matT_vec e (column K g x))) k))) (redux (map sexp (matT_vec e (column K g x)))))).
    Lemma mlr_gradient_fold (g : A -> list R) (x0 : A) (l : list A) w L e : mlr_gradient (mk_mat K (map g l)) (map c l) w L e =
      if negb (fits (mk_mat K (map g l)) (map c l) w e) then UB else
      Ok (mtab (mrows e) (ncols e) (fun i k => add (mget (fold_left (mlr_part g w e) l (mtab (mrows e) (ncols e) (fun _ _ => zero))) i k) (mul (mget e i k) L))).
    Proof.
      unfold mlr_gradient. destruct (negb _); [reflexivity|]. cbv zeta. f_equal. apply mtab_ext. intros i k Hi Hk. do 2 f_equal.
      rewrite map_length. apply (fold_left_nth (mlr_part g w e) _ x0). intros b d Hd. unfold mlr_part. apply mtab_ext. intros i' k' Hi' Hk'.
      rewrite !mget_tab by assumption. rewrite (set_label c l x0 d Hd), (set_col_get lg K g l x0 d Hd), !(set_get lg K g l x0 i' d Hd). reflexivity.
    Qed.
    Lemma mlr_part_renamed w w' e e' x x' : eren e e' -> example_renamed x x' -> in_range x -> weighed w w' x x' ->
      forall b b', eren b b' -> eren (mlr_part f w e b x) (mlr_part f' w' e' b' x').
    Proof.
      intros He Hx Hr Hw b b' Hb. pose proof (scores_renamed e e' x x' He Hx) as Hs. destruct (class_renamed x x' Hx Hr) as [C1 C2].
      unfold mlr_part. apply (mren_tab' lg K C sk sc Pk Pc); [exact He|]. intros i j Hi Hj.
      destruct (rows_of _ _ _ _ _ _ _ He) as (-> & -> & -> & ->).
      pose proof (proj1 Pk i Hi). pose proof (proj1 Pc j Hj). rewrite !mget_tab by assumption.
      rewrite Hw, (nat_label_eqb _ _ j C1 Hj C2), (mren_get lg K C sk sc b b' i j Hb Hi Hj), (vren_sum lg C sc _ _ sexp Pc Hs).
      rewrite (vren_get lg C sc _ _ j (vren_map C sc _ _ sexp Pc Hs) Hj). destruct Hx as [(_ & _ & Hx) _]. rewrite (Hx i Hi). reflexivity.
    Qed.
    Lemma weights_length (l : list A) (w : list R) : class_weights (map c l) = Ok w -> length w = Z.to_nat (largest (map c l)) + 1.
    Proof.
      intros Ew. unfold class_weights in Ew. apply bind_ok' in Ew. destruct Ew as (m & Em & Ew). destruct (forallb _ (map c l)) eqn:F; [|discriminate Ew].
      destruct (_ && _)%bool; [|discriminate Ew]. injection Ew as <-. rewrite max_label_R in Em.
      - injection Em as <-. rewrite vtab_length. pose proof (largest_nonneg (map c l)). lia.
      - intros X. rewrite X in Em. discriminate Em.
      - intros z Hz. rewrite forallb_forall in F. apply Z.leb_le. now apply F.
    Qed.
    Lemma mlr_sim l l' L : Forall2 example_renamed l l' -> largest (map c l') = largest (map c l) ->
      sim problem_renamed (mlr (mk_mat K (map f l)) (map c l) L) (mlr (mk_mat K (map f' l')) (map c l') L).
    Proof.
      intros Hl HL. unfold mlr. assert (Hy : yren (map c l) (map c l')) by (clear - Hl; induction Hl as [|? ? ? ? H]; cbn; constructor; [apply H|assumption]).
      pose proof (weights_sim _ _ Hy HL) as S. destruct (class_weights (map c l)) as [w| |] eqn:Ew; [|apply sim_throw|apply sim_fail].
      destruct (S w eq_refl) as (w' & -> & Lw & Hw). cbn [bind]. apply sim_ok.
      pose proof (weights_length l w Ew) as Len.
      destruct l as [|x0 l0]; [discriminate Ew|]. remember (x0 :: l0) as l eqn:El. clear El l0.
      intros e e' He. cbn [value gradient]. rewrite !(fun g => mlr_value_fold g x0), !(fun g => mlr_gradient_fold g x0).
      destruct (fits _ (map c l) w e) eqn:F; cbn [negb]; [|split; apply sim_fail].
      destruct (fits_renamed l l' w w' e e' Hl Lw Len HL He F) as [-> Rg]. cbn [negb]. pose proof (weighed_all l l' w w' Hl Rg Len HL Hw) as Ws.
      pose proof (Forall2_left _ _ _ _ Rg (Forall2_and _ _ _ _ Hl Ws)) as All. split; apply sim_ok.
      - rewrite (squared_norm_renamed e e' He). do 2 f_equal. symmetry. apply fold_eq. eapply Forall2_impl; [|exact All]. intros x x' (H1 & H2 & H3). now apply mlr_term_renamed.
      - apply (mren_tab' lg K C sk sc Pk Pc); [exact He|]. intros i j Hi Hj. rewrite (mren_get lg K C sk sc e e' i j He Hi Hj). f_equal.
        match goal with |- mget ?m' _ _ = mget ?m _ _ => assert (E : eren m m') end.
        + apply fold_rel; [|apply (mren_tab' lg K C sk sc Pk Pc); [exact He|reflexivity]]. eapply Forall2_impl; [|exact All]. intros x x' (H1 & H2 & H3). now apply mlr_part_renamed.
        + now apply (mren_get lg K C sk sc _ _ i j E).
    Qed.

    (** the second order approximation *)
    Notation cov := (mat_renamed K K sk sk).
    Lemma tr_mul_renamed e e' m m' : eren e e' -> cov m m' -> mat_renamed C K sc sk (tr_mul e m) (tr_mul e' m').
    Proof.
      intros He Hm. unfold tr_mul. destruct (rows_of _ _ _ _ _ _ _ He) as (_ & _ & -> & ->). destruct (rows_of _ _ _ _ _ _ _ Hm) as (_ & _ & -> & ->).
      apply (mren_tab lg C K sc sk Pc Pk). intros i j Hi Hj.
      apply (vren_dot lg K sk _ _ _ _ Pk); [now apply (mren_col lg K C sk sc Pk)|now apply (mren_col lg K K sk sk Pk)].
    Qed.
    Lemma transpose_renamed m m' : cov m m' -> cov (transpose m) (transpose m').
    Proof.
      intros Hm. unfold transpose. destruct (rows_of _ _ _ _ _ _ _ Hm) as (-> & -> & -> & ->). apply (mren_tab lg K K sk sk Pk Pk). intros i j Hi Hj.
      now rewrite (mren_get lg K K sk sk m m').
    Qed.
    Lemma diagonal_renamed t t' e e' : mat_renamed C K sc sk t t' -> eren e e' -> cren (diagonal_mul t e) (diagonal_mul t' e').
    Proof.
      intros Ht He. unfold diagonal_mul. destruct (rows_of _ _ _ _ _ _ _ Ht) as (-> & -> & _). apply vren_tab; [exact Pc|]. intros k Hk.
      apply (vren_dot lg K sk _ _ _ _ Pk); [now apply (mren_row lg C K sc sk Pk)|now apply (mren_col lg K C sk sc Pk)].
    Qed.
    Definition so_term (g : A -> list R) (u : A -> mat R) (w : list R) (e : mat R) (l : R) (x : A) : R :=
      let t : list R := matT_vec e (column K g x) in let q : list R := diagonal_mul (tr_mul e (u x)) e in
      sub (add l (mul (vget w (class x)) (vget t (class x)))) (mul (vget w (class x))
        (slog (redux (vtab (length t) (fun k => mul (sexp (vget t k)) (add one (mul half (vget q k)))))))).
    Lemma so_value_fold (g : A -> list R) (u : A -> mat R) (x0 : A) (l : list A) w L e : so_value (mk_mat K (map g l)) (map u l) (map c l) w L e =
      if negb (fits (mk_mat K (map g l)) (map c l) w e && fits_var (map u l) (map c l) e) then UB else
      Ok (add (opp (fold_left (so_term g u w e) l zero)) (div (mul L (squared_norm e)) (ofZ 2))).
    Proof.
      unfold so_value. destruct (negb _); [reflexivity|]. do 3 f_equal. rewrite map_length. apply (fold_left_nth (so_term g u w e) _ x0).
      intros b d Hd. unfold so_term. rewrite (set_label c l x0 d Hd), (set_col_get lg K g l x0 d Hd), (set_var u l x0 d Hd). reflexivity.
    Qed.
    Lemma so_term_renamed w w' e e' x x' : eren e e' -> varied_renamed x x' -> in_range x -> weighed w w' x x' -> forall b, so_term f' v' w' e' b x' = so_term f v w e b x.
    Proof.
      intros He [Hx Hv] Hr Hw b. pose proof (scores_renamed e e' x x' He Hx) as Hs. destruct (class_renamed x x' Hx Hr) as [C1 C2].
      pose proof (diagonal_renamed _ _ e e' (tr_mul_renamed e e' _ _ He Hv) He) as Hq.
      unfold so_term. cbv zeta. rewrite Hw, (vren_get lg C sc _ _ _ Hs C1), <- C2. pose proof Hs as (-> & -> & _).
      rewrite (vren_redux lg C sc (vtab C (fun k => mul (sexp (vget (matT_vec e (column K f x)) k)) (add one (mul half (vget (diagonal_mul (tr_mul e (v x)) e) k)))))
        (vtab C (fun k => mul (sexp (vget (matT_vec e' (column K f' x')) k)) (add one (mul half (vget (diagonal_mul (tr_mul e' (v' x')) e') k))))) Pc); [reflexivity|].
      apply vren_tab; [exact Pc|]. intros k Hk. now rewrite (vren_get lg C sc _ _ k Hs Hk), (vren_get lg C sc _ _ k Hq Hk).
    Qed.
    Lemma so_part_renamed e e' x x' : eren e e' -> varied_renamed x x' ->
      fst (so_part lg K f' v' e' x') = fst (so_part lg K f v e x) /\ eren (snd (so_part lg K f v e x)) (snd (so_part lg K f' v' e' x')).
    Proof.
      intros He [Hx Hv]. unfold so_part. cbv zeta. cbn [fst snd].
      pose proof (vren_map C sc _ _ sexp Pc (scores_renamed e e' x x' He Hx)) as Hs.
      pose proof (tr_mul_renamed e e' _ _ He Hv) as Ht. pose proof (tr_mul_renamed e e' _ _ He (transpose_renamed _ _ Hv)) as Ht'.
      pose proof (diagonal_renamed _ _ e e' Ht He) as Hq. split.
      - now rewrite (vren_redux lg C sc _ _ Pc Hs), (vren_dot lg C sc _ _ _ _ Pc Hs Hq).
      - apply (mren_tab' lg K C sk sc Pk Pc); [exact He|]. intros i j Hi Hj. destruct (rows_of _ _ _ _ _ _ _ He) as (-> & -> & -> & ->).
        pose proof (proj1 Pk i Hi). pose proof (proj1 Pc j Hj). rewrite !mget_tab by assumption.
        rewrite (vren_get lg C sc _ _ j Hs Hj), (vren_get lg C sc _ _ j Hq Hj), (mren_get lg C K sc sk _ _ j i Ht Hj Hi), (mren_get lg C K sc sk _ _ j i Ht' Hj Hi).
        destruct Hx as [(_ & _ & Hx) _]. now rewrite (Hx i Hi).
    Qed.
    Lemma so_step_renamed w w' e e' x x' : eren e e' -> varied_renamed x x' -> in_range x -> weighed w w' x x' ->
      forall b b', eren b b' -> eren (so_step lg K f c v w e b x) (so_step lg K f' c v' w' e' b' x').
    Proof.
      intros He Hx Hr Hw b b' Hb. pose proof Hx as [Hx1 _]. destruct (class_renamed x x' Hx1 Hr) as [C1 C2]. destruct (so_part_renamed e e' x x' He Hx) as [P1 P2].
      unfold so_step. cbv zeta. apply (mren_tab' lg K C sk sc Pk Pc); [exact He|]. intros i j Hi Hj. rewrite P1, (mren_get lg K C sk sc _ _ i j P2 Hi Hj), Hw.
      destruct (rows_of _ _ _ _ _ _ _ He) as (-> & -> & -> & ->).
      pose proof (proj1 Pk i Hi). pose proof (proj1 Pc j Hj). rewrite !mget_tab by assumption.
      rewrite (nat_label_eqb _ _ j C1 Hj C2), (mren_get lg K C sk sc b b' i j Hb Hi Hj). destruct Hx1 as [(_ & _ & Hx1) _]. now rewrite (Hx1 i Hi).
    Qed.
    Lemma fits_var_renamed l l' e e' : Forall2 varied_renamed l l' -> eren e e' -> fits_var (map v l) (map c l) e = true -> fits_var (map v' l') (map c l') e' = true.
    Proof.
      intros Hl He _. unfold fits_var. rewrite !map_length, Nat.leb_refl. cbn [andb]. destruct (rows_of _ _ _ _ _ _ _ He) as (_ & -> & _).
      apply forallb_forall. intros m Hm. apply in_map_iff in Hm. destruct Hm as (x' & <- & Hx').
      assert (X : exists x, varied_renamed x x'). { clear - Hl Hx'. induction Hl as [|x z l l' H _ IH]; [destruct Hx'|]. destruct Hx' as [->|Hx']; [now exists x|auto]. }
      destruct X as (x & _ & X). destruct (rows_of _ _ _ _ _ _ _ X) as (_ & -> & _ & ->). now rewrite Nat.eqb_refl.
    Qed.
    Lemma so_sim l l' L : Forall2 varied_renamed l l' -> largest (map c l') = largest (map c l) ->
      sim problem_renamed (so (mk_mat K (map f l)) (map v l) (map c l) L) (so (mk_mat K (map f' l')) (map v' l') (map c l') L).
    Proof.
      intros Hv HL. assert (Hl : Forall2 example_renamed l l') by (eapply Forall2_impl; [|exact Hv]; intros ? ? X; apply X).
      unfold so. assert (Hy : yren (map c l) (map c l')) by (clear - Hl; induction Hl as [|? ? ? ? H]; cbn; constructor; [apply H|assumption]).
      pose proof (weights_sim _ _ Hy HL) as S. destruct (class_weights (map c l)) as [w| |] eqn:Ew; [|apply sim_throw|apply sim_fail].
      destruct (S w eq_refl) as (w' & -> & Lw & Hw). cbn [bind]. apply sim_ok.
      pose proof (weights_length l w Ew) as Len.
      destruct l as [|x0 l0]; [discriminate Ew|]. remember (x0 :: l0) as l eqn:El. clear El l0.
      intros e e' He. cbn [value gradient]. rewrite !(fun g u => so_value_fold g u x0), !(fun g u l => so_gradient_fold lg K g c u l x0).
      destruct (fits _ (map c l) w e) eqn:F; cbn [negb andb]; [|split; apply sim_fail]. destruct (fits_var (map v l) _ e) eqn:G; cbn [negb]; [|split; apply sim_fail].
      destruct (fits_renamed l l' w w' e e' Hl Lw Len HL He F) as [-> Rg]. rewrite (fits_var_renamed l l' e e' Hv He G). cbn [negb andb]. pose proof (weighed_all l l' w w' Hl Rg Len HL Hw) as Ws.
      pose proof (Forall2_left _ _ _ _ Rg (Forall2_and _ _ _ _ Hv Ws)) as All. split; apply sim_ok.
      - rewrite (squared_norm_renamed e e' He). do 2 f_equal. symmetry. apply fold_eq. eapply Forall2_impl; [|exact All]. intros x x' (H1 & H2 & H3). now apply so_term_renamed.
      - apply (mren_tab' lg K C sk sc Pk Pc); [exact He|]. intros i j Hi Hj. rewrite (mren_get lg K C sk sc e e' i j He Hi Hj). f_equal.
        match goal with |- mget ?m' _ _ = mget ?m _ _ => assert (E : eren m m') end.
        + apply fold_rel; [|apply (mren_tab' lg K C sk sc Pk Pc); [exact He|reflexivity]]. eapply Forall2_impl; [|exact All]. intros x x' (H1 & H2 & H3). now apply so_step_renamed.
        + now apply (mren_get lg K C sk sc _ _ i j E).
    Qed.
  End Sets.
End Real.
