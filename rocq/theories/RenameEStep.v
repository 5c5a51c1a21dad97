(** The E steps under renumbering, in exact arithmetic. *)
Require Import Reals ZArith List Arith Bool Lia Lra Permutation.
Require Import Verif.Base Verif.Scalar Verif.Mat Verif.UtilsModel Verif.UtilsProofs Verif.DigammaProofs
  Verif.BuilderModel Verif.EStepModel Verif.EStepReal Verif.OptModel Verif.LdaModel Verif.TrainSizes Verif.RenameSpec Verif.RenameBase.
Import ListNotations.
Local Open Scope nat_scope.

Section Real.
  Variable lg : R -> R.
  Local Hint Extern 0 (ops _) => exact (Rops lg) : typeclass_instances.
  Variable dfuel : nat.
  Variables K V C : nat.
  Variable a : naming.
  Hypothesis Pa : valid_naming K V C a.
  Notation sk := (topic_at a). Notation sv := (word_at a). Notation sc := (class_at a).
  Let Pk : permutes K sk := proj1 Pa.
  Let Pv : permutes V sv := proj1 (proj2 Pa).
  Let Pc : permutes C sc := proj2 (proj2 Pa).
  Notation kren := (list_renamed (A := R) 0%R K sk).
  Notation vren := (list_renamed (A := R) 0%R V sv).
  Notation cren := (list_renamed (A := R) 0%R C sc).
  Notation bren := (mat_renamed K V sk sv).
  Notation eren := (mat_renamed K C sk sc).

  Lemma scale_renamed beta beta' e e' : bren beta beta' -> kren e e' -> bren (scale_normalize beta e) (scale_normalize beta' e').
  Proof.
    intros Hb He. unfold scale_normalize. apply (mren_normalize_cols lg K V sk sv Pk Pv). apply (mren_tab' lg K V sk sv Pk Pv); [exact Hb|].
    intros i j Hi Hj. rewrite (mren_get lg K V sk sv beta beta'), (vren_get lg K sk e e') by assumption. reflexivity.
  Qed.
  Lemma exps n s v v' : permutes n s -> list_renamed 0%R n s v v' -> sim (list_renamed 0%R n s) (vmapM fast_exp v) (vmapM fast_exp v').
  Proof. intros. now apply (vren_mapM lg). Qed.
  Lemma rows_of r c sr sc m m' : mat_renamed (T := R) r c sr sc m m' -> mrows m = r /\ mrows m' = r /\ ncols m = c /\ ncols m' = c.
  Proof. intros (? & ? & ? & ? & _). auto. Qed.

  Lemma unsupervised_phi_sim beta beta' g g' : bren beta beta' -> kren g g' ->
    sim bren (compute_unsupervised_phi dfuel beta g) (compute_unsupervised_phi dfuel beta' g').
  Proof.
    intros Hb Hg. unfold compute_unsupervised_phi. apply (sim_bind kren); [now apply vren_psi|]. intros p p' Hp.
    apply (sim_bind kren); [now apply exps|]. intros e e' He. apply sim_ok. now apply scale_renamed.
  Qed.
  Lemma approximate_phi_sim r r' N y y' beta beta' eta eta' g g' w phi phi' :
    bren beta beta' -> eren eta eta' -> kren g g' -> vren r r' -> bren phi phi' -> y' < C -> y = sc y' ->
    sim bren (compute_supervised_approximate_phi dfuel r N y beta eta g w phi) (compute_supervised_approximate_phi dfuel r' N y' beta' eta' g' w phi').
  Proof.
    intros Hb He Hg Hr Hp Hy ->. unfold compute_supervised_approximate_phi. apply sim_if; [reflexivity|now apply sim_ok|].
    apply (sim_bind kren); [now apply vren_psi|]. intros p p' Hps.
    assert (Hz : kren (sum_cols_scaled phi r (vtab (mrows phi) (fun _ => zero))) (sum_cols_scaled phi' r' (vtab (mrows phi') (fun _ => zero)))).
    { apply (sum_cols_renamed lg K V sk sv); try assumption. destruct (rows_of _ _ _ _ _ _ Hp) as (-> & -> & _). now apply vren_tab. }
    apply (sim_bind cren); [apply exps; [exact Pc|]; now apply (mren_matT_vec lg K C sk sc)|]. intros x x' Hx.
    pose proof (mren_max lg K C sk sc eta eta' Pk Pc He) as Hmax.
    destruct (max_coeff (mall eta)) as [[me k]|]; [|apply sim_fail]. destruct (max_coeff (mall eta')) as [[me' k']|]; [|contradiction]. subst me'.
    set (es := if ltb zero me then mtab (mrows eta) (ncols eta) (fun i j => div (mget eta i j) me) else eta).
    set (es' := if ltb zero me then mtab (mrows eta') (ncols eta') (fun i j => div (mget eta' i j) me) else eta').
    assert (Hs : eren es es').
    { unfold es, es'. destruct (ltb zero me); [|exact He]. apply (mren_tab' lg K C sk sc Pk Pc); [exact He|]. intros i j Hi Hj. now rewrite (mren_get lg K C sk sc eta eta'). }
    assert (Hm : kren (mat_vec es (map (fun t => div t (redux x)) x)) (mat_vec es' (map (fun t => div t (redux x')) x'))).
    { apply (mren_mat_vec lg K C sk sc Pk Pc); [exact Hs|]. rewrite (vren_redux lg C sc x x' Pc Hx). now apply vren_map. }
    apply (sim_bind kren).
    - apply exps; [exact Pk|]. destruct (rows_of _ _ _ _ _ _ Hb) as (-> & -> & _). apply vren_tab; [exact Pk|]. intros i Hi.
      rewrite (vren_get lg K sk p p'), (mren_get lg K C sk sc es es'), (vren_get lg K sk _ _ i Hm) by assumption. reflexivity.
    - intros e e' Hee. apply sim_ok. now apply scale_renamed.
  Qed.
  Lemma multinomial_phi_sim y y' beta beta' eta eta' g g' w :
    bren beta beta' -> eren eta eta' -> kren g g' -> y' < C -> y = sc y' ->
    sim bren (compute_supervised_multinomial_phi dfuel y beta eta g w) (compute_supervised_multinomial_phi dfuel y' beta' eta' g' w).
  Proof.
    intros Hb He Hg Hy ->. unfold compute_supervised_multinomial_phi. apply (sim_bind kren); [now apply vren_psi|]. intros p p' Hp.
    rewrite (vren_redux lg K sk g g' Pk Hg). apply (sim_bind eq); [apply sim_refl|]. intros x x' <-.
    apply (sim_bind kren).
    - apply exps; [exact Pk|]. destruct (rows_of _ _ _ _ _ _ Hb) as (-> & -> & _). apply vren_tab; [exact Pk|]. intros i Hi.
      rewrite (vren_get lg K sk p p'), (mren_get lg K C sk sc eta eta') by assumption. reflexivity.
    - intros e e' Hee. apply sim_ok. now apply scale_renamed.
  Qed.
  Lemma correspondence_phi_sim y y' beta beta' eta eta' g g' tau tau' :
    bren beta beta' -> eren eta eta' -> kren g g' -> vren tau tau' -> y' < C -> y = sc y' ->
    sim bren (compute_supervised_correspondence_phi dfuel y beta eta g tau) (compute_supervised_correspondence_phi dfuel y' beta' eta' g' tau').
  Proof.
    intros Hb He Hg Ht Hy ->. unfold compute_supervised_correspondence_phi. apply (sim_bind kren); [now apply vren_psi|]. intros p p' Hp.
    apply (sim_bind kren); [now apply exps|]. intros e e' Hee. rewrite !(mmapM_fexp_tab lg). cbn [bind]. apply sim_ok.
    apply (mren_normalize_cols lg K V sk sv Pk Pv). pose proof (rows_of _ _ _ _ _ _ Hb) as (R1 & R2 & R3 & R4). rewrite R1, R2, R3, R4.
    apply (mren_tab lg K V sk sv Pk Pv). intros i j Hi Hj. rewrite !mget_tab by first [assumption | now apply Pk | now apply Pv].
    rewrite (mren_get lg K V sk sv beta beta'), (vren_get lg K sk e e'), (mren_get lg K C sk sc eta eta'), (vren_get lg V sv tau tau') by assumption. reflexivity.
  Qed.
  Lemma tau_sim y y' eta eta' phi phi' : eren eta eta' -> bren phi phi' -> y' < C -> y = sc y' ->
    sim vren (compute_supervised_correspondence_tau y eta phi) (compute_supervised_correspondence_tau y' eta' phi').
  Proof.
    intros He Hp Hy ->. unfold compute_supervised_correspondence_tau. apply (sim_bind vren).
    - apply exps; [exact Pv|]. apply (mren_matT_vec lg K V sk sv Pk Pv); [exact Hp|]. destruct (rows_of _ _ _ _ _ _ He) as (-> & -> & _).
      apply vren_tab; [exact Pk|]. intros i Hi. now rewrite (mren_get lg K C sk sc eta eta').
    - intros e e' Hee. apply sim_ok. now apply vren_normalize.
  Qed.

  (** ** sLDA, whose words keep their numbers *)
  Section Words.
    Hypothesis Hw : forall n, n < V -> sv n = n.
    Definition oren (h h' : option (list R)) : Prop := match h, h' with Some x, Some x' => kren x x' | None, None => True | _, _ => False end.
    Definition sren (s s' : slda R) : Prop :=
      bren (s_phi s) (s_phi s') /\ kren (s_gamma s) (s_gamma s') /\ cren (s_products s) (s_products s') /\ kren (s_psi s) (s_psi s') /\ oren (s_h s) (s_h s').
    Lemma same_words (X X' : list Z) : list_renamed 0%Z V sv X X' -> X' = X.
    Proof. intros (L & L' & H). apply (nth_ext _ _ 0%Z 0%Z); [congruence|]. intros n Hn. rewrite H, Hw by lia. reflexivity. Qed.
    Lemma col_same phi phi' n : bren phi phi' -> n < V -> kren (mcol phi n) (mcol phi' n).
    Proof. intros H Hn. rewrite <- (Hw n Hn) at 1. now apply (mren_col lg K V sk sv Pk). Qed.
    Lemma exp_eta_renamed eta eta' r : eren eta eta' -> sim eren (exp_eta_scaled eta r) (exp_eta_scaled eta' r).
    Proof.
      intros He. rewrite !(exp_eta_R lg). apply sim_ok. apply (mren_tab' lg K C sk sc Pk Pc); [exact He|]. intros i j Hi Hj.
      now rewrite (mren_get lg K C sk sc eta eta').
    Qed.
    Lemma all_products_sim skip X r eta eta' phi phi' : length X = V -> eren eta eta' -> bren phi phi' ->
      sim cren (all_products skip X r eta phi) (all_products skip X r eta' phi').
    Proof.
      intros LX He Hp. unfold all_products. rewrite LX.
      assert (G : forall l acc acc', (forall n, In n l -> n < V) -> sim cren acc acc' ->
        sim cren (fold_left (fun acc n => let* products := acc in
                    if skip && (Xget X n =? 0)%Z then Ok products else let* ee := exp_eta_scaled eta (vget r n) in Ok (vzip mul products (matT_vec ee (mcol phi n)))) l acc)
                 (fold_left (fun acc n => let* products := acc in
                    if skip && (Xget X n =? 0)%Z then Ok products else let* ee := exp_eta_scaled eta' (vget r n) in Ok (vzip mul products (matT_vec ee (mcol phi' n)))) l acc')).
      { induction l as [|n l IH]; intros acc acc' Hl Ha; cbn [fold_left]; [exact Ha|]. apply IH; [intros; apply Hl; now right|].
        apply (sim_bind cren); [exact Ha|]. intros p p' Hpp. apply sim_if; [reflexivity|now apply sim_ok|].
        apply (sim_bind eren); [now apply exp_eta_renamed|]. intros ee ee' Hee. apply sim_ok. apply (vren_zip lg C sc); [exact Pc|exact Hpp|].
        apply (mren_matT_vec lg K C sk sc Pk Pc); [exact Hee|]. apply col_same; [exact Hp|]. apply Hl. now left. }
      apply G; [intros n Hn; apply in_seq in Hn; lia|]. apply sim_ok. destruct (rows_of _ _ _ _ _ _ He) as (_ & _ & -> & ->). now apply vren_tab.
    Qed.
    Lemma fixed_point_sim x r y y' b b' eta eta' p p' h h' q q' : kren b b' -> eren eta eta' -> kren p p' -> kren h h' -> kren q q' -> y' < C -> y = sc y' ->
      sim kren (fixed_point x r y b eta p h q) (fixed_point x r y' b' eta' p' h' q').
    Proof.
      intros Hb He Hp Hh Hq Hy ->. unfold fixed_point. rewrite (vren_dot lg K sk h q h' q' Pk Hh Hq). apply (sim_bind kren).
      - apply exps; [exact Pk|]. pose proof Hq as (L & L' & _). rewrite L, L'. apply vren_tab; [exact Pk|]. intros i Hi.
        rewrite (vren_get lg K sk p p'), (mren_get lg K C sk sc eta eta'), (vren_get lg K sk h h') by assumption. reflexivity.
      - intros e e' Hee. apply sim_ok. assert (Hz : kren (vzip mul b e) (vzip mul b' e')) by now apply vren_zip.
        rewrite (vren_redux lg K sk _ _ Pk Hz). now apply vren_map.
    Qed.
    Lemma fixed_points_sim x r y y' b b' eta eta' p p' h h' : kren b b' -> eren eta eta' -> kren p p' -> kren h h' -> y' < C -> y = sc y' ->
      forall k q q', kren q q' -> sim kren (fixed_points k x r y b eta p h q) (fixed_points k x r y' b' eta' p' h' q').
    Proof.
      intros Hb He Hp Hh Hy Ey. induction k as [|k IH]; intros q q' Hq; cbn [fixed_points]; [now apply sim_ok|].
      apply (sim_bind kren); [now apply fixed_point_sim|]. intros t t' Ht. now apply IH.
    Qed.
    Lemma slda_word_sim X r y y' beta beta' eta eta' fpi n : n < V -> bren beta beta' -> eren eta eta' -> y' < C -> y = sc y' ->
      forall s s', sren s s' -> sim sren (slda_word dfuel X r y beta eta fpi s n) (slda_word dfuel X r y' beta' eta' fpi s' n).
    Proof.
      intros Hn Hb He Hy Ey s s' (S1 & S2 & S3 & S4 & S5). unfold slda_word. apply sim_if; [reflexivity|apply sim_ok; exact (conj S1 (conj S2 (conj S3 (conj S4 S5))))|].
      apply (sim_bind eren); [now apply exp_eta_renamed|]. intros ee ee' Hee.
      pose proof (col_same _ _ n S1 Hn) as Ho. pose proof (mren_matT_vec lg K C sk sc Pk Pc ee ee' _ _ Hee Ho) as Hf.
      pose proof (vren_zip lg C sc _ _ _ _ div Pc S3 Hf) as Hpr. pose proof (mren_mat_vec lg K C sk sc Pk Pc ee ee' _ _ Hee Hpr) as Hh.
      apply (sim_bind kren); [apply fixed_points_sim; try assumption; now apply col_same|]. intros q q' Hq.
      assert (Hg : kren (vtab (length (s_gamma s)) (fun i => add (vget (s_gamma s) i) (mul (ofZ (Xget X n)) (sub (vget q i) (vget (mcol (s_phi s) n) i)))))
                        (vtab (length (s_gamma s')) (fun i => add (vget (s_gamma s') i) (mul (ofZ (Xget X n)) (sub (vget q' i) (vget (mcol (s_phi s') n) i)))))).
      { pose proof S2 as (L & L' & _). rewrite L, L'. apply vren_tab; [exact Pk|]. intros i Hi.
        rewrite (vren_get lg K sk _ _ i S2), (vren_get lg K sk q q' i Hq), (vren_get lg K sk _ _ i Ho) by assumption. reflexivity. }
      apply (sim_bind kren); [now apply vren_psi|]. intros p p' Hp. apply sim_ok. split; [|split; [|split; [|split]]]; cbn [s_phi s_gamma s_products s_psi s_h oren]; try assumption.
      - unfold set_col. apply (mren_tab' lg K V sk sv Pk Pv); [exact S1|]. intros i j Hi Hj. rewrite Hw by assumption.
        rewrite (vren_get lg K sk q q' i Hq Hi), (mren_get lg K V sk sv _ _ i j S1 Hi Hj), Hw by assumption. reflexivity.
      - apply (vren_zip lg C sc); [exact Pc|exact Hpr|]. now apply (mren_matT_vec lg K C sk sc).
    Qed.
    Lemma slda_sim X r y y' beta beta' eta eta' fpi phi phi' g g' h h' : length X = V -> bren beta beta' -> eren eta eta' -> y' < C -> y = sc y' ->
      bren phi phi' -> kren g g' -> oren h h' ->
      sim sren (compute_supervised_phi_gamma dfuel X r y beta eta fpi phi g h) (compute_supervised_phi_gamma dfuel X r y' beta' eta' fpi phi' g' h').
    Proof.
      intros LX Hb He Hy Ey Hp Hg Hh. unfold compute_supervised_phi_gamma. apply (sim_bind kren); [now apply vren_psi|]. intros p p' Hps.
      apply (sim_bind cren); [now apply all_products_sim|]. intros q q' Hq. rewrite LX.
      assert (G : forall l acc acc', (forall n, In n l -> n < V) -> sim sren acc acc' ->
        sim sren (fold_left (fun acc n => let* s := acc in slda_word dfuel X r y beta eta fpi s n) l acc)
                 (fold_left (fun acc n => let* s := acc in slda_word dfuel X r y' beta' eta' fpi s n) l acc')).
      { induction l as [|n l IH]; intros acc acc' Hl Ha; cbn [fold_left]; [exact Ha|]. apply IH; [intros; apply Hl; now right|].
        apply (sim_bind sren); [exact Ha|]. intros s s' Hs. apply slda_word_sim; try assumption. apply Hl. now left. }
      apply G; [intros n Hn; apply in_seq in Hn; lia|]. apply sim_ok. exact (conj Hp (conj Hg (conj Hq (conj Hps Hh)))).
    Qed.
  End Words.

  (** ** Likelihoods *)
  Lemma vtab_mall_eq (m m' : mat R) (f f' : nat -> nat -> R) : bren m m' -> (forall i j, i < K -> j < V -> f' i j = f (sk i) (sv j)) ->
    redux (mall (mtab (mrows m') (ncols m') f')) = redux (mall (mtab (mrows m) (ncols m) f)).
  Proof. intros H E. apply (mren_mall lg K V sk sv Pk Pv). now apply (mren_tab' lg K V sk sv Pk Pv m m' f f' H). Qed.
  Lemma unsupervised_likelihood_sim X X' al al' beta beta' phi phi' g g' :
    list_renamed 0%Z V sv X X' -> kren al al' -> bren beta beta' -> bren phi phi' -> kren g g' ->
    sim eq (compute_unsupervised_likelihood dfuel X al beta phi g) (compute_unsupervised_likelihood dfuel X' al' beta' phi' g').
  Proof.
    intros HX Ha Hb Hp Hg. unfold compute_unsupervised_likelihood. rewrite (vren_redux lg K sk g g' Pk Hg), (vren_redux lg K sk al al' Pk Ha).
    apply (sim_bind eq); [apply sim_refl|]. intros dg ? <-. apply (sim_bind kren); [now apply vren_psi|]. intros p p' Hps.
    apply (sim_bind kren); [now apply vren_mapM|]. intros la la' Hla. apply (sim_bind kren); [now apply vren_mapM|]. intros lgg lgg' Hlg.
    apply sim_ok.
    assert (H2 : bren (mtab (mrows phi) (ncols phi) (fun i n => mul (mget phi i n) (if (Xget X n =? 0)%Z then zero else one)))
                      (mtab (mrows phi') (ncols phi') (fun i n => mul (mget phi' i n) (if (Xget X' n =? 0)%Z then zero else one)))).
    { apply (mren_tab' lg K V sk sv Pk Pv); [exact Hp|]. intros i j Hi Hj. rewrite (mren_get lg K V sk sv phi phi'), (Zren_get V sv X X') by assumption. reflexivity. }
    assert (Ht : kren (map (fun x => sub x dg) p) (map (fun x => sub x dg) p')) by now apply vren_map.
    rewrite (vren_dot lg K sk _ _ _ _ Pk (vren_map K sk al al' (fun x => sub x one) Pk Ha) Ht).
    rewrite (vren_dot lg K sk _ _ _ _ Pk (vren_map K sk g g' (fun x => sub x one) Pk Hg) Ht).
    rewrite (vren_redux lg K sk la la' Pk Hla), (vren_redux lg K sk lgg lgg' Pk Hlg).
    rewrite (vren_redux lg V sv _ _ Pv (mren_matT_vec lg K V sk sv Pk Pv _ _ _ _ H2 Ht)).
    rewrite (vtab_mall_eq phi phi' (fun i n => mul (mul (mget phi i n) (ofZ (Xget X n))) (slog (add (mget beta i n) tiny)))
      (fun i n => mul (mul (mget phi' i n) (ofZ (Xget X' n))) (slog (add (mget beta' i n) tiny))) Hp).
    2: { intros i j Hi Hj. rewrite (mren_get lg K V sk sv phi phi'), (mren_get lg K V sk sv beta beta'), (Zren_get V sv X X') by assumption. reflexivity. }
    f_equal. f_equal. symmetry. apply (vtab_mall_eq phi phi'); [exact Hp|]. intros i j Hi Hj. now rewrite (mren_get lg K V sk sv _ _ i j H2 Hi Hj).
  Qed.
  Lemma int_sum_renamed X X' : list_renamed 0%Z V sv X X' -> int_sum X' = int_sum X.
  Proof. intros H. unfold int_sum. now rewrite (Zren_sum V sv X X' Pv H). Qed.
  Lemma last_word_renamed p X X' n : list_renamed 0%Z V sv X X' -> last_word p X (length X) = Some n -> exists n', last_word p X' (length X') = Some n'.
  Proof.
    intros (L & L' & H) E. assert (G : forall k n, last_word p X k = Some n -> n < k /\ p (Xget X n) = true).
    { induction k as [|k IH]; intros t; cbn [last_word]; [discriminate|]. destruct (p (Xget X k)) eqn:Ep; [intros Et; injection Et as <-; split; [lia|exact Ep]|].
      intros Et. destruct (IH t Et). split; [lia|assumption]. }
    apply G in E. destruct E as [E1 E2]. rewrite L in E1. destruct (permutes_surj V sv Pv n E1) as (n' & Hn & <-).
    apply (last_word_some X' p (length X') n'); [lia|]. rewrite <- E2. f_equal. exact (H n' Hn).
  Qed.
  Lemma supervised_likelihood_h_sim X X' y y' al al' beta beta' eta eta' phi phi' g g' h h' :
    list_renamed 0%Z V sv X X' -> kren al al' -> bren beta beta' -> bren phi phi' -> kren g g' -> (h <> None -> h' <> None) ->
    sim (fun _ _ => True) (compute_supervised_likelihood_h dfuel X y al beta eta phi g h) (compute_supervised_likelihood_h dfuel X' y' al' beta' eta' phi' g' h').
  Proof.
    intros HX Ha Hb Hp Hg Hh. unfold compute_supervised_likelihood_h. apply (sim_bind eq); [now apply unsupervised_likelihood_sim|]. intros l ? <-.
    rewrite (int_sum_renamed X X' HX). apply (sim_bind eq); [apply sim_refl|]. intros N ? <-.
    destruct (last_word _ X _) as [n|] eqn:E; [|apply sim_fail]. destruct h as [h|]; [|apply sim_fail].
    destruct (last_word_renamed _ X X' n HX E) as (n' & ->). destruct h' as [h'|]; [now apply sim_ok|]. now elim Hh.
  Qed.
  Lemma supervised_likelihood_sim X X' y y' al al' beta beta' eta eta' phi phi' g g' :
    list_renamed 0%Z V sv X X' -> kren al al' -> bren beta beta' -> bren phi phi' -> kren g g' ->
    sim (fun _ _ => True) (compute_supervised_likelihood dfuel X y al beta eta phi g) (compute_supervised_likelihood dfuel X' y' al' beta' eta' phi' g').
  Proof.
    intros HX Ha Hb Hp Hg. unfold compute_supervised_likelihood. rewrite (int_sum_renamed X X' HX).
    apply (sim_bind eq); [apply sim_refl|]. intros N ? <-. apply (sim_bind (fun h h' : option (list R) => h <> None -> h' <> None)).
    - unfold compute_h. destruct (all_products_ok lg X true (ratio X N) eta phi) as (p & ->). destruct (all_products_ok lg X' true (ratio X' N) eta' phi') as (p' & ->).
      cbn [bind]. destruct (last_word _ X _) as [n|] eqn:E.
      + destruct (last_word_renamed _ X X' n HX E) as (n' & ->). rewrite !(exp_eta_R lg). cbn [bind]. apply sim_ok. discriminate.
      + destruct (last_word _ X' _); [rewrite (exp_eta_R lg)|]; cbn [bind]; now apply sim_ok.
    - intros h h' Hh. now apply supervised_likelihood_h_sim.
  Qed.
  Lemma multinomial_likelihood_sim X X' y y' al al' beta beta' eta eta' phi phi' g g' pr mu po :
    list_renamed 0%Z V sv X X' -> kren al al' -> bren beta beta' -> eren eta eta' -> bren phi phi' -> kren g g' -> y' < C -> y = sc y' ->
    sim eq (compute_supervised_multinomial_likelihood dfuel X y al beta eta phi g pr mu po)
           (compute_supervised_multinomial_likelihood dfuel X' y' al' beta' eta' phi' g' pr mu po).
  Proof.
    intros HX Ha Hb He Hp Hg Hy ->. unfold compute_supervised_multinomial_likelihood. apply (sim_bind eq); [now apply unsupervised_likelihood_sim|]. intros l ? <-.
    rewrite (int_sum_renamed X X' HX). apply (sim_bind eq); [apply sim_refl|]. intros N ? <-. apply sim_ok.
    rewrite (mren_mall_map lg K C sk sc Pk Pc eta eta' slog He). destruct (rows_of _ _ _ _ _ _ He) as (_ & _ & -> & ->).
    rewrite (vtab_mall_eq phi phi' (fun i n => mul (mul (mget phi i n) (ofZ (Xget X n))) (slog (mget eta i (sc y'))))
      (fun i n => mul (mul (mget phi' i n) (ofZ (Xget X' n))) (slog (mget eta' i y'))) Hp); [reflexivity|].
    intros i j Hi Hj. rewrite (mren_get lg K V sk sv phi phi'), (mren_get lg K C sk sc eta eta'), (Zren_get V sv X X') by assumption. reflexivity.
  Qed.
  Lemma correspondence_likelihood_sim X X' y y' al al' beta beta' eta eta' phi phi' g g' tau tau' mu po :
    list_renamed 0%Z V sv X X' -> kren al al' -> bren beta beta' -> eren eta eta' -> bren phi phi' -> kren g g' -> vren tau tau' -> y' < C -> y = sc y' ->
    sim eq (compute_supervised_correspondence_likelihood dfuel X y al beta eta phi g tau mu po)
           (compute_supervised_correspondence_likelihood dfuel X' y' al' beta' eta' phi' g' tau' mu po).
  Proof.
    intros HX Ha Hb He Hp Hg Ht Hy ->. unfold compute_supervised_correspondence_likelihood. apply (sim_bind eq); [now apply unsupervised_likelihood_sim|]. intros l ? <-.
    rewrite (int_sum_renamed X X' HX). apply (sim_bind eq); [apply sim_refl|]. intros N ? <-. apply sim_ok.
    rewrite (mren_mall_map lg K C sk sc Pk Pc eta eta' slog He). destruct (rows_of _ _ _ _ _ _ He) as (_ & _ & -> & ->).
    rewrite (vtab_mall_eq phi phi' (fun i n => mul (mul (mget phi i n) (mul (ofZ (Xget X n)) (vget tau n))) (slog (mget eta i (sc y'))))
      (fun i n => mul (mul (mget phi' i n) (mul (ofZ (Xget X' n)) (vget tau' n))) (slog (mget eta' i y'))) Hp).
    2: { intros i j Hi Hj. rewrite (mren_get lg K V sk sv phi phi'), (mren_get lg K C sk sc eta eta'), (Zren_get V sv X X'), (vren_get lg V sv tau tau') by assumption. reflexivity. }
    pose proof Ht as (L & L' & _). rewrite L, L'.
    rewrite (vren_redux lg V sv (vtab V (fun n => mul (mul (vget tau n) (ofZ (Xget X n))) (slog (add (vget tau n) tiny))))
      (vtab V (fun n => mul (mul (vget tau' n) (ofZ (Xget X' n))) (slog (add (vget tau' n) tiny)))) Pv); [reflexivity|].
    apply vren_tab; [exact Pv|]. intros n Hn. rewrite (vren_get lg V sv tau tau'), (Zren_get V sv X X') by assumption. reflexivity.
  Qed.

  (** ** E steps *)
  Definition result_renamed (k : e_step R) (x x' : vparams R * option R) : Prop :=
    posterior_renamed K V a (fst x) (fst x') /\ (plain_likelihood k -> snd x' = snd x).
  Lemma report_sim (P : Prop) emit (l l' : outcome R) : sim (fun x x' => P -> x' = x) l l' -> sim (fun x x' : option R => P -> x' = x) (report emit l) (report emit l').
  Proof.
    intros H. unfold report. destruct emit; [|now apply sim_ok]. apply (sim_bind (fun x x' => P -> x' = x)); [exact H|]. intros x x' E. apply sim_ok. intros p. now rewrite E.
  Qed.
  Lemma class_here (d d' : doc R) m m' y : model_renamed K V C a m m' -> class_ok y m = true -> forall y', label_renamed C a y y' ->
    class_ok y' m' = true /\ Z.to_nat y' < C /\ Z.to_nat y = sc (Z.to_nat y') /\ eren (p_eta m) (p_eta m').
  Proof.
    intros (_ & Hb & He) H y' Hl. unfold class_ok in *. rewrite !andb_true_iff in H. destruct H as ((H1 & H2) & H3). apply Nat.eqb_eq in H1. apply Z.leb_le in H2. apply Z.ltb_lt in H3.
    destruct He as [He|(He1 & He2 & He3)]; [|rewrite He3 in H3; lia]. destruct (rows_of _ _ _ _ _ _ He) as (E1 & E2 & E3 & E4). rewrite E3 in H3.
    destruct (rows_of _ _ _ _ _ _ Hb) as (B1 & B2 & _). rewrite E2, B2, E4, Nat.eqb_refl.
    destruct Hl as [[Hy ->]|[Hy ->]]; [|lia]. rewrite Nat2Z.id. repeat split; try apply He; try lia.
  Qed.
  Lemma sizes_here (d d' : doc R) m m' : model_renamed K V C a m m' -> doc_renamed V C a d d' -> sizes_ok d m = true /\ sizes_ok d' m' = true.
  Proof.
    intros ((A1 & A2 & _) & Hb & _) ((D1 & D2 & _) & _). destruct (rows_of _ _ _ _ _ _ Hb) as (B1 & B2 & B3 & B4).
    unfold sizes_ok. now rewrite A1, A2, B1, B2, B3, B4, D1, D2, !Nat.eqb_refl.
  Qed.
  Lemma init_renamed al al' N : kren al al' -> kren (init_gamma al N K) (init_gamma al' N K) /\ bren (init_phi K V) (init_phi K V) /\ kren (zeros K) (zeros K).
  Proof.
    intros H. split; [now apply vren_map|]. split; [now apply (mren_tab lg K V sk sv Pk Pv)|]. now apply vren_tab.
  Qed.
  Definition gp_renamed (s s' : list R * mat R) : Prop := kren (fst s) (fst s') /\ bren (snd s) (snd s').

  Lemma doc_e_step_sim k : (ordered_words k -> forall n, n < V -> sv n = n) ->
    forall epochs emit d d' m m', doc_renamed V C a d d' -> model_renamed K V C a m m' ->
    sim (result_renamed k) (doc_e_step dfuel k epochs emit d m) (doc_e_step dfuel k epochs emit d' m').
  Proof.
    induction k as [cf|cf fpi|cf ex w|ks IHs ku IHu|cf mu w|cf mu]; intros Hw epochs emit d d' m m' Hd Hm; cbn [doc_e_step];
      destruct (sizes_here d d' m m' Hm Hd) as [Z1 Z2]; pose proof Hd as (HX & Hy & Hn & Hpr); pose proof Hm as (Ha & Hb & _);
      pose proof (rows_of _ _ _ _ _ _ Hb) as (B1 & B2 & B3 & B4); pose proof HX as (X1 & X2 & _).
    - unfold unsupervised_doc_e_step. rewrite (int_sum_renamed _ _ HX). apply (sim_bind eq); [apply sim_refl|]. intros N ? <-. rewrite Z1, Z2, B1, B2, X1, X2.
      cbn [negb]. destruct (init_renamed _ _ N Ha) as (I1 & I2 & I3). apply (sim_bind gp_renamed).
      + apply (em_loop_sim lg gp_renamed K sk); try assumption; [intros ? ? X; apply X| |now split]. intros s s' [S1 S2].
        apply (sim_bind bren); [now apply unsupervised_phi_sim|]. intros phi phi' Hp. apply sim_ok. split; [now apply (gamma_renamed lg K V sk sv)|exact Hp].
      + intros [g phi] [g' phi'] [Hg Hp]. cbn [fst snd] in *. apply (sim_bind (fun x x' : option R => True -> x' = x)).
        * apply report_sim. eapply sim_weaken; [|now apply unsupervised_likelihood_sim]. intros; now symmetry.
        * intros e e' He. apply sim_ok. split; [|exact He]. split; [exact Hg|]. split; [exact Hp|]. now right.
    - unfold supervised_doc_e_step. assert (EX : d_words d' = d_words d) by (now apply same_words; [apply Hw|]). rewrite EX in *. clear X2. cbn [ordered_words] in Hw. specialize (Hw I).
      apply (sim_bind eq); [apply sim_refl|]. intros N ? <-. destruct (d_class d) as [y|]; [|apply sim_fail]. destruct (d_class d') as [y'|]; [|contradiction].
      rewrite Z1, Z2. cbn [andb]. destruct (class_ok y m) eqn:Ec; [|apply sim_fail]. destruct (class_here d d' m m' y Hm Ec y' Hy) as (-> & Cy & Ey & He). cbn [negb].
      rewrite B1, B2, X1. destruct (init_renamed _ _ N Ha) as (I1 & I2 & I3).
      apply (sim_bind (fun s s' : list R * mat R * option (list R) => gp_renamed (fst s) (fst s') /\ oren (snd s) (snd s'))).
      + apply (em_loop_sim lg (fun s s' : list R * mat R * option (list R) => gp_renamed (fst s) (fst s') /\ oren (snd s) (snd s')) K sk); try assumption;
          [intros ? ? X; apply X| |repeat split; try apply I1; apply I2]. intros [[g phi] h] [[g' phi'] h'] [[S1 S2] S3]. cbn [fst snd] in *.
        apply (sim_bind sren); [now apply slda_sim|]. intros s s' (T1 & T2 & T3 & T4 & T5). apply sim_ok. cbn [fst snd]. split; [now split|exact T5].
      + intros [[g phi] h] [[g' phi'] h'] [[Hg Hp] Hh]. cbn [fst snd] in *. apply (sim_bind (fun x x' : option R => False -> x' = x)).
        * apply report_sim. eapply sim_weaken; [|apply supervised_likelihood_h_sim; try eassumption]; [easy|]. destruct h, h'; cbn in Hh; congruence || contradiction.
        * intros e e' Hee. apply sim_ok. split; [|exact Hee]. split; [exact Hg|]. split; [exact Hp|]. now right.
    - unfold fast_supervised_doc_e_step. rewrite (int_sum_renamed _ _ HX). apply (sim_bind eq); [apply sim_refl|]. intros N ? <-.
      destruct (d_class d) as [y|]; [|apply sim_fail]. destruct (d_class d') as [y'|]; [|contradiction].
      rewrite Z1, Z2. cbn [andb]. destruct (class_ok y m) eqn:Ec; [|apply sim_fail]. destruct (class_here d d' m m' y Hm Ec y' Hy) as (-> & Cy & Ey & He). cbn [negb].
      rewrite B1, B2, X1, X2. destruct (init_renamed _ _ N Ha) as (I1 & I2 & I3). apply (sim_bind gp_renamed).
      + apply (em_loop_sim lg gp_renamed K sk); try assumption; [intros ? ? X; apply X| |now split]. intros s s' [S1 S2].
        apply (sim_bind bren); [apply approximate_phi_sim; try assumption; now apply ratio_renamed|]. intros phi phi' Hp. apply sim_ok. split; [now apply (gamma_renamed lg K V sk sv)|exact Hp].
      + intros [g phi] [g' phi'] [Hg Hp]. cbn [fst snd] in *. apply (sim_bind (fun x x' : option R => False -> x' = x)).
        * apply report_sim. eapply sim_weaken; [|apply supervised_likelihood_sim; eassumption]. easy.
        * intros e e' Hee. apply sim_ok. split; [|exact Hee]. split; [exact Hg|]. split; [exact Hp|]. now right.
    - unfold semi_supervised_doc_e_step. destruct (d_class d) as [y|] eqn:Ed; [|apply sim_fail]. destruct (d_class d') as [y'|] eqn:Ed'; [|contradiction].
      assert (Es : (y' <? 0)%Z = (y <? 0)%Z). { destruct Hy as [[Hy ->]|[_ ->]]; [|reflexivity]. destruct (Z.ltb_spec y' 0), (Z.ltb_spec (Z.of_nat (sc (Z.to_nat y'))) 0); lia || reflexivity. }
      rewrite Es. apply sim_if; [reflexivity| |].
      + eapply sim_weaken; [|apply IHu; try assumption; intros X; apply Hw; now right]. intros x x' [A B]. split; [exact A|]. intros [_ X]. now apply B.
      + eapply sim_weaken; [|apply IHs; try assumption; intros X; apply Hw; now left]. intros x x' [A B]. split; [exact A|]. intros [X _]. now apply B.
    - unfold multinomial_doc_e_step. rewrite (int_sum_renamed _ _ HX). apply (sim_bind eq); [apply sim_refl|]. intros N ? <-.
      destruct (d_class d) as [y|]; [|apply sim_fail]. destruct (d_class d') as [y'|]; [|contradiction].
      rewrite Z1, Z2. cbn [andb]. destruct (class_ok y m) eqn:Ec; [|apply sim_fail]. destruct (class_here d d' m m' y Hm Ec y' Hy) as (Ec' & Cy & Ey & He). rewrite Ec'. cbn [andb].
      destruct (Z.ltb_spec y (Z.of_nat (length (d_priors d)))) as [Lp|]; [|apply sim_fail]. cbn [negb].
      assert (Y0 : (0 <= y)%Z /\ (0 <= y')%Z). { unfold class_ok in Ec, Ec'. rewrite !andb_true_iff, !Z.leb_le in *. tauto. }
      specialize (Hpr (Z.to_nat y') Cy). rewrite <- Ey in Hpr.
      destruct (nth_error (d_priors d) (Z.to_nat y)) as [pr|] eqn:Np; [|apply nth_error_None in Np; lia].
      assert (Lp' : (y' < Z.of_nat (length (d_priors d')))%Z). { assert (Z.to_nat y' < length (d_priors d')); [apply nth_error_Some; congruence|lia]. }
      apply Z.ltb_lt in Lp'. rewrite Lp'. cbn [negb]. rewrite B1, B2, X1, X2. destruct (init_renamed _ _ N Ha) as (I1 & I2 & I3). apply (sim_bind gp_renamed).
      + apply (em_loop_sim lg gp_renamed K sk); try assumption; [intros ? ? X; apply X| |now split]. intros s s' [S1 S2].
        apply (sim_bind bren); [now apply multinomial_phi_sim|]. intros phi phi' Hp. apply sim_ok. split; [now apply (gamma_renamed lg K V sk sv)|exact Hp].
      + intros [g phi] [g' phi'] [Hg Hp]. cbn [fst snd] in *. apply (sim_bind (fun x x' : option R => True -> x' = x)).
        * apply report_sim. rewrite Hn. replace (vget (d_priors d') (Z.to_nat y')) with (vget (d_priors d) (Z.to_nat y)) by (unfold vget; erewrite !nth_error_nth by eassumption; reflexivity).
          eapply sim_weaken; [|apply multinomial_likelihood_sim; eassumption]. intros; now symmetry.
        * intros e e' Hee. apply sim_ok. split; [|exact Hee]. split; [exact Hg|]. split; [exact Hp|]. now right.
    - unfold correspondence_doc_e_step. rewrite (int_sum_renamed _ _ HX). apply (sim_bind eq); [apply sim_refl|]. intros N ? <-.
      destruct (d_class d) as [y|]; [|apply sim_fail]. destruct (d_class d') as [y'|]; [|contradiction].
      rewrite Z1, Z2. cbn [andb]. destruct (class_ok y m) eqn:Ec; [|apply sim_fail]. destruct (class_here d d' m m' y Hm Ec y' Hy) as (-> & Cy & Ey & He). cbn [negb].
      rewrite B1, B2, X1, X2. destruct (init_renamed _ _ N Ha) as (I1 & I2 & I3).
      pose (rel := fun s s' : list R * mat R * list R => gp_renamed (fst s) (fst s') /\ vren (snd s) (snd s')). apply (sim_bind rel).
      + apply (em_loop_sim lg rel K sk); try assumption; [intros ? ? X; apply X| |]. 
        * intros [[g phi] tau] [[g' phi'] tau'] [[S1 S2] S3]. cbn [fst snd] in *.
          apply (sim_bind bren); [now apply correspondence_phi_sim|]. intros f f' Hf. apply (sim_bind vren); [now apply tau_sim|]. intros t t' Ht.
          apply sim_ok. split; [split; [now apply (gamma_renamed lg K V sk sv)|exact Hf]|exact Ht].
        * split; [now split|]. now apply vren_tab.
      + intros [[g phi] tau] [[g' phi'] tau'] [[Hg Hp] Ht]. cbn [fst snd] in *. apply (sim_bind (fun x x' : option R => True -> x' = x)).
        * apply report_sim. rewrite Hn. eapply sim_weaken; [|apply correspondence_likelihood_sim; eassumption]. intros; now symmetry.
        * intros e e' Hee. apply sim_ok. split; [|exact Hee]. split; [exact Hg|]. split; [exact Hp|]. now left.
  Qed.
  Lemma posterior_sim k : (ordered_words k -> forall n, n < V -> sv n = n) ->
    forall epochs d d' m m', doc_renamed V C a d d' -> model_renamed K V C a m m' ->
    sim (posterior_renamed K V a) (posterior dfuel k epochs d m) (posterior dfuel k epochs d' m').
  Proof.
    intros Hw epochs d d' m m' Hd Hm. unfold posterior. apply (sim_bind (result_renamed k)); [now apply doc_e_step_sim|]. intros _ _ _.
    apply (sim_bind (result_renamed k)); [now apply doc_e_step_sim|]. intros [v e] [v' e'] [H _]. now apply sim_ok.
  Qed.
End Real.
