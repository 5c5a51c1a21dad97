(** Sums, vectors and matrices under renumbering, in exact arithmetic. *)
Require Import Reals ZArith List Arith Bool Lia Lra Permutation.
Require Import Verif.Base Verif.Scalar Verif.Mat Verif.UtilsModel Verif.UtilsProofs Verif.DigammaProofs
  Verif.BuilderModel Verif.EStepModel Verif.EStepReal Verif.OptModel Verif.LdaModel Verif.RenameSpec.
Import ListNotations.
Local Open Scope nat_scope.

(** If the first computation succeeds, so does the second, with a related result. *)
Definition sim {A B} (r : A -> B -> Prop) (x : outcome A) (y : outcome B) : Prop := forall a, x = Ok a -> exists b, y = Ok b /\ r a b.
Lemma sim_ok {A B} (r : A -> B -> Prop) a b : r a b -> sim r (Ok a) (Ok b).
Proof. intros H x E. injection E as <-. eauto. Qed.
Lemma sim_bind {A B A' B'} (r : A -> B -> Prop) (q : A' -> B' -> Prop) x y f g :
  sim r x y -> (forall a b, r a b -> sim q (f a) (g b)) -> sim q (bind x f) (bind y g).
Proof.
  intros H G c E. destruct x as [a| |]; try discriminate E. destruct (H a eq_refl) as (b & -> & R). exact (G a b R c E).
Qed.
Lemma sim_fail {A B} (r : A -> B -> Prop) y : sim r UB y.
Proof. intros a E. discriminate E. Qed.
Lemma sim_throw {A B} (r : A -> B -> Prop) e y : sim r (Throw e) y.
Proof. intros a E. discriminate E. Qed.
Lemma sim_refl {A} (x : outcome A) : sim eq x x.
Proof. intros a E. eauto. Qed.
Lemma sim_weaken {A B} (r q : A -> B -> Prop) x y : (forall a b, r a b -> q a b) -> sim r x y -> sim q x y.
Proof. intros H S a E. destruct (S a E) as (b & E' & R). eauto. Qed.
Lemma sim_if {A B} (r : A -> B -> Prop) (b b' : bool) x y x' y' : b = b' -> sim r x x' -> sim r y y' -> sim r (if b then x else y) (if b' then x' else y').
Proof. intros <-. now destruct b. Qed.

(** Permutations *)
Lemma permutes_id n : permutes n (fun i => i).
Proof. split; auto. Qed.
Lemma permutes_seq n s : permutes n s -> Permutation (map s (seq 0 n)) (seq 0 n).
Proof.
  intros [H1 H2]. apply NoDup_Permutation_bis.
  - assert (G : forall l, (forall i, In i l -> i < n) -> NoDup l -> NoDup (map s l)).
    { induction l as [|i l IH]; intros Hl ND; [constructor|]. inversion ND; subst. cbn. constructor.
      - intros I. apply in_map_iff in I. destruct I as (j & E & Hj). apply H2 in E; [subst; contradiction|apply Hl; now right|apply Hl; now left].
      - apply IH; auto. intros j Hj. apply Hl. now right. }
    apply G; [intros i Hi; apply in_seq in Hi; lia|apply seq_NoDup].
  - rewrite map_length, seq_length. lia.
  - intros x Hx. apply in_map_iff in Hx. destruct Hx as (i & <- & Hi). apply in_seq in Hi. apply in_seq. specialize (H1 i). lia.
Qed.
Lemma permutes_surj n s : permutes n s -> forall j, j < n -> exists i, i < n /\ s i = j.
Proof.
  intros H j Hj. assert (I : In j (map s (seq 0 n))).
  { eapply Permutation_in; [apply Permutation_sym, permutes_seq, H|]. apply in_seq. lia. }
  apply in_map_iff in I. destruct I as (i & E & Hi). apply in_seq in Hi. exists i. split; [lia|assumption].
Qed.
Lemma rsum_permutes n s f : permutes n s -> rsum n (fun i => f (s i)) = rsum n f.
Proof.
  intros H. unfold rsum, vtab. rewrite <- (map_map s f). apply lsum_perm, Permutation_map, permutes_seq, H.
Qed.

Section Real.
  Variable lg : R -> R.
  Local Hint Extern 0 (ops _) => exact (Rops lg) : typeclass_instances.

  (** ** Vectors *)
  Notation vren := (list_renamed (A := R) 0%R).
  Lemma redux_rsum (v : list R) : redux v = rsum (length v) (vget v).
  Proof. symmetry. exact (rsum_lsum v). Qed.
  Lemma redux_tab n (f : nat -> R) : redux (vtab n f) = rsum n f.
  Proof. reflexivity. Qed.
  Lemma vren_get n s v v' i : vren n s v v' -> i < n -> vget v' i = vget v (s i).
  Proof. intros (_ & _ & H) Hi. exact (H i Hi). Qed.
  Lemma vren_tab n s (f f' : nat -> R) : permutes n s -> (forall i, i < n -> f' i = f (s i)) -> vren n s (vtab n f) (vtab n f').
  Proof.
    intros P H. split; [apply vtab_length|]. split; [apply vtab_length|]. intros i Hi. rewrite !vtab_nth by (try apply P; assumption). now apply H.
  Qed.
  Lemma vren_redux n s v v' : permutes n s -> vren n s v v' -> redux v' = redux v.
  Proof.
    intros P H. rewrite !redux_rsum. destruct H as (L & L' & H). rewrite L, L', <- (rsum_permutes n s (vget v) P). apply rsum_ext. exact H.
  Qed.
  Lemma vren_map n s v v' (f : R -> R) : permutes n s -> vren n s v v' -> vren n s (map f v) (map f v').
  Proof.
    intros P (L & L' & H). split; [now rewrite map_length|]. split; [now rewrite map_length|]. intros i Hi.
    rewrite (nth_indep (map f v') 0%R (f 0%R)) by (rewrite map_length; lia). rewrite (nth_indep (map f v) 0%R (f 0%R)) by (rewrite map_length, L; now apply P).
    rewrite !map_nth. f_equal. now apply H.
  Qed.
  Lemma vmapM_get (f : R -> outcome R) v w : vmapM f v = Ok w <-> length w = length v /\ forall i, i < length v -> f (vget v i) = Ok (vget w i).
  Proof.
    unfold vmapM. revert w. induction v as [|x v IH]; intros w; cbn [map seqM length].
    - split; [intros E; injection E as <-; cbn; split; [reflexivity|intros; lia]|]. intros [E _]. now destruct w.
    - split.
      + intros E. destruct (f x) as [y| |] eqn:Ex; try discriminate E. cbn [bind] in E. destruct (seqM (map f v)) as [u| |] eqn:Eu; try discriminate E.
        cbn [bind] in E. injection E as <-. destruct (proj1 (IH u) eq_refl) as [L G]. split; [cbn; lia|]. intros [|i] Hi; [exact Ex|]. apply G. lia.
      + intros [L G]. destruct w as [|y w]; [discriminate L|]. rewrite (G 0 ltac:(lia) : f x = Ok y). cbn [bind].
        rewrite (proj2 (IH w)); [reflexivity|]. split; [now injection L|]. intros i Hi. exact (G (S i) ltac:(lia)).
  Qed.
  Lemma vren_mapM n s v v' (f : R -> outcome R) : permutes n s -> vren n s v v' -> sim (vren n s) (vmapM f v) (vmapM f v').
  Proof.
    intros P (L & L' & H) w E. apply vmapM_get in E. destruct E as [Lw G].
    exists (vtab n (fun i => vget w (s i))). assert (X : vren n s w (vtab n (fun i => vget w (s i)))).
    { split; [lia|]. split; [apply vtab_length|]. intros i Hi. rewrite vtab_nth by assumption. reflexivity. }
    split; [|exact X]. apply vmapM_get. split; [rewrite vtab_length; lia|]. intros i Hi. rewrite L' in Hi.
    rewrite (vget_tab n _ i Hi). change (vget v' i) with (nth i v' 0%R). rewrite H by assumption. apply G. rewrite L. now apply P.
  Qed.
  Lemma vren_dot n s a b a' b' : permutes n s -> vren n s a a' -> vren n s b b' -> dot a' b' = dot a b.
  Proof.
    intros P A B. unfold dot. rewrite !redux_tab. destruct A as (LA & LA' & HA). rewrite LA, LA', <- (rsum_permutes n s (fun i => mul (vget a i) (vget b i)) P).
    apply rsum_ext. intros i Hi. cbn. f_equal; [now apply HA|]. now apply (vren_get n s b b').
  Qed.
  Lemma vren_zip n s a b a' b' (f : R -> R -> R) : permutes n s -> vren n s a a' -> vren n s b b' -> vren n s (vzip f a b) (vzip f a' b').
  Proof.
    intros P A B. unfold vzip. destruct A as (LA & LA' & HA). rewrite LA, LA'. apply vren_tab; [exact P|]. intros i Hi. f_equal; [now apply HA|]. now apply (vren_get n s b b').
  Qed.
  Lemma vren_normalize n s v v' : permutes n s -> vren n s v v' -> vren n s (normalize_vec v) (normalize_vec v').
  Proof.
    intros P H. unfold normalize_vec. rewrite (vren_redux n s v v' P H). destruct (eqb _ _); [exact H|]. now apply vren_map.
  Qed.
  Lemma vren_psi n s dfuel v v' : permutes n s -> vren n s v v' -> sim (vren n s) (psi_of dfuel v) (psi_of dfuel v').
  Proof. intros. now apply vren_mapM. Qed.
  Lemma vren_sum n s v v' (f : R -> R) : permutes n s -> vren n s v v' -> redux (map f v') = redux (map f v).
  Proof. intros P H. apply (vren_redux n s); [exact P|]. now apply vren_map. Qed.

  (** ** Matrices *)
  Section Mats.
    Variables (r c : nat) (sr sc : nat -> nat).
    Hypothesis Pr : permutes r sr.
    Hypothesis Pc : permutes c sc.
    Notation mren := (mat_renamed r c sr sc).
    Lemma mren_tab (f f' : nat -> nat -> R) : (forall i j, i < r -> j < c -> f' i j = f (sr i) (sc j)) -> mren (mtab r c f) (mtab r c f').
    Proof.
      intros H. split; [reflexivity|]. split; [reflexivity|]. split; [apply ncols_tab|]. split; [apply ncols_tab|]. intros i j Hi Hj.
      rewrite !mget_tab; [now apply H|..]; first [assumption | now apply Pr | now apply Pc].
    Qed.
    (** with the dimensions taken from other matrices *)
    Lemma mren_tab' (m m' : mat R) (f f' : nat -> nat -> R) : mren m m' -> (forall i j, i < r -> j < c -> f' i j = f (sr i) (sc j)) ->
      mren (mtab (mrows m) (ncols m) f) (mtab (mrows m') (ncols m') f').
    Proof. intros (A & B & D & E & _). rewrite A, B, D, E. apply mren_tab. Qed.
    Lemma mren_get m m' i j : mren m m' -> i < r -> j < c -> mget m' i j = mget m (sr i) (sc j).
    Proof. intros (_ & _ & _ & _ & H). apply H. Qed.
    Lemma mren_col m m' j : mren m m' -> j < c -> vren r sr (mcol m (sc j)) (mcol m' j).
    Proof. intros H Hj. unfold mcol. destruct H as (A & B & _ & _ & H). rewrite A, B. apply vren_tab; [exact Pr|]. intros i Hi. now apply H. Qed.
    Lemma mren_row m m' i : mren m m' -> i < r -> vren c sc (mrow m (sr i)) (mrow m' i).
    Proof. intros H Hi. unfold mrow. destruct H as (_ & _ & A & B & H). rewrite A, B. apply vren_tab; [exact Pc|]. intros j Hj. now apply H. Qed.
    Lemma mren_normalize_cols m m' : mren m m' -> mren (normalize_cols m) (normalize_cols m').
    Proof.
      intros H. unfold normalize_cols. apply mren_tab'; [exact H|]. intros i j Hi Hj.
      rewrite (vren_redux r sr _ _ Pr (mren_col m m' j H Hj)), (mren_get m m' i j H Hi Hj). reflexivity.
    Qed.
    Lemma mren_normalize_rows m m' : mren m m' -> mren (normalize_rows m) (normalize_rows m').
    Proof.
      intros H. unfold normalize_rows. apply mren_tab'; [exact H|]. intros i j Hi Hj.
      rewrite (vren_redux c sc _ _ Pc (mren_row m m' i H Hi)), (mren_get m m' i j H Hi Hj). reflexivity.
    Qed.
    Lemma mren_mat_vec m m' v v' : mren m m' -> vren c sc v v' -> vren r sr (mat_vec m v) (mat_vec m' v').
    Proof.
      intros H Hv. unfold mat_vec. pose proof H as (A & B & _). rewrite A, B. apply vren_tab; [exact Pr|]. intros i Hi.
      apply (vren_dot c sc); [exact Pc|now apply mren_row|exact Hv].
    Qed.
    Lemma mren_matT_vec m m' v v' : mren m m' -> vren r sr v v' -> vren c sc (matT_vec m v) (matT_vec m' v').
    Proof.
      intros H Hv. unfold matT_vec. pose proof H as (_ & _ & A & B & _). rewrite A, B. apply vren_tab; [exact Pc|]. intros j Hj.
      apply (vren_dot r sr); [exact Pr|now apply mren_col|exact Hv].
    Qed.
    Lemma redux_concat (l : list (list R)) : redux (concat l) = lsum (map redux l).
    Proof. induction l as [|v l IH]; [reflexivity|]. cbn [concat map]. change (redux (v ++ concat l)) with (lsum (v ++ concat l)). rewrite lsum_app. change (lsum (concat l)) with (redux (concat l)). rewrite IH. reflexivity. Qed.
    Lemma redux_mall (m : mat R) : redux (mall m) = rsum (ncols m) (fun j => rsum (mrows m) (fun i => mget m i j)).
    Proof. unfold mall. rewrite redux_concat, vtab_map. reflexivity. Qed.
    Lemma mall_map (f : R -> R) (m : mat R) : map f (mall m) = mall (mtab (mrows m) (ncols m) (fun i j => f (mget m i j))).
    Proof.
      unfold mall. rewrite concat_map, vtab_map, ncols_tab. f_equal. apply vtab_ext. intros j Hj. unfold mcol. rewrite vtab_map. cbn [mrows mtab].
      apply vtab_ext. intros i Hi. now rewrite mget_tab.
    Qed.
    Lemma mren_mall m m' : mren m m' -> redux (mall m') = redux (mall m).
    Proof.
      intros H. rewrite !redux_mall. pose proof H as (A & B & D & E & _). rewrite A, B, D, E.
      rewrite <- (rsum_permutes c sc (fun j => rsum r (fun i => mget m i j)) Pc). apply rsum_ext. intros j Hj.
      rewrite <- (rsum_permutes r sr (fun i => mget m i (sc j)) Pr). apply rsum_ext. intros i Hi. now apply mren_get.
    Qed.
    Lemma mren_mall_map m m' (f : R -> R) : mren m m' -> redux (map f (mall m')) = redux (map f (mall m)).
    Proof. intros H. rewrite !mall_map. apply mren_mall. apply mren_tab'; [exact H|]. intros i j Hi Hj. f_equal. now apply mren_get. Qed.
    Lemma in_mall (m : mat R) x : In x (mall m) <-> exists i j, i < mrows m /\ j < ncols m /\ mget m i j = x.
    Proof.
      unfold mall. rewrite in_concat. split.
      - intros (v & Hv & Hx). unfold vtab in Hv. apply in_map_iff in Hv. destruct Hv as (j & <- & Hj). apply in_map_iff in Hx. destruct Hx as (i & <- & Hi).
        apply in_seq in Hi, Hj. exists i, j. repeat split; lia.
      - intros (i & j & Hi & Hj & <-). exists (mcol m j). split; [unfold vtab; apply in_map, in_seq; lia|]. unfold mcol, vtab. apply in_map_iff. exists i. split; [reflexivity|apply in_seq; lia].
    Qed.
    Lemma mren_in m m' x : mren m m' -> In x (mall m') <-> In x (mall m).
    Proof.
      intros H. rewrite !in_mall. pose proof H as (A & B & D & E & _). rewrite A, B, D, E. split.
      - intros (i & j & Hi & Hj & <-). exists (sr i), (sc j). split; [now apply Pr|]. split; [now apply Pc|]. symmetry. now apply mren_get.
      - intros (i & j & Hi & Hj & <-). destruct (permutes_surj r sr Pr i Hi) as (i' & Hi' & <-). destruct (permutes_surj c sc Pc j Hj) as (j' & Hj' & <-).
        exists i', j'. split; [assumption|]. split; [assumption|]. now apply mren_get.
    Qed.
    Lemma mren_mul m m' n n' : mren m m' -> mren n n' ->
      mren (mtab (mrows m) (ncols m) (fun i j => mul (mget m i j) (mget n i j))) (mtab (mrows m') (ncols m') (fun i j => mul (mget m' i j) (mget n' i j))).
    Proof. intros H H'. apply mren_tab'; [exact H|]. intros i j Hi Hj. rewrite (mren_get m m' i j), (mren_get n n' i j) by assumption. reflexivity. Qed.
  End Mats.

  Lemma max_from_spec l : forall b bi i, let x := fst (UtilsModel.max_from b bi i l) in (x = b \/ In x l) /\ (b <= x)%R /\ forall y, In y l -> (y <= x)%R.
  Proof.
    induction l as [|z l IH]; intros b bi i; cbn; [repeat split; auto; try lra; easy|].
    destruct (Rlt_dec b z) as [H|H].
    - destruct (IH z i (S i)) as (A & B & D). split; [destruct A; auto|]. split; [lra|]. intros y [->|Hy]; [exact B|now apply D].
    - destruct (IH b bi (S i)) as (A & B & D). split; [destruct A; auto|]. split; [exact B|]. intros y [->|Hy]; [lra|now apply D].
  Qed.
  Lemma max_coeff_spec (v : list R) x k : max_coeff v = Some (x, k) -> In x v /\ forall y, In y v -> (y <= x)%R.
  Proof.
    destruct v as [|b v]; [discriminate|]. cbn [max_coeff]. intros E. injection E as E. pose proof (max_from_spec v b 0 1) as S. rewrite E in S. cbn [fst] in S.
    destruct S as (A & B & D). split; [destruct A as [->|A]; [now left|now right]|]. intros y [<-|Hy]; auto.
  Qed.
  Lemma mren_max r c sr sc m m' : permutes r sr -> permutes c sc -> mat_renamed r c sr sc m m' ->
    match max_coeff (mall m), max_coeff (mall m') with
    | Some (x, _), Some (x', _) => x' = x
    | None, None => True
    | _, _ => False
    end.
  Proof.
    intros Pr Pc H. pose proof (fun x => mren_in r c sr sc Pr Pc m m' x H) as I.
    destruct (max_coeff (mall m)) as [[x k]|] eqn:E, (max_coeff (mall m')) as [[x' k']|] eqn:E'; try exact Logic.I.
    - apply max_coeff_spec in E, E'. destruct E as [A B], E' as [A' B']. apply Rle_antisym; [apply B, I, A'|apply B', I, A].
    - destruct (mall m') as [|z l] eqn:M; [|discriminate E']. apply max_coeff_spec in E. destruct E as [A _]. now apply I in A.
    - destruct (mall m) as [|z l] eqn:M; [|discriminate E]. apply max_coeff_spec in E'. destruct E' as [A _]. now apply I in A.
  Qed.

  (** weighted sums of columns *)
  Lemma Zren_get n s (X X' : list Z) i : list_renamed 0%Z n s X X' -> i < n -> Xget X' i = Xget X (s i).
  Proof. intros (_ & _ & H). apply H. Qed.
  Lemma Zren_sum n s (X X' : list Z) : permutes n s -> list_renamed 0%Z n s X X' -> Zsum X' = Zsum X.
  Proof.
    intros P (L & L' & H). apply eq_IZR. rewrite !Zsum_rsum, L, L'. rewrite <- (rsum_permutes n s (fun n => IZR (nth n X 0%Z)) P). apply rsum_ext. intros i Hi. now rewrite H.
  Qed.
  Lemma gamma_renamed K V sk sv X X' al al' phi phi' : permutes K sk -> permutes V sv ->
    list_renamed 0%Z V sv X X' -> vren K sk al al' -> mat_renamed K V sk sv phi phi' -> vren K sk (compute_gamma X al phi) (compute_gamma X' al' phi').
  Proof.
    intros Pk Pv HX Ha Hp. rewrite !compute_gamma_R. pose proof Ha as (A & B & _). rewrite A, B. apply vren_tab; [exact Pk|]. intros i Hi.
    rewrite (vren_get K sk al al' i Ha Hi). f_equal. pose proof Hp as (_ & _ & D & E & _). rewrite D, E.
    rewrite <- (rsum_permutes V sv (fun n => (IZR (nth n X 0%Z) * mget phi (sk i) n)%R) Pv). apply rsum_ext. intros n Hn.
    rewrite (mren_get K V sk sv phi phi') by assumption. destruct HX as (_ & _ & HX). now rewrite HX.
  Qed.
  Lemma sum_cols_renamed K V sk sv y y' z z' phi phi' : permutes K sk -> permutes V sv ->
    vren V sv y y' -> vren K sk z z' -> mat_renamed K V sk sv phi phi' -> vren K sk (sum_cols_scaled phi y z) (sum_cols_scaled phi' y' z').
  Proof.
    intros Pk Pv Hy Ha Hp. rewrite !sum_cols_R. pose proof Ha as (A & B & _). rewrite A, B. apply vren_tab; [exact Pk|]. intros i Hi.
    rewrite (vren_get K sk z z' i Ha Hi). f_equal. pose proof Hp as (_ & _ & D & E & _). rewrite D, E.
    rewrite <- (rsum_permutes V sv (fun n => (vget y n * mget phi (sk i) n)%R) Pv). apply rsum_ext. intros n Hn.
    rewrite (mren_get K V sk sv phi phi') by assumption. now rewrite (vren_get V sv y y' n Hy Hn).
  Qed.
  Lemma ratio_renamed V sv X X' N : permutes V sv -> list_renamed 0%Z V sv X X' -> vren V sv (ratio X N) (ratio X' N).
  Proof.
    intros P (L & L' & H). unfold ratio. split; [now rewrite map_length|]. split; [now rewrite map_length|]. intros i Hi.
    set (f := fun x : Z => div (ofZ x) (ofZ N)). rewrite (nth_indep (map f X') 0%R (f 0%Z)) by (rewrite map_length; lia).
    rewrite (nth_indep (map f X) 0%R (f 0%Z)) by (rewrite map_length, L; now apply P). rewrite !map_nth. f_equal. now apply H.
  Qed.
  Lemma converged_renamed K sk o o' g g' tol : permutes K sk -> vren K sk o o' -> vren K sk g g' -> converged o' g' tol = converged o g tol.
  Proof.
    intros P Ho Hg. unfold converged. pose proof Hg as (A & B & _). rewrite A, B. f_equal. f_equal. rewrite !redux_tab.
    rewrite <- (rsum_permutes K sk (fun i => sabs (sub (vget o i) (vget g i))) P). apply rsum_ext. intros i Hi.
    rewrite (vren_get K sk o o' i Ho Hi), (vren_get K sk g g' i Hg Hi). reflexivity.
  Qed.
  Lemma em_loop_sim {A B} (rel : A -> B -> Prop) K sk (ga : A -> list R) (gb : B -> list R) ua ub tol : permutes K sk ->
    (forall a b, rel a b -> vren K sk (ga a) (gb b)) -> (forall a b, rel a b -> sim rel (ua a) (ub b)) ->
    forall limit oa ob a b, vren K sk oa ob -> rel a b -> sim rel (em_loop limit tol ga ua oa a) (em_loop limit tol gb ub ob b).
  Proof.
    intros P Hg Hu. induction limit as [|limit IH]; intros oa ob a b Ho Hr; cbn [em_loop]; [now apply sim_ok|].
    rewrite (converged_renamed K sk oa ob (ga a) (gb b) tol P Ho (Hg a b Hr)). apply sim_if; [reflexivity|now apply sim_ok|].
    apply (sim_bind rel); [now apply Hu|]. intros a' b' Hr'. apply IH; auto.
  Qed.
End Real.
