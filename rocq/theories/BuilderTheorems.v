(** C20-C23: what the builder guarantees. *)
Require Import Reals ZArith List Arith Lia Lra.
Require Import Verif.Base Verif.Scalar Verif.Mat Verif.UtilsModel.
Require Import Verif.BuilderModel Verif.BuilderSpec Verif.BuilderProofs.
Import ListNotations.
Open Scope nat_scope.

(** C20: after any history of calls without undefined behaviour the conversion either
    throws or succeeds, and it throws exactly when there are no topics, or when a supervised step was
    chosen last and there are no supervised parameters. *)
Theorem C20_build_throws_iff_incomplete {T : Type} {O : ops T} :
  forall hw (h : list (bcall T)), Forall call_defined h ->
    (build hw h = Throw ERuntime <->
     topics_left (rev h) = 0 \/
     eta_left (rev h) = 0 /\ (e_supervised (rev h) = true \/ m_supervised (rev h) = true)) /\
    (build hw h = Throw ERuntime \/ exists cp, build hw h = Ok cp).
Proof. exact build_iff. Qed.

(** C20: initialising eta throws exactly when there are no topics at that moment. *)
Theorem C20_eta_before_topics_throws {T : Type} {O : ops T} :
  forall hw (h : list (bcall T)) cp n, run hw h = Ok cp ->
    (call cp (EtaZeros n) = Throw ERuntime <-> topics_left (rev h) = 0) /\
    (call cp (EtaUniform n) = Throw ERuntime <-> topics_left (rev h) = 0).
Proof. exact eta_call_throws. Qed.

(** C20: the built object carries the settings chosen last. *)
Theorem C20_last_settings_win {T : Type} {O : ops T} :
  forall hw (h : list (bcall T)) c p, build hw h = Ok (c, p) ->
    c_iterations c = iterations_left (rev h) /\ c_workers c = workers_left hw (rev h) /\
    c_e c = e_left (rev h) /\ c_m c = m_left (rev h) /\
    mrows (p_beta p) = topics_left (rev h) /\ mrows (p_eta p) = eta_left (rev h).
Proof. exact build_config. Qed.

Section Cases.
  Context {T : Type} {O : ops T}.
  Let draws : nat -> nat -> T := fun k w => ofZ (Z.of_nat (1 + k + w)).

  (** both outcomes happen *)
  Example C20_case_ok : exists cp,
    build 4 [SetWorkers 2; SetEStep EFastSupervised; TopicsRandom 5 3 draws; EtaZeros 2] = Ok cp.
  Proof. eexists. reflexivity. Qed.
  Example C20_case_no_eta :
    build 4 [SetEStep EFastSupervised; EtaZeros 2; TopicsRandom 5 3 draws] = Throw ERuntime.
  Proof. reflexivity. Qed.
  Example C20_case_no_topics : build 4 [SetIterations 7] = Throw (A:=config * params T) ERuntime.
  Proof. reflexivity. Qed.

  (** C21 is false: topics can be initialised again after eta, and the builder accepts it. *)
  Definition mismatch : list (bcall T) :=
    [SetEStep EFastSupervised; TopicsRandom 5 3 draws; EtaZeros 2; TopicsRandom 5 4 draws].
End Cases.

Theorem C21_refuted {T : Type} {O : ops T} :
  exists (h : list (bcall T)) c p,
    Forall call_defined h /\ Forall call_proper h /\
    build 4 h = Ok (c, p) /\ c_e c = EFastSupervised /\
    mrows (p_beta p) = 4 /\ mrows (p_eta p) = 3.
Proof.
  exists mismatch. eexists. eexists. repeat split; repeat constructor.
Qed.

(** C21, the part that holds: the prior always has an entry per topic, and the supervised
    parameters fit when eta was initialised (with zeros or uniformly) after the last topic
    initialisation.  Missing: topics initialised again later, and eta copied from a model
    of another size. *)
Theorem C21_consistent_partial {T : Type} {O : ops T} :
  forall hw (h : list (bcall T)) c p, Forall call_proper h -> build hw h = Ok (c, p) ->
    length (p_alpha p) = mrows (p_beta p) /\
    forall pre x post, h = pre ++ x :: post -> sizes_eta x = true ->
      (forall y, In y post -> sets_topics y = false /\ sets_eta y = false) ->
      mrows (p_eta p) = mrows (p_beta p).
Proof. exact build_consistent. Qed.

(** C22: seeded initialisation. *)
Theorem C22_seeded (lg : R -> R) (O := Rops lg) :
  forall (X : list (list Z)) k N draw (c : config) (p : params R) V,
    0 < V -> X <> [] -> (forall d, In d X -> length d = V) ->
    (forall d n, In d X -> In n d -> (0 <= n)%Z) ->
    exists q, call (c, p) (TopicsSeeded X k N draw) = Ok (c, q) /\
      length (p_alpha q) = k /\ (forall i, i < k -> vget (p_alpha q) i = (1 / INR k)%R) /\
      mrows (p_beta q) = k /\ ncols (p_beta q) = V /\ p_eta q = p_eta p /\
      forall i, i < k -> row_distribution (p_beta q) i V /\
        (forall w, w < V -> (0 < mget (p_beta q) i w)%R) /\
        (* topic i is proportional to one plus the words of the documents drawn for it *)
        exists t, (0 < t)%R /\ forall w, w < V ->
          (t * mget (p_beta q) i w = 1 + rsum N (fun r => IZR (nth w (nth (draw i r mod length X) X []) 0%Z)))%R.
Proof. exact (fun X k N draw c p V H1 H2 H3 H4 => topics_seeded_call lg X k N draw c p V H1 H2 H3 H4). Qed.

(** C22: random initialisation.  The draws come from uniform_real_distribution(0, 1); a topic all
    of whose draws are exactly zero cannot be normalised. *)
Theorem C22_random (lg : R -> R) (O := Rops lg) :
  forall V k (draw : nat -> nat -> R) (c : config) (p : params R),
    (forall i w, i < k -> w < V -> (0 <= draw i w < 1)%R) ->
    (forall i, i < k -> exists w, w < V /\ draw i w <> 0%R) ->
    exists q, call (c, p) (TopicsRandom V k draw) = Ok (c, q) /\
      length (p_alpha q) = k /\ (forall i, i < k -> vget (p_alpha q) i = (1 / INR k)%R) /\
      mrows (p_beta q) = k /\ ncols (p_beta q) = V /\ p_eta q = p_eta p /\
      forall i, i < k -> row_distribution (p_beta q) i V /\
        exists t, (0 < t)%R /\ forall w, w < V -> (t * mget (p_beta q) i w = draw i w)%R.
Proof. exact (fun V k draw c p H1 H2 => ex_intro _ _ (conj eq_refl (topics_random_R lg V k draw p H1 H2))). Qed.

(** C22: the supervised parameters of a builder that has topics. *)
Theorem C22_eta (lg : R -> R) (O := Rops lg) :
  forall (n : nat) (c : config) (p : params R), 0 < mrows (p_beta p) ->
  (exists q, call (c, p) (EtaZeros n) = Ok (c, q) /\ p_alpha q = p_alpha p /\ p_beta q = p_beta p /\
     mrows (p_eta q) = mrows (p_beta p) /\ ncols (p_eta q) = n /\
     forall i y, i < mrows (p_beta p) -> y < n -> mget (p_eta q) i y = 0%R) /\
  (exists q, call (c, p) (EtaUniform n) = Ok (c, q) /\ p_alpha q = p_alpha p /\ p_beta q = p_beta p /\
     mrows (p_eta q) = mrows (p_beta p) /\ ncols (p_eta q) = n /\
     forall i, i < mrows (p_beta p) -> (forall y, y < n -> mget (p_eta q) i y = (1 / INR n)%R) /\ (0 < n -> row_distribution (p_eta q) i n)).
Proof. exact (fun n c p => eta_calls lg n c p). Qed.

Example C22_case : forall d n, In d [[1; 0; 2]; [0; 3; 0]]%Z -> In n d -> (0 <= n)%Z.
Proof. cbn. intros d n [<-|[<-|[]]] H; cbn in H; intuition lia. Qed.

Example C22_case_random (lg : R -> R) (O := Rops lg) (c : config) (p : params R) :
  exists q, call (c, p) (TopicsRandom 4 3 (fun _ _ => / 2)%R) = Ok (c, q) /\
    forall i, i < 3 -> row_distribution (p_beta q) i 4.
Proof.
  destruct (C22_random lg 4 3 (fun _ _ => / 2)%R c p) as (q & E & _ & _ & _ & _ & _ & H).
  - intros; lra.
  - intros; exists 0; split; [lia|lra].
  - exists q. split; [exact E|]. intros i Hi. apply (H i Hi).
Qed.

(** C23 is false: two LDA objects from one builder always have the same parameters, and whatever
    training does to one it does to the other. *)
Theorem C23_refuted {T : Type} {O : ops T} :
  forall (h : list action) w l1 l2 o1 o2 f,
    acts h = Ok w -> nth_error (w_ldas w) l1 = Some o1 -> nth_error (w_ldas w) l2 = Some o2 ->
    l_builder o1 = l_builder o2 ->
    exists w' p, act w (Train l1 f) = Ok w' /\ lda_params w l1 = Some p /\ lda_params w l2 = Some p /\
      lda_params w' l1 = Some (f p) /\ lda_params w' l2 = Some (f p).
Proof. exact train_shared. Qed.

Section Aliasing.
  Context {T : Type} {O : ops T}.
  Let draws : nat -> nat -> T := fun k w => ofZ (Z.of_nat (1 + k + w)).
  Let two_ldas : list (@action T) := [New 4; Call 0 (TopicsRandom 5 3 draws); Build 0; Build 0].
  Example C23_refuted_case : exists w o1 o2,
    acts two_ldas = Ok w /\ nth_error (w_ldas w) 0 = Some o1 /\ nth_error (w_ldas w) 1 = Some o2 /\
    l_builder o1 = l_builder o2.
  Proof. repeat eexists. Qed.

  (** even a later call on the builder changes an LDA object already built *)
  Example C23_call_after_build : exists w p,
    acts (two_ldas ++ [Call 0 (TopicsRandom 5 8 draws)]) = Ok w /\
    lda_params w 0 = Some p /\ mrows (p_beta p) = 8.
  Proof. repeat eexists. Qed.

  Example C23_partial_case : exists w o1 o2,
    acts [New 4; New 4; Call 0 (TopicsRandom 5 3 draws); Call 1 (TopicsRandom 5 3 draws); Build 0; Build 1] = Ok w /\
    nth_error (w_ldas w) 0 = Some o1 /\ nth_error (w_ldas w) 1 = Some o2 /\ l_builder o1 <> l_builder o2.
  Proof. repeat eexists. cbn. discriminate. Qed.
End Aliasing.

(** C23, the part that holds: LDA objects from different builders are independent, of
    each other's training and of calls on the other builder.  Missing: objects from one builder. *)
Theorem C23_different_builders_partial {T : Type} {O : ops T} :
  forall (h : list action) w l2 o2, acts h = Ok w -> nth_error (w_ldas w) l2 = Some o2 ->
    (forall l1 o1 f, nth_error (w_ldas w) l1 = Some o1 -> l_builder o1 <> l_builder o2 ->
       exists w', act w (Train l1 f) = Ok w' /\ lda_params w' l2 = lda_params w l2 /\
         lda_params w' l1 = option_map f (lda_params w l1)) /\
    (forall b x w', l_builder o2 <> b -> act w (Call b x) = Ok w' -> lda_params w' l2 = lda_params w l2).
Proof.
  exact (fun h w l2 o2 H E2 => conj
    (fun l1 o1 f E1 N => train_separate h w l1 l2 o1 o2 f H E1 E2 N)
    (fun b x w' N A => call_separate h w l2 o2 b x w' H E2 N A)).
Qed.

Print Assumptions C20_build_throws_iff_incomplete.
Print Assumptions C20_eta_before_topics_throws.
Print Assumptions C20_last_settings_win.
Print Assumptions C21_refuted.
Print Assumptions C21_consistent_partial.
Print Assumptions C22_seeded.
Print Assumptions C22_random.
Print Assumptions C22_eta.
Print Assumptions C23_refuted.
Print Assumptions C23_different_builders_partial.
