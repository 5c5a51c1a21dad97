(** Properties C61, C62: what becomes of a model file whose writer was stopped. *)
Require Import ZArith NArith List Bool Arith Lia Ascii.
Require Import Verif.Base Verif.Scalar Verif.NumpyModel Verif.NumpySpec Verif.NumpyProofs Verif.CrashProofs Verif.DiskModel Verif.DiskProofs
  Verif.BuilderModel Verif.EStepModel Verif.OptModel Verif.MStepModel Verif.MStepSpec Verif.PoolModel Verif.LdaModel Verif.TrainFit Verif.AppsModel Verif.AppsSpec Verif.AppsProofs.
Import ListNotations.
Local Open Scope nat_scope.

(** A model as training produces it: column-major, alpha a column. *)
Definition saveable (m : model_file) : Prop :=
  valid_matrix F8 (mf_alpha m) /\ em_cols (mf_alpha m) = 1 /\ em_rowmajor (mf_alpha m) = false /\
  valid_matrix F8 (mf_beta m) /\ em_rowmajor (mf_beta m) = false /\
  valid_matrix F8 (mf_eta m) /\ em_rowmajor (mf_eta m) = false.

(** C61 is false: wherever the file of any model is cut inside eta's data, it is loaded without complaint, with the missing part of eta zero.
    ([c] bytes of eta's data were written; [element 8 bytes k] is the k-th double.) *)
Theorem C61_eta_refuted m fa fb fe c j1 j2 j3 :
  saveable m -> save false F8 (mf_alpha m) = Ok fa -> save false F8 (mf_beta m) = Ok fb -> save false F8 (mf_eta m) = Ok fe ->
  c < em_rows (mf_eta m) * em_cols (mf_eta m) * 8 ->
  save_lda false m = Ok (fa ++ fb ++ fe) /\
  exists header e, fe = header ++ concat (em_store (mf_eta m)) /\
    load_lda false j1 j2 j3 (mk_stream (firstn (length fa + length fb + length header + c) (fa ++ fb ++ fe)) true)
      = Ok (mk_model (mf_alpha m) (mf_beta m) e) /\
    em_rows e = em_rows (mf_eta m) /\ em_cols e = em_cols (mf_eta m) /\
    forall j i, j < em_rows e -> i < em_cols e ->
      em_get e j i = element 8 (firstn c (concat (em_store (mf_eta m))) ++ repeat Ascii.zero (em_rows e * em_cols e * 8 - c)) (i * em_rows e + j).
Proof.
  intros (Ha & Ha1 & Ha2 & Hb & Hb2 & He & He2) Sa Sb Se Hc. split; [unfold save_lda; now rewrite Sa, Sb, Se|].
  exact (data_cut_eta m fa fb fe Ha Ha1 Ha2 Hb Hb2 He He2 Sa Sb Se c j1 j2 j3 Hc).
Qed.
Print Assumptions C61_eta_refuted.
(** What holds: a file cut before the 24th byte of eta's array is never loaded. *)
Theorem C61_before_eta_partial m fa fb fe c j1 j2 j3 r :
  saveable m -> save false F8 (mf_alpha m) = Ok fa -> save false F8 (mf_beta m) = Ok fb -> save false F8 (mf_eta m) = Ok fe ->
  c < length fa + length fb + Nat.min 24 (length fe) ->
  load_lda false j1 j2 j3 (mk_stream (firstn c (fa ++ fb ++ fe)) true) <> Ok r.
Proof.
  intros (Ha & Ha1 & Ha2 & Hb & Hb2 & He & He2) Sa Sb Se Hc. exact (cut_early m fa fb fe Ha Ha1 Ha2 Hb Hb2 Sa Sb c j1 j2 j3 r Hc).
Qed.
Print Assumptions C61_before_eta_partial.
(** If alpha's or beta's data is incomplete, loading throws. *)
Theorem C61_data_partial m fa fb fe j1 j2 j3 :
  saveable m -> save false F8 (mf_alpha m) = Ok fa -> save false F8 (mf_beta m) = Ok fb -> save false F8 (mf_eta m) = Ok fe ->
  (forall c, c < em_rows (mf_alpha m) * em_cols (mf_alpha m) * 8 -> exists header, fa = header ++ concat (em_store (mf_alpha m)) /\
     load_lda false j1 j2 j3 (mk_stream (firstn (length header + c) (fa ++ fb ++ fe)) true) = Throw ERuntime) /\
  (forall c, c < em_rows (mf_beta m) * em_cols (mf_beta m) * 8 -> exists header, fb = header ++ concat (em_store (mf_beta m)) /\
     load_lda false j1 j2 j3 (mk_stream (firstn (length fa + length header + c) (fa ++ fb ++ fe)) true) = Throw ERuntime).
Proof.
  intros (Ha & Ha1 & Ha2 & Hb & Hb2 & He & He2) Sa Sb Se. split; intros c Hc.
  - exact (data_cut_alpha m fa fb fe Ha Ha1 Sa c j1 j2 j3 Hc).
  - exact (data_cut_beta m fa fb fe Ha Ha1 Ha2 Hb Sa Sb c j1 j2 j3 Hc).
Qed.
Print Assumptions C61_data_partial.

(** A model with two topics, two words and two classes. *)
Definition el8 (n : nat) : list ascii := [ascii_of_nat n; Ascii.zero; Ascii.zero; Ascii.zero; Ascii.zero; Ascii.zero; Ascii.zero; "?"%char].
Definition small_model : model_file :=
  mk_model (mk_emat 2 1 false [el8 1; el8 2]) (mk_emat 2 2 false [el8 3; el8 4; el8 5; el8 6]) (mk_emat 2 2 false [el8 7; el8 8; el8 9; el8 10]).
Example C61_case : saveable small_model.
Proof. repeat split; try (cbn; lia); repeat constructor. Qed.
(** Its file cut inside eta's header is undefined behaviour at one place and at another is loaded with one class, all zero. *)
Theorem C61_header_refuted j1 j2 j3 : exists file k1 k2 e,
  save_lda false small_model = Ok file /\ k1 < k2 < length file /\
  load_lda false j1 j2 j3 (mk_stream (firstn k1 file) true) = UB /\
  load_lda false j1 j2 j3 (mk_stream (firstn k2 file) true) = Ok (mk_model (mf_alpha small_model) (mf_beta small_model) e) /\
  em_rows e = 2 /\ em_cols e = 1 /\ Forall (eq (repeat Ascii.zero 8)) (em_store e).
Proof.
  exists (match save_lda false small_model with Ok f => f | _ => [] end), 240, 271, (mk_emat 2 1 false [repeat Ascii.zero 8; repeat Ascii.zero 8]).
  split; [vm_compute; reflexivity|]. split; [vm_compute; lia|]. split; [vm_compute; reflexivity|]. split; [vm_compute; reflexivity|].
  repeat split; repeat constructor.
Qed.
Print Assumptions C61_header_refuted.

(** C62. A training run that is stopped while it saves, wherever that is, leaves every snapshot saved before whole and the files of
    the later ones as they were.  [enc]: the bytes of a model; [d]: the disk before the run; [ws]: the saves of the run, the snapshots and
    then the final model; [k]: how many of them were complete. *)
Theorem C62_snapshots_survive {T} {O : ops T} dfuel {St} (M : maximizer T St) nw W docs st p tr ms st' p' path N (enc : params T -> list byte) (d : disk) :
  fit_heard dfuel M nw W docs st p tr ms st' p' ->
  0 < N -> (Z.of_nat N < 2 ^ 31)%Z -> (Z.of_nat (length ms) < 2 ^ 31)%Z ->
  exists l files, hear snap_event (new_snap path (Z.of_nat N)) tr = Ok (l, files) /\ snapshots_of path N ms files /\
    let ws := map (fun f => (fst f, enc (snd f))) files ++ [(path, enc (fst p'))] in
    forall k d', stopped d ws k d' ->
      (k <= length files -> d' path = d path \/ (k = length files /\ exists c, d' path = Some (firstn c (enc (fst p'))))) /\
      forall j name m, nth_error files j = Some (name, m) ->
        (j < k -> d' name = Some (enc m)) /\ (k < j -> d' name = d name) /\
        (j = k -> d' name = d name \/ exists c, d' name = Some (firstn c (enc m))).
Proof.
  intros H HN HN31 HL. destruct (snapshots_ok dfuel M nw W docs st p tr ms st' p' path N H HN HN31 HL) as (l & files & A & B & ND).
  exists l, files. split; [exact A|]. split; [exact B|]. intros ws k d' S.
  assert (NW : NoDup (map fst ws)) by (unfold ws; rewrite map_app, map_map; exact ND).
  assert (E : forall j name m, nth_error files j = Some (name, m) -> nth_error ws j = Some (name, enc m)).
  { intros j name m Hj. unfold ws. rewrite nth_error_app1 by (rewrite map_length; apply nth_error_Some; congruence).
    rewrite nth_error_map, Hj. reflexivity. }
  assert (EL : nth_error ws (length files) = Some (path, enc (fst p'))).
  { unfold ws. rewrite nth_error_app2 by (rewrite map_length; lia). now rewrite map_length, Nat.sub_diag. }
  split.
  - intros Hk. destruct (Nat.eq_dec k (length files)) as [->|].
    + destruct (stopped_current _ _ _ _ NW S _ _ EL) as [X|X]; auto.
    + left. refine (stopped_later _ _ _ _ NW S _ _ _ _ EL). lia.
  - intros j name m Hj. apply E in Hj. split; [|split].
    + intros. eapply stopped_earlier; eauto.
    + intros. eapply stopped_later; eauto.
    + intros ->. eapply stopped_current; eauto.
Qed.
Print Assumptions C62_snapshots_survive.
(** The case k = 1 of three saves, stopped inside the second. *)
Example C62_case d a b c x y z : stopped d [(a, x); (b, y); (c, z)] 1 (put (written_to d a x (length x)) b (firstn 5 y)).
Proof. exact (stop_within d [(a, x); (b, y); (c, z)] 1 b y 5 eq_refl). Qed.

(** It is false for a model saved over an older one of the same name: a process stopped right after it opened the file leaves neither. *)
Theorem C62_overwrite_refuted (d : disk) path old new j1 j2 j3 :
  d path = Some old -> exists d' left, stopped d [(path, new)] 0 d' /\ d' path = Some left /\
    forall r, load_lda false j1 j2 j3 (mk_stream left true) <> Ok r.
Proof.
  intros _. exists (written_to d path new 0), []. split; [exact (stop_within d [(path, new)] 0 path new 0 eq_refl)|].
  split; [unfold written_to; apply put_same|]. intros r.
  assert (S : exists fa fb fe, save false F8 (mf_alpha small_model) = Ok fa /\ save false F8 (mf_beta small_model) = Ok fb /\ save false F8 (mf_eta small_model) = Ok fe).
  { eexists _, _, _. repeat split; vm_compute; reflexivity. }
  destruct S as (fa & fb & fe & Sa & Sb & Se).
  refine (C61_before_eta_partial small_model fa fb fe 0 j1 j2 j3 r C61_case Sa Sb Se _).
  vm_compute in Sa. injection Sa as <-. cbn [length]. lia.
Qed.
Print Assumptions C62_overwrite_refuted.
