(** Model of the console applications (src/applications): the progress listeners, the snapshots, and the way
    lda, slda and fslda turn their options into builder calls. *)
Require Import ZArith List Bool Arith Permutation Ascii String.
Require Import Verif.Base Verif.Scalar Verif.Mat Verif.NumpyModel Verif.UtilsModel Verif.BuilderModel Verif.EStepModel Verif.OptModel
  Verif.MStepModel Verif.PoolModel Verif.LdaModel.
Import ListNotations.
Local Open Scope nat_scope.
Local Open Scope list_scope.

(** ** Listeners

    Events as a listener gets them (include/ldaplusplus/events/ProgressEvents.hpp 16-63).  A likelihood that was not computed is
    the NaN of the E steps, here [None].  An epoch event holds a pointer to the model parameters; here it
    shows them as they are when the listener is called. *)
Inductive notice (T : Type) :=
| Expectation (likelihood : option T)
| Maximization (likelihood : T)
| EpochEnd (model : params T).
Arguments Expectation {T}. Arguments Maximization {T}. Arguments EpochEnd {T}.

(** ++ on an int: undefined beyond 2^31 - 1 *)
Definition incr (z : Z) : outcome Z := if (z + 1 <? 2 ^ 31)%Z then Ok (z + 1)%Z else UB.

(** A listener fed with a list of events: its state afterwards and all it put out. *)
Fixpoint hear {L E A} (on_event : L -> E -> outcome (L * list A)) (l : L) (es : list E) : outcome (L * list A) :=
  match es with
  | [] => Ok (l, [])
  | e :: es => let* (l, a) := on_event l e in let* (l, b) := hear on_event l es in Ok (l, a ++ b)
  end.

Section Listeners.
  Context {T : Type}.

  (** SnapshotEvery.hpp 22-25: the data members *)
  Record snap := mk_snap { sn_path : list byte; sn_every : Z; sn_seen : Z }.
  (** SnapshotEvery.cpp 6-10 *)
  Definition new_snap (path : list byte) (every : Z) : snap := mk_snap path every 0.
  (** SnapshotEvery.cpp 15-19: the number is written with width 3 and fill '0' *)
  Definition pad3 (s : list byte) : list byte := repeat "0"%char (3 - List.length s) ++ s.
  Definition snapshot_name (path : list byte) (seen : Z) : list byte := path ++ ["_"%char] ++ pad3 (dec seen).
  (** SnapshotEvery.cpp 24-33.  Output: the files written, name and model (the bytes are [save_lda], NumpyModel.v). *)
  Definition snap_event (l : snap) (e : notice T) : outcome (snap * list (list byte * params T)) :=
    match e with
    | EpochEnd m =>
        let* seen := incr (sn_seen l) in
        if (sn_every l =? 0)%Z then UB
        else Ok (mk_snap (sn_path l) (sn_every l) seen,
                 if (Z.rem seen (sn_every l) =? 0)%Z then [(snapshot_name (sn_path l) seen, m)] else [])
    | _ => Ok (l, [])
    end.

  (** EpochProgress.hpp 21-25: the data members; the likelihood is an int *)
  Record eprogress := mk_eprogress { ep_epochs : Z; ep_likelihood : Z; ep_count : Z; ep_first : bool }.
  (** EpochProgress.cpp 5-10 *)
  Definition new_eprogress : eprogress := mk_eprogress 0 0 0 true.
  (** The lines it prints: "E-M Iteration n" and "Per document likelihood: n" *)
  Inductive line := LIteration (n : Z) | LLikelihood (n : Z).
  (** EpochProgress.cpp 12-40.  [finite]: std::isfinite.  Line 23: the int is converted to double, added, and the
      sum converted back, which truncates it and is undefined when it does not fit. *)
  Definition eprogress_event {O : ops T} (finite : T -> bool) (l : eprogress) (e : notice T) : outcome (eprogress * list line) :=
    match e with
    | Expectation r =>
        let* out := if ep_first l then let* n := incr (ep_epochs l) in Ok [LIteration n] else Ok [] in
        match r with
        | Some x =>
            if finite x && ltb x zero then
              match trunc (add (ofZ (ep_likelihood l)) x) with
              | Some z => let* c := incr (ep_count l) in Ok (mk_eprogress (ep_epochs l) z c false, out)
              | None => UB
              end
            else Ok (mk_eprogress (ep_epochs l) (ep_likelihood l) (ep_count l) false, out)
        | None => Ok (mk_eprogress (ep_epochs l) (ep_likelihood l) (ep_count l) false, out)
        end
    | Maximization _ => Ok (l, [])
    | EpochEnd _ =>
        let* out := if (ep_likelihood l <? 0)%Z
                    then if (ep_count l =? 0)%Z then UB else Ok [LLikelihood (Z.quot (ep_likelihood l) (ep_count l))]
                    else Ok [] in
        let* n := incr (ep_epochs l) in
        Ok (mk_eprogress n 0 0 true, out)
    end.

  (** ExpectationProgress.hpp 21-26, ExpectationProgress.cpp 5-22: the number of documents is printed every [xp_every] documents *)
  Record xprogress := mk_xprogress { xp_count : Z; xp_every : Z }.
  Definition new_xprogress (every : Z) : xprogress := mk_xprogress 0 every.
  Definition xprogress_event (l : xprogress) (e : notice T) : outcome (xprogress * list Z) :=
    match e with
    | Expectation _ =>
        let* n := incr (xp_count l) in
        if (xp_every l =? 0)%Z then UB
        else Ok (mk_xprogress n (xp_every l), if (Z.rem n (xp_every l) =? 0)%Z then [n] else [])
    | Maximization _ => Ok (l, [])
    | EpochEnd _ => Ok (mk_xprogress 0 (xp_every l), [])
    end.

  (** MaximizationProgress.cpp 5-20: every likelihood of the M step is printed; the state is the int m_iterations_ *)
  Definition mprogress_event (l : Z) (e : notice T) : outcome (Z * list T) :=
    match e with
    | Expectation _ => Ok (l, [])
    | Maximization x => let* n := incr l in Ok (n, [x])
    | EpochEnd _ => Ok (0%Z, [])
    end.
End Listeners.

(** ** What the listeners hear during fit *)
Section Heard.
  Context {T : Type} {O : ops T}.
  Variable dfuel : nat.
  Context {St : Type}.
  Variable M : maximizer T St.
  Variable k : e_step T.

  (** What a log of the worker pool tells a listener. *)
  Fixpoint notices {V} (l : list (obs V (@shared T) (option T) T)) : list (notice T) :=
    match l with
    | [] => []
    | ODeliver (Expect _ r) _ :: l => Expectation r :: notices l
    | ODeliver (Maxi x) _ :: l => Maximization x :: notices l
    | ODeliver Epoch p :: l => EpochEnd (fst p) :: notices l
    | _ :: l => notices l
    end.

  (** LDA::fit, LDA.cpp 64-81, called by the thread that built the object, as the applications do (lda.cpp 156, slda.cpp 192,
      fslda.cpp 265 and 295): all events heard, and the model each call of partial_fit leaves. *)
  Inductive fit_heard (W : nat) (docs : list (doc T)) :
    outcome St -> @shared T -> list (notice T) -> list (params T) -> outcome St -> @shared T -> Prop :=
  | heard_nothing st p : fit_heard W docs st p [] [] st p
  | heard_epoch st p docs' (s : state (outcome (vparams T)) (@shared T) (outcome St) (option T) T) tr ms st' p' :
      Permutation docs docs' ->
      reachable (train_estep dfuel k docs') (train_feed M docs') train_e_end (train_m_end M) Fit true (List.length docs') W st p s ->
      main s = MDone ->
      fit_heard W docs (priv s) (param s) tr ms st' p' ->
      fit_heard W docs st p (notices (log s) ++ tr) (fst (param s) :: ms) st' p'.
End Heard.

(** ** Options

    docopt::value (the docopt.cpp library, not part of the repository): empty when the option is not given, else a flag, a number
    or a text; it converts to bool as "not empty", asString throws std::runtime_error unless it is a text, asBool unless
    it is a flag, and asLong reads a text as a number. *)
Inductive value := VEmpty | VBool (b : bool) | VLong (z : Z) | VString (s : string).

Section Options.
  Context {T : Type} {O : ops T}.
  (** std::map::operator[]: a key that is not there gives an empty value *)
  Variable args : string -> value.
  (** std::stol and std::stof on a text; what load_lda makes of the file with a name (NumpyModel.v); the draws of a generator seeded
      with a number; hardware_concurrency() *)
  Variable stol : string -> outcome Z.
  Variable stof : string -> outcome T.
  Variable model_at : string -> outcome (params T).
  Variable uniform_draws : Z -> nat -> nat -> T.
  Variable document_draws : Z -> nat -> nat -> nat.
  Variable hw : nat.

  Definition given (v : value) : bool := match v with VEmpty => false | _ => true end.
  Definition asString (v : value) : outcome string := match v with VString s => Ok s | _ => Throw ERuntime end.
  Definition asBool (v : value) : outcome bool := match v with VBool b => Ok b | _ => Throw ERuntime end.
  Definition asLong (v : value) : outcome Z :=
    match v with VLong z => Ok z | VString s => stol s | _ => Throw ERuntime end.
  (** long to size_t *)
  Definition size (z : Z) : nat := Z.to_nat (wrap64 z).
  Definition long_arg (key : string) : outcome Z := asLong (args key).
  Definition float_arg (key : string) : outcome T := let* s := asString (args key) in stof s.

  (** The builder while it is configured; the setters' numeric arguments must parse but are left out, as in BuilderModel.v. *)
  Definition bstate : Type := config * params T.

  (** set_iterations and set_workers (lda.cpp 28-29, slda.cpp 29-30, fslda.cpp 26-27) *)
  Definition set_counts (b : bstate) : outcome bstate :=
    let* n := long_arg "--iterations" in let* b := call b (SetIterations (size n)) in
    let* n := long_arg "--workers" in call b (SetWorkers (size n)).
  (** y.maxCoeff() + 1 (slda.cpp 59 and others): undefined (an assertion) without labels *)
  Definition classes_of (y : list Z) : outcome nat :=
    match y with [] => UB | c :: r => Ok (size (fold_left Z.max r c + 1)) end.

  (** The last two branches of the initialisation (lda.cpp 43-56, slda.cpp 61-77, fslda.cpp 58-75).  [words]: X.rows(). *)
  Definition fresh_topics (words : nat) (X : list (list Z)) (b : bstate) : outcome bstate :=
    let* r := asBool (args "--initialize_random") in
    let* K := long_arg "--topics" in
    let* seed := long_arg "--random_state" in
    if r then call b (TopicsRandom words (size K) (uniform_draws seed))
    else call b (TopicsSeeded X (size K) 30 (document_draws seed)).

  (** lda.cpp 19-63, create_lda_for_train *)
  Definition lda_train (words : nat) (X : list (list Z)) : outcome bstate :=
    let* b := set_counts (new_config hw, empty_params) in
    let* _ := long_arg "--e_step_iterations" in let* _ := float_arg "--e_step_tolerance" in
    let* _ := float_arg "--compute_likelihood" in let* _ := long_arg "--random_state" in
    let* b := call b (SetEStep EClassic) in
    let* b := if given (args "--continue")
              then let* f := asString (args "--continue") in let* m := model_at f in call b (TopicsFromModel m)
              else fresh_topics words X b in
    let* b := call b (EtaZeros 1) in
    let* _ := check_build (fst b) (snd b) in Ok b.

  (** slda.cpp 48-77 and fslda.cpp 39-76: the initialisation of topics and eta.  The second branch asks for --continue again. *)
  Definition supervised_init (words : nat) (X : list (list Z)) (y : list Z) (b : bstate) : outcome bstate :=
    if given (args "--continue") then
      let* f := asString (args "--continue") in let* m := model_at f in
      let* b := call b (TopicsFromModel m) in call b (EtaFromModel m)
    else if given (args "--continue_from_unsupervised") then
      let* f := asString (args "--continue") in let* m := model_at f in
      let* b := call b (TopicsFromModel m) in let* C := classes_of y in call b (EtaZeros C)
    else
      let* b := fresh_topics words X b in let* C := classes_of y in call b (EtaZeros C).

  (** slda.cpp 19-81, create_lda_for_train *)
  Definition slda_train (words : nat) (X : list (list Z)) (y : list Z) : outcome bstate :=
    let* b := set_counts (new_config hw, empty_params) in
    let* _ := long_arg "--e_step_iterations" in let* _ := float_arg "--e_step_tolerance" in
    let* _ := long_arg "--fixed_point_iterations" in
    let* _ := float_arg "--compute_likelihood" in let* _ := long_arg "--random_state" in
    let* b := call b (SetEStep ESupervised) in
    let* _ := long_arg "--m_step_iterations" in let* _ := float_arg "--m_step_tolerance" in
    let* _ := float_arg "--regularization_penalty" in
    let* b := call b (SetMStep MSupervised) in
    let* b := supervised_init words X y b in
    let* _ := check_build (fst b) (snd b) in Ok b.

  (** fslda.cpp 20-37 *)
  Definition fslda_e_step (b : bstate) : outcome bstate :=
    let* b := set_counts b in
    let* _ := long_arg "--e_step_iterations" in let* _ := float_arg "--e_step_tolerance" in
    let* _ := float_arg "--supervised_weight" in
    let* _ := float_arg "--compute_likelihood" in let* _ := long_arg "--random_state" in
    call b (SetEStep EFastSupervised).
  (** fslda.cpp 107-122, create_lda_for_train; 78-88 *)
  Definition fslda_train (words : nat) (X : list (list Z)) (y : list Z) : outcome bstate :=
    let* b := fslda_e_step (new_config hw, empty_params) in
    let* _ := long_arg "--m_step_iterations" in let* _ := float_arg "--m_step_tolerance" in
    let* _ := float_arg "--regularization_penalty" in
    let* b := call b (SetMStep MFastSupervised) in
    let* b := supervised_init words X y b in
    let* _ := check_build (fst b) (snd b) in Ok b.
  (** fslda.cpp 124-140, create_lda_for_online_train; 91-105.  The class weights are [class_weights] (UtilsModel.v). *)
  Definition fslda_online_train (words : nat) (X : list (list Z)) (y : list Z) : outcome bstate :=
    let* b := fslda_e_step (new_config hw, empty_params) in
    let* _ := float_arg "--regularization_penalty" in let* _ := long_arg "--batch_size" in
    let* _ := float_arg "--momentum" in let* _ := float_arg "--learning_rate" in let* _ := float_arg "--beta_weight" in
    let* b := call b (SetMStep MFastOnline) in
    let* b := supervised_init words X y b in
    let* _ := check_build (fst b) (snd b) in Ok b.

  (** create_lda_for_transform: lda.cpp 65-82 (eta left alone), slda.cpp 83-103, fslda.cpp 142-162 *)
  Definition transform_builder (supervised : bool) (m : params T) : outcome bstate :=
    let* n := long_arg "--workers" in
    let* b := call (new_config hw, empty_params) (SetWorkers (size n)) in
    let* _ := long_arg "--e_step_iterations" in let* _ := float_arg "--e_step_tolerance" in
    let* b := call b (SetEStep EClassic) in
    let* b := call b (TopicsFromModel m) in
    let* b := if supervised then call b (EtaFromModel m) else Ok b in
    let* _ := check_build (fst b) (snd b) in Ok b.
  (** The transform commands, lda.cpp 164-172, slda.cpp 200-209, fslda.cpp 303-312, up to the LDA object *)
  Definition transform_command (supervised : bool) : outcome bstate :=
    let* f := asString (args "MODEL") in let* m := model_at f in transform_builder supervised m.

  (** The snapshot option (lda.cpp 148-153, slda.cpp 184-189, fslda.cpp 257-262 and 287-292): tested as a long, then
      converted to the int the listener takes. *)
  Definition snapshot_option : outcome (option snap) :=
    let* n := long_arg "--snapshot_every" in
    if (0 <? n)%Z then let* path := asString (args "MODEL") in Ok (Some (new_snap (bytes path) (wrap32 n))) else Ok None.
End Options.
