(** Model of the application in the root directory, slda.cpp (CMakeLists.txt does not build it: its slda is src/applications/slda.cpp): the score
    it prints, its listeners, its choice of the steps, and its commands train, transform and evaluate.

    save_lda (37-57), load_lda (60-76), parse_input_data (242-257), create_class_weights (259-270) and SnapshotEvery (144-176) are the functions of
    src/applications word for word, and are modelled there (NumpyModel.v, OptModel.v, AppsModel.v).  Simplifications: as in CommandModel.v; the
    counters of the listeners that are printed are ints, the others are unbounded. *)
Require Import ZArith List Bool Arith Ascii String.
Require Import Verif.Base Verif.Scalar Verif.Mat Verif.NumpyModel Verif.HostModel Verif.DiskModel Verif.UtilsModel Verif.BuilderModel
  Verif.EStepModel Verif.OptModel Verif.MStepModel Verif.PoolModel Verif.LdaModel Verif.SettingsModel Verif.AppsModel Verif.CommandModel.
Import ListNotations.
Local Open Scope nat_scope.
Local Open Scope list_scope.
Local Notation length := List.length.

(** ** The score *)
Section Score.
  Context {T : Type} {O : ops T}.
  (** slda.cpp 24-35; y_true(i) past the end is undefined (an assertion) *)
  Definition accuracy_score (y_true y_pred : list Z) : outcome T :=
    fold_left (fun acc i =>
      let* accuracy := acc in
      match nth_error y_true i with
      | Some c => Ok (if (nth i y_pred 0%Z =? c)%Z then add accuracy (div one (ofZ (Z.of_nat (length y_pred)))) else accuracy)
      | None => UB
      end) (seq 0 (length y_pred)) (Ok zero).
End Score.

(** ** The listeners *)
Section Listeners.
  Context {T : Type} {O : ops T}.

  (** slda.cpp 134-141: the data members (output_em_step_ is not used) *)
  Record tprogress := mk_tprogress { tp_e : Z; tp_m : Z; tp_em : Z; tp_likelihood : T; tp_count : Z }.
  (** 82-89 *)
  Definition new_tprogress : tprogress := mk_tprogress 0 0 1 zero 0.
  (** The lines it prints: "E-M Iteration n", the number of documents, "log p(y | \bar{z}, eta): x" and "Per document likelihood: x" *)
  Inductive tline := TIteration (n : Z) | TDocuments (n : Z) | TLogistic (x : T) | TLikelihood (x : T).
  (** 91-132.  [finite]: std::isfinite *)
  Definition tprogress_event (finite : T -> bool) (l : tprogress) (e : notice T) : outcome (tprogress * list tline) :=
    match e with
    | Expectation r =>
        let head := if (tp_e l =? 0)%Z then [TIteration (tp_em l)] else [] in
        let* n := incr (tp_e l) in
        let out := head ++ (if (Z.rem n 100 =? 0)%Z then [TDocuments n] else []) in
        match r with
        | Some x =>
            if finite x && ltb x zero
            then let* c := incr (tp_count l) in Ok (mk_tprogress n (tp_m l) (tp_em l) (add (tp_likelihood l) x) c, out)
            else Ok (mk_tprogress n (tp_m l) (tp_em l) (tp_likelihood l) (tp_count l), out)
        | None => Ok (mk_tprogress n (tp_m l) (tp_em l) (tp_likelihood l) (tp_count l), out)
        end
    | Maximization x =>
        let* m := incr (tp_m l) in Ok (mk_tprogress (tp_e l) m (tp_em l) (tp_likelihood l) (tp_count l), [TLogistic x])
    | EpochEnd _ =>
        let out := if ltb (tp_likelihood l) zero then [TLikelihood (div (tp_likelihood l) (ofZ (tp_count l)))] else [] in
        let* n := incr (tp_em l) in Ok (mk_tprogress 0 0 n zero 0, out)
    end.

  (** slda.cpp 229-239: the data members that outlive an event.  A time is a number of ticks since the clock's epoch, which is what a
      time_point is without initialisation. *)
  Record watch := mk_watch { sw_e_start : Z; sw_m_start : Z; sw_e : nat; sw_m : nat }.
  (** 185-187 *)
  Definition new_watch : watch := mk_watch 0 0 0 0.
  (** What it prints at the end of an epoch: the duration of the E step and of the M step, and the numbers of events these are divided by *)
  Record took := mk_took { t_expectation : Z; t_documents : nat; t_maximization : Z; t_iterations : nat }.
  (** 189-227: an event and the time it is heard *)
  Definition watch_event (l : watch) (te : Z * notice T) : outcome (watch * list took) :=
    let (t, e) := te in
    match e with
    | Expectation _ => Ok (mk_watch (if Nat.eqb (sw_e l) 0 then t else sw_e_start l) (sw_m_start l) (S (sw_e l)) (sw_m l), [])
    | Maximization _ => Ok (mk_watch (sw_e_start l) (if Nat.eqb (sw_m l) 0 then t else sw_m_start l) (sw_e l) (S (sw_m l)), [])
    | EpochEnd _ =>
        Ok (mk_watch (sw_e_start l) (sw_m_start l) 0 0,
            [mk_took (sw_m_start l - sw_e_start l) (sw_e l) (t - sw_m_start l) (sw_m l)])
    end.
End Listeners.
Arguments tprogress : clear implicits. Arguments tline : clear implicits.

(** ** The commands *)
Section Commands.
  Context {T : Type} {O : ops T}.
  Variable to_bytes : T -> elem.
  Variable of_bytes : elem -> T.
  Variables dfuel ofuel : nat.
  Variable args : string -> value.
  Variable stol : string -> outcome Z.
  Variable stof : string -> outcome T.
  Variable document_draws : Z -> nat -> nat -> nat.
  Variable hw : nat.
  Variable jk : nat -> junk.
  Variable device : disk -> list (list byte * list byte) -> disk -> Prop.
  Notation long_arg := (long_arg args stol).
  Notation float_arg := (float_arg args stof).
  Notation flag key := (asBool (args key)).
  Notation model_at := (model_at of_bytes jk).
  Notation sp := (settings T * params T)%type.

  (** static_cast<double>(args["--show_likelihood"].asBool()) *)
  Definition show_likelihood : outcome T := let* b := flag "--show_likelihood" in Ok (if b then one else zero).

  (** slda.cpp 284-332: the E step *)
  Definition root_e_step (b : sp) : outcome sp :=
    let* semi := flag "--semi_supervised" in
    if semi then
      let* i := long_arg "--e_step_iterations" in let* t := float_arg "--e_step_tolerance" in let* f := long_arg "--fixed_point_iterations" in
      scall_step b (SetSemiE (Some (get_supervised_e_step (size i) t (size f) one)) (Some (get_classic_e_step (size i) t one)))
    else
    let* unsupervised := flag "--unsupervised_e_step" in
    if unsupervised then
      let* i := long_arg "--e_step_iterations" in let* t := float_arg "--e_step_tolerance" in let* l := show_likelihood in
      scall_step b (SetClassicE (Some (size i)) (Some t) (Some l))
    else
    let* fast := flag "--fast_e_step" in
    if fast then
      let* i := long_arg "--e_step_iterations" in let* t := float_arg "--e_step_tolerance" in let* w := float_arg "--supervised_weight" in
      let* l := show_likelihood in
      scall_step b (SetFastE (Some (size i)) (Some t) (Some w) (Some l))
    else
    let* multinomial := flag "--multinomial" in
    if multinomial then
      let* i := long_arg "--e_step_iterations" in let* t := float_arg "--e_step_tolerance" in let* mu := float_arg "--mu" in
      let* w := float_arg "--eta_weight" in let* l := show_likelihood in
      scall_step b (SetMultinomialE (Some (size i)) (Some t) (Some mu) (Some w) (Some l))
    else
    let* correspondence := flag "--correspondence" in
    if correspondence then
      let* i := long_arg "--e_step_iterations" in let* t := float_arg "--e_step_tolerance" in let* mu := float_arg "--mu" in
      let* l := show_likelihood in
      scall_step b (SetCorrespondenceE (Some (size i)) (Some t) (Some mu) (Some l))
    else
      let* i := long_arg "--e_step_iterations" in let* t := float_arg "--e_step_tolerance" in let* f := long_arg "--fixed_point_iterations" in
      let* l := show_likelihood in
      scall_step b (SetSupervisedE (Some (size i)) (Some t) (Some (size f)) (Some l)).

  (** 334-370: the M step *)
  Definition root_m_step (y : list Z) (b : sp) : outcome sp :=
    let* semi := flag "--semi_supervised" in
    if semi then
      let* i := long_arg "--m_step_iterations" in let* t := float_arg "--m_step_tolerance" in let* L := float_arg "--regularization_penalty" in
      scall_step b (SetSemiM (Some (size i)) (Some t) (Some L))
    else
    let* online := flag "--online_m_step" in
    if online then
      let* w := class_weights y in
      let* L := float_arg "--regularization_penalty" in let* n := long_arg "--batch_size" in let* mo := float_arg "--momentum" in
      let* lr := float_arg "--learning_rate" in let* bw := float_arg "--beta_weight" in
      scall_step b (SetOnlineM (Matrix w) (Some L) (Some (size n)) (Some mo) (Some lr) (Some bw))
    else
    let* second := flag "--second_order_m_step" in
    if second then
      let* i := long_arg "--m_step_iterations" in let* t := float_arg "--m_step_tolerance" in let* L := float_arg "--regularization_penalty" in
      scall_step b (SetSupervisedM (Some (size i)) (Some t) (Some L))
    else
    let* multinomial := flag "--multinomial" in
    if multinomial then let* mu := float_arg "--mu" in scall_step b (SetMultinomialM (Some mu))
    else
    let* correspondence := flag "--correspondence" in
    if correspondence then let* mu := float_arg "--mu" in scall_step b (SetCorrespondenceM (Some mu))
    else
      let* i := long_arg "--m_step_iterations" in let* t := float_arg "--m_step_tolerance" in let* L := float_arg "--regularization_penalty" in
      scall_step b (SetFastM (Some (size i)) (Some t) (Some L)).

  (** 372-386: the model parameters.  The seeds are the default arguments of initialize_topics_seeded: 30 documents a topic, random_state 0. *)
  Definition root_init (d : disk) (X : list (list Z)) (y : list Z) (b : sp) : outcome sp :=
    if given (args "--continue") then
      let* f := asString (args "--continue") in let* m := model_at d f in
      let* b := scall_step b (FromModel m) in scall_step b (EtaOf m)
    else
      let* multinomial := flag "--multinomial" in
      let* uniform := if multinomial then Ok true else flag "--correspondence" in
      let* K := long_arg "--topics" in
      let* b := scall_step b (Seeded X (size K) 30 (document_draws 0)) in
      let* C := classes_of y in
      scall_step b (if uniform then Uniform C else Zeros C).

  (** 272-389, create_lda_for_training, with operator LDA() of the builder (LDABuilder.hpp 788-810) *)
  Definition root_lda (d : disk) (X : list (list Z)) (y : list Z) : outcome (object T) :=
    let* n := long_arg "--iterations" in let* b := scall_step (new_settings hw, empty_params) (Iterations (size n)) in
    let* w := long_arg "--workers" in let* b := scall_step b (Workers (size w)) in
    let* b := root_e_step b in
    let* b := root_m_step y b in
    let* b := root_init d X y b in
    let (s, p) := b in
    if Nat.eqb (mrows (p_beta p)) 0 then Throw ERuntime
    else if (Nat.eqb (mrows (p_eta p)) 0 && (s_e_requires_eta s || s_m_requires_eta s))%bool then Throw ERuntime
    else Ok (mk_object p (s_e s) (s_m s) (s_iterations s) (s_workers s)).

  (** fit of an object with its M step, and save_lda (CommandModel.v); of the settings only the iterations and workers matter there *)
  Definition object_train (o : object T) (docs : list (doc T)) (l : option snap) (d : disk) (r : outcome unit) (d' : disk) : Prop :=
    let b := (mk_config (ob_iterations o) (ob_workers o) EClassic MClassic false false, ob_params o) in
    match ob_m o with
    | ClassicM => train_with to_bytes dfuel args device unsupervised_maximizer empty_mat (ob_e o) docs b l d r d'
    | SldaM i t L => train_with to_bytes dfuel args device (sup_maximizer ofuel i t L) new_sup (ob_e o) docs b l d r d'
    | FastM i t L => train_with to_bytes dfuel args device (fast_maximizer ofuel i t L) new_fast (ob_e o) docs b l d r d'
    | OnlineM cf => train_with to_bytes dfuel args device (online_maximizer cf) new_online (ob_e o) docs b l d r d'
    | SemiM i t L => train_with to_bytes dfuel args device (semi_maximizer ofuel i t L) new_fast (ob_e o) docs b l d r d'
    | MultinomialM mu => train_with to_bytes dfuel args device (multinomial_maximizer mu) new_stats (ob_e o) docs b l d r d'
    | CorrespondenceM mu => train_with to_bytes dfuel args device (correspondence_maximizer mu) new_stats (ob_e o) docs b l d r d'
    end.
  (** 465-487, train *)
  Definition root_train_main (d : disk) (r : outcome unit) (d' : disk) : Prop :=
    after (let* (x, y) := data_xy args jk d in let* y := labels y in
           let* o := root_lda d (columns x) y in
           let* l := listeners args stol in let* docs := labelled_docs (columns x) y in Ok (o, docs, l))
      (fun '(o, docs, l) => object_train o docs l d r d') d r d'.

  (** 488-506 and 514-532: the documents, the labels as read, and the LDA object; --quiet decides on a listener that only prints *)
  Definition root_query (d : disk) : outcome (list (list Z) * emat * object T) :=
    let* (x, y) := data_xy args jk d in
    let* f := asString (args "MODEL") in let* m := model_at d f in
    let* w := long_arg "--workers" in
    let* b := scall_step (new_settings hw, empty_params) (Workers (size w)) in
    let* i := long_arg "--e_step_iterations" in let* t := float_arg "--e_step_tolerance" in
    let* b := scall_step b (SetAnyE (get_classic_e_step (size i) t one)) in
    let* b := scall_step b (FromModel m) in
    let* b := scall_step b (EtaOf m) in
    let (s, p) := b in
    let* _ := if Nat.eqb (mrows (p_beta p)) 0 then Throw ERuntime
              else if (Nat.eqb (mrows (p_eta p)) 0 && (s_e_requires_eta s || s_m_requires_eta s))%bool then Throw ERuntime else Ok tt in
    let* _ := flag "--quiet" in
    Ok (columns x, y, mk_object p (s_e s) (s_m s) (s_iterations s) (s_workers s)).
  (** 534-535, evaluate: the score printed.  The labels become a vector in the call of accuracy_score. *)
  Definition evaluate_main (d : disk) (r : outcome T) : Prop :=
    match root_query d with
    | Ok (X, y, o) =>
        exists p, predict_call dfuel (ob_e o) 0 (ob_workers o) (ob_params o) X p /\
          r = let* p := p in let* y := labels y in accuracy_score y (map Z.of_nat p)
    | Throw e => r = Throw e
    | UB => r = UB
    end.
  (** 508-512, transform: the file OUTPUT is written, then the score printed *)
  Definition root_transform_main (d : disk) (r : outcome T) (d' : disk) : Prop :=
    match root_query d with
    | Ok (X, y, o) =>
        exists gp, transform_predict_call dfuel (ob_e o) 0 (ob_workers o) (ob_params o) X gp /\
          match (let* (g, p) := gp in let* f := asString (args "OUTPUT") in let* b := save false F8 (emat_of to_bytes g) in Ok (f, b, p)) with
          | Ok (f, b, p) => r = (let* y := labels y in accuracy_score y (map Z.of_nat p)) /\ device d [(bytes f, b)] d'
          | Throw e => r = Throw e /\ d' = d
          | UB => r = UB
          end
    | Throw e => r = Throw e /\ d' = d
    | UB => r = UB
    end.
End Commands.
