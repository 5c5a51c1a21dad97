(** The commands of the console applications as programs on a disk: src/applications/lda.cpp 126-193, slda.cpp 160-230, fslda.cpp 233-332.

    Simplifications: the progress listeners that only print (without --quiet) are left out here (their counters are in AppsModel.v); the
    process is not stopped from outside (DiskModel.v, C61 and C62, treat that); one process uses the files. *)
Require Import ZArith NArith List Bool Arith Ascii String.
Require Import Verif.Base Verif.Scalar Verif.Mat Verif.NumpyModel Verif.HostModel Verif.DiskModel Verif.UtilsModel Verif.BuilderModel Verif.CorpusModel
  Verif.EStepModel Verif.OptModel Verif.MStepModel Verif.PoolModel Verif.LdaModel Verif.ReproModel Verif.AppsModel.
Import ListNotations.
Local Open Scope nat_scope.
Local Open Scope list_scope.

(** std::fstream(name, std::ios::in | std::ios::binary): without such a file the stream is not good (lda_io.cpp 19-22, 39-42, 81-84) *)
Definition open_in (d : disk) (name : list byte) : stream :=
  match d name with Some b => mk_stream b true | None => mk_stream [] false end.

(** Writing a file (lda_io.cpp 62-70, NumpyFormat.hpp 379-389): std::fstream(name, std::ios::out | std::ios::binary), then the bytes.  The
    file may not open, and the device may take only the first [c] bytes; the code looks at the state of the stream in neither case. *)
Inductive file_saved (d : disk) (name b : list byte) : disk -> Prop :=
| saved_first c : file_saved d name b (written_to d name b c)
| saved_nothing : file_saved d name b d.
(** Several files one after the other, on a device that may fail ... *)
Inductive some_device : disk -> list (list byte * list byte) -> disk -> Prop :=
| saved_no_more d : some_device d [] d
| saved_next d name b d1 ws d2 : file_saved d name b d1 -> some_device d1 ws d2 -> some_device d ((name, b) :: ws) d2.
(** ... and on one that opens every file and takes all bytes. *)
Definition good_device (d : disk) (ws : list (list byte * list byte)) (d' : disk) : Prop := d' = saved_all d ws.

(** How a command ends: [Ok tt] is a return of main with status 0; [Throw] an exception nobody catches, or one that leaves a worker
    thread, which ends the process; after [UB] nothing is known, also of the disk. *)
Definition after {A} (o : outcome A) (rest : A -> Prop) (d : disk) (r : outcome unit) (d' : disk) : Prop :=
  match o with
  | Ok a => rest a
  | Throw e => r = Throw e /\ d' = d
  | UB => r = UB
  end.

(** lda train, slda train, fslda train, fslda online_train; lda transform; slda and fslda transform *)
Inductive command := LdaTrain | SldaTrain | FsldaTrain | FsldaOnlineTrain | LdaTransform | SupervisedTransform.

Section Command.
  Context {T : Type} {O : ops T}.
  Variable to_bytes : T -> elem.
  Variable of_bytes : elem -> T.
  (** bounds of the digamma recurrence and of the descent of the M steps (UtilsModel.v, OptModel.v) *)
  Variables dfuel ofuel : nat.
  Variable args : string -> value.
  Variable stol : string -> outcome Z.
  Variable stof : string -> outcome T.
  Variable uniform_draws : Z -> nat -> nat -> T.
  Variable document_draws : Z -> nat -> nat -> nat.
  Variable hw : nat.
  (** the uninitialised locals of the reads of arrays: 0 and 1 from DATA, the others from a model *)
  Variable jk : nat -> junk.
  (** the device the files are on: [some_device] or [good_device] *)
  Variable device : disk -> list (list byte * list byte) -> disk -> Prop.
  Notation long_arg := (long_arg args stol).
  Notation float_arg := (float_arg args stof).

  (** lda_io.cpp 73-91 *)
  Definition model_at (d : disk) (name : string) : outcome (params T) :=
    let* f := load_lda false (jk 2) (jk 3) (jk 4) (open_in d (bytes name)) in Ok (params_of of_bytes f).

  (** DATA: documents only (lda.cpp 138, 167), or documents and labels (slda.cpp 173, 204; fslda.cpp 246, 276, 307) *)
  Definition data_x (d : disk) : outcome emat :=
    let* f := asString (args "DATA") in parse_input_data_x false (jk 0) (open_in d (bytes f)).
  Definition data_xy (d : disk) : outcome (emat * emat) :=
    let* f := asString (args "DATA") in parse_input_data false (jk 0) (jk 1) (open_in d (bytes f)).

  (** ** transform: lda.cpp 164-187 ([supervised] = false), slda.cpp 200-224, fslda.cpp 303-327 *)
  (** The documents, the LDA object and its E step *)
  Definition transform_setup (supervised : bool) (d : disk) : outcome (list (list Z) * bstate (T := T) * e_step T) :=
    let* x := if supervised then let* (x, _) := data_xy d in Ok x else data_x d in
    let* b := transform_command args stol stof (model_at d) hw supervised in
    let* iterations := long_arg "--e_step_iterations" in let* tolerance := float_arg "--e_step_tolerance" in
    let* _ := asBool (args "--quiet") in
    Ok (columns x, b, Classic (mk_econf (size iterations) tolerance zero)).
  Definition transform_main (supervised : bool) (d : disk) (r : outcome unit) (d' : disk) : Prop :=
    after (transform_setup supervised d) (fun '(X, b, k) =>
      exists g, transform_call dfuel k 0 (c_workers (fst b)) (snd b) X g /\
        after (let* g := g in let* f := asString (args "OUTPUT") in let* b := save false F8 (emat_of to_bytes g) in Ok (f, b))
          (fun '(f, b) => r = Ok tt /\ device d [(bytes f, b)] d') d r d') d r d'.

  (** ** train *)
  (** The snapshots' bytes (SnapshotEvery.cpp 12-22 calls save_lda) *)
  Definition snapshot_bytes (files : list (list byte * params T)) : outcome (list (list byte * list byte)) :=
    seqM (map (fun f => let* b := save_lda false (file_of to_bytes (snd f)) in Ok (fst f, b)) files).
  (** The snapshots written during the events [tr] *)
  Definition snapshots (listener : option snap) (tr : list (notice T)) : outcome (list (list byte * list byte)) :=
    match listener with
    | None => Ok []
    | Some l => let* (_, files) := hear snap_event l tr in snapshot_bytes files
    end.
  (** lda.fit and save_lda (lda.cpp 155-162, slda.cpp 191-198, fslda.cpp 264-271 and 294-301).  A failure in an epoch ends the process with the snapshots of
      the events before it written. *)
  Definition train_with {St} (M : maximizer T St) (new : St) (k : e_step T) (docs : list (doc T)) (b : bstate) (listener : option snap)
    (d : disk) (r : outcome unit) (d' : disk) : Prop :=
    exists tr ms st p,
      fit_heard dfuel M k (c_workers (fst b)) docs (Ok new) (snd b, 0) tr ms st p /\ List.length ms = c_iterations (fst b) /\
      match st with
      | Ok _ =>
          after (let* ws := snapshots listener tr in let* f := asString (args "MODEL") in
                 let* b := save_lda false (file_of to_bytes (fst p)) in Ok (ws ++ [(bytes f, b)]))
            (fun ws => r = Ok tt /\ device d ws d') d r d'
      | Throw e => exists n ws, snapshots listener (firstn n tr) = Ok ws /\ r = Throw e /\ device d ws d'
      | UB => r = UB
      end.

  (** The E step's options common to the trainings *)
  Definition e_options : outcome (econf T) :=
    let* iterations := long_arg "--e_step_iterations" in let* tolerance := float_arg "--e_step_tolerance" in
    let* likelihood := float_arg "--compute_likelihood" in Ok (mk_econf (size iterations) tolerance likelihood).
  (** The options between the construction and fit *)
  Definition listeners : outcome (option snap) := let* _ := asBool (args "--quiet") in snapshot_option args stol.

  (** lda.cpp 135-163 *)
  Definition lda_train_main (d : disk) (r : outcome unit) (d' : disk) : Prop :=
    after (let* x := data_x d in
           let* b := lda_train args stol stof (model_at d) uniform_draws document_draws hw (em_rows x) (columns x) in
           let* cf := e_options in let* l := listeners in Ok (columns x, b, cf, l))
      (fun '(X, b, cf, l) => train_with unsupervised_maximizer empty_mat (Classic cf) (map unlabelled X) b l d r d') d r d'.

  (** The documents of EigenClassificationCorpus (Document.cpp 93-123).  Reading past the end of the labels is undefined (here even when
      there is no iteration in which they would be read). *)
  Definition labelled_docs (X : list (list Z)) (y : list Z) : outcome (list (doc T)) :=
    let* c := new_ccorpus X y in
    if List.length y <? List.length X then UB else Ok (vtab (List.length X) (labelled_at X y (cc_priors c))).

  (** slda.cpp 169-199 *)
  Definition slda_train_main (d : disk) (r : outcome unit) (d' : disk) : Prop :=
    after (let* (x, y) := data_xy d in let* y := labels y in
           let* b := slda_train args stol stof (model_at d) uniform_draws document_draws hw (em_rows x) (columns x) y in
           let* cf := e_options in let* fixed_points := long_arg "--fixed_point_iterations" in
           let* limit := long_arg "--m_step_iterations" in let* tolerance := float_arg "--m_step_tolerance" in
           let* L := float_arg "--regularization_penalty" in
           let* l := listeners in let* docs := labelled_docs (columns x) y in
           Ok (docs, b, cf, size fixed_points, size limit, tolerance, L, l))
      (fun '(docs, b, cf, fixed_points, limit, tolerance, L, l) =>
         train_with (sup_maximizer ofuel limit tolerance L) new_sup (Slda cf fixed_points) docs b l d r d') d r d'.

  (** fslda.cpp 242-272; the E step's weight is constant (LDABuilder.cpp 77-92) *)
  Definition fslda_train_main (d : disk) (r : outcome unit) (d' : disk) : Prop :=
    after (let* (x, y) := data_xy d in let* y := labels y in
           let* b := fslda_train args stol stof (model_at d) uniform_draws document_draws hw (em_rows x) (columns x) y in
           let* cf := e_options in let* C := float_arg "--supervised_weight" in
           let* limit := long_arg "--m_step_iterations" in let* tolerance := float_arg "--m_step_tolerance" in
           let* L := float_arg "--regularization_penalty" in
           let* l := listeners in let* docs := labelled_docs (columns x) y in
           Ok (docs, b, cf, C, size limit, tolerance, L, l))
      (fun '(docs, b, cf, C, limit, tolerance, L, l) =>
         train_with (fast_maximizer ofuel limit tolerance L) new_fast (FastSupervised cf false C) docs b l d r d') d r d'.

  (** fslda.cpp 272-301, online_train; the class weights are those of create_class_weights (utils.cpp 6-17) *)
  Definition fslda_online_train_main (d : disk) (r : outcome unit) (d' : disk) : Prop :=
    after (let* (x, y) := data_xy d in let* y := labels y in
           let* weights := class_weights y in
           let* b := fslda_online_train args stol stof (model_at d) uniform_draws document_draws hw (em_rows x) (columns x) y in
           let* cf := e_options in let* C := float_arg "--supervised_weight" in
           let* L := float_arg "--regularization_penalty" in let* batch := long_arg "--batch_size" in
           let* momentum := float_arg "--momentum" in let* rate := float_arg "--learning_rate" in let* beta := float_arg "--beta_weight" in
           let* l := listeners in let* docs := labelled_docs (columns x) y in
           Ok (docs, b, cf, C, mk_oconf weights L (size batch) momentum rate beta, l))
      (fun '(docs, b, cf, C, online, l) =>
         train_with (online_maximizer online) new_online (FastSupervised cf false C) docs b l d r d') d r d'.

  (** The commands of lda, slda and fslda; slda's and fslda's transform are the same *)
  Definition command_main (c : command) : disk -> outcome unit -> disk -> Prop :=
    match c with
    | LdaTrain => lda_train_main
    | SldaTrain => slda_train_main
    | FsldaTrain => fslda_train_main
    | FsldaOnlineTrain => fslda_online_train_main
    | LdaTransform => transform_main false
    | SupervisedTransform => transform_main true
    end.
End Command.
