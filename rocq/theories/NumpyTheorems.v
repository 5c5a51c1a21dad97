(** Property theorems C01-C08 (files in .npy format). *)
Require Import String Ascii ZArith NArith Bool List Lia.
Require Import Verif.Base Verif.NumpyModel Verif.NumpySpec Verif.NumpyProofs Verif.NumpyNegative.
Import ListNotations.
Local Open Scope list_scope.

(** C01.  Saving on a little-endian host and loading into either storage order
    (as a vector type only if there is one column) restores dimensions and entries,
    and leaves exactly the bytes after the array in the stream. *)
Theorem C01_save_load_roundtrip :
  forall d m rowmajor vec jk rest,
    supported d -> valid_matrix d m -> (vec = true -> em_cols m = 1) ->
    exists file m',
      save false d m = Ok file
      /\ load false d rowmajor vec jk (mk_stream (file ++ rest) true) = Ok (m', mk_stream rest true)
      /\ em_rowmajor m' = rowmajor
      /\ length (em_store m') = em_rows m' * em_cols m'
      /\ same_matrix m' m.
Proof. exact (matrix_roundtrip false). Qed.
Print Assumptions C01_save_load_roundtrip.

(** C01, same storage order: the very same object. *)
Theorem C01_save_load_identity :
  forall d m vec jk rest,
    supported d -> valid_matrix d m -> (vec = true -> em_cols m = 1) ->
    exists file,
      save false d m = Ok file
      /\ load false d (em_rowmajor m) vec jk (mk_stream (file ++ rest) true)
         = Ok (m, mk_stream rest true).
Proof. exact matrix_roundtrip_same. Qed.
Print Assumptions C01_save_load_identity.

(** The hypotheses are met by a 2 x 3 matrix of 32-bit integers. *)
Definition el4 (a b c e : N) : list ascii := map ascii_of_N [a; b; c; e].
Definition sample_matrix : emat :=
  mk_emat 2 3 false [el4 1 2 3 4; el4 255 0 255 0; el4 0 0 0 0; el4 7 7 7 7; el4 9 8 7 6; el4 128 0 0 1].
Example sample_matrix_valid : supported I4 /\ valid_matrix I4 sample_matrix.
Proof. split; [exact I|]. repeat split; try (cbn; lia). repeat constructor. Qed.

(** C02.  A saved model loads back bit for bit. *)
Theorem C02_model_roundtrip :
  forall m j1 j2 j3 rest,
    valid_matrix F8 (mf_alpha m) -> em_cols (mf_alpha m) = 1 -> em_rowmajor (mf_alpha m) = false ->
    valid_matrix F8 (mf_beta m) -> em_rowmajor (mf_beta m) = false ->
    valid_matrix F8 (mf_eta m) -> em_rowmajor (mf_eta m) = false ->
    exists file, save_lda false m = Ok file
      /\ load_lda false j1 j2 j3 (mk_stream (file ++ rest) true) = Ok m.
Proof. exact model_roundtrip. Qed.
Print Assumptions C02_model_roundtrip.

(** C02, the (documents, labels) input file. *)
Theorem C02_input_roundtrip :
  forall x y j1 j2 rest,
    valid_matrix I4 x -> em_rowmajor x = false -> valid_matrix I4 y -> em_rowmajor y = false ->
    exists fx fy, save false I4 x = Ok fx /\ save false I4 y = Ok fy
      /\ parse_input_data false j1 j2 (mk_stream (fx ++ fy ++ rest) true) = Ok (x, y)
      /\ parse_input_data_x false j1 (mk_stream (fx ++ fy ++ rest) true) = Ok x.
Proof. exact input_roundtrip. Qed.
Print Assumptions C02_input_roundtrip.

(** C02, any sequence of arrays of any element types in one stream. *)
Theorem C02_sequence_roundtrip :
  forall l jks rest,
    Forall (fun p => supported (fst p) /\ valid_matrix (fst p) (snd p)) l ->
    length jks = length l ->
    exists file, save_all l = Ok file
      /\ load_all (map (fun q => (fst (fst q), em_rowmajor (snd (fst q)), snd q)) (combine l jks))
                  (mk_stream (file ++ rest) true)
         = Ok (map snd l, mk_stream rest true).
Proof. exact sequence_roundtrip. Qed.
Print Assumptions C02_sequence_roundtrip.

Definition el8 (a b : N) : list ascii := map ascii_of_N [a; b; 0; 0; 0; 0; 240; 63]%N.
Definition sample_model : model_file :=
  mk_model (mk_emat 2 1 false [el8 1 2; el8 3 4])
           (mk_emat 2 3 false [el8 1 2; el8 3 4; el8 5 6; el8 7 8; el8 9 10; el8 11 12])
           (mk_emat 2 2 false [el8 1 2; el8 3 4; el8 5 6; el8 7 8]).
Example sample_model_valid :
  valid_matrix F8 (mf_alpha sample_model) /\ em_cols (mf_alpha sample_model) = 1
  /\ valid_matrix F8 (mf_beta sample_model) /\ valid_matrix F8 (mf_eta sample_model).
Proof. repeat split; try (cbn; lia); repeat constructor. Qed.

(** C03.  Whatever is written is a well-formed version 1.0 file: the header is the
    dictionary text, spaces and a newline; magic, version, little-endian header
    length and 16-byte alignment are right; the data have the announced size and are
    the array's bytes. *)
Theorem C03_written_file_well_formed :
  forall big d shape fortran data file,
    Forall (fun n => 0 <= n)%Z shape ->
    (N.of_nat (length (header big d shape fortran)) < 65536)%N ->
    write_npy big d (mk_npout data shape fortran) = Ok file ->
    Forall (fun e => length e = dsize d) data ->
    exists ns pad hdr body,
      Forall2 is_numeral ns shape
      /\ hdr = text "{'descr': '" ++ text (if big then ">" else "<") ++ dtype_for_scalar d
               ++ text "', 'fortran_order': " ++ text (if fortran then "True" else "False")
               ++ text ", 'shape': (" ++ concat (map (fun n => n ++ text ", ") ns) ++ text ")}"
               ++ repeat " "%char pad ++ ["010"%char]
      /\ file = npy_file hdr body
      /\ (10 + length hdr) mod 16 = 0
      /\ length body = Z.to_nat (out_count shape) * dsize d
      /\ body = firstn (length body) (concat data).
Proof. exact written_file_form. Qed.
Print Assumptions C03_written_file_well_formed.

(** C03 applies to every valid matrix: saving succeeds and its header is short. *)
Theorem C03_matrix_header_short :
  forall big d r c fortran,
    supported d -> (0 <= r < 2 ^ 31)%Z -> (0 <= c < 2 ^ 31)%Z ->
    length (header big d [r; c] fortran) <= 200.
Proof. exact header_length2. Qed.
Print Assumptions C03_matrix_header_short.

(** C04.  numpy's own files: any shape with at least one dimension, both orders, any
    padding, any byte-order character. *)
Theorem C04_numpy_files_load :
  forall d o fortran ns r rest pad data rowmajor vec jk tail,
    supported d -> o <> zero ->
    Forall2 is_numeral ns (r :: rest) ->
    Forall (fun n => 1 <= n)%Z (r :: rest) -> (product (r :: rest) < 2 ^ 31)%Z ->
    (vec = true -> product rest = 1%Z) ->
    length data = Z.to_nat (product (r :: rest)) * dsize d ->
    (N.of_nat (length (numpy_header o (dtype_for_scalar d) fortran ns pad)) < 65536)%N ->
    exists m,
      load false d rowmajor vec jk
        (mk_stream (npy_file (numpy_header o (dtype_for_scalar d) fortran ns pad) data ++ tail) true)
      = Ok (m, mk_stream tail true)
      /\ em_rows m = Z.to_nat r /\ em_cols m = Z.to_nat (product rest) /\ em_rowmajor m = rowmajor
      /\ (forall j i, j < em_rows m -> i < em_cols m ->
           em_get m j i = element (dsize d) data (entry_index fortran (em_rows m) (em_cols m) j i)).
Proof. exact numpy_load. Qed.
Print Assumptions C04_numpy_files_load.

Example C04_hypotheses_met :
  Forall2 is_numeral [text "12"; text "3"] [12; 3]%Z
  /\ numpy_header "<" (dtype_for_scalar F8) false [text "12"; text "3"] 4
     = text "{'descr': '<f8', 'fortran_order': False, 'shape': (12, 3), }    " ++ ["010"%char]
  /\ numpy_header "|" (dtype_for_scalar U1) true [text "5"] 0
     = text "{'descr': '|u1', 'fortran_order': True, 'shape': (5,), }" ++ ["010"%char].
Proof.
  repeat split; try reflexivity.
  repeat constructor; try discriminate; cbn; lia.
Qed.

(** C05.  No stream is accepted unless its header names the requested element
    code (bytes 22 and 23 of the file), for every stream and host. *)
Theorem C05_accepts_only_requested_type :
  forall big d jk s r,
    supported d -> read_npy big d jk s = Ok r ->
    firstn 2 (skipn 22 (st_rest s)) = dtype_for_scalar d /\ st_good s = true.
Proof. exact read_ok_dtype. Qed.
Print Assumptions C05_accepts_only_requested_type.

(** C05.  A matrix saved with one element type and requested as another is refused
    with an exception. *)
Theorem C05_wrong_type_rejected :
  forall writer_big d1 d2 m jk,
    supported d1 -> supported d2 -> d1 <> d2 -> valid_matrix d1 m ->
    exists file, save writer_big d1 m = Ok file
      /\ forall rest rowmajor vec,
           load false d2 rowmajor vec jk (mk_stream (file ++ rest) true) = Throw ERuntime.
Proof. exact dtype_rejected_saved. Qed.
Print Assumptions C05_wrong_type_rejected.

(** C06 is false of the code: a big-endian host's file with the number 1 loads as
    16777216 on a little-endian host. *)
Theorem C06_other_byte_order_refuted :
  exists d m jk file m',
    supported d /\ valid_matrix d m
    /\ save true d m = Ok file
    /\ load false d false false jk (mk_stream file true) = Ok (m', mk_stream [] true)
    /\ unsigned_value true (em_get m 0 0) = 1%Z
    /\ unsigned_value false (em_get m' 0 0) = 16777216%Z.
Proof.
  exists I4, (mk_emat 1 1 false [el4 0 0 0 1]), (mk_junk zero zero zero).
  do 2 eexists. split; [exact I|]. split; [repeat split; try (cbn; lia); repeat constructor|].
  split; [vm_compute; reflexivity|]. split; [vm_compute; reflexivity|]. split; vm_compute; reflexivity.
Qed.
Print Assumptions C06_other_byte_order_refuted.

(** C06, big-endian host reading its own file: the data are lost. *)
Theorem C06_big_endian_host_refuted :
  exists d m jk file m' s',
    supported d /\ valid_matrix d m
    /\ save true d m = Ok file
    /\ load true d false false jk (mk_stream file true) = Ok (m', s')
    /\ unsigned_value true (em_get m 0 0) = 1%Z
    /\ unsigned_value true (em_get m' 0 0) = 0%Z.
Proof.
  exists I4, (mk_emat 1 1 false [el4 0 0 0 1]), (mk_junk zero zero zero).
  do 3 eexists. split; [exact I|]. split; [repeat split; try (cbn; lia); repeat constructor|].
  split; [vm_compute; reflexivity|]. split; [vm_compute; reflexivity|]. split; vm_compute; reflexivity.
Qed.
Print Assumptions C06_big_endian_host_refuted.

(** C06, what holds: the bytes of every entry arrive unchanged (not swapped), so
    the values agree exactly for one-byte types.  Missing: all wider types. *)
Theorem C06_single_byte_types_partial :
  forall writer_big d m rowmajor vec jk rest,
    supported d -> valid_matrix d m -> (vec = true -> em_cols m = 1) ->
    exists file m',
      save writer_big d m = Ok file
      /\ load false d rowmajor vec jk (mk_stream (file ++ rest) true) = Ok (m', mk_stream rest true)
      /\ same_matrix m' m
      /\ (dsize d = 1 -> forall j i, j < em_rows m -> i < em_cols m ->
           unsigned_value false (em_get m' j i) = unsigned_value writer_big (em_get m j i)).
Proof. exact single_byte_roundtrip. Qed.
Print Assumptions C06_single_byte_types_partial.

(** C07, what holds: an empty or unreadable stream, and every stream of fewer
    than 24 bytes, makes the reader throw, whatever uninitialised memory holds. *)
Theorem C07_short_input_throws_partial :
  forall d jk s,
    supported d -> length (st_rest s) < 24 -> exists e, read_npy false d jk s = Throw e.
Proof. exact short_throws. Qed.
Print Assumptions C07_short_input_throws_partial.

Theorem C07_empty_input_throws_partial :
  forall big d jk good, read_npy big d jk (mk_stream [] good) = Throw ERuntime.
Proof. exact empty_throws. Qed.
Print Assumptions C07_empty_input_throws_partial.

(** C07 is false of the code: for every matrix and every cut inside the data, the
    truncated file is accepted and the missing bytes are zeros. *)
Theorem C07_truncated_data_refuted :
  forall d m jk c,
    supported d -> valid_matrix d m ->
    let total := em_rows m * em_cols m * dsize d in
    c < total ->
    exists prefix m',
      save false d m = Ok (prefix ++ concat (em_store m))
      /\ length (concat (em_store m)) = total
      /\ load false d false false jk (mk_stream (prefix ++ firstn c (concat (em_store m))) true)
         = Ok (m', mk_stream [] false)
      /\ em_rows m' = em_rows m /\ em_cols m' = em_cols m
      /\ (forall j i, j < em_rows m -> i < em_cols m ->
            em_get m' j i
            = element (dsize d) (firstn c (concat (em_store m)) ++ repeat zero (total - c))
                (entry_index (negb (em_rowmajor m)) (em_rows m) (em_cols m) j i)).
Proof. exact truncated_accepted. Qed.
Print Assumptions C07_truncated_data_refuted.

(** C07 is false of the code: the magic string is not looked at. *)
Theorem C07_foreign_magic_refuted :
  forall big d jk m1 m2 r,
    length m1 = 8 -> length m2 = 8 ->
    (signed_char (nth 6 m1 zero) <= 1)%Z -> (signed_char (nth 6 m2 zero) <= 1)%Z ->
    read_npy big d jk (mk_stream (m1 ++ r) true) = read_npy big d jk (mk_stream (m2 ++ r) true).
Proof. exact magic_ignored. Qed.
Print Assumptions C07_foreign_magic_refuted.

(** C07: a file cut inside its header can even lead to undefined behaviour. *)
Theorem C07_truncated_header_refuted :
  exists file k jk, save false I4 sample_matrix = Ok file /\ k < length file
    /\ load false I4 false false jk (mk_stream (firstn k file) true) = UB.
Proof.
  eexists _, 30, (mk_junk zero zero zero).
  split; [vm_compute; reflexivity|]. split; [cbn; lia|vm_compute; reflexivity].
Qed.
Print Assumptions C07_truncated_header_refuted.

(** C08 is false of the code: announcing 65536 x 65537 entries makes the reader
    allocate 65536 and then copy from beyond them, whatever data follow. *)
Theorem C08_hostile_shape_refuted :
  forall data jk rowmajor,
    load false F8 rowmajor false jk
      (mk_stream (npy_file (numpy_header "<" (text "f8") false [text "65536"; text "65537"] 3) data) true)
    = UB.
Proof.
  intros data jk rowmajor.
  apply (overflow_shape_ub F8 "<" false [text "65536"; text "65537"] 65536 65537 3).
  - exact I.
  - intros H. inversion H.
  - apply Forall2_cons; [|apply Forall2_cons; [|apply Forall2_nil]];
      (split; [discriminate|]); (split; [|reflexivity]); repeat constructor; cbn; lia.
  - lia.
  - lia.
  - vm_compute. split; reflexivity.
  - vm_compute. reflexivity.
Qed.
Print Assumptions C08_hostile_shape_refuted.

(** C08, what holds: a shape of positive dimensions whose product fits in an int, with
    any data (complete or not), never leads to undefined behaviour.  Missing: all other shapes. *)
Theorem C08_honest_shape_safe_partial :
  forall d o fortran ns r rest pad data rowmajor jk,
    supported d -> o <> zero ->
    Forall2 is_numeral ns (r :: rest) ->
    Forall (fun n => 1 <= n)%Z (r :: rest) -> (product (r :: rest) < 2 ^ 31)%Z ->
    (N.of_nat (length (numpy_header o (dtype_for_scalar d) fortran ns pad)) < 65536)%N ->
    exists m s,
      load false d rowmajor false jk
        (mk_stream (npy_file (numpy_header o (dtype_for_scalar d) fortran ns pad) data) true)
      = Ok (m, s).
Proof. exact honest_shape_safe. Qed.
Print Assumptions C08_honest_shape_safe_partial.

(** C08, all other products.  Extents are any ints, negative ones included; the entries are counted by an int, that is modulo
    2^32.  A count that comes out negative is rejected with std::length_error, before any data is read; a count of zero is undefined
    behaviour (the address of the first of no elements).  Missing: positive counts of shapes with extents that are not positive
    or whose product is not the count (C08_hostile_shape_refuted is one). *)
Theorem C08_negative_count_partial :
  forall d o fortran ns shape pad data rowmajor vec jk,
    supported d -> o <> zero -> ns <> [] ->
    Forall2 is_int_text ns shape ->
    (N.of_nat (length (numpy_header o (dtype_for_scalar d) fortran ns pad)) < 65536)%N ->
    (2 ^ 31 <= product shape mod 2 ^ 32)%Z ->
    load false d rowmajor vec jk
      (mk_stream (npy_file (numpy_header o (dtype_for_scalar d) fortran ns pad) data) true)
    = Throw ELength.
Proof. exact (fun d o f ns sh pad data rm vec jk Hd Ho Hn Hs Hh => proj1 (load_counts d o f ns sh pad data rm vec jk Hd Ho Hs Hn Hh)). Qed.
Print Assumptions C08_negative_count_partial.
Theorem C08_zero_count_refuted :
  forall d o fortran ns shape pad data rowmajor vec jk,
    supported d -> o <> zero -> ns <> [] ->
    Forall2 is_int_text ns shape ->
    (N.of_nat (length (numpy_header o (dtype_for_scalar d) fortran ns pad)) < 65536)%N ->
    (product shape mod 2 ^ 32 = 0)%Z ->
    load false d rowmajor vec jk
      (mk_stream (npy_file (numpy_header o (dtype_for_scalar d) fortran ns pad) data) true)
    = UB.
Proof. exact (fun d o f ns sh pad data rm vec jk Hd Ho Hn Hs Hh => proj2 (load_counts d o f ns sh pad data rm vec jk Hd Ho Hs Hn Hh)). Qed.
Print Assumptions C08_zero_count_refuted.
(** (-5,) and (3, -2) are rejected, (0,) and (65536, 65536) are undefined. *)
Example C08_counts_case :
  is_int_text (text "-5") (-5) /\ is_int_text (text "3") 3 /\ is_int_text (text "-2") (-2) /\ is_int_text (text "0") 0 /\
  (2 ^ 31 <= product [-5] mod 2 ^ 32)%Z /\ (2 ^ 31 <= product [3; -2] mod 2 ^ 32)%Z /\
  (product [0] mod 2 ^ 32 = 0)%Z /\ (product [65536; 65536] mod 2 ^ 32 = 0)%Z.
Proof.
  assert (N : forall l n, l <> [] -> forallb is_digit l = true -> numeral_value l = n -> is_numeral l n).
  { intros l n H1 H2 H3. split; [exact H1|]. split; [|exact H3]. rewrite forallb_forall in H2. apply Forall_forall. intros c Hc. apply is_digit_spec. auto. }
  split; [split; [right; exists (text "5"); split; [reflexivity|apply N; [discriminate|reflexivity|reflexivity]]|lia]|].
  split; [split; [left; apply N; [discriminate|reflexivity|reflexivity]|lia]|].
  split; [split; [right; exists (text "2"); split; [reflexivity|apply N; [discriminate|reflexivity|reflexivity]]|lia]|].
  split; [split; [left; apply N; [discriminate|reflexivity|reflexivity]|lia]|].
  vm_compute. repeat split; discriminate.
Qed.
