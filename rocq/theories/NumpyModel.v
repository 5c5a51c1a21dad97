(** Byte-level model of include/ldaplusplus/NumpyFormat.hpp and of
    src/applications/lda_io.cpp.

    A byte is an [ascii].  The host byte order is the parameter [big]
    (is_big_endian, NumpyFormat.hpp:45-54).  An array element is its memory
    image: the list of its sizeof(Scalar) bytes, in host order.  Text (the header)
    is a list of bytes.  size_t and int values are [Z]; the places where
    the code truncates or wraps are explicit ([wrap64], [wrap32]). *)
Require Import String Ascii ZArith NArith Bool List.
Require Import Verif.Base.
Import ListNotations.
Local Open Scope list_scope.

Notation byte := ascii (only parsing).
Notation elem := (list ascii) (only parsing).

Definition bytes (s : string) : list byte := list_ascii_of_string s.

(** size_t is 64 bits wide; int is 32 bits wide, conversion to int wraps
    (implementation-defined, two's complement on gcc/clang). *)
Definition wrap64 (z : Z) : Z := (z mod 2 ^ 64)%Z.
Definition wrap32 (z : Z) : Z := ((z + 2 ^ 31) mod 2 ^ 32 - 2 ^ 31)%Z.

(** NumpyFormat.hpp:15-42, dtype_for_scalar: the ten specialisations and the
    fallback "object" ([DOther n] stands for any other type of size n). *)
Inductive dtype :=
| I1 | I2 | I4 | I8 | U1 | U2 | U4 | U8 | F4 | F8 | DOther (n : nat).

Definition dtype_for_scalar (d : dtype) : list byte :=
  bytes match d with
  | I1 => "i1" | I2 => "i2" | I4 => "i4" | I8 => "i8"
  | U1 => "u1" | U2 => "u2" | U4 => "u4" | U8 => "u8"
  | F4 => "f4" | F8 => "f8"
  | DOther _ => "object"
  end.

(** sizeof(Scalar) *)
Definition dsize (d : dtype) : nat :=
  match d with
  | I1 | U1 => 1 | I2 | U2 => 2 | I4 | U4 | F4 => 4 | I8 | U8 | F8 => 8
  | DOther n => n
  end.

(** NumpyFormat.hpp:65-71: the inner loop swaps c[j] with c[size-j-1] for
    j < size/2, which reverses the bytes of the local union. *)
Definition swap_local (d : elem) : elem := rev d.

(** NumpyFormat.hpp:57-73, swap_endianess.  Only the local union is
    reversed; nothing is stored back to [data], so the caller's array keeps its
    contents. *)
Definition swap_endianess (data : list elem) : list elem :=
  let _ := map swap_local data in data.

(** std::ostream << size_t: decimal digits without sign or padding. *)
Definition digit (n : N) : byte := ascii_of_N (48 + n).

Fixpoint dec_loop (fuel : nat) (n : N) (acc : list byte) : list byte :=
  let acc' := digit (n mod 10) :: acc in
  match fuel with
  | 0 => acc'
  | S f => if (n / 10 =? 0)%N then acc' else dec_loop f (n / 10) acc'
  end.

Definition dec (z : Z) : list byte := dec_loop (N.size_nat (Z.to_N z)) (Z.to_N z) [].

(** NumpyFormat.hpp:125-128, NumpyOutput::dtype. *)
Definition out_dtype (big : bool) (d : dtype) : list byte :=
  bytes (if big then ">" else "<") ++ dtype_for_scalar d.

(** NumpyFormat.hpp:159-166: the header text before padding. *)
Definition header_text (big : bool) (d : dtype) (shape : list Z) (fortran : bool) : list byte :=
  bytes "{'descr': '" ++ out_dtype big d ++ bytes "',"
  ++ bytes " 'fortran_order': " ++ bytes (if fortran then "True" else "False") ++ bytes ","
  ++ bytes " 'shape': ("
  ++ flat_map (fun d => dec d ++ bytes ", ") shape
  ++ bytes ")}".

(** NumpyFormat.hpp:170-172: pad with spaces while (len + 11) % 16 != 0.  At most
    15 iterations are needed; [pad_loop] gets 16 units of fuel. *)
Fixpoint pad_loop (fuel : nat) (h : list byte) : list byte :=
  match fuel with
  | 0 => h
  | S f => if Nat.eqb (Nat.modulo (length h + 11) 16) 0 then h
           else pad_loop f (h ++ [" "%char])
  end.

(** NumpyFormat.hpp:159-173: the complete header. *)
Definition header (big : bool) (d : dtype) (shape : list Z) (fortran : bool) : list byte :=
  pad_loop 16 (header_text big d shape fortran) ++ ["010"%char].

(** NumpyFormat.hpp:153-155. *)
Definition magic_and_version : list byte :=
  map ascii_of_N [147; 78; 85; 77; 80; 89; 1; 0]%N.

(** NumpyFormat.hpp:178-185: uint16_t header_len (truncated), written low byte
    first on both kinds of hosts. *)
Definition le16 (n : nat) : list byte :=
  let l := (N.of_nat n mod 65536)%N in [ascii_of_N (l mod 256); ascii_of_N (l / 256)].

(** NumpyFormat.hpp:191-194: size_t product of the shape. *)
Definition out_count (shape : list Z) : Z :=
  fold_left (fun n d => wrap64 (n * d)) shape 1%Z.

(** A NumpyOutput object, NumpyFormat.hpp:96-103, 200-202. *)
Record npout := mk_npout { no_data : list elem; no_shape : list Z; no_fortran : bool }.

(** NumpyFormat.hpp:152-198, operator<<.  Reading beyond the end of the data
    pointer is undefined. *)
Definition write_npy (big : bool) (d : dtype) (o : npout) : outcome (list byte) :=
  let h := header big d (no_shape o) (no_fortran o) in
  let n := Z.to_nat (out_count (no_shape o)) in
  if Nat.leb n (length (no_data o))
  then Ok (magic_and_version ++ le16 (length h) ++ h ++ concat (firstn n (no_data o)))
  else UB.

(** An Eigen matrix: dimensions, storage order and storage. *)
Record emat := mk_emat { em_rows : nat; em_cols : nat; em_rowmajor : bool; em_store : list elem }.

(** Coefficient (j, i) of an Eigen matrix. *)
Definition em_get (m : emat) (j i : nat) : elem :=
  nth (if em_rowmajor m then j * em_cols m + i else i * em_rows m + j) (em_store m) [].

(** NumpyFormat.hpp:110-120, the constructor from an Eigen matrix. *)
Definition npout_of_emat (m : emat) : npout :=
  mk_npout (em_store m) [Z.of_nat (em_rows m); Z.of_nat (em_cols m)] (negb (em_rowmajor m)).

(** NumpyFormat.hpp:370-373, save(ostream). *)
Definition save (big : bool) (d : dtype) (m : emat) : outcome (list byte) :=
  write_npy big d (npout_of_emat m).

(** std::istream as used here: the bytes not yet read and whether the stream is
    still good.  A stream on a file that could not be opened is [mk_stream [] false]. *)
Record stream := mk_stream { st_rest : list byte; st_good : bool }.

(** istream::read: returns the bytes stored (their number is gcount()); a short
    read sets failbit, and nothing is read from a failed stream. *)
Definition sread (n : nat) (s : stream) : list byte * stream :=
  if st_good s
  then (firstn n (st_rest s), mk_stream (skipn n (st_rest s)) (Nat.leb n (length (st_rest s))))
  else ([], s).

(** Contents of the uninitialised locals of operator>>: MAGIC_AND_VERSION[6] and
    the two bytes of header_len. *)
Record junk := mk_junk { jk_version : byte; jk_len0 : byte; jk_len1 : byte }.

(** char is signed (x86). *)
Definition signed_char (b : byte) : Z :=
  let n := Z.of_N (N_of_ascii b) in if (n <? 128)%Z then n else (n - 256)%Z.

(** std::string(const char * ): the bytes up to the first NUL. *)
Fixpoint cstr (l : list byte) : list byte :=
  match l with
  | [] => []
  | c :: r => if Ascii.eqb c zero then [] else c :: cstr r
  end.

(** std::string::substr *)
Definition substr (s : list byte) (pos count : nat) : outcome (list byte) :=
  if Nat.leb pos (length s) then Ok (firstn count (skipn pos s)) else Throw EOutOfRange.

Definition substr_from (s : list byte) (pos : nat) : outcome (list byte) :=
  if Nat.leb pos (length s) then Ok (skipn pos s) else Throw EOutOfRange.

(** std::string::find_last_of(char); None is npos. *)
Fixpoint find_last_of (c : byte) (s : list byte) : option nat :=
  match s with
  | [] => None
  | x :: r => match find_last_of c r with
              | Some k => Some (S k)
              | None => if Ascii.eqb x c then Some 0 else None
              end
  end.

(** std::string::operator[]: position size() yields NUL, beyond is undefined. *)
Definition char_at (s : list byte) (i : nat) : outcome byte :=
  if Nat.ltb i (length s) then Ok (nth i s zero)
  else if Nat.eqb i (length s) then Ok zero else UB.

(** std::stoi, base 10: skip white space, optional sign, digits.
    [SVal v p]: value and number of characters processed. *)
Inductive stoi_result := SInvalid | SRange | SVal (v : Z) (p : nat).

Definition is_space (c : byte) : bool :=
  let n := N_of_ascii c in ((n =? 32) || ((9 <=? n) && (n <=? 13)))%N.
Definition is_digit (c : byte) : bool :=
  let n := N_of_ascii c in ((48 <=? n) && (n <=? 57))%N.
Definition digit_value (c : byte) : Z := (Z.of_N (N_of_ascii c) - 48)%Z.

Fixpoint skip_spaces (s : list byte) : nat * list byte :=
  match s with
  | c :: r => if is_space c then let (k, r') := skip_spaces r in (S k, r') else (0, s)
  | [] => (0, [])
  end.

Fixpoint take_digits (s : list byte) (acc : Z) : Z * nat :=
  match s with
  | c :: r => if is_digit c
              then let (v, k) := take_digits r (acc * 10 + digit_value c)%Z in (v, S k)
              else (acc, 0)
  | [] => (acc, 0)
  end.

Definition stoi (s : list byte) : stoi_result :=
  let (sp, s1) := skip_spaces s in
  let '(neg, sg, s2) :=
    match s1 with
    | c :: r => if Ascii.eqb c "-" then (true, 1, r)
                else if Ascii.eqb c "+" then (false, 1, r) else (false, 0, s1)
    | [] => (false, 0, s1)
    end in
  let (v, k) := take_digits s2 0 in
  if Nat.eqb k 0 then SInvalid
  else let v := if neg then Z.opp v else v in
       if ((- 2 ^ 31 <=? v) && (v <? 2 ^ 31))%Z then SVal v (sp + sg + k) else SRange.

(** NumpyFormat.hpp:331-341: the shape loop.  std::invalid_argument ends it;
    std::out_of_range (from stoi or substr) propagates.  Every iteration drops at least
    three characters, so [length s] is enough fuel.  The int is converted to size_t. *)
Fixpoint parse_shape (fuel : nat) (s : list byte) : outcome (list Z) :=
  match fuel with
  | 0 => Ok []
  | S f =>
    match stoi s with
    | SInvalid => Ok []
    | SRange => Throw EOutOfRange
    | SVal v p =>
        let* r := substr_from s (p + 2) in
        let* l := parse_shape f r in
        Ok (wrap64 v :: l)
    end
  end.

(** NumpyFormat.hpp:344-347: int N; N *= c with c of type size_t. *)
Definition in_count (shape : list Z) : Z :=
  fold_left (fun n c => wrap32 (wrap64 (wrap64 n * c))) shape 1%Z.

(** Cut a byte buffer into n elements of k bytes. *)
Fixpoint chunk (k n : nat) (l : list byte) : list elem :=
  match n with
  | 0 => []
  | S n' => firstn k l :: chunk k n' (skipn k l)
  end.

(** A NumpyInput object after parsing, NumpyFormat.hpp:361-363. *)
Record npin := mk_npin { ni_data : list elem; ni_shape : list Z; ni_fortran : bool }.

(** NumpyFormat.hpp:311-321: check the announced dtype; returns true for '>'. *)
Definition parse_dtype (d : dtype) (h : list byte) : outcome bool :=
  let* dt := substr h 11 3 in
  let endianness := match dt with c :: _ => Ascii.eqb c ">" | [] => false end in
  let* k := substr_from dt 1 in
  if list_eq_dec ascii_dec k (dtype_for_scalar d) then Ok endianness else Throw ERuntime.

(** NumpyFormat.hpp:326-341: the shape text and its parsing.  npos + 1 wraps to 0. *)
Definition parse_header_shape (h : list byte) : outcome (list Z) :=
  let pos := match find_last_of "("%char h with Some k => k + 1 | None => 0 end in
  let* s := match find_last_of ")"%char h with
            | Some count => substr h pos count
            | None => substr_from h pos
            end in
  parse_shape (length s) s.

(** NumpyFormat.hpp:272-359, operator>>.  resize with a negative N asks for a huge
    size (std::length_error); taking &data_[0] of an empty vector is undefined.
    Memory exhaustion (std::bad_alloc) is not modelled. *)
Definition read_npy (big : bool) (d : dtype) (jk : junk) (s : stream) : outcome (npin * stream) :=
  let (m, s) := sread 8 s in
  if (signed_char (nth 6 m (jk_version jk)) >? 1)%Z then Throw ERuntime
  else if Nat.eqb (length m) 0 then Throw ERuntime
  else
  let (lb, s) := sread 2 s in
  let b0 := N_of_ascii (nth 0 lb (jk_len0 jk)) in
  let b1 := N_of_ascii (nth 1 lb (jk_len1 jk)) in
  (* the host reads the two bytes in its own order; on a big-endian host
     swap_endianess is called on it and changes nothing *)
  let header_len := N.to_nat (if big then b0 * 256 + b1 else b0 + 256 * b1)%N in
  let (hb, s) := sread header_len s in
  let h := cstr (hb ++ repeat zero (header_len - length hb)) in
  let* endianness := parse_dtype d h in
  let* t := char_at h 34 in
  let fortran := Ascii.eqb t "T" in
  let* shape := parse_header_shape h in
  let n := in_count shape in
  if (n <? 0)%Z then Throw ELength
  else if (n =? 0)%Z then UB
  else
  let n := Z.to_nat n in
  let (db, s) := sread (n * dsize d) s in
  let data := chunk (dsize d) n (db ++ repeat zero (n * dsize d - length db)) in
  let data := if Bool.eqb endianness big then data else swap_endianess data in
  Ok (mk_npin data shape fortran, s).

(** NumpyFormat.hpp:237-241. *)
Definition conv_cols (rest : list Z) : Z :=
  fold_left (fun c x => wrap32 (wrap64 (wrap64 c * x))) rest 1%Z.

(** NumpyFormat.hpp:251: the source index. *)
Definition src_index (fortran : bool) (rows cols i j : nat) : nat :=
  if fortran then i * rows + j else j * cols + i.

(** All (column i, row j) pairs in the destination's storage order. *)
Definition dest_order (rowmajor : bool) (rows cols : nat) : list (nat * nat) :=
  if rowmajor
  then flat_map (fun j => map (fun i => (i, j)) (seq 0 cols)) (seq 0 rows)
  else flat_map (fun i => map (fun j => (i, j)) (seq 0 rows)) (seq 0 cols).

(** NumpyFormat.hpp:234-260, conversion to an Eigen matrix of storage order
    [rowmajor]; [vec] says that the destination type has exactly one column.  An
    empty shape, negative dimensions, a wrong column count for a vector, and an index
    outside data_ are undefined. *)
Definition to_matrix (rowmajor vec : bool) (x : npin) : outcome emat :=
  match ni_shape x with
  | [] => UB
  | r :: rest =>
    let rows := wrap32 r in
    let cols := conv_cols rest in
    if ((rows <? 0) || (cols <? 0))%Z then UB
    else if andb vec (negb (cols =? 1)%Z) then UB
    else
    let rows := Z.to_nat rows in
    let cols := Z.to_nat cols in
    let ixs := map (fun p => src_index (ni_fortran x) rows cols (fst p) (snd p))
                   (dest_order rowmajor rows cols) in
    if forallb (fun k => Nat.ltb k (length (ni_data x))) ixs
    then Ok (mk_emat rows cols rowmajor (map (fun k => nth k (ni_data x) []) ixs))
    else UB
  end.

(** NumpyFormat.hpp:399-404, load(istream).  load(path), 416-423, calls it with the
    default template arguments (dynamic, column-major). *)
Definition load (big : bool) (d : dtype) (rowmajor vec : bool) (jk : junk) (s : stream)
  : outcome (emat * stream) :=
  let* (x, s) := read_npy big d jk s in
  let* m := to_matrix rowmajor vec x in
  Ok (m, s).

(** The three arrays of SupervisedModelParameters<double>, all column-major;
    alpha is a column vector (include/ldaplusplus/Parameters.hpp). *)
Record model_file := mk_model { mf_alpha : emat; mf_beta : emat; mf_eta : emat }.

(** lda_io.cpp:50-71, save_lda: the contents of the file. *)
Definition save_lda (big : bool) (m : model_file) : outcome (list byte) :=
  let* a := save big F8 (mf_alpha m) in
  let* b := save big F8 (mf_beta m) in
  let* e := save big F8 (mf_eta m) in
  Ok (a ++ b ++ e).

(** lda_io.cpp:73-91, load_lda.  The uninitialised locals of the three reads may
    differ. *)
Definition load_lda (big : bool) (j1 j2 j3 : junk) (s : stream) : outcome model_file :=
  let* (a, s) := load big F8 false true j1 s in
  let* (b, s) := load big F8 false false j2 s in
  let* (e, s) := load big F8 false false j3 s in
  Ok (mk_model a b e).

(** lda_io.cpp:13-32, parse_input_data(X, y): two int32 arrays. *)
Definition parse_input_data (big : bool) (j1 j2 : junk) (s : stream) : outcome (emat * emat) :=
  let* (x, s) := load big I4 false false j1 s in
  let* (y, s) := load big I4 false false j2 s in
  Ok (x, y).

(** lda_io.cpp:34-48, parse_input_data(X). *)
Definition parse_input_data_x (big : bool) (j1 : junk) (s : stream) : outcome emat :=
  let* (x, s) := load big I4 false false j1 s in
  Ok x.
