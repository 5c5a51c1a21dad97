(** Vocabulary for the statements about .npy files.  Nothing here refers to the
    model's reader or writer, only to its data types. *)
Require Import String Ascii ZArith NArith Bool List.
Require Import Verif.NumpyModel.
Import ListNotations.
Local Open Scope list_scope.

(** The ASCII codes of a string. *)
Definition text (s : string) : list ascii := list_ascii_of_string s.

(** Decimal numerals (leading zeros allowed) and their value. *)
Definition numeral_value (l : list ascii) : Z :=
  fold_left (fun v c => (10 * v + (Z.of_nat (nat_of_ascii c) - 48))%Z) l 0%Z.
Definition is_numeral (l : list ascii) (n : Z) : Prop :=
  l <> [] /\ Forall (fun c => 48 <= nat_of_ascii c <= 57) l /\ numeral_value l = n.

(** The text of an int: a numeral, or a minus sign and a numeral. *)
Definition is_int_text (l : list ascii) (n : Z) : Prop :=
  (is_numeral l n \/ exists l', l = "-"%char :: l' /\ is_numeral l' (- n)) /\ (- 2 ^ 31 <= n < 2 ^ 31)%Z.

(** The text between the parentheses of a Python tuple literal as numpy writes
    it: "5," for one dimension, "2, 3" or "2, 3, 4" for more. *)
Fixpoint tuple_tail (ns : list (list ascii)) : list ascii :=
  match ns with
  | [] => []
  | n :: r => text ", " ++ n ++ tuple_tail r
  end.
Definition tuple_text (ns : list (list ascii)) : list ascii :=
  match ns with
  | [] => []
  | [n] => n ++ text ","
  | n :: r => n ++ tuple_tail r
  end.

(** numpy's canonical header: order is "<", ">", "|" or "="; code is e.g. "f8";
    pad spaces and a newline follow. *)
Definition numpy_header (order : ascii) (code : list ascii) (fortran : bool)
  (ns : list (list ascii)) (pad : nat) : list ascii :=
  text "{'descr': '" ++ [order] ++ code ++ text "', 'fortran_order': "
  ++ text (if fortran then "True" else "False") ++ text ", 'shape': ("
  ++ tuple_text ns ++ text "), }" ++ repeat " "%char pad ++ ["010"%char].

(** Magic string "\x93NUMPY" and version bytes. *)
Definition npy_magic (major minor : ascii) : list ascii :=
  ["147"%char; "N"%char; "U"%char; "M"%char; "P"%char; "Y"%char; major; minor].

(** A version 1.0 file with the given header and data. *)
Definition npy_file (hdr data : list ascii) : list ascii :=
  npy_magic "001" "000"
  ++ [ascii_of_nat (length hdr mod 256); ascii_of_nat (length hdr / 256)]
  ++ hdr ++ data.

(** Position of entry (r, c) in the data of an array of [rows] rows and [cols] columns. *)
Definition entry_index (fortran : bool) (rows cols r c : nat) : nat :=
  if fortran then c * rows + r else r * cols + c.

(** The k-th of the elements of [size] bytes stored in [data]. *)
Definition element (size : nat) (data : list ascii) (k : nat) : list ascii :=
  firstn size (skipn (k * size) data).

(** Number stored in a byte sequence, most or least significant byte first. *)
Definition be_value (l : list ascii) : Z :=
  fold_left (fun v c => (256 * v + Z.of_nat (nat_of_ascii c))%Z) l 0%Z.
Definition unsigned_value (big : bool) (l : list ascii) : Z :=
  be_value (if big then l else rev l).

(** The int, in two's complement, that four bytes in little-endian order hold. *)
Definition holds_int (e : list ascii) (v : Z) : Prop := (- 2 ^ 31 <= v < 2 ^ 31)%Z /\ (v mod 2 ^ 32 = unsigned_value false e mod 2 ^ 32)%Z.

Definition product (l : list Z) : Z := fold_right Z.mul 1%Z l.

(** Element types with a numpy code (everything but the "object" fallback). *)
Definition supported (d : dtype) : Prop :=
  match d with DOther _ => False | _ => True end.

(** A matrix object as Eigen keeps it: rows x cols elements of the right size;
    non-empty, and with a number of entries that fits in a C++ int. *)
Definition valid_matrix (d : dtype) (m : emat) : Prop :=
  1 <= em_rows m /\ 1 <= em_cols m
  /\ (Z.of_nat (em_rows m) * Z.of_nat (em_cols m) < 2 ^ 31)%Z
  /\ length (em_store m) = em_rows m * em_cols m
  /\ Forall (fun e => length e = dsize d) (em_store m).

(** Two matrices with the same dimensions and entries (storage order may differ). *)
Definition same_matrix (a b : emat) : Prop :=
  em_rows a = em_rows b /\ em_cols a = em_cols b
  /\ forall j i, j < em_rows a -> i < em_cols a -> em_get a j i = em_get b j i.
