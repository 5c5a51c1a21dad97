(** Reshaping between matrices and vectors (utils.hpp).  Everything else of utils.hpp is in UtilsModel.v. *)
Require Import List Arith.
Require Import Verif.Base Verif.Scalar Verif.Mat.
Import ListNotations.

Section Reshape.
  Context {T : Type} {O : ops T}.
  (** Eigen's [v.segment(start, n)], to be written with [x] (of size n) and read: outside the vector it is undefined. *)
  Definition set_segment (v : list T) (start : nat) (x : list T) : outcome (list T) :=
    if start + length x <=? length v then Ok (firstn start v ++ x ++ skipn (start + length x) v) else UB.
  Definition get_segment (v : list T) (start n : nat) : outcome (list T) :=
    if start + n <=? length v then Ok (firstn n (skipn start v)) else UB.
  (** utils.hpp 467-478: reshape_into from a matrix to a vector; the loop's int counter is a natural number here (below 2^31 columns) *)
  Fixpoint reshape_columns (r c : nat) (cols : list (list T)) (dst : list T) : outcome (list T) :=
    match cols with
    | [] => Ok dst
    | x :: cols => let* dst := set_segment dst (c * r) x in reshape_columns r (S c) cols dst
    end.
  Definition reshape_to_vector (src : mat T) (dst : list T) : outcome (list T) :=
    reshape_columns (mrows src) 0 (vtab (ncols src) (mcol src)) dst.
  (** utils.hpp 485-496: reshape_into from a vector to a matrix, which keeps its size *)
  Definition reshape_to_matrix (src : list T) (dst : mat T) : outcome (mat T) :=
    let* cols := seqM (vtab (ncols dst) (fun c => get_segment src (c * mrows dst) (mrows dst))) in Ok (mk_mat (mrows dst) cols).
End Reshape.
