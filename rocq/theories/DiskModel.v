(** The files a training run leaves behind when it is stopped. *)
Require Import List Bool Arith Ascii.
Require Import Verif.Base Verif.NumpyModel.
Import ListNotations.
Local Open Scope nat_scope.

(** The file system: name -> contents, if there is such a file. *)
Definition disk := list byte -> option (list byte).
Definition put (d : disk) (name bytes : list byte) : disk :=
  fun x => if list_eq_dec ascii_dec x name then Some bytes else d x.
(** lda_io.cpp 61-68: opening with std::ios::out makes the file empty, then the bytes are written in order.  Here the file holds the
    first [c] bytes.  Simplified: the operating system keeps what has been handed to it, in order (the process is stopped, not the
    machine); one writer. *)
Definition written_to (d : disk) (name bytes : list byte) (c : nat) : disk := put d name (firstn c bytes).
(** A sequence of saves, each complete. *)
Fixpoint saved_all (d : disk) (ws : list (list byte * list byte)) : disk :=
  match ws with
  | [] => d
  | (name, bytes) :: ws => saved_all (written_to d name bytes (length bytes)) ws
  end.
(** The disks found when the process is stopped during the saves [ws], after the first [k] of them: either between two saves or
    while the next one was writing. *)
Inductive stopped (d : disk) (ws : list (list byte * list byte)) (k : nat) : disk -> Prop :=
| stop_between : k <= length ws -> stopped d ws k (saved_all d (firstn k ws))
| stop_within name bytes c : nth_error ws k = Some (name, bytes) -> stopped d ws k (written_to (saved_all d (firstn k ws)) name bytes c).
