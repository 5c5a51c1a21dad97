(** Vocabulary for the shared generator. *)
Require Import List Arith.
Require Import Verif.PrngModel.
Import ListNotations.

Section Stream.
  Variables S A : Type.
  Variable next : S -> A * S.
  (** The first [n] numbers of an engine that is used by one thread, and its state after them. *)
  Fixpoint stream (s : S) (n : nat) : list A :=
    match n with 0 => [] | Datatypes.S n => fst (next s) :: stream (snd (next s)) n end.
  Fixpoint after (s : S) (n : nat) : S :=
    match n with 0 => s | Datatypes.S n => after (snd (next s)) n end.
  (** The numbers of [l] that go to [t], when the k-th number goes to the k-th thread of [who]. *)
  Fixpoint dealt (who : list nat) (l : list A) (t : nat) : list A :=
    match who, l with
    | u :: who, a :: l => if u =? t then a :: dealt who l t else dealt who l t
    | _, _ => []
    end.
  (** Thread [t] is between locking and returning. *)
  Definition inside (g : shared S A) (t : nat) : Prop := match pcs g t with Out _ => False | _ => True end.
  Definition done (g : shared S A) (t : nat) : Prop := pcs g t = Out 0.
End Stream.
Arguments inside {S A}. Arguments done {S A}. Arguments dealt {A}. Arguments stream {S A}. Arguments after {S A}.
