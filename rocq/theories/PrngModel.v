(** Model of the generator that the worker threads share (ThreadSafePRNG, utils.hpp 586-620), as a transition system, and of the
    coin flips of the E steps. *)
Require Import List Arith.
Require Import Verif.Base Verif.Scalar.
Import ListNotations.

Section Generator.
  (** [S]: the state of the wrapped engine; [A]: its numbers; [next]: one call of it. *)
  Variables S A : Type.
  Variable next : S -> A * S.

  (** Where a thread is: outside, with [n] calls to make; and inside operator() (utils.hpp 606-610): holding the mutex (607), having read
      the engine's state, having written the state after the call. *)
  Inductive pc :=
  | Out (n : nat)
  | Locked (n : nat)
  | Loaded (n : nat) (s : S)
  | Stored (n : nat) (a : A).
  (** utils.hpp 613-614: the mutex and the engine are behind shared pointers, so that all copies of the wrapper have the same ones;
      [results t] are the numbers that thread [t] has been returned, the latest last. *)
  Record shared := mk_shared { engine : S; owner : option nat; pcs : nat -> pc; results : nat -> list A }.
  Definition upd {B} (f : nat -> B) (t : nat) (b : B) : nat -> B := fun u => if u =? t then b else f u.

  (** One step of thread [t]. *)
  Inductive draw_step : shared -> nat -> shared -> Prop :=
  | draw_lock g t n : pcs g t = Out (Datatypes.S n) -> owner g = None ->
      draw_step g t (mk_shared (engine g) (Some t) (upd (pcs g) t (Locked n)) (results g))
  | draw_load g t n : pcs g t = Locked n ->
      draw_step g t (mk_shared (engine g) (owner g) (upd (pcs g) t (Loaded n (engine g))) (results g))
  | draw_store g t n s : pcs g t = Loaded n s ->
      draw_step g t (mk_shared (snd (next s)) (owner g) (upd (pcs g) t (Stored n (fst (next s)))) (results g))
  | draw_return g t n a : pcs g t = Stored n a ->
      draw_step g t (mk_shared (engine g) None (upd (pcs g) t (Out n)) (upd (results g) t (results g t ++ [a]))).
  (** [n] steps, of any threads *)
  Inductive draws : nat -> shared -> shared -> Prop :=
  | draws_refl g : draws 0 g g
  | draws_step n g h k t : draws n g h -> draw_step h t k -> draws (Datatypes.S n) g k.
  (** [calls t]: how many calls thread [t] makes *)
  Definition start (s : S) (calls : nat -> nat) : shared := mk_shared s None (fun t => Out (calls t)) (fun _ => []).
End Generator.
Arguments Out {S A}. Arguments Locked {S A}. Arguments Loaded {S A}. Arguments Stored {S A}.
Arguments engine {S A}. Arguments owner {S A}. Arguments pcs {S A}. Arguments results {S A}. Arguments mk_shared {S A}. Arguments start {S A}.

Section Coin.
  Context {T : Type} {O : ops T}.
  (** std::bernoulli_distribution(p) with the number [u] in [0, 1) that it draws (e.g. UnsupervisedEStep.cpp 77-78) *)
  Definition coin (p u : T) : bool := ltb u p.
End Coin.
