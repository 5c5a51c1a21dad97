(** Training in several calls and in several sessions. *)
Require Import List Arith.
Require Import Verif.Base Verif.Scalar Verif.Mat Verif.BuilderModel Verif.EStepModel Verif.MStepModel Verif.LdaModel.
Import ListNotations.

Section Sessions.
  Context {T : Type} {O : ops T} {St : Type}.
  Variable dfuel : nat.
  Variable M : maximizer T St.
  Variable k : e_step T.
  (** Calls on the same object one after the other, of so many epochs each: fit has its configured number, partial_fit one. *)
  Inductive calls (W : nat) (D : list (doc T)) : list nat -> outcome St -> shared (T := T) -> outcome St -> shared (T := T) -> Prop :=
  | no_call st p : calls W D [] st p st p
  | a_call n ns st p st1 p1 st2 p2 : fit_call dfuel M k W D n st p st1 p1 -> calls W D ns st1 p1 st2 p2 -> calls W D (n :: ns) st p st2 p2.
  (** Sessions with so many workers and epochs each: every one makes a new M step ([new]) and a new E step, which counts epochs from zero,
      starts from the model the last one ended with, and ends with the model, or a failure, that ends everything. *)
  Variable new : St.
  Inductive sessions (D : list (doc T)) : list (nat * nat) -> params T -> outcome (params T) -> Prop :=
  | no_session m : sessions D [] m (Ok m)
  | a_session W n l m s p r : fit_call dfuel M k W D n (Ok new) (m, 0) (Ok s) p -> sessions D l (fst p) r -> sessions D ((W, n) :: l) m r
  | failed_session W n l m st p : fit_call dfuel M k W D n (Ok new) (m, 0) st p -> (forall s, st <> Ok s) ->
      sessions D ((W, n) :: l) m (let* _ := st in Ok m).
End Sessions.

(** The weight of the supervised part of the E step does not change from epoch to epoch. *)
Fixpoint constant_weight {T} (k : e_step T) : Prop :=
  match k with
  | FastSupervised _ exponential _ => exponential = false
  | SemiSupervised s u => constant_weight s /\ constant_weight u
  | _ => True
  end.
