(** Vocabulary for the property about the reports of the M step. *)
Require Import List Permutation Arith.
Require Import Verif.Base Verif.Scalar Verif.Mat Verif.BuilderModel Verif.EStepModel Verif.OptModel Verif.MStepModel Verif.PoolModel Verif.LdaModel Verif.AppsModel.
Import ListNotations.

(** The M step's values among some events, in order. *)
Fixpoint maximizations {R X} (l : list (event R X)) : list X :=
  match l with
  | [] => []
  | Maxi x :: l => x :: maximizations l
  | _ :: l => maximizations l
  end.

(** The M step's values among what a listener is told, in order. *)
Fixpoint told {T} (l : list (notice T)) : list T :=
  match l with
  | [] => []
  | Maximization x :: l => x :: told l
  | _ :: l => told l
  end.

(** What the M step reports while it consumes results one after the other, and the state that leaves. *)
Fixpoint consumed {V P S X} (feed : S -> P -> nat -> V -> S * P * list X) (l : list (nat * V)) (s : S) (p : P) : S * P * list X :=
  match l with
  | [] => (s, p, [])
  | (i, v) :: l =>
      let '(s, p, xs) := feed s p i v in
      let '(s, p, ys) := consumed feed l s p in (s, p, xs ++ ys)
  end.

Section Print.
  Context {T : Type} {O : ops T}.
  Context {St : Type}.
  Variable M : maximizer T St.

  Variable fuel : nat.
  Variable k : e_step T.

  (** One epoch of a training: the documents in some order, each with a result of its E step; the M step is shown each of them once, and then
      ends.  [xs]: what it reports. *)
  Definition epoch_reports (docs : list (doc T)) (st : outcome St) (p : @shared T) (st' : outcome St) (p' : @shared T) (xs : list T) : Prop :=
    exists docs' l s q ys zs, Permutation docs docs' /\ Permutation (map fst l) (seq 0 (length docs')) /\
      Forall (fun r => exists q, snd r = train_estep fuel k docs' q (fst r)) l /\
      consumed (train_feed M docs') l st p = (s, q, ys) /\ train_m_end M s (train_e_end q) = (st', p', zs) /\ xs = ys ++ zs.
  (** The epochs of a call of fit, with the reports of each *)
  Inductive fit_reports (docs : list (doc T)) : outcome St -> @shared T -> list (list T) -> outcome St -> @shared T -> Prop :=
  | reports_none st p : fit_reports docs st p [] st p
  | reports_epoch st p xs st1 p1 rest st' p' : epoch_reports docs st p st1 p1 xs -> fit_reports docs st1 p1 rest st' p' ->
      fit_reports docs st p (xs :: rest) st' p'.
End Print.
