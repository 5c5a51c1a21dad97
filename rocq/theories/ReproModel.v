(** Training with the corpus's random draws made visible: LDA::fit and partial_fit (src/ldaplusplus/LDA.cpp 64-98) on the corpora of
    src/ldaplusplus/Document.cpp, whose order changes only by shuffle. *)
Require Import ZArith List Bool Arith.
Require Import Verif.Base Verif.Scalar Verif.Mat Verif.BuilderModel Verif.EStepModel Verif.MStepModel Verif.PoolModel Verif.LdaModel Verif.CorpusModel.
Import ListNotations.

Section Repro.
  Context {T : Type} {O : ops T} {St : Type}.
  Variable dfuel : nat.
  Variable M : maximizer T St.
  Variable k : e_step T.

  (** Document.cpp 113-123, EigenClassificationCorpus::at, for column [i] of the matrix *)
  Definition labelled_at (X : list (list Z)) (y : list Z) (priors : list T) (i : nat) : doc T :=
    mk_doc (nth i X []) (Some (nth i y 0%Z)) (Z.of_nat (length X)) priors.
  (** Document.cpp 79-84, EigenCorpus::at *)
  Definition unlabelled_at (X : list (list Z)) (i : nat) : doc T := unlabelled (nth i X []).

  (** partial_fit(corpus), LDA.cpp 94-135, after the shuffle: [D] are the documents in the corpus's order. *)
  Definition partial_fit_ordered (W : nat) (D : list (doc T)) (st : outcome St) (p : shared) (st' : outcome St) (p' : shared) : Prop :=
    exists owner (s : state (outcome (vparams T)) shared (outcome St) (option T) T),
      reachable (train_estep dfuel k D) (train_feed M D) train_e_end (train_m_end M) Fit owner (length D) W st p s /\
      main s = MDone /\ st' = priv s /\ p' = param s.

  (** fit, LDA.cpp 64-81, with [W] workers: each element of the list holds the draws of one epoch's shuffle (Document.cpp 62-64; the generator prng_ is
      seeded when the corpus is made, so the draws are the same for every corpus with that seed); [idx] is the order the corpus is in
      and [at_] its documents by column. *)
  Inductive fit_seeded (W : nat) (at_ : nat -> doc T) : list (nat -> nat) -> list nat -> outcome St -> shared (T := T) -> outcome St -> shared (T := T) -> Prop :=
  | seeded_done idx st p : fit_seeded W at_ [] idx st p st p
  | seeded_epoch draws ds idx st p st1 p1 st2 p2 :
      partial_fit_ordered W (map at_ (shuffle draws idx)) st p st1 p1 ->
      fit_seeded W at_ ds (shuffle draws idx) st1 p1 st2 p2 ->
      fit_seeded W at_ (draws :: ds) idx st p st2 p2.
End Repro.
