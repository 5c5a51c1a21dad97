(** C90: the result of fit does not depend on which thread calls it. *)
Require Import Reals List.
Require Import Verif.Base Verif.Scalar Verif.Mat Verif.BuilderModel Verif.EStepModel Verif.EStepSpec Verif.EStepTheorems Verif.OptModel Verif.MStepModel Verif.PoolModel Verif.PoolSpec Verif.PoolDone Verif.LdaModel
  Verif.PoolTheorems Verif.InferTheorems Verif.TrainTheorems Verif.OwnerSpec Verif.OwnerProofs Verif.OwnerFit.
Import ListNotations.
Local Open Scope nat_scope.

(** One pass over the documents, with any E step and M step: whatever a finished call by one thread computed, with a schedule of its own,
    a call by the other thread can compute too: the same documents in the same order with the same results, the same buffers and
    the same model.  [own]: the calling thread built the object. *)
Theorem C90_pass : forall V P S R X (estep : P -> nat -> V) (feed : S -> P -> nat -> V -> S * P * list X) e_end m_end (own own' : bool)
    docs W s0 p0 (s : state V P S R X),
  reachable estep feed e_end m_end Fit own docs W s0 p0 s -> main s = MDone ->
  exists t, reachable estep feed e_end m_end Fit own' docs W s0 p0 t /\ main t = MDone /\ priv t = priv s /\ param t = param s /\
    computation (log t) = computation (log s).
Proof. intros V P S R X estep feed e_end m_end own own' docs W s0 p0 s. exact (@done_any V P S R X estep feed e_end m_end docs own own' W s0 p0 s). Qed.
Print Assumptions C90_pass.

(** fit: the models (and failures) it can end with are the same from the thread that built the object and from another one ([fit_from],
    OwnerSpec.v), for every M step, also the online one, whose result depends on the schedule. *)
Theorem C90_fit (T : Type) (O : ops T) (dfuel : nat) (St : Type) (M : maximizer T St) (k : e_step T) (own own' : bool) W docs n st p st' p' :
  fit_from dfuel M k own W docs n st p st' p' <-> fit_from dfuel M k own' W docs n st p st' p'.
Proof. split; apply from_any. Qed.
Print Assumptions C90_fit.
(** They are the ones all other theorems about fit speak of. *)
Theorem C90_fit_call (T : Type) (O : ops T) (dfuel : nat) (St : Type) (M : maximizer T St) (k : e_step T) (own : bool) W docs n st p st' p' :
  fit_call dfuel M k W docs n st p st' p' <-> fit_from dfuel M k own W docs n st p st' p'.
Proof. exact (fit_is_from dfuel M k own W docs n st p st' p'). Qed.
Print Assumptions C90_fit_call.

(** A case: three documents whose results arrive out of order; and fit on two documents with five workers. *)
Example C90_case lg cf : let O := Rops lg in
  (exists t : state nat nat nat nat nat, reachable ex_estep ex_feed S ex_m_end Fit false 3 2 0 1 t /\ main t = MDone /\ param t = 35 /\
     map fst (fed (log (ex_end true))) <> seq 0 3) /\
  exists (s : mat R) (p : shared (T := R)), fit_from 7 unsupervised_maximizer (Classic cf) false 5 two_docs 3 (Ok empty_mat) (ok_model, 0) (Ok s) p /\ snd p = 3.
Proof.
  intros O. split.
  - destruct (C90_pass nat nat nat nat nat ex_estep ex_feed S ex_m_end true false 3 2 0 1 (ex_end true) (pool_example_reachable true) pool_example_done) as (t & A & B & _ & C & _).
    exists t. split; [exact A|]. split; [exact B|]. destruct pool_example_log as [L P]. split; [now rewrite C|exact L].
  - destruct (C19_case lg cf) as (_ & s & p0 & p & _ & F & <- & E). exists s, p0. split; [exact (proj1 (C90_fit_call R O 7 _ _ _ false 5 two_docs 3 _ _ _ _) F)|exact E].
Qed.
