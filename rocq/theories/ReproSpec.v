(** Training without threads: the loop that fit with one worker is compared with. *)
Require Import ZArith List Bool Arith.
Require Import Verif.Base Verif.Scalar Verif.Mat Verif.BuilderModel Verif.EStepModel Verif.MStepModel Verif.LdaModel.
Import ListNotations.

Section Plain.
  Context {T : Type} {O : ops T} {St : Type}.
  Variable dfuel : nat.
  Variable M : maximizer T St.
  Variable k : e_step T.

  (** For each document in turn: E step with the model [m] as it was at the start of the epoch (the [n]-th), then doc_m_step. *)
  Fixpoint plain_docs (D : list (doc T)) (n : nat) (m : params T) (s : St) : outcome St :=
    match D with
    | [] => Ok s
    | d :: D => let* v := posterior dfuel k n d m in let* (_, s, _) := ms_doc M s m d v in plain_docs D n m s
    end.
  (** One epoch: all documents, then the M step. *)
  Definition plain_epoch (D : list (doc T)) (n : nat) (m : params T) (s : St) : outcome (params T * St) :=
    let* s := plain_docs D n m s in let* (m, s, _) := ms_end M s m in Ok (m, s).
  (** One epoch per order of the corpus. *)
  Fixpoint plain_fit (orders : list (list (doc T))) (n : nat) (m : params T) (s : St) : outcome (params T * St) :=
    match orders with
    | [] => Ok (m, s)
    | D :: orders => let* (m, s) := plain_epoch D n m s in plain_fit orders (S n) m s
    end.
End Plain.

(** The orders a corpus takes in consecutive epochs. *)
Fixpoint orders_of {D} (shuffle : (nat -> nat) -> list nat -> list nat) (at_ : nat -> D) (ds : list (nat -> nat)) (idx : list nat) : list (list D) :=
  match ds with
  | [] => []
  | draws :: ds => map at_ (shuffle draws idx) :: orders_of shuffle at_ ds (shuffle draws idx)
  end.
