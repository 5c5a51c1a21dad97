(** Outcomes of modelled C++ functions, shared by all model files. *)
Require Import List ZArith Lia Permutation.
Import ListNotations.

(** The exceptions the modelled code can throw. *)
Inductive exn :=
| ERuntime      (* std::runtime_error *)
| EOutOfRange   (* std::out_of_range (std::string::substr, std::stoi) *)
| ELength       (* std::length_error (std::vector::resize) *)
| ENotFinished. (* not an exception: a loop of the code has not ended within the fuel given to the model *)

(** Undefined behaviour is an outcome of its own: nothing is promised after it. *)
Inductive outcome (A : Type) :=
| Ok (a : A)
| Throw (e : exn)
| UB.
Arguments Ok {A} a.
Arguments Throw {A} e.
Arguments UB {A}.

Definition bind {A B} (x : outcome A) (f : A -> outcome B) : outcome B :=
  match x with
  | Ok a => f a
  | Throw e => Throw e
  | UB => UB
  end.

Notation "'let*' x ':=' e 'in' f" := (bind e (fun x => f))
  (at level 200, x pattern, e at level 100, f at level 200).

(** Run computations from left to right; the first that fails decides. *)
Fixpoint seqM {A} (l : list (outcome A)) : outcome (list A) :=
  match l with
  | [] => Ok []
  | x :: r => let* a := x in let* s := seqM r in Ok (a :: s)
  end.

Lemma seqM_ok {A B} (f : B -> outcome A) g l : (forall x, In x l -> f x = Ok (g x)) -> seqM (map f l) = Ok (map g l).
Proof.
  induction l as [|x l IH]; intros H; [reflexivity|]. cbn. rewrite H by now left.
  cbn. rewrite IH by (intros; apply H; now right). reflexivity.
Qed.
