(** Vocabulary: renumbering words, topics and classes. *)
Require Import ZArith List Arith.
Require Import Verif.Base Verif.Scalar Verif.Mat Verif.BuilderModel Verif.EStepModel Verif.OptModel Verif.OptSpec Verif.MStepModel Verif.LdaModel.
Import ListNotations.
Local Open Scope nat_scope.

(** [s] permutes 0, ..., n-1. *)
Definition permutes (n : nat) (s : nat -> nat) : Prop :=
  (forall i, i < n -> s i < n) /\ (forall i j, i < n -> j < n -> s i = s j -> i = j).

(** New numbers: the topic now called i was called [topic_at i], and so on. *)
Record naming := mk_naming { topic_at : nat -> nat; word_at : nat -> nat; class_at : nat -> nat }.
Definition valid_naming (K V C : nat) (a : naming) : Prop :=
  permutes K (topic_at a) /\ permutes V (word_at a) /\ permutes C (class_at a).

(** [l'] is [l] with its n entries renumbered. *)
Definition list_renamed {A} (d : A) (n : nat) (s : nat -> nat) (l l' : list A) : Prop :=
  length l = n /\ length l' = n /\ forall i, i < n -> nth i l' d = nth (s i) l d.

Section Rename.
  Context {T : Type} {O : ops T}.
  Definition mat_renamed (r c : nat) (sr sc : nat -> nat) (m m' : mat T) : Prop :=
    mrows m = r /\ mrows m' = r /\ ncols m = c /\ ncols m' = c /\
    forall i j, i < r -> j < c -> mget m' i j = mget m (sr i) (sc j).

  Variables K V C : nat.
  Variable a : naming.
  (** labels that are no classes stay what they are *)
  Definition label_renamed (y y' : Z) : Prop :=
    ((0 <= y' < Z.of_nat C)%Z /\ y = Z.of_nat (class_at a (Z.to_nat y'))) \/ (~ (0 <= y' < Z.of_nat C)%Z /\ y = y').
  (** The same document in the new numbers: its words, its class, and the priors of its corpus. *)
  Definition doc_renamed (d d' : doc T) : Prop :=
    list_renamed 0%Z V (word_at a) (d_words d) (d_words d') /\
    match d_class d, d_class d' with
    | None, None => True
    | Some y, Some y' => label_renamed y y'
    | _, _ => False
    end /\
    d_corpus_size d' = d_corpus_size d /\
    forall c, c < C -> nth_error (d_priors d') c = nth_error (d_priors d) (class_at a c).
  (** The same model: the topics' words, the topics, and the classes.  (Without classes eta may have any number of rows.) *)
  Definition model_renamed (m m' : params T) : Prop :=
    list_renamed zero K (topic_at a) (p_alpha m) (p_alpha m') /\
    mat_renamed K V (topic_at a) (word_at a) (p_beta m) (p_beta m') /\
    (mat_renamed K C (topic_at a) (class_at a) (p_eta m) (p_eta m') \/
     C = 0 /\ p_eta m' = p_eta m /\ ncols (p_eta m) = 0).
  (** The same posterior. *)
  Definition posterior_renamed (v v' : vparams T) : Prop :=
    list_renamed zero K (topic_at a) (v_gamma v) (v_gamma v') /\
    mat_renamed K V (topic_at a) (word_at a) (v_phi v) (v_phi v') /\
    (list_renamed zero V (word_at a) (v_tau v) (v_tau v') \/ v_tau v = [] /\ v_tau v' = []).
End Rename.

(** sLDA visits the words of a document in the order of their numbers, so that order is not free. *)
Fixpoint ordered_words {T} (k : e_step T) : Prop :=
  match k with Slda _ _ => True | SemiSupervised s u => ordered_words s \/ ordered_words u | _ => False end.

(** The E steps whose reported likelihood is also compared.  (That of sLDA and of the fast supervised one contains a term
    evaluated at the last word of the document, e_step_utils.cpp 66-94.) *)
Fixpoint plain_likelihood {T} (k : e_step T) : Prop :=
  match k with Slda _ _ | FastSupervised _ _ _ => False | SemiSupervised s u => plain_likelihood s /\ plain_likelihood u | _ => True end.

(** The M steps that fit eta by gradient descent weigh the documents by the frequencies of their classes. *)
Inductive weighs_classes {T} {O : ops T} : forall St, maximizer T St -> Prop :=
| weighs_fast fuel limit tolerance L : weighs_classes _ (fast_maximizer fuel limit tolerance L)
| weighs_semi fuel limit tolerance L : weighs_classes _ (semi_maximizer fuel limit tolerance L)
| weighs_slda fuel limit tolerance L : weighs_classes _ (sup_maximizer fuel limit tolerance L).
(** The largest class number in use, 0 if there is none. *)
Definition largest_class {T} (D : list (doc T)) : Z :=
  largest (map (fun d => match d_class d with Some c => c | None => 0%Z end) D).
