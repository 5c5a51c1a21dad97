(** Training in several calls and sessions. *)
Require Import Reals ZArith List Bool Arith Lia Permutation.
Require Import Verif.Base Verif.Scalar Verif.Mat Verif.UtilsModel Verif.BuilderModel Verif.EStepModel Verif.OptModel Verif.MStepModel Verif.MStepSpec
  Verif.LdaModel Verif.TrainSpec Verif.TrainProofs Verif.ResumeSpec.
Import ListNotations.
Local Open Scope nat_scope.

Section Any.
  Context {T : Type} {O : ops T} {St : Type}.
  Variable dfuel : nat.
  Variable M : maximizer T St.
  Variable k : e_step T.
  Lemma fit_app W D a b : forall st p st1 p1 st2 p2, fit_call dfuel M k W D a st p st1 p1 -> fit_call dfuel M k W D b st1 p1 st2 p2 ->
    fit_call dfuel M k W D (a + b) st p st2 p2.
  Proof.
    induction a as [|a IH]; intros st p st1 p1 st2 p2 A B; inversion A; subst; [exact B|]. cbn [Nat.add]. econstructor; [eassumption|]. eapply IH; eassumption.
  Qed.
  Lemma fit_split W D a b : forall st p st2 p2, fit_call dfuel M k W D (a + b) st p st2 p2 ->
    exists st1 p1, fit_call dfuel M k W D a st p st1 p1 /\ fit_call dfuel M k W D b st1 p1 st2 p2.
  Proof.
    induction a as [|a IH]; intros st p st2 p2 A; [exists st, p; split; [constructor|exact A]|]. cbn [Nat.add] in A. inversion A; subst.
    match goal with H : fit_call _ _ _ _ _ (a + b) _ _ _ _ |- _ => destruct (IH _ _ _ _ H) as (s1 & p1' & X & Y) end.
    exists s1, p1'. split; [econstructor; eassumption|exact Y].
  Qed.
  Lemma calls_fit W D ns : forall st p st' p', calls dfuel M k W D ns st p st' p' <-> fit_call dfuel M k W D (list_sum ns) st p st' p'.
  Proof.
    induction ns as [|n ns IH]; intros st p st' p'; split; intros A.
    - inversion A; subst. constructor.
    - inversion A; subst. constructor.
    - inversion A; subst. cbn [list_sum fold_right]. eapply fit_app; [eassumption|]. now apply IH.
    - cbn [list_sum fold_right] in A. apply fit_split in A. destruct A as (s1 & p1 & X & Y). econstructor; [exact X|]. now apply IH.
  Qed.
  Lemma weights_same (kk : e_step T) : constant_weight kk -> forall n n' emit d m, doc_e_step dfuel kk n emit d m = doc_e_step dfuel kk n' emit d m.
  Proof.
    induction kk; cbn [constant_weight doc_e_step]; intros H n n' emit d m; try reflexivity.
    - subst. reflexivity.
    - unfold semi_supervised_doc_e_step. destruct (d_class d) as [c|]; [|reflexivity]. destruct (c <? 0)%Z; [now apply IHkk2|now apply IHkk1].
  Qed.
End Any.

Section Sessions.
  Variable lg : R -> R.
  Local Hint Extern 0 (ops _) => exact (Rops lg) : typeclass_instances.
  Variables K V C : nat.
  Hypothesis HK : 0 < K.
  Variables (St : Type) (M : maximizer R St) (new : St) (a : item R -> nat -> nat -> R) (P : params R -> Prop) (Q : item R -> Prop).
  Hypothesis B : batch_step K V C St M new a P Q.
  Variable k : e_step R.
  Variable D : list (doc R).
  Hypothesis HD : D <> [].
  Hypothesis HQ : forall epochs m d v, In d D -> shape K V m -> posterior 7 k epochs d m = Ok v -> Q (d, v).
  Hypothesis Hk : constant_weight k.

  Lemma fit_was_ok W n : forall st p s' p', fit_call 7 M k W D n st p (Ok s') p' -> exists s, st = Ok s.
  Proof.
    induction n as [|n IH]; intros st p s' p' F; inversion F as [|? ? ? sa pa ? ? F1 F2]; subst; [eauto|]. destruct (IH _ _ _ _ F2) as (s1 & ->).
    destruct (partial_fit_ok 7 M k (batch_keeps lg K V C St M new a P Q B) _ _ _ _ _ _ F1) as (s0 & _ & _ & X & _). eauto.
  Qed.
  Lemma weight_indifferent : indifferent lg k.
  Proof.
    intros n n' d m. unfold posterior. rewrite (weights_same 7 k Hk n n' true), (weights_same 7 k Hk n n' false). reflexivity.
  Qed.
  Lemma sessions_same m0 l : P m0 -> forall m r t ep W st p, shape K V m -> P m -> trained_by K V St M new Q m0 m t ->
    fit_call 7 M k W D (list_sum (map snd l)) (Ok t) (m, ep) st p -> sessions 7 M k new D l m r ->
    (forall s, st = Ok s -> r = Ok (fst p)) /\ (forall m', r = Ok m' -> fst p = m' /\ exists s, st = Ok s).
  Proof.
    intros HP. induction l as [|[W' n] l IH]; intros m r t ep W st p Sh Pm T F S.
    - inversion S; subst. inversion F; subst. cbn [fst]. split; [reflexivity|]. intros m' E. injection E as <-. eauto.
    - cbn [map snd list_sum fold_right] in F. apply fit_split in F. destruct F as (st1 & [m1 ep1] & F1 & F2).
      assert (T0 : trained_by K V St M new Q m m new) by (exists [], []; split; [now left|split; [constructor|reflexivity]]).
      inversion S; subst.
      + match goal with H : fit_call _ _ _ W' _ _ _ _ _ _ |- _ => rename H into G1 end.
        destruct (fit_same lg K V C HK St M new a P Q B k D HD HQ m m0 Pm HP W' W n m 0 ep new t s p0 st1 (m1, ep1) (or_intror weight_indifferent) Sh T0 T G1 F1)
          as (E1 & _ & _ & Sh1 & P1 & t1 & -> & T1). cbn [fst] in E1, T1. subst m1.
        eapply (IH (fst p0) r t1 ep1 W st p); eassumption.
      + match goal with H : fit_call _ _ _ W' _ _ _ _ _ _ |- _ => rename H into G1 end. split.
        * intros s ->. exfalso. destruct (fit_was_ok _ _ _ _ _ _ F2) as (s1 & ->).
          destruct (fit_same lg K V C HK St M new a P Q B k D HD HQ m0 m HP Pm W W' n m ep 0 t new s1 (m1, ep1) st0 p0 (or_intror weight_indifferent) Sh T T0 F1 G1)
            as (_ & _ & _ & _ & _ & t1 & E & _). match goal with H : forall s, st0 <> Ok s |- _ => exact (H t1 E) end.
        * intros m'. destruct st0 as [s0| |]; cbn [bind]; intros E; try discriminate E. exfalso. match goal with H : forall s, Ok s0 <> Ok s |- _ => exact (H s0 eq_refl) end.
  Qed.
End Sessions.
