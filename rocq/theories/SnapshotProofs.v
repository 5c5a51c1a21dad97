(** Lemmas about the snapshots of the training commands. *)
Require Import ZArith List Bool Arith Lia Ascii String.
Require Import Verif.Base Verif.Scalar Verif.Mat Verif.NumpyModel Verif.NumpySpec Verif.NumpyProofs Verif.HostModel Verif.HostProofs Verif.DiskModel Verif.DiskProofs
  Verif.BuilderModel Verif.EStepModel Verif.EStepStop Verif.OptModel Verif.MStepModel Verif.PoolModel Verif.LdaModel Verif.AppsModel Verif.AppsSpec Verif.AppsProofs Verif.ShapeSpec Verif.ShapeProofs
  Verif.CommandModel Verif.CommandSpec Verif.CommandProofs Verif.CommandFiles.
Import ListNotations.
Local Open Scope nat_scope.
Local Open Scope list_scope.
Local Notation length := List.length.

(** The model after each epoch splits the fit in two. *)
Lemma heard_split {T} {O : ops T} dfuel {St} (M : maximizer T St) k W docs st p tr ms st' p' : fit_heard dfuel M k W docs st p tr ms st' p' ->
  forall j m, nth_error ms j = Some m -> exists st1 ep1, fit_call dfuel M k W docs (S j) st p st1 (m, ep1) /\ fit_call dfuel M k W docs (length ms - S j) st1 (m, ep1) st' p'.
Proof.
  induction 1 as [|st p docs' s tr ms st' p' Hp Hr Hm F IH]; intros [|j] m E; try discriminate.
  - injection E as <-. exists (priv s), (snd (param s)). rewrite <- surjective_pairing. split.
    + econstructor; [|constructor]. exists docs', true, s. auto.
    + cbn [List.length]. rewrite Nat.sub_succ, Nat.sub_0_r. exact (fit_heard_fit _ _ _ _ _ _ _ _ _ _ _ F).
  - destruct (IH j m E) as (st1 & ep1 & A & B). exists st1, ep1. split; [|exact B]. econstructor; [|exact A]. exists docs', true, s. auto.
Qed.

Lemma bytes_of_string (l : list byte) : bytes (string_of_list_ascii l) = l.
Proof. apply list_ascii_of_string_of_list_ascii. Qed.

Lemma forall2_nth {A B} (P : A -> B -> Prop) l l' j a : Forall2 P l l' -> nth_error l j = Some a -> exists b, nth_error l' j = Some b /\ P a b.
Proof.
  intros F. revert j. induction F as [|a0 b0 l l' H _ IH]; intros [|j] E; try discriminate; [injection E as <-; now exists b0|exact (IH j E)].
Qed.

Section Snapshot.
  Context {T : Type} {O : ops T}.
  Variable to_bytes : T -> elem.
  Variable of_bytes : elem -> T.
  Hypothesis round : forall x, of_bytes (to_bytes x) = x.
  Hypothesis width : forall x, List.length (to_bytes x) = 8.
  Variables dfuel ofuel : nat.
  Variable args : string -> value.
  Variable stol : string -> outcome Z.
  Variable stof : string -> outcome T.
  Variable uniform_draws : Z -> nat -> nat -> T.
  Variable document_draws : Z -> nat -> nat -> nat.
  Variable hw : nat.
  Variable jk : nat -> junk.

  Lemma train_snapshots St (M : maximizer T St) new k docs b K V C path N d d' : library_step St M new -> docs <> [] ->
    has_size K V C (snd b) -> storable K V -> storable K C -> args "MODEL"%string = VString path ->
    0 < N -> (Z.of_nat N < 2 ^ 31)%Z -> (Z.of_nat (c_iterations (fst b)) < 2 ^ 31)%Z ->
    train_with to_bytes dfuel args good_device M new k docs b (Some (new_snap (bytes path) (Z.of_nat N))) d (Ok tt) d' ->
    exists st m ep, fit_call dfuel M k (c_workers (fst b)) docs (c_iterations (fst b)) (Ok new) (snd b, 0) (Ok st) (m, ep) /\
      (forall jk', CommandModel.model_at of_bytes jk' d' path = Ok m) /\
      (forall e, 1 <= e <= c_iterations (fst b) -> e mod N = 0 -> exists file digits st_e m_e ep_e,
        bytes file = bytes path ++ text "_" ++ digits /\ is_numeral digits (Z.of_nat e) /\ (forall jk', CommandModel.model_at of_bytes jk' d' file = Ok m_e) /\
        fit_call dfuel M k (c_workers (fst b)) docs e (Ok new) (snd b, 0) st_e (m_e, ep_e) /\
        fit_call dfuel M k (c_workers (fst b)) docs (c_iterations (fst b) - e) st_e (m_e, ep_e) (Ok st) (m, ep)) /\
      (forall name, d' name <> d name -> name = bytes path \/
        exists e digits, 1 <= e <= c_iterations (fst b) /\ e mod N = 0 /\ is_numeral digits (Z.of_nat e) /\ name = bytes path ++ text "_" ++ digits).
  Proof.
    intros L HD HS S1 S2 A HN HN31 HI (tr & ms & st & [m ep] & FH & LM & H).
    destruct st as [st| |]; [|destruct H as (? & ? & _ & X & _); discriminate X|discriminate].
    destruct (after_ok _ _ _ _ H) as (ws & E & _ & G). unfold good_device in G. subst d'.
    destruct (bind_ok _ _ _ E) as (ws0 & E0 & E1). cbn in E1. rewrite A in E1. cbn [asString bind] in E1. destruct (bind_ok _ _ _ E1) as (w & E2 & E3). injection E3 as <-.
    pose proof (fit_heard_fit _ _ _ _ _ _ _ _ _ _ _ FH) as F. rewrite LM in F.
    destruct (fit_keeps_size dfuel K V C St M new k _ docs _ _ _ _ _ L (proj1 S1) HD HS F) as [_ HM]. cbn [fst] in HM.
    destruct (snapshots_ok dfuel M k _ docs _ _ tr ms _ _ (bytes path) N FH HN HN31 ltac:(now rewrite LM)) as (l & files & EH & (LF & SF) & ND).
    cbn [snapshots] in E0. rewrite EH in E0. cbn [bind] in E0. unfold snapshot_bytes in E0. apply seqM_map in E0.
    assert (NF : map fst ws0 = map fst files).
    { clear - E0. induction E0 as [|f w files ws E _ IH]; [reflexivity|]. cbn [map]. rewrite IH. f_equal. destruct (bind_ok _ _ _ E) as (? & _ & E1). injection E1 as <-. reflexivity. }
    exists st, m, ep. split; [exact F|]. split; [|split].
    - intros jk'. apply (model_found to_bytes of_bytes round width jk K V C m w _ path jk' HM S1 S2 E2). apply saved_last.
    - intros e He Hm. set (j := e / N - 1).
      assert (Ej : N * S j = e).
      { unfold j. pose proof (Nat.div_mod e N ltac:(lia)) as Q. rewrite Hm in Q. assert (1 <= e / N) by (destruct (e / N); lia). replace (S (e / N - 1)) with (e / N) by lia. lia. }
      assert (Hj : j < length files).
      { rewrite LF, LM. unfold j. assert (e / N <= c_iterations (fst b) / N) by (apply Nat.div_le_mono; lia). pose proof (Nat.div_mod e N ltac:(lia)) as Q. rewrite Hm in Q. assert (1 <= e / N) by (destruct (e / N); lia). lia. }
      destruct (nth_error files j) as [[name me]|] eqn:En; [|apply nth_error_None in En; lia].
      destruct (SF j name me En) as (Hme & digits & Hd & ->). rewrite Ej in Hme, Hd.
      destruct (heard_split _ _ _ _ _ _ _ _ _ _ _ FH (e - 1) me Hme) as (st_e & ep_e & F1 & F2). replace (S (e - 1)) with e in F1, F2 by lia. rewrite LM in F2.
      exists (string_of_list_ascii (bytes path ++ text "_" ++ digits)), digits, st_e, me, ep_e. split; [apply bytes_of_string|]. split; [exact Hd|]. split; [|split; [exact F1|exact F2]].
      intros jk'. destruct (fit_keeps_size dfuel K V C St M new k _ docs _ _ _ _ _ L (proj1 S1) HD HS F1) as [_ HMe]. cbn [fst] in HMe.
      destruct (forall2_nth _ _ _ j _ E0 En) as (wf & Ew & Es). cbn [fst snd] in Es. destruct (bind_ok _ _ _ Es) as (wb & Eb & Es1). cbn in Es1. injection Es1 as <-.
      apply (model_found to_bytes of_bytes round width jk K V C me wb _ _ jk' HMe S1 S2 Eb). rewrite bytes_of_string.
      apply (saved_in (ws0 ++ [(bytes path, w)]) d j); [rewrite map_app, NF; exact ND|]. rewrite nth_error_app1; [exact Ew|]. apply nth_error_Some. congruence.
    - intros name N1. destruct (in_dec (list_eq_dec ascii_dec) name (map fst (ws0 ++ [(bytes path, w)]))) as [I|I]; [|now rewrite saved_other in N1].
      rewrite map_app, NF in I. apply in_app_iff in I. destruct I as [I|[<-|[]]]; [|now left]. right. apply In_nth_error in I. destruct I as (j & Hj).
      rewrite nth_error_map in Hj. destruct (nth_error files j) as [[y me]|] eqn:En; [|discriminate]. cbn in Hj. injection Hj as <-.
      destruct (SF j y me En) as (Hme & digits & Hd & ->). exists (N * S j), digits.
      assert (N * S j - 1 < length ms) by (apply nth_error_Some; congruence). split; [rewrite LM in *; nia|]. split; [rewrite Nat.mul_comm; apply Nat.mod_mul; lia|]. now split.
  Qed.

  Lemma training_snapshots c d d' path x y K V C N : trains c -> args "MODEL"%string = VString path -> reads args jk c d x y -> 1 <= em_cols x ->
    starts of_bytes args stol jk c d x y K V C -> storable K V -> storable K C ->
    long_arg args stol "--snapshot_every" = Ok (Z.of_nat N) -> 0 < N -> (Z.of_nat N < 2 ^ 31)%Z ->
    command_main to_bytes of_bytes dfuel ofuel args stol stof uniform_draws document_draws hw jk good_device c d (Ok tt) d' ->
    exists b St (M : maximizer T St) new k docs,
      built of_bytes args stol stof uniform_draws document_draws hw jk c d x y = Ok b /\ steps ofuel args stol stof c y St M new k /\ documents_of c x y docs /\
      let n := c_iterations (fst b) in let fit := fit_call dfuel M k (c_workers (fst b)) docs in
      ((Z.of_nat n < 2 ^ 31)%Z ->
       exists st m ep, fit n (Ok new) (snd b, 0) (Ok st) (m, ep) /\ (forall jk', CommandModel.model_at of_bytes jk' d' path = Ok m) /\
        (forall e, 1 <= e <= n -> e mod N = 0 -> exists file digits st_e m_e ep_e,
          bytes file = bytes path ++ text "_" ++ digits /\ is_numeral digits (Z.of_nat e) /\ (forall jk', CommandModel.model_at of_bytes jk' d' file = Ok m_e) /\
          fit e (Ok new) (snd b, 0) st_e (m_e, ep_e) /\ fit (n - e) st_e (m_e, ep_e) (Ok st) (m, ep)) /\
        (forall name, d' name <> d name -> name = bytes path \/
          exists e digits, 1 <= e <= n /\ e mod N = 0 /\ is_numeral digits (Z.of_nat e) /\ name = bytes path ++ text "_" ++ digits)).
  Proof.
    intros HC A R NE S S1 S2 EN HN HN31 H.
    destruct (training_heard to_bytes of_bytes dfuel ofuel args stol stof uniform_draws document_draws hw jk _ c d d' HC H) as (x' & y' & b & St & M & new & k & docs & l & R' & B & ST & DC & El & TW).
    destruct (reads_unique _ _ _ _ _ _ _ _ HC R R') as [<- <-].
    assert (HD : docs <> []).
    { intros ->. destruct DC as [DC _]. cbn in DC. apply (f_equal (@List.length _)) in DC. rewrite columns_length in DC. cbn in DC. lia. }
    assert (Hl : l = Some (new_snap (bytes path) (Z.of_nat N))).
    { unfold listeners in El. destruct (bind_ok _ _ _ El) as (q & _ & El1). unfold snapshot_option in El1. rewrite EN in El1. cbn [bind] in El1.
      destruct (Z.ltb_spec 0 (Z.of_nat N)); [|lia]. rewrite A in El1. cbn [asString bind] in El1. rewrite wrap32_small in El1 by lia. now injection El1 as <-. }
    subst l. exists b, St, M, new, k, docs. split; [exact B|]. split; [exact ST|]. split; [exact DC|]. intros n fit HI.
    exact (train_snapshots St M new k docs b K V C path N d d' (steps_library _ _ _ _ _ _ _ _ _ _ ST) HD (built_exact of_bytes args stol stof uniform_draws document_draws hw jk c d x y K V C b HC S B) S1 S2 A HN HN31 HI TW).
  Qed.
End Snapshot.
