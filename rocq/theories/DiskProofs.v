(** Lemmas on interrupted sequences of saves. *)
Require Import List Bool Arith Lia Ascii.
Require Import Verif.Base Verif.NumpyModel Verif.DiskModel.
Import ListNotations.
Local Open Scope nat_scope.

Lemma put_same d name b : put d name b name = Some b.
Proof. unfold put. now destruct (list_eq_dec ascii_dec name name). Qed.
Lemma put_other d name b x : x <> name -> put d name b x = d x.
Proof. intros H. unfold put. now destruct (list_eq_dec ascii_dec x name). Qed.

Lemma saved_other ws : forall d x, ~ In x (map fst ws) -> saved_all d ws x = d x.
Proof.
  induction ws as [|[n b] ws IH]; intros d x H; cbn [saved_all]; [reflexivity|]. cbn in H.
  rewrite IH by tauto. unfold written_to. apply put_other. intros ->. tauto.
Qed.
Lemma saved_in ws : forall d j n b, NoDup (map fst ws) -> nth_error ws j = Some (n, b) -> saved_all d ws n = Some b.
Proof.
  induction ws as [|[n b] ws IH]; intros d [|j] n' b' ND H; cbn in H; try discriminate; cbn [saved_all map] in *; inversion ND; subst.
  - injection H as -> ->. rewrite saved_other by assumption. unfold written_to. rewrite firstn_all. apply put_same.
  - now apply IH with j.
Qed.

Lemma nodup_firstn {A} (l : list A) k : NoDup l -> NoDup (firstn k l).
Proof.
  revert k. induction l as [|x l IH]; intros [|k] H; cbn; try constructor; inversion H; subst; auto.
  intros I. apply H2. rewrite <- (firstn_skipn k l). apply in_or_app. now left.
Qed.
Lemma nth_firstn {A} (l : list A) k j : j < k -> nth_error (firstn k l) j = nth_error l j.
Proof. revert k j. induction l as [|x l IH]; intros [|k] [|j] H; cbn; try lia; auto; try (now destruct k). apply IH. lia. Qed.
Lemma in_firstn {A} (l : list A) k x : In x (firstn k l) -> exists j, j < k /\ nth_error l j = Some x.
Proof.
  intros H. apply In_nth_error in H. destruct H as (j & H). assert (j < length (firstn k l)) by (apply nth_error_Some; congruence).
  rewrite firstn_length in *. exists j. split; [lia|]. now rewrite <- (nth_firstn l k j) by lia.
Qed.

Lemma stopped_earlier d ws k d' : NoDup (map fst ws) -> stopped d ws k d' ->
  forall j n b, j < k -> nth_error ws j = Some (n, b) -> d' n = Some b.
Proof.
  intros ND S j n b Hj H. assert (A : saved_all d (firstn k ws) n = Some b).
  { apply saved_in with j; [|now rewrite nth_firstn]. rewrite <- firstn_map. now apply nodup_firstn. }
  destruct S as [|n' b' c H']; [exact A|]. unfold written_to. rewrite put_other; [exact A|]. intros ->.
  assert (E : nth_error (map fst ws) j = nth_error (map fst ws) k) by (rewrite !nth_error_map, H, H'; reflexivity).
  rewrite NoDup_nth_error in ND. apply ND in E; [lia|]. rewrite map_length. apply nth_error_Some. congruence.
Qed.
Lemma stopped_later d ws k d' : NoDup (map fst ws) -> stopped d ws k d' ->
  forall j n b, k < j -> nth_error ws j = Some (n, b) -> d' n = d n.
Proof.
  intros ND S j n b Hj H. rewrite NoDup_nth_error in ND.
  assert (U : forall i b', nth_error ws i = Some (n, b') -> i = j).
  { intros i b' Hi. apply ND; [rewrite map_length; apply nth_error_Some; congruence|]. rewrite !nth_error_map, H, Hi. reflexivity. }
  assert (A : saved_all d (firstn k ws) n = d n).
  { apply saved_other. intros I. rewrite <- firstn_map in I. apply in_firstn in I. destruct I as (i & Hi & E).
    rewrite nth_error_map in E. destruct (nth_error ws i) as [[n' b']|] eqn:Ei; [|discriminate]. cbn in E. injection E as ->.
    apply U in Ei. lia. }
  destruct S as [|n' b' c H']; [exact A|]. unfold written_to. rewrite put_other; [exact A|]. intros ->. apply U in H'. lia.
Qed.
Lemma stopped_current d ws k d' : NoDup (map fst ws) -> stopped d ws k d' ->
  forall n b, nth_error ws k = Some (n, b) -> d' n = d n \/ exists c, d' n = Some (firstn c b).
Proof.
  intros ND S n b H. destruct S as [|n' b' c H'].
  - left. apply saved_other. intros I. rewrite <- firstn_map in I. apply in_firstn in I. destruct I as (i & Hi & E).
    assert (i = k); [|lia]. rewrite NoDup_nth_error in ND. apply ND; [apply nth_error_Some; congruence|].
    rewrite E, nth_error_map, H. reflexivity.
  - rewrite H in H'. injection H' as <- <-. right. exists c. unfold written_to. apply put_same.
Qed.
