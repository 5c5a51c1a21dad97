(** The worker pool with one worker: documents are processed and consumed in the order of the corpus. *)
Require Import List Arith Bool Lia Permutation.
Require Import Verif.PoolModel Verif.PoolSpec Verif.PoolProofs Verif.PoolDone.
Import ListNotations.
Set Implicit Arguments.

Section Order.
  Context {V P S R X : Type}.
  Variable estep : P -> nat -> V.
  Variable feed : S -> P -> nat -> V -> S * P * list X.
  Variable e_end : P -> P.
  Variable m_end : S -> P -> S * P * list X.
  Variable md : mode.
  Variable owner : bool.
  Variable docs : nat.

  Notation st := (state V P S R X).
  Notation reach := (@reachable V P S R X estep feed e_end m_end md owner docs).

  Definition inv_order (s : st) : Prop :=
    esteps (log s) = fed (log s) ++ cur md (main s) ++ qout s ++ flat_map post (workers s)
    /\ map fst (esteps (log s)) ++ flat_map pre (workers s) ++ qin s ++ unqueued docs (main s) = seq 0 docs
    /\ (match main s with MQueue i => i <= docs | _ => True end).

  Ltac step_split H l s Ph :=
    step_cases H l s;
    try match goal with
        | E : (_ <? length _) = true |- _ =>
            first [ destruct (spawn_split Ph E) as (l1 & l2 & Hws & Hlen & Hrep)
                  | match goal with
                    | Ex : nth_error _ _ = Some WExit |- _ =>
                        destruct (replace_split _ _ Ex) as (l1 & l2 & Hws & Hlen & Hrep)
                    end ]; subst
        end;
    try match goal with Hr : forall b, replace _ b _ = _ |- _ => rewrite ?Hr end.
  Lemma single {A} (l1 l2 : list A) x : length (l1 ++ x :: l2) = 1 -> l1 = [] /\ l2 = [].
  Proof. rewrite app_length. cbn. destruct l1, l2; cbn; intros; split; try reflexivity; lia. Qed.

  Lemma reach_order s0 p0 s : reach 1 s0 p0 s -> inv_order s.
  Proof.
    induction 1 as [|l s s' Hr (A & B & C) H].
    - unfold inv_order, initial. cbn. rewrite Nat.sub_0_r. repeat split. lia.
    - pose proof (reach_phase Hr) as Ph. destruct (reach_locks Hr) as (_ & Hone). clear Hr. unfold inv_order in *.
      step_split H l s Ph;
      try (match goal with Hone : length (_ ++ _ :: _) = 1 |- _ => destruct (single _ _ _ Hone) as [-> ->] end);
      rewrite ?esteps_app, ?fed_app, ?flat_map_app in *;
      cbn [esteps fed flat_map pre post cur unqueued map fst snd app] in *;
      rewrite ?next_cur, ?next_unq, ?after_feed_cur, ?after_feed_unq, ?after_m_end_cur, ?after_m_end_unq;
      rewrite ?map_app, ?app_nil_r in *; cbn [map fst app] in *.
      all: try (repeat split; first [assumption|lia|apply next_q|apply after_feed_q|apply after_m_end_q]).
    + apply Nat.ltb_lt in E. split; [assumption|]. split; [|lia].
        rewrite <- B. replace (docs - i) with (Datatypes.S (docs - Datatypes.S i)) by lia. cbn [seq]. now rewrite <- !app_assoc.
      + apply Nat.ltb_ge in E. split; [assumption|]. split; [|exact I].
        rewrite <- B. replace (docs - i) with 0 by lia. cbn [seq]. now rewrite app_nil_r.
      + unfold after_process. destruct md eqn:Em; cbn [cur unqueued app].
        * rewrite app_nil_r. auto.
        * rewrite next_cur, next_unq, app_nil_r. cbn [app] in *. split; [assumption|]. split; [assumption|apply next_q].
      + split; [|split; [assumption|apply after_feed_q]]. rewrite A. now rewrite <- !app_assoc.
      + rewrite A. split; [now rewrite <- !app_assoc|]. split; [|assumption]. rewrite <- A, <- B. now rewrite <- app_assoc.
  Qed.

  (** In the end every document was consumed once, in order, with its E-step result. *)
  Lemma done_order s0 p0 s : (forall s p i v, snd (fst (feed s p i v)) = p) ->
    reach 1 s0 p0 s -> main s = MDone -> fed (log s) = map (fun i => (i, estep p0 i)) (seq 0 docs).
  Proof.
    intros Hf Hr Hm. destruct (reach_order Hr) as (A & B & _). destruct (done_clean Hr Hm) as (Q1 & Q2 & _ & _ & _ & J & _).
    rewrite Hm in *. cbn [cur unqueued app] in *. rewrite Q2 in A. cbn [app] in A.
    rewrite (flat_map_joined post) in A by auto. rewrite (flat_map_joined pre) in B by auto. rewrite app_nil_r in A. cbn [app] in *. rewrite Q1, !app_nil_r in B. rewrite A in B.
    destruct (reach_values Hf Hr) as (_ & F). rewrite A in F. rewrite <- B. clear - F.
    induction F as [|[i v] l Hv _ IH]; cbn in *; [reflexivity|]. now rewrite <- IH, Hv.
  Qed.
End Order.
