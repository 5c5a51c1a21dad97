(** The result of partial_fit does not depend on whether the calling thread is the one that built the object: a simulation in each
    direction. *)
Require Import List Arith Bool Lia.
Require Import Verif.PoolModel Verif.PoolSpec Verif.PoolProofs.
Import ListNotations.
Set Implicit Arguments.

Section Owner.
  Context {V P S R X : Type}.
  Variable estep : P -> nat -> V.
  Variable feed : S -> P -> nat -> V -> S * P * list X.
  Variable e_end : P -> P.
  Variable m_end : S -> P -> S * P * list X.
  Variable docs : nat.
  Notation st := (state V P S R X).
  Notation pc := (mpc V R X).
  Notation reach o := (@reachable V P S R X estep feed e_end m_end Fit o docs).
  Notation step o := (@step V P S R X estep feed e_end m_end Fit o docs).
  Notation mstep o := (@mstep V P S R X feed e_end m_end Fit o docs).

  (** Everything but the waiting events, who holds their mutex and the place in the calling thread's code *)
  Definition same (s t : st) : Prop :=
    qin s = qin t /\ qout s = qout t /\ lin s = lin t /\ lout s = lout t /\ workers s = workers t /\ priv s = priv t /\ param s = param t /\
    computation (log s) = computation (log t).
  (** Delivering, whatever is delivered *)
  Inductive prel : proc R X -> proc R X -> Prop :=
  | prel_lock : prel PLock PLock | prel_take : prel PTake PTake
  | prel_unlock b b' : prel (PUnlock b) (PUnlock b') | prel_deliver b b' : prel (PDeliver b) (PDeliver b').
  Definition plain (m : pc) : Prop :=
    match m with
    | MProcess _ _ _ _ | MFeedEv _ _ _ (DProc _) _ | MEndEv (DProc _) _ | MEpoch (DProc _) => False
    | _ => True
    end.
  Inductive mrel : pc -> pc -> Prop :=
  | mrel_process c i v q q' : prel q q' -> mrel (MProcess c i v q) (MProcess c i v q')
  | mrel_same m : plain m -> mrel m m.
  Definition alike (s t : st) : Prop := same s t /\ lev s = lev t /\ mrel (main s) (main t).

  Lemma next_is c : plain (next docs c). Proof. unfold next. now destruct (c <? docs). Qed.
  Lemma after_feed_is c i v xs : plain (after_feed Fit docs c i v xs). Proof. destruct xs; [apply next_is|exact I]. Qed.
  Lemma after_m_end_is xs : plain (after_m_end xs). Proof. now destruct xs. Qed.

  Inductive path (o : bool) : st -> st -> Prop :=
  | path_none s : path o s s
  | path_more s l s1 s2 : step o l s = Some s1 -> path o s1 s2 -> path o s s2.
  Lemma path_one o l s s' : step o l s = Some s' -> path o s s'.
  Proof. intros E. eapply path_more; [exact E|constructor]. Qed.
  Lemma path_reach o W s0 p0 s s' : path o s s' -> reach o W s0 p0 s -> reach o W s0 p0 s'.
  Proof. induction 1 as [|s l s1 s2 E _ IH]; intros R0; [exact R0|]. apply IH. eapply reach_step; eassumption. Qed.
  Lemma path_trans o s s1 s2 : path o s s1 -> path o s1 s2 -> path o s s2.
  Proof. induction 1 as [|s l s1 s3 E _ IH]; intros R0; [exact R0|]. eapply path_more; [exact E|exact (IH R0)]. Qed.

  Definition wake (m : pc) : pc := match m with MAsleep c => MWait c | m => m end.
  Lemma mrel_wake m n : mrel m n -> mrel (wake m) (wake n).
  Proof. intros [c i v q q' H|m' H]; [now constructor|]. destruct m'; cbn in *; now constructor. Qed.

  Ltac unfold_all :=
    unfold same, note, set_data, set_worker, set_main, set_qin, set_qout, set_qev, set_lin, set_lout, set_lev;
    cbn [qin qout qev lin lout lev workers main priv param log fst snd].
  (** ** Workers *)
  Lemma worker_step s t w r s' : same s t -> lev s = lev t -> wstep estep w r s = Some s' ->
    exists t' b, wstep estep w r t = Some t' /\ same s' t' /\ lev s' = lev t' /\
      main s' = (if b : bool then wake (main s) else main s) /\ main t' = (if b then wake (main t) else main t).
  Proof.
    destruct s as [qi qo qe li lo le ws m pr pa lg], t as [qi' qo' qe' li' lo' le' ws' m' pr' pa' lg']. unfold same.
    cbn [qin qout qev lin lout lev workers main priv param log]. intros (<- & <- & <- & <- & <- & <- & <- & L) <- E.
    unfold wstep in *. cbn [workers] in *. destruct (nth_error ws w) as [p|]; [|discriminate].
    destruct p; cbn [qin qout qev lin lout lev workers main priv param log] in *; try discriminate E.
    - destruct li; [discriminate|]. injection E as <-. eexists. exists false. split; [reflexivity|]. unfold_all; auto 10.
    - injection E as <-. eexists. exists false. split; [reflexivity|]. unfold_all; auto 10.
    - destruct qi; [discriminate|]. injection E as <-. eexists. exists false. split; [reflexivity|]. unfold_all; auto 10.
    - injection E as <-. eexists. exists false. split; [reflexivity|]. unfold_all; auto 10.
    - injection E as <-. eexists. exists false. split; [reflexivity|]. unfold_all; auto 10.
    - injection E as <-. eexists. exists false. split; [reflexivity|]. unfold_all. rewrite !computation_app, L. auto 10.
    - destruct le; [discriminate|]. injection E as <-. eexists. exists false. split; [reflexivity|]. unfold_all; auto 10.
    - injection E as <-. eexists. exists false. split; [reflexivity|]. unfold_all; auto 10.
    - injection E as <-. eexists. exists false. split; [reflexivity|]. unfold_all; auto 10.
    - destruct lo; [discriminate|]. injection E as <-. eexists. exists false. split; [reflexivity|]. unfold_all; auto 10.
    - injection E as <-. eexists. exists false. split; [reflexivity|]. unfold_all; auto 10.
    - injection E as <-. eexists. exists false. split; [reflexivity|]. unfold_all; auto 10.
    - injection E as <-. eexists. exists true. split; [reflexivity|]. destruct m; unfold_all; destruct m'; cbn; auto 10.
  Qed.
  (** When the calling thread holds the events' mutex in one of them only *)
  Lemma worker_blocked s t w r s' : same s t -> lev s = Some Main -> cnt in_lev (workers s) = 0 -> wstep estep w r s = Some s' ->
    (forall c, main s <> MAsleep c) -> (forall c, main t <> MAsleep c) ->
    exists t', wstep estep w r t = Some t' /\ same s' t' /\ lev s' = lev s /\ lev t' = lev t /\ main s' = main s /\ main t' = main t.
  Proof.
    destruct s as [qi qo qe li lo le ws m pr pa lg], t as [qi' qo' qe' li' lo' le' ws' m' pr' pa' lg']. unfold same.
    cbn [qin qout qev lin lout lev workers main priv param log]. intros (<- & <- & <- & <- & <- & <- & <- & L) -> Z E A B.
    unfold wstep in *. cbn [workers] in *. destruct (nth_error ws w) as [p|] eqn:NW; [|discriminate].
    pose proof (cnt_zero _ _ _ Z NW) as IL.
    destruct p; cbn [qin qout qev lin lout lev workers main priv param log] in *; try discriminate E; try discriminate IL.
    - destruct li; [discriminate|]. injection E as <-. eexists. split; [reflexivity|]. unfold_all; auto 10.
    - injection E as <-. eexists. split; [reflexivity|]. unfold_all; auto 10.
    - destruct qi; [discriminate|]. injection E as <-. eexists. split; [reflexivity|]. unfold_all; auto 10.
    - injection E as <-. eexists. split; [reflexivity|]. unfold_all; auto 10.
    - injection E as <-. eexists. split; [reflexivity|]. unfold_all; auto 10.
    - injection E as <-. eexists. split; [reflexivity|]. unfold_all. rewrite !computation_app, L. auto 10.
    - destruct lo; [discriminate|]. injection E as <-. eexists. split; [reflexivity|]. unfold_all; auto 10.
    - injection E as <-. eexists. split; [reflexivity|]. unfold_all; auto 10.
    - injection E as <-. eexists. split; [reflexivity|]. unfold_all; auto 10.
    - injection E as <-. eexists. split; [reflexivity|].
      replace (match m with MAsleep c => set_main (MWait c) (mk_state qi qo qe li lo (Some Main) ws m pr pa lg)
               | _ => mk_state qi qo qe li lo (Some Main) ws m pr pa lg end) with (mk_state qi qo qe li lo (Some Main) ws m pr pa lg)
        by (destruct m; try reflexivity; now contradiction (A c)).
      replace (match m' with MAsleep c => set_main (MWait c) (mk_state qi qo qe' li lo le' ws m' pr pa lg')
               | _ => mk_state qi qo qe' li lo le' ws m' pr pa lg' end) with (mk_state qi qo qe' li lo le' ws m' pr pa lg')
        by (destruct m'; try reflexivity; now contradiction (B c)).
      unfold_all; auto 10.
  Qed.

  (** ** The calling thread *)
  Lemma same_refl s : same s s. Proof. unfold same. auto 10. Qed.
  Lemma same_trans a b c : same a b -> same b c -> same a c.
  Proof. unfold same. intros (? & ? & ? & ? & ? & ? & ? & ?) (? & ? & ? & ? & ? & ? & ? & ?). repeat split; congruence. Qed.
  Lemma same_main m t : same t (set_main m t). Proof. destruct t. unfold_all. auto 10. Qed.
  Lemma same_lev l t : same t (set_lev l t). Proof. destruct t. unfold_all. auto 10. Qed.
  Lemma same_qev q t : same t (set_qev q t). Proof. destruct t. unfold_all. auto 10. Qed.
  (** Delivering what was taken *)
  Lemma deliver o (k : proc R X -> pc) done : (forall u q, main u = k q -> mstep o u = proc_step q k done u) ->
    forall b t, main t = k (PDeliver b) -> exists t', path o t t' /\ same t t' /\ lev t' = lev t /\ main t' = done.
  Proof.
    intros K. induction b as [|e b IH]; intros t M.
    - eexists. split; [apply (path_one o LMain); cbn; rewrite (K _ _ M); reflexivity|]. unfold_all. auto 10.
    - destruct (IH (note (ODeliver e (param t)) (set_main (k (PDeliver b)) t)) eq_refl) as (t' & A & B & C & D).
      exists t'. split; [|split; [|auto]].
      + eapply path_more; [|exact A]. instantiate (1 := LMain). cbn. rewrite (K _ _ M). reflexivity.
      + refine (same_trans _ B). unfold_all. rewrite computation_app. cbn. rewrite app_nil_r. auto 10.
  Qed.
  Lemma flush o (k : proc R X -> pc) done t : (forall u q, main u = k q -> mstep o u = proc_step q k done u) ->
    main t = k PLock -> lev t = None -> exists t', path o t t' /\ same t t' /\ lev t' = None /\ main t' = done.
  Proof.
    intros K M L. set (t1 := set_lev (Some Main) (set_main (k PTake) t)). set (t2 := set_qev [] (set_main (k (PUnlock (qev t1))) t1)).
    set (t3 := set_lev None (set_main (k (PDeliver (qev t1))) t2)).
    destruct (deliver o k done K (qev t1) t3 eq_refl) as (t' & A & B & C & D).
    exists t'. split; [|split; [|auto]].
    - eapply path_more with (l := LMain); [cbn; rewrite (K _ _ M); cbn; rewrite L; reflexivity|]. fold t1.
      eapply path_more with (l := LMain); [cbn; rewrite (K t1 PTake eq_refl); reflexivity|]. fold t2.
      eapply path_more with (l := LMain); [cbn; rewrite (K t2 (PUnlock (qev t1)) eq_refl); reflexivity|]. exact A.
    - refine (same_trans _ B). refine (same_trans (same_main (k PTake) t) _). refine (same_trans (same_lev (Some Main) _) _).
      refine (same_trans (same_main (k (PUnlock (qev t1))) _) _). refine (same_trans (same_qev [] _) _).
      refine (same_trans (same_main (k (PDeliver (qev t1))) _) _). exact (same_lev None _).
  Qed.

  (** The places from which the calling thread dispatches events, and what follows *)
  Inductive place : (disp R X -> pc) -> pc -> Prop :=
  | place_feed c i v xs : place (fun d => MFeedEv c i v d xs) (after_feed Fit docs c i v xs)
  | place_end xs : place (fun d => MEndEv d xs) (after_m_end xs)
  | place_epoch : place MEpoch MDone.
  Definition is_proc (d : disp R X) : bool := match d with DProc _ => true | _ => false end.
  Lemma place_step o k done : place k done -> forall u d, main u = k d -> mstep o u = disp_step o d k done u.
  Proof. intros [c i v xs|xs|] u d U; unfold PoolModel.mstep; rewrite U; reflexivity. Qed.
  Lemma place_plain k done : place k done -> forall d, is_proc d = false -> plain (k d).
  Proof. intros [c i v xs|xs|] [| | |]; cbn; intros; try exact I; discriminate. Qed.
  Lemma place_done k done : place k done -> plain done.
  Proof. intros [c i v xs|xs|]; [apply after_feed_is|apply after_m_end_is|exact I]. Qed.
  Lemma main_cases m n : mrel m n -> (exists c i v q q', prel q q' /\ m = MProcess c i v q /\ n = MProcess c i v q') \/ (plain m /\ n = m).
  Proof. intros [c i v q q' H|m' H]; [left; exists c, i, v, q, q'; auto|right; auto]. Qed.
  Lemma main_any o o' (G : st -> st -> Prop) s t s' : (forall s' t', alike s' t' -> G s' t') ->
    (forall k done d, place k done -> same s t -> lev s = lev t -> main t = k d -> is_proc d = false ->
       disp_step o d k done s = Some s' -> exists t', path o' t t' /\ G s' t') ->
    alike s t -> mstep o s = Some s' -> exists t', path o' t t' /\ G s' t'.
  Proof.
    intros HG HD (Q & L & M) E. unfold PoolModel.mstep in E. destruct (main_cases M) as [(c & i & v & q & q' & HQ & HS & HT)|[HP HT]].
    - rewrite HS in E. destruct HQ as [| |b b'|b b']; cbn [proc_step] in E.
      + destruct (lev s) eqn:LS; [discriminate|]. injection E as <-. eexists. split.
        * apply (path_one o' LMain). cbn. unfold PoolModel.mstep. rewrite HT. cbn [proc_step]. rewrite <- L. reflexivity.
        * apply HG. unfold alike. split; [revert Q; unfold_all; auto|]. split; [reflexivity|]. apply mrel_process. constructor.
      + injection E as <-. eexists. split.
        * apply (path_one o' LMain). cbn. unfold PoolModel.mstep. rewrite HT. reflexivity.
        * apply HG. unfold alike. split; [revert Q; unfold_all; auto|]. split; [exact L|]. apply mrel_process. constructor.
      + injection E as <-. eexists. split.
        * apply (path_one o' LMain). cbn. unfold PoolModel.mstep. rewrite HT. reflexivity.
        * apply HG. unfold alike. split; [revert Q; unfold_all; auto|]. split; [reflexivity|]. apply mrel_process. constructor.
      + destruct b as [|e b].
        * injection E as <-. destruct (@deliver o' (MProcess c i v) (MFeed c i v)) with (b := b') (t := t) as (t' & A & B & C & D).
          { intros u q U. unfold PoolModel.mstep. rewrite U. reflexivity. }
          { exact HT. }
          exists t'. split; [exact A|]. apply HG. unfold alike. split; [refine (same_trans _ B); revert Q; unfold_all; auto|]. split; [unfold_all; congruence|].
          unfold_all. rewrite D. now apply mrel_same.
        * injection E as <-. exists t. split; [constructor|]. apply HG. unfold alike. split; [|split; [exact L|]].
          -- revert Q. unfold_all. rewrite computation_app. cbn. rewrite app_nil_r. auto.
          -- unfold_all. rewrite HT. constructor. constructor.
    -
      assert (QQ := Q). destruct Q as (Q1 & Q2 & Q3 & Q4 & Q5 & Q6 & Q7 & Q8).
      assert (Go : forall t', mstep o' t = Some t' -> alike s' t' -> exists t', path o' t t' /\ G s' t').
      { intros t' H1 H2. exists t'. split; [now apply (path_one o' LMain)|exact (HG _ _ H2)]. }
      unfold PoolModel.mstep in Go. rewrite HT in Go.
      destruct (main s) as [i|w|c|c|c|c|c i v|c i v q|c i v|c i v d xs|w| | |d xs|d| ] eqn:HS; try contradiction HP; try discriminate E.
      + destruct (i <? docs); injection E as <-; (eapply Go; [reflexivity|]); unfold alike; unfold_all; rewrite <- ?Q1; (split; [auto 10|split; [exact L|now apply mrel_same]]).
      + rewrite <- Q5 in Go. destruct (w <? length (workers s)); injection E as <-; (eapply Go; [reflexivity|]); unfold alike; unfold_all; rewrite <- ?Q5;
          (split; [auto 10|split; [exact L|apply mrel_same; first [exact I|apply next_is]]]).
      + rewrite <- Q4 in Go. destruct (lout s); [discriminate|]. injection E as <-; (eapply Go; [reflexivity|]); unfold alike; unfold_all;
          (split; [auto 10|split; [exact L|now apply mrel_same]]).
      + rewrite <- Q2 in Go. destruct (qout s) as [|x q] eqn:EQ; injection E as <-; (eapply Go; [reflexivity|]); unfold alike; unfold_all; rewrite ?EQ;
          (split; [auto 10|split; [exact L|now apply mrel_same]]).
      + rewrite <- Q2 in Go. destruct (qout s) as [|[i v] q] eqn:EQ; [discriminate|]; injection E as <-; (eapply Go; [reflexivity|]); unfold alike; unfold_all; rewrite ?EQ;
          (split; [auto 10|split; [exact L|now apply mrel_same]]).
      + injection E as <-; (eapply Go; [reflexivity|]); unfold alike; unfold_all; (split; [auto 10|split; [exact L|now apply mrel_process; constructor]]).
      + rewrite <- Q6, <- Q7 in Go. injection E as <-; (eapply Go; [reflexivity|]); unfold alike; unfold_all; rewrite !computation_app, Q8;
          (split; [auto 10|split; [exact L|apply mrel_same, after_feed_is]]).
      + refine (HD _ _ _ (place_feed c i v xs) QQ L HT _ E). now destruct d.
      + rewrite <- Q5 in Go. destruct (w <? length (workers s)); [destruct (nth_error (workers s) w) as [[]|]; try discriminate|];
          injection E as <-; (eapply Go; [reflexivity|]); unfold alike; unfold_all; rewrite <- ?Q5; (split; [auto 10|split; [exact L|now apply mrel_same]]).
      + rewrite <- Q6, <- Q7 in Go. injection E as <-; (eapply Go; [reflexivity|]); unfold alike; unfold_all; rewrite !computation_app, Q8;
          (split; [auto 10|split; [exact L|now apply mrel_same]]).
      + rewrite <- Q6, <- Q7 in Go. injection E as <-; (eapply Go; [reflexivity|]); unfold alike; unfold_all; rewrite !computation_app, Q8;
          (split; [auto 10|split; [exact L|apply mrel_same, after_m_end_is]]).
      + refine (HD _ _ _ (place_end xs) QQ L HT _ E). now destruct d.
      + refine (HD _ _ _ place_epoch QQ L HT _ E). now destruct d.
  Qed.

  (** ** From another thread to the owner: the owner delivers at once what it dispatches *)
  Lemma disp_up (k : disp R X -> pc) done d s t s' : place k done -> same s t -> lev s = lev t -> main t = k d -> is_proc d = false ->
    disp_step false d k done s = Some s' -> exists t', path true t t' /\ alike s' t'.
  Proof.
    intros Pl Q L M N E. pose proof (place_step true Pl) as K. pose proof (place_plain Pl) as PK. pose proof (place_done Pl) as PD. destruct d as [e|e| |q]; try discriminate N; cbn [disp_step] in E.
    - destruct (lev s) eqn:LS; [discriminate|]. injection E as <-. eexists. split.
      + eapply (path_one true LMain). cbn. rewrite (K _ _ M). cbn [disp_step]. rewrite <- L. reflexivity.
      + unfold alike. split; [revert Q; unfold_all; auto|]. split; [reflexivity|]. apply mrel_same. now apply PK.
    - injection E as <-. eexists. split.
      + eapply (path_one true LMain). cbn. rewrite (K _ _ M). cbn [disp_step]. reflexivity.
      + unfold alike. split; [revert Q; unfold_all; auto|]. split; [exact L|]. apply mrel_same. now apply PK.
    - injection E as <-. set (t1 := set_lev None (set_main (k (DProc PLock)) t)).
      destruct (@flush true (fun q => k (DProc q)) done t1) as (t' & A & B & C & D); [intros u q Hq; exact (K u _ Hq)|reflexivity|reflexivity|].
      exists t'. split.
      + eapply path_more with (l := LMain); [cbn; rewrite (K _ _ M); reflexivity|exact A].
      + unfold alike. split; [|split; [symmetry; exact C|unfold_all; rewrite D; now apply mrel_same]].
        refine (same_trans _ B). revert Q. unfold t1. unfold_all. auto.
  Qed.
  Lemma step_up l s t s' : alike s t -> step false l s = Some s' -> exists t', path true t t' /\ alike s' t'.
  Proof.
    intros A E. destruct l as [|w r|]; [exact (@main_any false true _ s t s' (fun _ _ H => H) (fun k done d Pl Q L M N E => @disp_up k done d s t s' Pl Q L M N E) A E)| |].
    - destruct A as (Q & L & M). destruct (@worker_step s t w r s' Q L E) as (t' & b & E' & Q' & L' & M1 & M2).
      exists t'. split; [now apply (path_one true (LWorker w r))|]. split; [exact Q'|]. split; [exact L'|]. rewrite M1, M2. destruct b; [now apply mrel_wake|exact M].
    - cbn in E. unfold spurious in E. destruct A as (Q & L & M). destruct (main s) as [| | | |c| | | | | | | | | | | ] eqn:MS; try discriminate. injection E as <-.
      inversion M as [|m HP HS HT]. subst m. exists (set_main (MWait c) t). split.
      + apply (path_one true LSpurious). cbn. unfold spurious. now rewrite <- HT.
      + unfold alike. split; [revert Q; unfold_all; auto|]. split; [exact L|]. now apply mrel_same.
  Qed.
  Lemma owner_too W s0 p0 s : reach false W s0 p0 s -> exists t, reach true W s0 p0 t /\ alike s t.
  Proof.
    induction 1 as [|l s s' _ (t & Rt & A) E].
    - eexists. split; [apply reach_init|]. unfold alike. split; [apply same_refl|]. split; [reflexivity|]. now apply mrel_same.
    - destruct (step_up l A E) as (t' & Pt & A'). exists t'. split; [exact (path_reach Pt Rt)|exact A'].
  Qed.

  (** ** From the owner to another thread: the events stay where they are *)
  Definition apart (s t : st) : Prop :=
    same s t /\
    ((lev s = lev t /\ mrel (main s) (main t)) \/
     exists k q, place k (main t) /\ main s = k (DProc q) /\ if proc_lev q then lev s = Some Main /\ lev t = None else lev s = lev t).
  Lemma alike_apart s t : alike s t -> apart s t. Proof. intros (A & B & C). split; auto. Qed.
  Lemma place_awake k done : place k done -> forall c, done <> MAsleep c.
  Proof. intros [c i v xs|xs|] c0; [|now destruct xs|discriminate]. destruct xs; [|discriminate]. cbn. unfold next. now destruct (_ <? _). Qed.
  Lemma place_proc_awake k done : place k done -> forall d c, k d <> MAsleep c.
  Proof. now intros [c i v xs|xs|]. Qed.
  Lemma disp_down k done d s t s' : place k done -> same s t -> lev s = lev t -> main t = k d -> is_proc d = false ->
    disp_step true d k done s = Some s' -> exists t', path false t t' /\ apart s' t'.
  Proof.
    intros Pl Q L M N E. pose proof (place_step false Pl) as K. pose proof (place_plain Pl) as PK.
    destruct d as [e|e| |q]; try discriminate N; cbn [disp_step] in E.
    - destruct (lev s) eqn:LS; [discriminate|]. injection E as <-. eexists. split.
      + eapply (path_one false LMain). cbn. rewrite (K _ _ M). cbn [disp_step]. rewrite <- L. reflexivity.
      + apply alike_apart. split; [revert Q; unfold_all; auto|]. split; [reflexivity|]. apply mrel_same. now apply PK.
    - injection E as <-. eexists. split.
      + eapply (path_one false LMain). cbn. rewrite (K _ _ M). cbn [disp_step]. reflexivity.
      + apply alike_apart. split; [revert Q; unfold_all; auto|]. split; [exact L|]. apply mrel_same. now apply PK.
    - injection E as <-. eexists. split.
      + eapply (path_one false LMain). cbn. rewrite (K _ _ M). cbn [disp_step]. reflexivity.
      + split; [revert Q; unfold_all; auto|]. right. exists k, PLock. unfold_all. split; [exact Pl|]. split; reflexivity.
  Qed.
  Lemma inside_down k q s t s' : place k (main t) -> same s t -> main s = k (DProc q) -> (if proc_lev q then lev s = Some Main /\ lev t = None else lev s = lev t) ->
    mstep true s = Some s' -> apart s' t.
  Proof.
    intros Pl Q M L E. rewrite (place_step true Pl s _ M) in E. cbn [disp_step] in E. destruct q as [| |b|[|e b]]; cbn [proc_step proc_lev] in *.
    - destruct (lev s) eqn:LS; [discriminate|]. injection E as <-. split; [revert Q; unfold_all; auto|]. right. exists k, PTake. unfold_all. split; [exact Pl|]. split; [reflexivity|]. cbn. auto.
    - injection E as <-. split; [revert Q; unfold_all; auto|]. right. exists k, (PUnlock (qev s)). unfold_all. split; [exact Pl|]. split; [reflexivity|]. exact L.
    - injection E as <-. split; [revert Q; unfold_all; auto|]. right. exists k, (PDeliver b). unfold_all. split; [exact Pl|]. split; [reflexivity|]. symmetry. apply L.
    - injection E as <-. split; [revert Q; unfold_all; auto|]. left. unfold_all. split; [exact L|]. apply mrel_same. exact (place_done Pl).
    - injection E as <-. split.
      + revert Q. unfold_all. rewrite computation_app. cbn. rewrite app_nil_r. auto.
      + right. exists k, (PDeliver b). unfold_all. split; [exact Pl|]. split; [reflexivity|]. exact L.
  Qed.
  Lemma step_down l s t s' W s0 p0 : reach true W s0 p0 s -> apart s t -> step true l s = Some s' -> exists t', path false t t' /\ apart s' t'.
  Proof.
    intros Rs [Q [(L & M)|(k & q & Pl & M & L)]] E.
    - destruct l as [|w r|].
      + exact (@main_any true false apart s t s' alike_apart (fun k done d Pl Q L M N E => @disp_down k done d s t s' Pl Q L M N E) (conj Q (conj L M)) E).
      + destruct (@worker_step s t w r s' Q L E) as (t' & b & E' & Q' & L' & M1 & M2).
        exists t'. split; [now apply (path_one false (LWorker w r))|]. apply alike_apart. split; [exact Q'|]. split; [exact L'|]. rewrite M1, M2. destruct b; [now apply mrel_wake|exact M].
      + cbn in E. unfold spurious in E. destruct (main s) as [| | | |c| | | | | | | | | | | ] eqn:MS; try discriminate. injection E as <-.
        inversion M as [|m HP HS HT]. subst m. exists (set_main (MWait c) t). split.
        * apply (path_one false LSpurious). cbn. unfold spurious. now rewrite <- HT.
        * apply alike_apart. split; [revert Q; unfold_all; auto|]. split; [exact L|]. now apply mrel_same.
    - destruct l as [|w r|].
      + exists t. split; [constructor|]. exact (@inside_down k q s t s' Pl Q M L E).
      + assert (AS : forall c, main s <> MAsleep c) by (rewrite M; exact (place_proc_awake Pl (DProc q))).
        pose proof (place_awake Pl) as AT. destruct (proc_lev q) eqn:PL.
        * destruct L as [L1 L2]. destruct (reach_locks Rs) as [(_ & _ & LL) _]. rewrite M, L1 in LL.
          assert (Z : cnt in_lev (workers s) = 0).
          { assert (ML : main_lev (k (DProc q)) = true) by (destruct Pl; exact PL). rewrite ML in LL. cbn in LL. lia. }
          destruct (@worker_blocked s t w r s' Q L1 Z E AS AT) as (t' & E' & Q' & M1 & M2 & M3 & M4).
          exists t'. split; [now apply (path_one false (LWorker w r))|]. split; [exact Q'|]. right. exists k, q. rewrite M4, M3, M1, M2, PL. auto.
        * destruct (@worker_step s t w r s' Q L E) as (t' & b & E' & Q' & L' & M1 & M2).
          assert (W1 : main s' = main s) by (rewrite M1; destruct b; [|reflexivity]; revert AS; destruct (main s); cbn; try reflexivity; intros HX; now contradiction (HX c)).
          assert (W2 : main t' = main t) by (rewrite M2; destruct b; [|reflexivity]; revert AT; destruct (main t); cbn; try reflexivity; intros HX; now contradiction (HX c)).
          exists t'. split; [now apply (path_one false (LWorker w r))|]. split; [exact Q'|]. right. exists k, q. rewrite W1, W2, PL. auto.
      + cbn in E. unfold spurious in E. rewrite M in E. now destruct Pl.
  Qed.
  Lemma not_owner_too W s0 p0 s : reach true W s0 p0 s -> exists t, reach false W s0 p0 t /\ apart s t.
  Proof.
    induction 1 as [|l s s' Rs (t & Rt & A) E].
    - eexists. split; [apply reach_init|]. apply alike_apart. split; [apply same_refl|]. split; [reflexivity|]. now apply mrel_same.
    - destruct (@step_down l s t s' _ _ _ Rs A E) as (t' & Pt & A'). exists t'. split; [exact (path_reach Pt Rt)|exact A'].
  Qed.

  (** ** Finished calls *)
  Lemma done_any o o' W s0 p0 s : reach o W s0 p0 s -> main s = MDone ->
    exists t, reach o' W s0 p0 t /\ main t = MDone /\ priv t = priv s /\ param t = param s /\ computation (log t) = computation (log s).
  Proof.
    intros Rs D. assert (Fin : forall t, same s t -> priv t = priv s /\ param t = param s /\ computation (log t) = computation (log s)).
    { intros t (_ & _ & _ & _ & _ & A & B & C). auto. }
    destruct o, o'; [exists s; auto| | |exists s; auto].
    - destruct (not_owner_too Rs) as (t & Rt & Q & H). exists t. split; [exact Rt|]. split; [|exact (Fin t Q)].
      destruct H as [[_ M]|(k & q & Pl & M & _)]; [rewrite D in M; now inversion M|]. rewrite D in M. now destruct Pl.
    - destruct (owner_too Rs) as (t & Rt & Q & _ & M). exists t. split; [exact Rt|]. split; [|exact (Fin t Q)]. rewrite D in M. now inversion M.
  Qed.
End Owner.
