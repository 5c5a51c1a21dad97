(** Model of how the events of a training find the listeners of an LDA object: the dispatchers held by the E and M steps
    (include/ldaplusplus/events/Events.hpp 182-199, EventDispatcherComposition), the forwarding of the semi-supervised E step
    (src/ldaplusplus/em/SemiSupervisedEStep.cpp 7-20) and the dispatcher an LDA object installs (src/ldaplusplus/LDA.cpp 13-47).

    Simplifications: the dispatcher of an LDA object hands events on with a delay (EventsModel.v, PoolModel.v are about that); here only where
    they arrive counts.  Nothing is destroyed, no listener is removed.  The parameters are left out. *)
Require Import List Arith.
Import ListNotations.

(** A dispatcher, named by the object that created it: Events.hpp 185-187 and LDA.cpp 25 *)
Inductive dispatcher := OfStep (s : nat) | OfLda (l : nat).
(** A listener of the user, or the event_forwarder_ of a semi-supervised E step, SemiSupervisedEStep.cpp 13-17 *)
Inductive listener := User (u : nat) | Forward (s : nat).
(** A step object: the listeners of the dispatcher created with it, the dispatcher it uses now, and the two E steps of a
    semi-supervised E step, the supervised one first. *)
Record rstep := mk_rstep { rs_own : list listener; rs_uses : dispatcher; rs_parts : option (nat * nat) }.
(** An LDA object: the listeners of its dispatcher, its E step and its M step, LDA.hpp *)
Record rlda := mk_rlda { rl_listeners : list listener; rl_e : nat; rl_m : nat }.
(** The objects of the program; a pointer is a position.  A builder holds an E step and an M step, LDABuilder.hpp 818-819. *)
Record rworld := mk_rworld { r_steps : list rstep; r_builders : list (nat * nat); r_ldas : list rlda }.
Definition nothing : rworld := mk_rworld [] [] [].

Inductive raction :=
| NewBuilder                            (* LDABuilder<Scalar>() *)
| NewStep                               (* a get_*_e_step or get_*_m_step other than the next *)
| NewSemi (s u : option nat)            (* get_semi_supervised_e_step(supervised_step, unsupervised_step); None: nullptr *)
| UseE (b s : nat)                      (* set_e(step), and what the other setters of E steps end with *)
| UseM (b s : nat)                      (* set_m(step) *)
| Convert (b : nat)                     (* an LDA object from the builder *)
| Listen (l u : nat).                   (* get_event_dispatcher()->add_listener(u) of an LDA object *)

Definition change {A} (i : nat) (f : A -> A) (l : list A) : list A :=
  firstn i l ++ match skipn i l with [] => [] | x :: r => f x :: r end.

(** Events.hpp 185-187: a new object gets a dispatcher of its own. *)
Definition new_step (w : rworld) (parts : option (nat * nat)) : rworld :=
  mk_rworld (r_steps w ++ [mk_rstep [] (OfStep (length (r_steps w))) parts]) (r_builders w) (r_ldas w).
(** add_listener, Events.cpp 27-29, 49-55 *)
Definition add_to (d : dispatcher) (x : listener) (w : rworld) : rworld :=
  match d with
  | OfStep s => mk_rworld (change s (fun st => mk_rstep (rs_own st ++ [x]) (rs_uses st) (rs_parts st)) (r_steps w)) (r_builders w) (r_ldas w)
  | OfLda l => mk_rworld (r_steps w) (r_builders w) (change l (fun o => mk_rlda (rl_listeners o ++ [x]) (rl_e o) (rl_m o)) (r_ldas w))
  end.
(** set_event_dispatcher, Events.hpp 193-195 *)
Definition set_dispatcher (s : nat) (d : dispatcher) (w : rworld) : rworld :=
  mk_rworld (change s (fun st => mk_rstep (rs_own st) d (rs_parts st)) (r_steps w)) (r_builders w) (r_ldas w).
(** The dispatcher a step uses: get_event_dispatcher, Events.hpp 189-191 *)
Definition uses_now (w : rworld) (s : nat) : option dispatcher := option_map rs_uses (nth_error (r_steps w) s).
(** nullptr: LDABuilder.cpp 98-103 make a new step *)
Definition or_new (o : option nat) (w : rworld) : nat * rworld :=
  match o with Some s => (s, w) | None => (length (r_steps w), new_step w None) end.

(** One action; None: it refers to an object that does not exist. *)
Definition ract (w : rworld) (a : raction) : option rworld :=
  match a with
  (* LDABuilder.cpp 22-23 *)
  | NewBuilder =>
      let n := length (r_steps w) in
      let w := new_step (new_step w None) None in
      Some (mk_rworld (r_steps w) (r_builders w ++ [(n, S n)]) (r_ldas w))
  | NewStep => Some (new_step w None)
  (* LDABuilder.cpp 94-110 and SemiSupervisedEStep.cpp 7-20 *)
  | NewSemi s u =>
      let (s, w) := or_new s w in
      let (u, w) := or_new u w in
      let n := length (r_steps w) in
      match uses_now w s, uses_now w u with
      | Some ds, Some du => Some (add_to du (Forward n) (add_to ds (Forward n) (new_step w (Some (s, u)))))
      | _, _ => None
      end
  (* LDABuilder.hpp 355-360, 669-674 *)
  | UseE b s =>
      match nth_error (r_builders w) b, nth_error (r_steps w) s with
      | Some _, Some _ => Some (mk_rworld (r_steps w) (change b (fun x => (s, snd x)) (r_builders w)) (r_ldas w))
      | _, _ => None
      end
  | UseM b s =>
      match nth_error (r_builders w) b, nth_error (r_steps w) s with
      | Some _, Some _ => Some (mk_rworld (r_steps w) (change b (fun x => (fst x, s)) (r_builders w)) (r_ldas w))
      | _, _ => None
      end
  (* LDABuilder.hpp 803-809 with LDA.cpp 13-28, 41-47 *)
  | Convert b =>
      match nth_error (r_builders w) b with
      | Some (e, m) =>
          let d := OfLda (length (r_ldas w)) in
          let w := mk_rworld (r_steps w) (r_builders w) (r_ldas w ++ [mk_rlda [] e m]) in
          Some (set_dispatcher m d (set_dispatcher e d w))
      | None => None
      end
  (* LDA.hpp 170-172 *)
  | Listen l u =>
      match nth_error (r_ldas w) l with
      | Some _ => Some (add_to (OfLda l) (User u) w)
      | None => None
      end
  end.
Definition history (h : list raction) : option rworld :=
  fold_left (fun o a => match o with Some w => ract w a | None => None end) h (Some nothing).

(** The listeners of a dispatcher *)
Definition listeners (w : rworld) (d : dispatcher) : option (list listener) :=
  match d with
  | OfStep s => option_map rs_own (nth_error (r_steps w) s)
  | OfLda l => option_map rl_listeners (nth_error (r_ldas w) l)
  end.
(** dispatch(event), Events.cpp 42-46 and 65-112: the listeners of the user that hear the event, in order.  A forwarder dispatches
    it again, with the dispatcher that its semi-supervised E step uses, SemiSupervisedEStep.cpp 14-16; if that never ends there
    is no result. *)
Inductive delivered (w : rworld) : dispatcher -> list nat -> Prop :=
| dispatch d ls r : listeners w d = Some ls -> heard w ls r -> delivered w d r
with heard (w : rworld) : list listener -> list nat -> Prop :=
| heard_all : heard w [] []
| heard_user u ls r : heard w ls r -> heard w (User u :: ls) (u :: r)
| heard_again s d ls r r' : uses_now w s = Some d -> delivered w d r -> heard w ls r' -> heard w (Forward s :: ls) (r ++ r').

(** doc_e_step of step [s] reaches the E step [t] that does the work, SemiSupervisedEStep.cpp 30-39; [labelled]: the class is not
    negative. *)
Inductive works (w : rworld) (labelled : bool) : nat -> nat -> Prop :=
| works_itself s st : nth_error (r_steps w) s = Some st -> rs_parts st = None -> works w labelled s s
| works_part s st a b t : nth_error (r_steps w) s = Some st -> rs_parts st = Some (a, b) ->
    works w labelled (if labelled then a else b) t -> works w labelled s t.

(** Who hears the event that LDA object [l] causes: for a document in the E step (UnsupervisedEStep.cpp 79-87 and the same lines of
    the other E steps), in the M step (FastSupervisedMStep.cpp 81 and the like), and at the end of an epoch (LDA.cpp 134). *)
Definition expectation_event (w : rworld) (l : nat) (labelled : bool) (r : list nat) : Prop :=
  exists o t d, nth_error (r_ldas w) l = Some o /\ works w labelled (rl_e o) t /\ uses_now w t = Some d /\ delivered w d r.
Definition maximization_event (w : rworld) (l : nat) (r : list nat) : Prop :=
  exists o d, nth_error (r_ldas w) l = Some o /\ uses_now w (rl_m o) = Some d /\ delivered w d r.
Definition epoch_event (w : rworld) (l : nat) (r : list nat) : Prop := delivered w (OfLda l) r.
