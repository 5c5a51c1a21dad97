(** Vocabulary for the event properties: what an observed history means.  Only the
    types [call] and [obs] of the model are used. *)
Require Import List Arith Bool.
Require Import Verif.EventsModel.
Import ListNotations.

(** Events queued by a history, in order. *)
Fixpoint dispatched (tr : list obs) : list nat :=
  match tr with
  | [] => []
  | ODispatched _ e :: r => e :: dispatched r
  | _ :: r => dispatched r
  end.

(** Events handed to process_events calls by a history, in order. *)
Fixpoint taken (tr : list obs) : list nat :=
  match tr with
  | [] => []
  | OTaken _ _ b :: r => b ++ taken r
  | _ :: r => taken r
  end.

(** The sequential reference dispatcher: registered listeners and listeners
    marked for removal after a history. *)
Definition without (ds ls : list nat) : list nat :=
  filter (fun l => negb (existsb (Nat.eqb l) ds)) ls.
Definition replay_step (s : list nat * list nat) (o : obs) : list nat * list nat :=
  match o with
  | OAdded _ l => (fst s ++ [l], snd s)
  | ORemoved _ l => (fst s, l :: snd s)
  | OPurged _ _ => (without (snd s) (fst s), [])
  | _ => s
  end.
Definition replay (tr : list obs) : list nat * list nat := fold_left replay_step tr ([], []).
Definition registered (tr : list obs) : list nat := fst (replay tr).

(** The observations that belong to process_events call number [n]. *)
Definition of_call (n : nat) (o : obs) : bool :=
  match o with
  | OStart _ m | OPurged _ m | OTaken _ m _ | OSnapshot _ m _ | ODelivered _ m _ _ => Nat.eqb m n
  | _ => false
  end.
Definition tagged (n : nat) (tr : list obs) : list obs := filter (of_call n) tr.

(** All listeners ever added / all ever marked for removal. *)
Fixpoint added (tr : list obs) : list nat :=
  match tr with
  | [] => []
  | OAdded _ l :: r => l :: added r
  | _ :: r => added r
  end.
Fixpoint removed (tr : list obs) : list nat :=
  match tr with
  | [] => []
  | ORemoved _ l :: r => l :: removed r
  | _ :: r => removed r
  end.

(** Shared variables and the accesses a micro-step makes to them. *)
Inductive shared := SListeners | SDeleted | SEvents.
Definition accesses (i : instr) : list shared :=
  match i with
  | IPushListener _ | ICopyListeners _ _ => [SListeners]
  | IInsertDeleted _ | IClearDeleted => [SDeleted]
  | IPushEvent _ | ICopyEvents _ | IClearEvents _ _ => [SEvents]
  | IErase _ => [SListeners; SDeleted]
  | _ => []
  end.
(** Two threads race if the next steps of both access the same shared variable. *)
Definition race (w : world) : Prop :=
  exists t1 t2 i1 i2 r1 r2 x, t1 <> t2
    /\ w_code w t1 = i1 :: r1 /\ w_code w t2 = i2 :: r2
    /\ In x (accesses i1) /\ In x (accesses i2).

(** A thread has nothing left to do. *)
Definition finished (w : world) (t : nat) : Prop := w_code w t = [] /\ w_prog w t = [].
