(** Vocabulary of the property about who hears the events of a training. *)
Require Import List Arith.
Require Import Verif.RouteModel.
Import ListNotations.

(** The listeners added to LDA object [l], in order *)
Definition added (l : nat) (h : list raction) : list nat :=
  flat_map (fun a => match a with Listen l' u => if Nat.eqb l' l then [u] else [] | _ => [] end) h.

(** The steps in use: the parts of semi-supervised E steps, and the steps of LDA objects *)
Definition in_use (w : rworld) : list nat :=
  flat_map (fun st => match rs_parts st with Some (a, b) => [a; b] | None => [] end) (r_steps w) ++
  flat_map (fun o => [rl_e o; rl_m o]) (r_ldas w).
(** No step is used twice. *)
Definition unshared (w : rworld) : Prop := NoDup (in_use w).
