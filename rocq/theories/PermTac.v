(** A reflective tactic for permutations of concatenations. *)
Require Import List Arith Permutation.
Import ListNotations.

Definition den {A} (env : list (list A)) (l : list nat) : list A :=
  concat (map (fun i => nth i env []) l).

Lemma den_perm {A} (env : list (list A)) l1 l2 :
  Permutation l1 l2 -> Permutation (den env l1) (den env l2).
Proof.
  unfold den. induction 1 as [|x l l' H IH|x y l|l l' l'' H1 IH1 H2 IH2]; cbn [map concat].
  - constructor.
  - now apply Permutation_app_head.
  - rewrite !app_assoc. apply Permutation_app_tail. apply Permutation_app_comm.
  - etransitivity; eassumption.
Qed.

Lemma den_app {A} (env : list (list A)) l1 l2 : den env (l1 ++ l2) = den env l1 ++ den env l2.
Proof. unfold den. rewrite map_app, concat_app. reflexivity. Qed.

Fixpoint take_one (a : nat) (l : list nat) : option (list nat) :=
  match l with
  | [] => None
  | b :: l => if Nat.eqb a b then Some l
              else match take_one a l with Some l' => Some (b :: l') | None => None end
  end.
Lemma take_one_perm a l l' : take_one a l = Some l' -> Permutation l (a :: l').
Proof.
  revert l'. induction l as [|b l IH]; cbn [take_one]; intros l' H; [discriminate|].
  destruct (Nat.eqb_spec a b) as [->|_].
  - injection H as <-. reflexivity.
  - destruct (take_one a l) as [m|]; [|discriminate]. injection H as <-.
    rewrite (IH m eq_refl). constructor.
Qed.
Fixpoint same (l1 l2 : list nat) : bool :=
  match l1 with
  | [] => match l2 with [] => true | _ => false end
  | a :: l1 => match take_one a l2 with Some l2' => same l1 l2' | None => false end
  end.
Lemma same_perm l1 : forall l2, same l1 l2 = true -> Permutation l1 l2.
Proof.
  induction l1 as [|a l1 IH]; cbn [same]; intros l2 H.
  - destruct l2; [constructor|discriminate].
  - destruct (take_one a l2) as [m|] eqn:E; [|discriminate].
    rewrite (take_one_perm _ _ _ E). constructor. auto.
Qed.

Lemma den_solve {A} (env : list (list A)) e1 e2 (L1 L2 : list A) :
  same e1 e2 = true -> L1 = den env e1 -> L2 = den env e2 -> Permutation L1 L2.
Proof. intros H -> ->. apply den_perm, same_perm, H. Qed.

Ltac index_of a env :=
  match env with
  | a :: _ => constr:(0)
  | _ :: ?env' => let n := index_of a env' in constr:(S n)
  end.
Ltac add_atom a env :=
  match env with
  | context [a :: _] => env
  | _ => constr:(a :: env)
  end.
Ltac atoms t env :=
  match t with
  | nil => env
  | ?x :: nil => add_atom t env
  | ?x :: ?l => let env := add_atom constr:([x]) env in atoms l env
  | ?a ++ ?b => let env := atoms a env in atoms b env
  | _ => add_atom t env
  end.
Ltac reify t env :=
  match t with
  | nil => constr:(@nil nat)
  | ?x :: nil => let n := index_of t env in constr:([n])
  | ?x :: ?l => let n := index_of constr:([x]) env in
                let r := reify l env in constr:(n :: r)
  | ?a ++ ?b => let r1 := reify a env in let r2 := reify b env in constr:(r1 ++ r2)
  | _ => let n := index_of t env in constr:([n])
  end.
(** Solves [Permutation L1 L2] for concatenations of the same atoms. *)
Ltac perm :=
  match goal with
  | |- @Permutation ?A ?L1 ?L2 =>
      let env := atoms L1 constr:(@nil (list A)) in
      let env := atoms L2 env in
      let e1 := reify L1 env in
      let e2 := reify L2 env in
      apply (den_solve env e1 e2);
      [ vm_compute; reflexivity
      | rewrite ?den_app; unfold den; cbn [map concat nth app]; rewrite ?app_nil_r, <- ?app_assoc;
        cbn [app]; rewrite ?app_nil_r; reflexivity
      | rewrite ?den_app; unfold den; cbn [map concat nth app]; rewrite ?app_nil_r, <- ?app_assoc;
        cbn [app]; rewrite ?app_nil_r; reflexivity ]
  end.

