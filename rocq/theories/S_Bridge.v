(** Specification vocabulary for the bridge to SAPPOROBDD. *)
From stdpp Require Import gmap sets.
From Verif Require Import Base Sem.
Local Open Scope Z_scope.

(** the variables 1..n in any order of levels *)
Definition order_ok (o : list nat) : Prop := o ≡ₚ seq 1 (length o).
(** level [k] of the diagram belongs to variable [x]: the one of level k + offset *)
Definition at_level (o : list nat) (offset : Z) (k x : nat) : Prop :=
  0 < Z.of_nat k + offset /\ o !! (Z.to_nat (Z.of_nat k + offset) - 1)%nat = Some x.
(** the vector in which exactly the levels of the variables in [S] are 1 *)
Definition stands_for (o : list nat) (offset : Z) (n : nat) (v : vec) (S : gset nat) : Prop :=
  forall k, (1 <= k <= n)%nat -> v k = 1%nat /\ (exists x, x ∈ S /\ at_level o offset k x) \/
                                v k = 0%nat /\ ~ exists x, x ∈ S /\ at_level o offset k x.
(** all variables of [S] belong to levels 1..n *)
Definition covered (o : list nat) (offset : Z) (n : nat) (S : gset nat) : Prop :=
  forall x, x ∈ S -> exists k, (1 <= k <= n)%nat /\ at_level o offset k x.
(** variable [x] is in use; if its level is at most the offset then the level has the number of the variable *)
Definition placed (o : list nat) (offset : Z) (x : nat) : Prop :=
  exists i, o !! i = Some x /\ (Z.of_nat i < offset -> x = S i).
(** the value of the Boolean function [F] of the variables [o] changes with [x] for some values of the others *)
Definition matters (o : list nat) (F : gset (gset nat)) (x : nat) : Prop :=
  exists S : gset nat, (forall y, y ∈ S -> y ∈ o) /\ ~ ({[x]} ∪ S ∈ F <-> S ∖ {[x]} ∈ F).
(** the values in [v] of the levels that have a variable are those that make up [S] *)
Definition agrees_with (o : list nat) (offset : Z) (n : nat) (v : vec) (S : gset nat) : Prop :=
  forall k x, (1 <= k <= n)%nat -> at_level o offset k x -> (v k = 1%nat <-> x ∈ S).
