(** Specification vocabulary for the program ddpaths. *)
From Verif Require Import Base Sem M_Graph S_Spec.
Local Open Scope Z_scope.

(** the number of chosen edges is at least lb and at most ub, as far as they are given *)
Definition sized (g : graph) (lb ub : option Z) (v : vec) : Prop :=
  (forall l, lb = Some l -> l <= chosen v (edgeSize g)) /\ (forall u, ub = Some u -> chosen v (edgeSize g) <= u).
