(** Specification vocabulary for PathZddByStdMap: tours that use the chosen edges and all virtual edges. *)
From Verif Require Import Base Sem M_Graph S_Simpath.
Local Open Scope nat_scope.

(** A virtual edge joins the two vertices s, t with virtualMate s = t.  It is cut in two by an extra vertex, whose
    number is beyond those of the graph, so that it differs from a real edge between s and t. *)
Definition mid (g : graph) (s : nat) : nat := vertexSize g + Nat.min s (virtualMate g s).
Definition virtual_half (g : graph) (x y : nat) : Prop :=
  exists s, virtualMate g s <> 0 /\ ((x = s /\ y = mid g s) \/ (x = mid g s /\ y = s)).
Definition joined (g : graph) (v : vec) (x y : nat) : Prop := chosen g v x y \/ virtual_half g x y.

(** the chosen edges and all the virtual edges form exactly one simple cycle *)
Definition is_tour (g : graph) (v : vec) : Prop :=
  exists c, 3 <= length c /\ NoDup c /\
    forall x y, joined g v x y <-> next_to x y (c ++ take 1 c) \/ next_to y x (c ++ take 1 c).
