(** Specification vocabulary for paths and cycles in a numbered graph: edge number a is decided at level n - a. *)
From stdpp Require Import strings.
From Verif Require Import Base Sem M_Graph.
Local Open Scope nat_scope.

(** edge e joins x and y *)
Definition joins (e : edge_info) (x y : nat) : Prop := (e_v1 e = x /\ e_v2 e = y) \/ (e_v1 e = y /\ e_v2 e = x).

(** an edge between x and y is chosen by v *)
Definition chosen (g : graph) (v : vec) (x y : nat) : Prop :=
  exists a e, g_edgeInfo g !! a = Some e /\ v (edgeSize g - a) <> 0 /\ joins e x y.

(** y follows x in the list *)
Definition next_to {A} (x y : A) (l : list A) : Prop := exists l1 l2, l = l1 ++ x :: y :: l2.

(** [c], closed up by its first element, is a cycle and the chosen edges are exactly its edges *)
Definition cycle_of (g : graph) (v : vec) (c : list nat) : Prop :=
  3 <= length c /\ NoDup c /\
  forall x y, chosen g v x y <-> next_to x y (c ++ take 1 c) \/ next_to y x (c ++ take 1 c).
Definition is_cycle (g : graph) (v : vec) : Prop := exists c, cycle_of g v c.
Definition is_hamilton_cycle (g : graph) (v : vec) : Prop :=
  exists c, cycle_of g v c /\ forall x, 1 <= x <= vertexSize g -> x ∈ c.

(** [ps] lists, for each color, a simple path that joins two vertices of that color; the paths are disjoint and the
    chosen edges are exactly theirs *)
Definition links_of (g : graph) (v : vec) (ps : list (list nat)) : Prop :=
  length ps = g_numColor g /\ NoDup (concat ps) /\
  (forall k p, ps !! k = Some p -> exists x l y, p = x :: l ++ [y] /\ colorNumber g x = S k /\ colorNumber g y = S k) /\
  forall x y, chosen g v x y <-> exists p, p ∈ ps /\ (next_to x y p \/ next_to y x p).
Definition is_links (g : graph) (v : vec) : Prop := exists ps, links_of g v ps.
Definition is_hamilton_links (g : graph) (v : vec) : Prop :=
  exists ps, links_of g v ps /\ forall x, 1 <= x <= vertexSize g -> x ∈ concat ps.

(** ** the same in terms of names: no vertex, edge or color numbers except the position of an edge in the list *)
Definition chosen_named (en : list edge_name) (v : vec) (s t : string) : Prop :=
  exists a e, en !! a = Some e /\ v (length en - a) <> 0 /\ (e = (s, t) \/ e = (t, s)).
Definition cycle_named (en : list edge_name) (v : vec) (c : list string) : Prop :=
  3 <= length c /\ NoDup c /\
  forall s t, chosen_named en v s t <-> next_to s t (c ++ take 1 c) \/ next_to t s (c ++ take 1 c).

(** [f] gives one simple path for each color, joining two vertices of that color; the paths are disjoint and the
    chosen edges are exactly theirs *)
Definition links_named (en : list edge_name) (n2c : list (string * string)) (v : vec) (f : list (string * list string)) : Prop :=
  NoDup (map fst f) /\ (forall c, c ∈ map fst f <-> exists s, (s, c) ∈ n2c) /\ NoDup (concat (map snd f)) /\
  (forall c p, (c, p) ∈ f -> exists s l t, p = s :: l ++ [t] /\ (s, c) ∈ n2c /\ (t, c) ∈ n2c) /\
  forall s t, chosen_named en v s t <-> exists p, p ∈ map snd f /\ (next_to s t p \/ next_to t s p).

(** every color is given to exactly two vertices, and there is a color *)
Definition color_pairs (n2c : list (string * string)) : Prop :=
  n2c <> [] /\ forall s c, (s, c) ∈ n2c -> exists t, t <> s /\ forall u, (u, c) ∈ n2c <-> u = s \/ u = t.
