(** Specification vocabulary for FrontierBasedSearch: components of the chosen edges and their colors. *)
From stdpp Require Import strings.
From Verif Require Import Base Sem M_Graph S_Simpath.
Local Open Scope nat_scope.

(** x and y are joined by chosen edges *)
Definition connected (g : graph) (v : vec) : nat -> nat -> Prop := rtc (chosen g v).
(** x lies in a component with an edge and without colors *)
Definition free_edge (g : graph) (v : vec) (x : nat) : Prop :=
  (exists y, chosen g v x y) /\ forall y, connected g v x y -> colorNumber g y = 0.
(** there are exactly k such components: [R] has one vertex of each *)
Definition free_components (g : graph) (v : vec) (k : nat) : Prop :=
  exists R, NoDup R /\ length R = k /\ (forall r, r ∈ R -> free_edge g v r) /\
    forall x, free_edge g v x -> exists r, (r ∈ R /\ connected g v x r) /\ forall r', r' ∈ R -> connected g v x r' -> r' = r.
(** the chosen edges other than number a *)
Definition chosen_but (g : graph) (v : vec) (a x y : nat) : Prop :=
  exists b e, b <> a /\ g_edgeInfo g !! b = Some e /\ v (edgeSize g - b) <> 0 /\ joins e x y.
(** no chosen edge lies on a cycle *)
Definition acyclic (g : graph) (v : vec) : Prop :=
  forall a e, g_edgeInfo g !! a = Some e -> v (edgeSize g - a) <> 0 -> ~ rtc (chosen_but g v a) (e_v1 e) (e_v2 e).

(** what FrontierBasedSearch(graph, numUEC, noLoop) looks for *)
Definition fbs_good (g : graph) (numUEC : Z) (noLoop : bool) (v : vec) : Prop :=
  (forall x y, 1 <= x <= vertexSize g -> 1 <= y <= vertexSize g -> colorNumber g x <> 0 -> colorNumber g y <> 0 ->
     connected g v x y <-> colorNumber g x = colorNumber g y) /\
  ((0 <= numUEC)%Z -> free_components g v (Z.to_nat numUEC)) /\
  (noLoop = true -> acyclic g v).

(** ** the same in terms of names *)
Definition connected_named (en : list edge_name) (v : vec) : string -> string -> Prop := rtc (chosen_named en v).
Definition free_named (en : list edge_name) (n2c : list (string * string)) (v : vec) (s : string) : Prop :=
  (exists t, chosen_named en v s t) /\ forall t c, connected_named en v s t -> (t, c) ∉ n2c.
Definition chosen_named_but (en : list edge_name) (v : vec) (a : nat) (s t : string) : Prop :=
  exists b e, b <> a /\ en !! b = Some e /\ v (length en - b) <> 0 /\ (e = (s, t) \/ e = (t, s)).
Definition fbs_named (en : list edge_name) (n2c : list (string * string)) (numUEC : Z) (noLoop : bool) (v : vec) : Prop :=
  (forall s c t d, (s, c) ∈ n2c -> (t, d) ∈ n2c -> connected_named en v s t <-> c = d) /\
  ((0 <= numUEC)%Z -> exists R, NoDup R /\ length R = Z.to_nat numUEC /\ (forall r, r ∈ R -> free_named en n2c v r) /\
     forall s, free_named en n2c v s -> exists r, (r ∈ R /\ connected_named en v s r) /\ forall r', r' ∈ R -> connected_named en v s r' -> r' = r) /\
  (noLoop = true -> forall a e, en !! a = Some e -> v (length en - a) <> 0 -> ~ rtc (chosen_named_but en v a) (fst e) (snd e)).
