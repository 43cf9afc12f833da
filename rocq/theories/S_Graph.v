(** Specification vocabulary for numbered graphs. *)
From stdpp Require Import strings gmap.
From Verif Require Import Base M_Graph.
Local Open Scope nat_scope.

(** edge number a is incident to vertex v *)
Definition incident (es : list edge_info) (a v : nat) : Prop :=
  exists e, es !! a = Some e /\ (e_v1 e = v \/ e_v2 e = v).

(** the edges after a that are incident to v *)
Definition later (es : list edge_info) (a v : nat) (b : nat) : Prop := a < b /\ incident es b v.

(** C36: what the users of edgeInfo rely on *)
Record numbering_ok (m : nat) (es : list edge_info) : Prop := {
  (* v1 <= v2 are vertices, and the current edge lies in the frontier, which starts at v0 *)
  no_range : forall a e, es !! a = Some e -> 1 <= e_v0 e /\ e_v0 e <= e_v1 e /\ e_v1 e <= e_v2 e /\ e_v2 e <= m;
  (* every vertex 1..m has an edge *)
  no_used : forall v, 1 <= v <= m -> exists a, incident es a v;
  (* vertices are numbered in the order in which they leave the frontier *)
  no_order : forall v w a, 1 <= v -> v <= w -> w <= m -> incident es a v -> exists b, a <= b /\ incident es b w;
  (* v0 is the smallest vertex that is incident to the current or a later edge *)
  no_v0 : forall a e, es !! a = Some e ->
    (exists b, a <= b /\ incident es b (e_v0 e)) /\
    forall v b, 1 <= v < e_v0 e -> a <= b -> ~ incident es b v;
  (* the final flags mark exactly the last edge of a vertex *)
  no_final1 : forall a e, es !! a = Some e -> e_v1final e = true <-> forall b, ~ later es a (e_v1 e) b;
  no_final2 : forall a e, es !! a = Some e -> e_v2final e = true <-> forall b, ~ later es a (e_v2 e) b;
  (* the final2 flags mark exactly the last but one edge of a vertex *)
  no_second1 : forall a e, es !! a = Some e ->
    e_v1final2 e = true <-> exists b, later es a (e_v1 e) b /\ forall b', later es a (e_v1 e) b' -> b' = b;
  no_second2 : forall a e, es !! a = Some e ->
    e_v2final2 e = true <-> exists b, later es a (e_v2 e) b /\ forall b', later es a (e_v2 e) b' -> b' = b;
  (* finalEdge marks the last edge *)
  no_finalEdge : forall a e, es !! a = Some e -> e_finalEdge e = true <-> S a = length es;
  (* no two edges join the same vertices *)
  no_simple : forall a b e f, es !! a = Some e -> es !! b = Some f -> e_v1 e = e_v1 f -> e_v2 e = e_v2 f -> a = b
}.

(** the undirected edge {x, y} *)
Definition same_edge (e f : edge_name) : Prop := f = e \/ f = (snd e, fst e).

(** [l] lists the undirected edges of [names] without repetition, in the order of their first occurrence. *)
Inductive first_occurrences : list edge_name -> list edge_name -> Prop :=
| fo_nil : first_occurrences [] []
| fo_new names l e : first_occurrences names l -> (forall f, f ∈ names -> ~ same_edge e f) ->
    first_occurrences (names ++ [e]) (l ++ [e])
| fo_old names l e f : first_occurrences names l -> f ∈ names -> same_edge e f ->
    first_occurrences (names ++ [e]) l.

(** the vertex names in use *)
Definition vertex_name_in (names : list edge_name) (s : string) : Prop :=
  exists e, e ∈ names /\ (fst e = s \/ snd e = s).

(** C36: everything a user can observe of a graph with edges [names] and vertex colors [n2c] *)
Record graph_ok (names : list edge_name) (n2c : list (string * string)) (g : graph) : Prop := {
  gr_numbering : numbering_ok (vertexSize g) (g_edgeInfo g);
  (* edges: every undirected edge once, in the order of first occurrence *)
  gr_edges : first_occurrences names (g_edge2name g);
  gr_edgeSize : edgeSize g = length (g_edge2name g);
  (* vertices: names and numbers 1..vertexSize correspond one to one *)
  gr_vertex : forall s, is_Some (getVertex g s) <-> vertex_name_in names s;
  gr_vertex_range : forall s v, getVertex g s = Some v -> 1 <= v <= vertexSize g;
  gr_vertex_name : forall s v, getVertex g s = Some v <-> vertex_name_in names s /\ 1 <= v <= vertexSize g /\ vertexName g v = s;
  gr_vertex_all : forall v, 1 <= v <= vertexSize g -> exists s, getVertex g s = Some v;
  (* edge number a joins the vertices named by edge2name[a] *)
  gr_ends : forall a e i, g_edge2name g !! a = Some e -> g_edgeInfo g !! a = Some i ->
    (getVertex g (fst e) = Some (e_v1 i) /\ getVertex g (snd e) = Some (e_v2 i)) \/
    (getVertex g (fst e) = Some (e_v2 i) /\ getVertex g (snd e) = Some (e_v1 i));
  (* edge lookup by names and by vertex numbers, in either direction *)
  gr_getEdge : forall e a, getEdge g e = Some (Some a) <-> exists f, g_edge2name g !! a = Some f /\ same_edge e f;
  gr_getEdge_none : forall e, (forall f, f ∈ names -> ~ same_edge e f) -> getEdge g e = None;
  gr_getEdgeV : forall v w a, getEdgeV g v w = Some a <->
    exists i, g_edgeInfo g !! a = Some i /\ ((e_v1 i = v /\ e_v2 i = w) \/ (e_v1 i = w /\ e_v2 i = v));
  (* colors: 0 for vertices without color, otherwise one number in 1..numColor for each color *)
  gr_color_zero : forall s v, getVertex g s = Some v -> colorNumber g v = 0 <-> forall c, (s, c) ∉ n2c;
  gr_color_eq : forall s t v w c d, getVertex g s = Some v -> getVertex g t = Some w -> (s, c) ∈ n2c -> (t, d) ∈ n2c ->
    colorNumber g v = colorNumber g w <-> c = d;
  gr_color_range : forall v, colorNumber g v <= g_numColor g;
  gr_color_all : forall n, 1 <= n <= g_numColor g -> exists v, colorNumber g v = n;
  (* virtualMate: the other vertex of a color that has exactly two vertices *)
  gr_mate_range : forall v, virtualMate g v <= vertexSize g;
  gr_mate : forall v w, 1 <= v <= vertexSize g -> 1 <= w <= vertexSize g -> virtualMate g v = w <->
    v <> w /\ colorNumber g v <> 0 /\ forall x, 1 <= x <= vertexSize g -> colorNumber g x = colorNumber g v <-> x = v \/ x = w;
  (* hasColorPairs: there are colors and each has exactly two vertices *)
  gr_pairs : g_hasColorPairs g = true <-> 1 <= g_numColor g /\
    forall v, 1 <= v <= vertexSize g -> colorNumber g v <> 0 -> virtualMate g v <> 0;
  (* allColorsSeen: every color occurs at an end of this or an earlier edge *)
  gr_seen : forall a i, g_edgeInfo g !! a = Some i -> e_allColorsSeen i = true <->
    forall n, 1 <= n <= g_numColor g -> exists b v, b <= a /\ incident (g_edgeInfo g) b v /\ colorNumber g v = n
}.
