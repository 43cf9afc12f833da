(** util/Graph.hpp: Graph::update and the accessors used by the specifications.
    std::string is [string]; std::map with look-ups only is [gmap]; a std::map that is iterated over is the list of its
    entries in key order; the vector used as a stack is a list whose head is back().  int is Z or nat (all values are
    vertex, edge and color counts, bounded by MAX_VERTICES etc.); -1 is written as -1 in Z arrays and as None in name2edge.
    [None] stands for a thrown exception or an access out of range. *)
From stdpp Require Import strings gmap.
From Coq Require Import String.
From Verif Require Import Base.
Local Open Scope nat_scope.

Notation edge_name := (string * string)%type.

(** struct EdgeInfo (Graph.hpp 50-66) *)
Record edge_info : Type := EdgeInfo {
  e_v0 : nat; e_v1 : nat; e_v2 : nat;
  e_v1final : bool; e_v2final : bool; e_v1final2 : bool; e_v2final2 : bool;
  e_allColorsSeen : bool; e_finalEdge : bool
}.

(** the members of Graph that update() computes (85-98) *)
Record graph : Type := Graph {
  g_name2vertex : gmap string nat;
  g_vertex2name : list string;
  g_name2edge : gmap edge_name (option nat);
  g_edge2name : list edge_name;
  g_edgeInfo : list edge_info;
  g_edgeIndex : gmap (nat * nat) nat;
  g_virtualMate : list nat;
  g_colorNumber : list nat;
  g_vMax : nat;
  g_numColor : nat;
  g_hasColorPairs : bool
}.

Definition max_vertices : N := 65535.

(** "Make unique edge name list" (291-300) *)
Definition uniq_step (st : list edge_name * gmap edge_name (option nat)) (e : edge_name) :
    list edge_name * gmap edge_name (option nat) :=
  match snd st !! e with
  | Some _ => st
  | None => (fst st ++ [e], <[(snd e, fst e) := None]> (<[e := None]> (snd st)))
  end.
Definition uniq_edges (names : list edge_name) := foldl uniq_step ([], ∅) names.

(** [if (name2vertex.count(s) == 0) { name2vertex[s] = 0; stack.push_back(s); }] (311-319) *)
Definition push_vertex (s : string) (st : list string * gmap string nat) : list string * gmap string nat :=
  match snd st !! s with
  | Some _ => st
  | None => (s :: fst st, <[s := 0]> (snd st))
  end.
(** the loop over the edges from last to first (307-320) *)
Definition vertex_stack (es : list edge_name) : list string * gmap string nat :=
  foldr (fun e st => push_vertex (fst e) (push_vertex (snd e) st)) ([], ∅) es.

(** popping the stack (322-331) *)
Definition number_vertices (stack : list string) (n2v : gmap string nat) : option (gmap string nat * list string) :=
  ofold (fun st s =>
      let '(n2v, v2n) := st in
      let v2n' := v2n ++ [s] in
      if (max_vertices <? N.of_nat (length v2n'))%N then None
      else Some (<[s := length v2n]> n2v, v2n'))
    stack (n2v, [""%string]).

(** numbering the edges (334-364): name2vertex[s] is 0 for an unknown name, which throws *)
Definition edge_step (n2v : gmap string nat)
    (st : list (nat * nat) * gmap (nat * nat) nat * gmap edge_name (option nat) * nat) (e : edge_name) :
    option (list (nat * nat) * gmap (nat * nat) nat * gmap edge_name (option nat) * nat) :=
  let '(info, index, n2e, vmax) := st in
  let u1 := default 0 (n2v !! fst e) in
  let u2 := default 0 (n2v !! snd e) in
  let '(s1, s2, w1, w2) := if u2 <? u1 then (snd e, fst e, u2, u1) else (fst e, snd e, u1, u2) in
  if (w1 =? 0) || (w2 =? 0) then None else
  match index !! (w1, w2) with
  | Some _ => Some st
  | None =>
      let a := length info in
      Some (info ++ [(w1, w2)], <[(w1, w2) := a]> index,
            <[(s2, s1) := Some a]> (<[(s1, s2) := Some a]> n2e), Nat.max vmax w2)
  end.

(** std::set<VertexNumber>::insert *)
Fixpoint vset_insert (v : nat) (l : list nat) : list nat :=
  match l with
  | [] => [v]
  | w :: l' => if v <? w then v :: l else if v =? w then l else w :: vset_insert v l'
  end.
(** color2vertices[c].insert(v) (374) on the sorted list of entries *)
Fixpoint color_insert (c : string) (v : nat) (l : list (string * list nat)) : list (string * list nat) :=
  match l with
  | [] => [(c, [v])]
  | (c', vs) :: l' =>
      match String.compare c c' with
      | Eq => (c', vset_insert v vs) :: l'
      | Lt => (c, [v]) :: l
      | Gt => (c', vs) :: color_insert c v l'
      end
  end.
(** 367-380 (the limit MAX_COLORS of 65535 colors is kept) *)
Definition color_sets (n2v : gmap string nat) (name2color : list (string * string)) : option (list (string * list nat)) :=
  l ← ofold (fun l nc =>
      let v := default 0 (n2v !! fst nc) in
      if v =? 0 then None else Some (color_insert (snd nc) v l)) name2color [];
  if (65535 <? N.of_nat (length l))%N then None else Some l.

(** 382-411: virtualMate_, colorNumber_, numColor_, hasColorPairs_ *)
Definition color_numbers (vmax : nat) (sets : list (string * list nat)) : option (list nat * list nat * nat * bool) :=
  ofold (fun st cv =>
      let '(mate, col, num, pairs) := st in
      let num' := S num in
      '(mate', pairs') ←
        match snd cv with
        | [w1; w2] =>
            if (w1 <=? vmax) && (w2 <=? vmax) then Some (<[w2 := w1]> (<[w1 := w2]> mate), pairs) else None
        | _ => Some (mate, false)
        end;
      col' ← ofold (fun col v => if v <=? vmax then Some (<[v := num']> col) else None) (snd cv) col;
      Some (mate', col', num', pairs'))
    sets (replicate (S vmax) 0, replicate (S vmax) 0, 0, negb (match sets with [] => true | _ => false end)).

(** "sort colorNumber" (413-423) *)
Definition sort_colors (vmax num : nat) (col : list nat) : option (list nat) :=
  '(col', _, _) ← ofold (fun st v =>
      let '(col, cmap, cn) := st in
      c ← (col : list nat) !! (v : nat);
      if c =? 0 then Some (col, cmap, cn) else
      cc ← (cmap : list nat) !! c;
      if cc =? 0 then Some (<[v := S cn]> col, <[c := S cn]> cmap, S cn)
      else Some (<[v := cc]> col, cmap, cn))
    (seq 1 vmax) (col, replicate (S num) 0, 0);
  Some col'.

(** lastEdge, secondLastEdge (426-438) *)
Definition last_edges (vmax : nat) (es : list (nat * nat)) : option (list Z * list Z) :=
  '(l, s, _) ← ofold (fun st e =>
      let '(last, second, a) := st in
      x1 ← (last : list Z) !! (fst e : nat);
      x2 ← last !! (snd e : nat);
      if (fst e <? length second) && (snd e <? length second) then
        Some (<[snd e := Z.of_nat a]> (<[fst e := Z.of_nat a]> last), <[snd e := x2]> (<[fst e := x1]> second), S a)
      else None)
    es (0%Z :: replicate vmax (-1)%Z, 0%Z :: replicate vmax (-1)%Z, 0);
  Some (l, s).

(** fitstEdgeToFinalColor (440-466): the scan stops at the edge that touches the last untouched color *)
Definition touch (st : list bool * nat) (n : nat) : option (list bool * nat * bool) :=
  let '(touched, k) := st in
  t ← touched !! n;
  if t : bool then Some (touched, k, false)
  else if k - 1 =? 0 then Some (touched, k - 1, true)
  else Some (<[n := true]> touched, k - 1, false).
Fixpoint final_color_edge (es : list (nat * nat)) (col : list nat) (a : nat) (touched : list bool) (k : nat) : option nat :=
  match es with
  | [] => Some 0
  | e :: es' =>
      n1 ← col !! fst e; n2 ← col !! snd e;
      '(t1, k1, stop1) ← touch (touched, k) n1;
      if stop1 : bool then Some a else
      '(t2, k2, stop2) ← touch (t1, k1) n2;
      if stop2 : bool then Some a else final_color_edge es' col (S a) t2 k2
  end.

(** [while (lastEdge[v0] < a) ++v0;] (471-474), fuel = the number of vertices left *)
Fixpoint skip_left (fuel : nat) (last : list Z) (a : nat) (v0 : nat) : option nat :=
  match fuel with
  | O => None
  | S f =>
      x ← last !! v0;
      if (x <? Z.of_nat a)%Z then skip_left f last a (S v0) else Some v0
  end.

(** the last loop (467-483) *)
Definition edge_infos (vmax : nat) (es : list (nat * nat)) (last second : list Z) (first : nat) : option (list edge_info) :=
  '(infos, _, _) ← ofold (fun st e =>
      let '(infos, v0, a) := st in
      v0' ← skip_left (S vmax) last a v0;
      l1 ← last !! (fst e : nat); l2 ← last !! (snd e : nat);
      s1 ← second !! (fst e : nat); s2 ← second !! (snd e : nat);
      Some (infos ++ [EdgeInfo v0' (fst e) (snd e) (l1 =? Z.of_nat a)%Z (l2 =? Z.of_nat a)%Z
                        (s1 =? Z.of_nat a)%Z (s2 =? Z.of_nat a)%Z (first <=? a) (S a =? length es)], v0', S a))
    es ([], 1, 0);
  Some infos.

(** Graph::update (282-484) *)
Definition graph_update (edgeNames : list edge_name) (name2color : list (string * string)) : option graph :=
  let '(edge2name, n2e0) := uniq_edges edgeNames in
  let '(stack, n2v0) := vertex_stack edge2name in
  '(n2v, v2n) ← number_vertices stack n2v0;
  '(es, index, n2e, vmax) ← ofold (edge_step n2v) edge2name ([], ∅, n2e0, 0);
  sets ← color_sets n2v name2color;
  '(mate, col0, num, pairs) ← color_numbers vmax sets;
  col ← sort_colors vmax num col0;
  '(last, second) ← last_edges vmax es;
  first ← final_color_edge es col 0 (true :: replicate num false) num;
  infos ← edge_infos vmax es last second first;
  Some (Graph n2v v2n n2e edge2name infos index mate col vmax num pairs).

(** vertexSize, edgeSize (486-492) *)
Definition vertexSize (g : graph) : nat := g_vMax g.
Definition edgeSize (g : graph) : nat := length (g_edgeInfo g).
(** getVertex (500-506); vertexName (508-511) *)
Definition getVertex (g : graph) (name : string) : option nat := g_name2vertex g !! name.
Definition vertexName (g : graph) (v : nat) : string :=
  if (v <? 1) || (g_vMax g <? v) then "?"%string else default "?"%string (g_vertex2name g !! v).
(** getEdge by names (525-531); -1 is None inside *)
Definition getEdge (g : graph) (e : edge_name) : option (option nat) := g_name2edge g !! e.
(** getEdge by vertex numbers (560-571) *)
Definition getEdgeV (g : graph) (v1 v2 : nat) : option nat :=
  g_edgeIndex g !! (if v2 <? v1 then (v2, v1) else (v1, v2)).
(** colorNumber (599-601), virtualMate (556-558) *)
Definition colorNumber (g : graph) (v : nat) : nat :=
  if (1 <=? v) && (v <=? g_vMax g) then default 0 (g_colorNumber g !! v) else 0.
Definition virtualMate (g : graph) (v : nat) : nat :=
  if (1 <=? v) && (v <=? g_vMax g) then default 0 (g_virtualMate g !! v) else 0.
(** maxFrontierSize (573-581) *)
Definition maxFrontierSize (g : graph) : nat :=
  foldl (fun n e => Nat.max n (e_v2 e - e_v0 e + 1)) 0 (g_edgeInfo g).
