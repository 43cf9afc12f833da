(** util/Graph.hpp: reading edge lists, adjacency lists and vertex groups, and the colors of groups.
    Streams are those of M_Graphillion.v.  Opening files and messages are left out.  [None] is a thrown exception.
    isspace is the one of the "C" locale; characters from 128 on (negative as char) are not white space.
    The line counters (int) do not overflow. *)
From stdpp Require Import strings gmap.
From Coq Require Import Ascii String.
From Verif Require Import Base M_Text M_Graph M_Graphillion.
Local Open Scope nat_scope.

Definition str (t : text) : string := string_of_list_ascii t.
Definition is_empty (t : text) : bool := match t with [] => true | _ => false end.

(** ** readEdges(std::istream&) (171-216) *)
(** the variables v, v1, v2 and the member edgeNames *)
Record ere := Ere { er_v : text; er_v1 : text; er_v2 : text; er_es : list edge_name }.
(** the body of the loop for the character [c] (175-207); EOF is converted to the char 255 *)
Definition er_step (st : ere) (c : option ascii) : option ere :=
  let '(Ere v v1 v2 es) := st in
  if isspace c then
    '(v1, v2) ← (if is_empty v then Some (v1, v2)
                 else if is_empty v1 then Some (v, v2)
                 else if is_empty v2 then Some (v1, v)
                 else None);
    if match c with Some c => Ascii.eqb c nl | None => false end then
      if negb (is_empty v1) && negb (is_empty v2) then Some (Ere [] [] [] (es ++ [(str v1, str v2)]))
      else if negb (is_empty v1) then None
      else Some (Ere [] v1 v2 es)
    else Some (Ere [] v1 v2 es)
  else Some (Ere (v ++ [default (ascii_of_nat 255) c]) v1 v2 es).
(** while (is) *)
Fixpoint er_loop (fuel : nat) (s : istream) (st : ere) : option ere :=
  if i_fail s then Some st else
  match fuel with
  | O => None
  | S f => let '(c, s) := i_get s in st ← er_step st c; er_loop f s st
  end.
(** with 210-215; [es] is edgeNames before the call *)
Definition readEdges (es : list edge_name) (txt : text) : option (list edge_name) :=
  '(Ere _ v1 v2 es) ← er_loop (S (List.length txt)) (IS txt false false) (Ere [] [] [] es);
  if negb (is_empty v1) && negb (is_empty v2) then Some (es ++ [(str v1, str v2)])
  else if negb (is_empty v1) then None else Some es.

(** to_string(int) (672-676) *)
Definition to_string (z : Z) : string :=
  if (z <? 0)%Z then String "-" (str (dec (Z.to_nat (- z)))) else str (dec (Z.to_nat z)).

(** while (isspace(c = is.get())) counting line ends (228-230, 247-251) *)
Fixpoint skip_count (fuel : nat) (s : istream) (n : nat) : option (option ascii * istream * nat) :=
  match fuel with
  | O => None
  | S f => let '(c, s) := i_get s in
           if isspace c then skip_count f s (match c with Some c => if Ascii.eqb c nl then S n else n | None => n end)
           else Some (c, s, n)
  end.
(** the common loop of readAdjacencyList (226-236) and readVertexGroups (245-259): the number of the current line and the
    number read are handed to [f] *)
Fixpoint num_loop {A} (f : A -> nat -> Z -> A) (fuel : nat) (s : istream) (n : nat) (acc : A) : option A :=
  if i_fail s then Some acc else
  match fuel with
  | O => None
  | S k =>
      '(c, s, n) ← skip_count (S (List.length (i_rest s))) s n;
      if i_fail s then Some acc else
      let '(v, s) := i_number true (- 2147483648) 2147483647 (i_unget c s) in
      num_loop f k s n (f acc n v)
  end.

(** readAdjacencyList(std::istream&) (218-237); edgeNames, name2color are cleared first *)
Definition readAdjacencyList (txt : text) : option (list edge_name) :=
  num_loop (fun es v1 v2 => es ++ [(to_string (Z.of_nat v1), to_string v2)]) (S (S (List.length txt))) (IS txt false false) 1 [].

(** getColor (262-273) *)
Definition HEX (n : nat) : ascii := default (ascii_of_nat 0) (lit "0123456789abcdef" !! n).
Definition getColor (n : nat) : string :=
  str [ascii_of_nat 35; HEX (15 - (n * 3) mod 11); HEX ((n / 256) mod 16); HEX ((n * 5 + 5) mod 11 + 5);
       HEX ((n / 16) mod 16); HEX (15 - (n * 2 + 7) mod 11); HEX (n mod 16)].

(** name2color[s] = c on the entries in key order *)
Fixpoint map_put (s c : string) (l : list (string * string)) : list (string * string) :=
  match l with
  | [] => [(s, c)]
  | (s', c') :: l' =>
      match String.compare s s' with
      | Eq => (s, c) :: l'
      | Lt => (s, c) :: l
      | Gt => (s', c') :: map_put s c l'
      end
  end.
(** readVertexGroups(std::istream&) (239-260): the color of line k is getColor(k), counted from 0 *)
Definition readVertexGroups (txt : text) : option (list (string * string)) :=
  num_loop (fun m k v => map_put (to_string v) (getColor k) m) (S (S (List.length txt))) (IS txt false false) 0 [].

(** setDefaultPathColor (592-597) *)
Definition setDefaultPathColor (edgeNames : list edge_name) (g : graph) : option graph :=
  graph_update edgeNames
    (map_put (to_string (Z.of_nat (g_vMax g))) "#ff7777" (map_put (to_string 1) "#ff7777" [])).
(** clearColors (583-590): hasColorPairs_ and the edges are not touched *)
Definition clearColors (g : graph) : graph :=
  Graph (g_name2vertex g) (g_vertex2name g) (g_name2edge g) (g_edge2name g) (g_edgeInfo g) (g_edgeIndex g)
    (replicate (S (g_vMax g)) 0) (replicate (S (g_vMax g)) 0) (g_vMax g) 0 (g_hasColorPairs g).

(** readEdges(filename), readAdjacencyList(filename), readVertexGroups(filename) (113-168) on a new Graph or, for groups, on
    a Graph with the edge names [es]: read, then update() *)
Definition graph_of_edges (txt : text) : option graph := es ← readEdges [] txt; graph_update es [].
Definition graph_of_adjacency (txt : text) : option graph := es ← readAdjacencyList txt; graph_update es [].
Definition graph_with_groups (es : list edge_name) (txt : text) : option graph :=
  n2c ← readVertexGroups txt; graph_update es n2c.
