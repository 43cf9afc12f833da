(** C50: reading graphs from text.  S_GraphIO.v describes the formats. *)
From stdpp Require Import strings gmap.
From Coq Require Import Ascii String.
From Verif Require Import Base S_Text M_Text M_Graph S_Graph M_Graphillion M_GraphIO S_GraphIO P_Graph P_Graph5 P_GraphIO.
Local Open Scope nat_scope.

Definition NL : string := String nl "".

(** Edge lists: for every text whose last line is complete, readEdges appends exactly the edges of the lines, in order, and
    throws iff some line has neither no nor two words. *)
Theorem C50_edge_list es0 txt ls : lines_of txt = Some ls ->
  readEdges es0 txt = (es ← edge_lines ls; Some (es0 ++ es)).
Proof. apply readEdges_ok. Qed.

(** A last line that is not complete counts as if it were, but a word at its very end is dropped: "a b" at the end of the
    text throws, "a b c" is the edge a-b and "a" is nothing. *)
Theorem C50_last_line es0 txt ls l w : lines_of txt = Some ls -> nl ∉ l ->
  (l = [] \/ exists l' c, l = l' ++ [c] /\ whitespace c = true) -> Forall (fun c => whitespace c = false) w ->
  readEdges es0 (txt ++ l ++ w) = (es ← edge_lines (ls ++ [l]); Some (es0 ++ es)).
Proof. apply readEdges_last. Qed.
Example C50_last_line_case : exists ls, lines_of (lit ("x y" ++ NL)%string) = Some ls /\
  readEdges [] (lit ("x y" ++ NL ++ "a b c")%string) = Some [("x", "y"); ("a", "b")]%string /\
  readEdges [] (lit ("x y" ++ NL ++ "a b")%string) = None /\ readEdges [] (lit ("x y" ++ NL ++ "a")%string) = Some [("x", "y")]%string.
Proof. eexists. split; [by vm_compute|]. split_and!; by vm_compute. Qed.

(** ... and the graph of the text is numbered as C36 says. *)
Theorem C50_graph_of_edges txt ls es vs : lines_of txt = Some ls -> edge_lines ls = Some es ->
  (forall s, vertex_name_in es s -> s ∈ vs) -> (N.of_nat (List.length vs) < 65535)%N ->
  exists g, graph_of_edges txt = Some g /\ graph_ok es [] g.
Proof.
  intros Hl He Hv Hn. unfold graph_of_edges. rewrite (readEdges_ok [] _ _ Hl), He. cbn [mbind option_bind app].
  eapply graph_update_ok; [exact Hv|exact Hn| | |].
  - intros s c H. by apply elem_of_nil in H.
  - constructor.
  - done.
Qed.

(** Adjacency lists: every number v in line k (counted from 1) is an edge between the vertices named k and v. *)
Theorem C50_adjacency_list txt es : numbered 1 (text_lines txt) = Some es ->
  Forall (fun e => (Z.of_nat (snd e) <= 2147483647)%Z) es ->
  readAdjacencyList txt = Some (map (fun e => (decimal (fst e), decimal (snd e))) es).
Proof. apply readAdjacencyList_ok. Qed.

(** Vertex groups: the colored vertices are the listed ones, and each has the color of the last line that lists it. *)
Theorem C50_vertex_groups txt es : numbered 0 (text_lines txt) = Some es ->
  Forall (fun e => (Z.of_nat (snd e) <= 2147483647)%Z) es ->
  exists m, readVertexGroups txt = Some m /\ NoDup (map fst m) /\
    forall s c, (s, c) ∈ m <-> exists v k, s = decimal v /\ c = getColor k /\ last_line es v = Some k.
Proof. apply readVertexGroups_ok. Qed.

(** Colors of lines are equal exactly if the line numbers are equal modulo 45056, so the groups of fewer than 45056 lines
    have different colors. *)
Theorem C50_colors n m :
  (getColor n = getColor m <-> (Z.of_nat n mod 45056 = Z.of_nat m mod 45056)%Z) /\
  ((Z.of_nat n < 45056)%Z -> (Z.of_nat m < 45056)%Z -> getColor n = getColor m -> n = m).
Proof.
  split; [apply getColor_eq|]. intros Hn Hm H. apply getColor_eq in H. rewrite !Z.mod_small in H by lia. lia.
Qed.

(** The groups of a graph: the graph with the edges [es] and the groups of the text is numbered as C36 says. *)
Theorem C50_graph_with_groups names txt es vs : numbered 0 (text_lines txt) = Some es ->
  Forall (fun e => (Z.of_nat (snd e) <= 2147483647)%Z) es ->
  (forall s, vertex_name_in names s -> s ∈ vs) -> (N.of_nat (List.length vs) < 65535)%N ->
  (forall k v, (k, v) ∈ es -> vertex_name_in names (decimal v)) ->
  exists n2c g, graph_with_groups names txt = Some g /\ graph_ok names n2c g /\
    forall s c, (s, c) ∈ n2c <-> exists v k, s = decimal v /\ c = getColor k /\ last_line es v = Some k.
Proof.
  intros H Hb Hv Hn Hes. destruct (readVertexGroups_ok _ _ H Hb) as (m & E & Hnd & Hm).
  assert (forall s c, (s, c) ∈ m -> vertex_name_in names s) as Hin.
  { intros s c Hsc. apply Hm in Hsc as (v & k & -> & -> & Hl). unfold last_line in Hl.
    apply last_Some_elem_of, elem_of_list_fmap in Hl as ([k' v'] & -> & Hl).
    apply elem_of_list_In, filter_In in Hl as [Hl Ev]. apply elem_of_list_In in Hl. cbn [snd] in Ev.
    apply Nat.eqb_eq in Ev as ->. by eapply Hes. }
  exists m. unfold graph_with_groups. rewrite E. cbn [mbind option_bind].
  destruct (graph_update_ok names m vs Hv Hn Hin Hnd) as (g & Eg & Hg); [|by exists g].
  assert (List.length (map fst m) <= List.length vs); [|rewrite map_length in *; lia].
  apply submseteq_length, NoDup_submseteq; [done|]. intros s Hs. apply elem_of_list_fmap in Hs as ([s' c] & -> & Hs).
  by eapply Hv, Hin.
Qed.

(** setDefaultPathColor pairs the vertex named "1" with the one named by the number of vertices, if both exist. *)
Theorem C50_default_path_color names vs g :
  (forall s, vertex_name_in names s -> s ∈ vs) -> (N.of_nat (List.length vs) < 65535)%N ->
  graph_update names [] = Some g -> vertex_name_in names "1" -> vertex_name_in names (decimal (vertexSize g)) ->
  exists n2c g', setDefaultPathColor names g = Some g' /\ graph_ok names n2c g' /\
    forall s c, (s, c) ∈ n2c <-> (s = "1" \/ s = decimal (vertexSize g)) /\ c = "#ff7777".
Proof.
  intros Hv Hn Eg H1 Hm. unfold setDefaultPathColor.
  change (to_string 1) with "1". rewrite to_string_nat. fold (vertexSize g).
  set (n2c := map_put _ _ _).
  destruct (map_put_ok "1" "#ff7777" []) as [A1 A2]; [done|].
  destruct (map_put_ok (decimal (vertexSize g)) "#ff7777" _ A1) as [B1 B2]. fold n2c in B1, B2.
  assert (forall s c, (s, c) ∈ n2c <-> (s = "1" \/ s = decimal (vertexSize g)) /\ c = "#ff7777") as Hin.
  { intros s c. rewrite B2, A2, elem_of_nil. destruct (decide (s = decimal (vertexSize g))) as [->|]; naive_solver. }
  destruct (graph_update_ok names n2c vs) as (g' & E' & Hg'); [done|done| | | |].
  - intros s c Hsc. apply Hin in Hsc as [[->| ->] _]; done.
  - by apply asc_nodup.
  - unfold n2c. cbn [map_put]. destruct (String.compare _ _); cbn [List.length]; done.
  - exists n2c, g'. done.
Qed.

(** ** Cases *)
Definition ex_edges : text := lit ("a b" ++ NL ++ NL ++ "  b   c " ++ NL ++ "c a" ++ String (ascii_of_nat 13) NL)%string.
Definition ex_adj : text := lit ("2 3" ++ NL ++ "3" ++ NL ++ NL ++ " 1 02")%string.
Definition ex_groups : text := lit ("1 4" ++ NL ++ "2" ++ NL)%string.
Example C50_case :
  (exists ls es, lines_of ex_edges = Some ls /\ edge_lines ls = Some es /\ es = [("a", "b"); ("b", "c"); ("c", "a")]%string) /\
  (exists g, graph_of_edges ex_edges = Some g /\ vertexSize g = 3 /\ edgeSize g = 3) /\
  numbered 1 (text_lines ex_adj) = Some [(1, 2); (1, 3); (2, 3); (4, 1); (4, 2)] /\
  readAdjacencyList ex_adj = Some [("1", "2"); ("1", "3"); ("2", "3"); ("4", "1"); ("4", "2")]%string /\
  numbered 0 (text_lines ex_groups) = Some [(0, 1); (0, 4); (1, 2)] /\
  readVertexGroups ex_groups = Some [("1", "#f0a080"); ("2", "#c0f061"); ("4", "#f0a080")]%string.
Proof.
  split; [eexists _, _; split; [by vm_compute|]; split; by vm_compute|].
  split; [|split_and!; by vm_compute].
  assert ((g ← graph_of_edges ex_edges; Some (vertexSize g, edgeSize g)) = Some (3, 3)) as E by (vm_compute; done).
  destruct (graph_of_edges ex_edges) as [g|]; [|done]. exists g. cbn [mbind option_bind] in E. split; [done|]. split; congruence.
Qed.
(** the path colors of the graph of the adjacency list above *)
Example C50_default_case : exists names g, readAdjacencyList ex_adj = Some names /\ graph_update names [] = Some g /\
  vertex_name_in names "1" /\ vertex_name_in names (decimal (vertexSize g)) /\ vertexSize g = 4.
Proof.
  set (names := [("1", "2"); ("1", "3"); ("2", "3"); ("4", "1"); ("4", "2")]%string). exists names.
  assert ((g ← graph_update names []; Some (vertexSize g)) = Some 4) as E by (vm_compute; done).
  destruct (graph_update names []) as [g|]; [|done]. exists g. cbn [mbind option_bind] in E. injection E as E. rewrite E.
  split; [by vm_compute|]. split; [done|]. split_and!; [| |done].
  - exists ("1", "2")%string. split; [set_solver|by left].
  - exists ("4", "1")%string. split; [set_solver|by left].
Qed.

(** ** What does not hold *)
(** The last line of an edge list must be terminated: a text with the single line "a b" is rejected. *)
Theorem C50_missing_newline_refuted : exists txt es, edge_lines (text_lines txt) = Some es /\ readEdges [] txt = None.
Proof. exists (lit "a b"), [("a", "b")]%string. split; by vm_compute. Qed.
(** A word that is no number ends an adjacency list without an error and adds an edge to a vertex "0" that the text does not
    mention. *)
Theorem C50_bad_word_refuted : exists txt, numbered 1 (text_lines txt) = None /\
  readAdjacencyList txt = Some [("1", "2"); ("1", "0")]%string.
Proof. exists (lit ("2 x" ++ NL ++ "1")%string). split; by vm_compute. Qed.
(** setDefaultPathColor takes vertex numbers for vertex names: it throws for a graph with other names. *)
Theorem C50_default_path_color_refuted : exists names g, graph_update names [] = Some g /\ 2 <= vertexSize g /\
  setDefaultPathColor names g = None.
Proof.
  set (names := [("a", "b")]%string). exists names.
  assert ((g ← graph_update names []; Some (vertexSize g, setDefaultPathColor names g)) = Some (2, None)) as E by (vm_compute; done).
  destruct (graph_update names []) as [g|]; [|done]. exists g. cbn [mbind option_bind] in E. injection E as E1 E2.
  rewrite E1. done.
Qed.
(** clearColors leaves hasColorPairs() true: no vertex has a color, yet the graph claims to consist of pairs. *)
Theorem C50_clear_colors_refuted : exists names n2c g, graph_update names n2c = Some g /\
  (forall v, colorNumber (clearColors g) v = 0) /\ (forall v, virtualMate (clearColors g) v = 0) /\
  g_numColor (clearColors g) = 0 /\ g_hasColorPairs (clearColors g) = true.
Proof.
  set (names := [("a", "b")]%string). set (n2c := [("a", "x"); ("b", "x")]%string). exists names, n2c.
  assert ((g ← graph_update names n2c; Some (g_hasColorPairs g)) = Some true) as E by (vm_compute; done).
  destruct (graph_update names n2c) as [g|]; [|done]. exists g. cbn [mbind option_bind] in E. injection E as E.
  split; [done|].
  assert (forall v, default 0 (replicate (S (g_vMax g)) 0 !! v) = 0) as H.
  { intros v. destruct (replicate _ 0 !! v) as [x|] eqn:Ex; [|done]. by apply lookup_replicate in Ex as [-> _]. }
  split_and!; [| |done|done]; intros v; unfold colorNumber, virtualMate; cbn [clearColors g_vMax g_colorNumber g_virtualMate];
    destruct (_ && _); auto.
Qed.

Print Assumptions C50_edge_list.
Print Assumptions C50_last_line.
Print Assumptions C50_graph_of_edges.
Print Assumptions C50_adjacency_list.
Print Assumptions C50_vertex_groups.
Print Assumptions C50_colors.
Print Assumptions C50_graph_with_groups.
Print Assumptions C50_default_path_color.
Print Assumptions C50_case.
Print Assumptions C50_default_case.
Print Assumptions C50_missing_newline_refuted.
Print Assumptions C50_bad_word_refuted.
Print Assumptions C50_default_path_color_refuted.
Print Assumptions C50_clear_colors_refuted.
