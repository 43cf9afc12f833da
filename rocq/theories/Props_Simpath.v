(** C43, C44, C45: CycleZdd, PathZdd and their Hamilton variants. *)
From stdpp Require Import strings gmap.
From Coq Require Import String.
From Verif Require Import Base Sem Ex M_Table M_Engine M_Builder P_Builder M_Graph S_Graph P_Graph5 Props_Graph S_Degree P_Front M_Simpath S_Simpath P_Simpath1 P_Simpath3 P_Simpath4 P_Simpath5 P_Simpath6.
From Verif Require Import Props_Degree.
Local Open Scope Z_scope.

(** what all theorems of this file assume of the graph: it is numbered as Graph::update does (C36), has an edge, no
    self-loop, and at most 32767 vertices (the Mate type is int16_t) *)
Definition path_graph (names : list edge_name) (n2c : list (string * string)) (g : graph) : Prop :=
  graph_ok names n2c g /\ loop_free g /\ (1 <= edgeSize g)%nat /\ Z.of_nat (vertexSize g) <= 32767.

(** CycleZdd, with and without lookahead, on a graph without colors: exactly the edge sets that are one simple cycle. *)
Theorem C43_cycles : forall names n2c g lookahead v,
  path_graph names n2c g -> (forall x, colorNumber g x = 0%nat) ->
  zdd_sem (sm_spec (CycleZdd g lookahead)) (edgeSize g) v = true <-> is_cycle g v.
Proof.
  intros names n2c g la v (Hg & HL & H1 & Hm) Hc. destruct (cycle_main names n2c g Hg HL H1 Hm false la v Hc) as [A B]. split; [apply B|apply A].
Qed.

(** PathZdd, with and without lookahead, on a graph whose colors come in pairs: exactly the edge sets that consist of
    one simple path for each color, joining its two vertices, the paths being pairwise disjoint. *)
Theorem C44_paths : forall names n2c g lookahead v,
  path_graph names n2c g -> g_hasColorPairs g = true ->
  zdd_sem (sm_spec (PathZdd g lookahead)) (edgeSize g) v = true <-> is_links g v.
Proof.
  intros names n2c g la v (Hg & HL & H1 & Hm) Hc. destruct (links_main names n2c g Hg HL H1 Hm false la v Hc) as [A B]. split; [apply B|apply A].
Qed.

(** The Hamilton variants lose no Hamiltonian solution and accept only cycles (path systems). *)
Theorem C45_hamilton_cycles_partial : forall names n2c g lookahead v,
  path_graph names n2c g -> (forall x, colorNumber g x = 0%nat) ->
  let sp := sm_spec (HamiltonCycleZdd g lookahead) in
  (is_hamilton_cycle g v -> zdd_sem sp (edgeSize g) v = true) /\
  (zdd_sem sp (edgeSize g) v = true -> is_cycle g v).
Proof. intros names n2c g la v (Hg & HL & H1 & Hm) Hc. exact (cycle_main names n2c g Hg HL H1 Hm true la v Hc). Qed.
Theorem C45_hamilton_paths_partial : forall names n2c g lookahead v,
  path_graph names n2c g -> g_hasColorPairs g = true ->
  let sp := sm_spec (HamiltonPathZdd g lookahead) in
  (is_hamilton_links g v -> zdd_sem sp (edgeSize g) v = true) /\
  (zdd_sem sp (edgeSize g) v = true -> is_links g v).
Proof. intros names n2c g la v (Hg & HL & H1 & Hm) Hc. exact (links_main names n2c g Hg HL H1 Hm true la v Hc). Qed.

(** Every access to the mate array, the initial mates and the edge list is in range in every state that can occur. *)
Theorem C43_memory_safe : forall names n2c g G,
  path_graph names n2c g -> sm_graph G = g ->
  (if sm_cycle G then forall x, colorNumber g x = 0%nat else g_hasColorPairs g = true) ->
  is_Some (sm_root G) /\
  forall l s b, reach (sm_spec G) l s -> is_Some (sm_child G s (Z.to_nat l) (negb (b =? 0)%nat)).
Proof.
  intros names n2c g G (Hg & HL & H1 & Hm) HG Hc. split.
  - unfold sm_root. unfold edgeSize in H1. rewrite <- HG in H1. destruct (lookup_lt_is_Some_2 (g_edgeInfo (sm_graph G)) 0) as [e He]; [lia|]. rewrite He. cbn [mbind option_bind].
    assert (is_Some (mapM (fun k => sm_init G !! (e_v0 e + k)%nat) (seq 0 (sm_size G)))) as [m Em].
    { apply mapM_is_Some_2. apply Forall_forall. intros k Hk. apply elem_of_seq in Hk. apply lookup_lt_is_Some_2. unfold sm_init. rewrite map_length, seq_length.
      rewrite HG in He. destruct (no_range _ _ (gr_numbering _ _ _ Hg) _ _ He). rewrite HG. lia. }
    rewrite Em. cbn [mbind option_bind]. by eexists.
  - intros l s b Hr. apply (sm_facts names n2c g Hg HL H1 Hm G HG) with (b := negb (b =? 0)%nat) in Hr; [by destruct Hr| |]; intros E; by rewrite E in Hc.
Qed.

(** It meets the contract of specifications. *)
Theorem C43_contract : forall names n2c g G,
  path_graph names n2c g -> sm_graph G = g ->
  (if sm_cycle G then forall x, colorNumber g x = 0%nat else g_hasColorPairs g = true) ->
  let sp := sm_spec G in spec_ok sp /\ spec_congr sp /\ one_code sp /\ shareable sp.
Proof.
  intros names n2c g G (Hg & HL & H1 & Hm) HG Hc sp.
  assert (Hlev : forall l s b, reach sp l s -> (b < 2)%nat -> -1 <= fst (get_child sp s l b) < l).
  { intros l s b Hr Hb. apply (sm_facts names n2c g Hg HL H1 Hm G HG) with (b := negb (b =? 0)%nat) in Hr; [| |]; try (intros E; by rewrite E in Hc).
    destruct Hr as [_ H]. destruct b as [|[|b]]; [done|done|lia]. }
  split_and!; [|apply sm_congr| |apply sm_shareable].
  - constructor; [simpl; lia| |].
    + intros l s b Hr Hb. by apply Hlev.
    + intros l s s' _ _ H. apply bool_decide_eq_true in H. subst. by intros bs _.
  - split.
    + cbn [sp sm_spec get_root]. unfold sm_root. destruct (g_edgeInfo (sm_graph G) !! 0%nat); cbn; [|lia]. destruct (mapM _ _); cbn; lia.
    + intros l s b Hr Hb. by apply Hlev.
Qed.

(** ** For users of the API: everything in terms of the names *)
Lemma path_graph_of names n2c vs :
  (forall s, vertex_name_in names s -> s ∈ vs) -> Z.of_nat (List.length vs) <= 32767 ->
  (forall s c, (s, c) ∈ n2c -> vertex_name_in names s) -> NoDup (map fst n2c) ->
  names <> [] -> (forall e, e ∈ names -> fst e <> snd e) ->
  exists g, graph_update names n2c = Some g /\ path_graph names n2c g.
Proof.
  intros Hvs Hlen Hn2c Hnd Hne Hloop.
  assert (Hl2 : (List.length n2c <= List.length vs)%nat).
  { rewrite <- (map_length fst). apply submseteq_length, NoDup_submseteq; [done|]. intros s Hs. apply elem_of_list_fmap in Hs as ([t c] & -> & Hin). apply Hvs. by eapply Hn2c. }
  destruct (C36_graph_numbering names n2c vs Hvs) as (g & Eg & Hg); [lia|done|done|lia|].
  exists g. split; [done|]. split; [done|]. split; [|split].
  - eapply names_loop_free; [done|done|]. apply fo_in. apply Hg.
  - rewrite (gr_edgeSize _ _ _ Hg). destruct (fo_length _ _ (gr_edges _ _ _ Hg)) as [_ Hfne]. destruct (g_edge2name g); [by destruct (Hfne Hne)|cbn; lia].
  - pose proof (vertices_bound names n2c g vs Hg Hvs). lia.
Qed.

(** Build a graph from any list of edge names; the diagram constructed from CycleZdd contains exactly the edge sets
    that form one simple cycle of named vertices. *)
Theorem C43_from_names : forall (names : list edge_name) (vs : list string) (lookahead : bool),
  (forall s, vertex_name_in names s -> s ∈ vs) -> Z.of_nat (List.length vs) <= 32767 ->
  names <> [] -> (forall e, e ∈ names -> fst e <> snd e) ->
  exists g d, graph_update names [] = Some g /\ first_occurrences names (g_edge2name g) /\
    construct_dd (sm_spec (CycleZdd g lookahead)) = Some d /\
    forall v, vec_ok 2 v ->
      zdd_sem (dd_spec d) (List.length (g_edge2name g)) v = true <-> exists c, cycle_named (g_edge2name g) v c.
Proof.
  intros names vs la Hvs Hlen Hne Hloop.
  destruct (path_graph_of names [] vs Hvs Hlen) as (g & Eg & HP); [intros s c Hc; by apply elem_of_nil in Hc|constructor|done|done|].
  pose proof HP as (Hg & _). assert (Hc : forall x, colorNumber g x = 0%nat).
  { intros x. destruct (decide (colorNumber g x = 0%nat)) as [|Hn]; [done|]. assert (inr g x) as Hx by (by apply color_out).
    destruct (color_some names [] g Hg x Hx Hn) as [c Hc]. by apply elem_of_nil in Hc. }
  destruct (C43_contract names [] g (CycleZdd g la) HP eq_refl Hc) as (Hok & _).
  destruct (construct_built _ Hok) as (d & E & HB). exists g, d. split_and!; [done|apply Hg|done|].
  intros v Hv. rewrite <- (gr_edgeSize _ _ _ Hg). destruct (built_sem _ d (edgeSize g) v Hok HB Hv) as [_ ->].
  rewrite (C43_cycles names [] g la v HP Hc). by apply (is_cycle_names names []).
Qed.

(** Color vertices in pairs; the diagram constructed from PathZdd contains exactly the edge sets that form one simple
    path for each color, the paths being disjoint. *)
Theorem C44_from_names : forall (names : list edge_name) (n2c : list (string * string)) (vs : list string) (lookahead : bool),
  (forall s, vertex_name_in names s -> s ∈ vs) -> Z.of_nat (List.length vs) <= 32767 ->
  names <> [] -> (forall e, e ∈ names -> fst e <> snd e) ->
  (forall s c, (s, c) ∈ n2c -> vertex_name_in names s) -> NoDup (map fst n2c) -> color_pairs n2c ->
  exists g d, graph_update names n2c = Some g /\ first_occurrences names (g_edge2name g) /\
    construct_dd (sm_spec (PathZdd g lookahead)) = Some d /\
    forall v, vec_ok 2 v ->
      zdd_sem (dd_spec d) (List.length (g_edge2name g)) v = true <-> exists f, links_named (g_edge2name g) n2c v f.
Proof.
  intros names n2c vs la Hvs Hlen Hne Hloop Hn2c Hnd Hp.
  destruct (path_graph_of names n2c vs Hvs Hlen Hn2c Hnd Hne Hloop) as (g & Eg & HP).
  pose proof HP as (Hg & _). pose proof (pairs_names names n2c g Hg Hn2c Hp) as Hc.
  destruct (C43_contract names n2c g (PathZdd g la) HP eq_refl Hc) as (Hok & _).
  destruct (construct_built _ Hok) as (d & E & HB). exists g, d. split_and!; [done|apply Hg|done|].
  intros v Hv. rewrite <- (gr_edgeSize _ _ _ Hg). destruct (built_sem _ d (edgeSize g) v Hok HB Hv) as [_ ->].
  rewrite (C44_paths names n2c g la v HP Hc). by apply (is_links_names names n2c).
Qed.

(** ** Cases *)
(** a triangle a b c with a pendant vertex d: the triangle is the only cycle *)
Example C43_case : exists g d, graph_update ex_deg_names [] = Some g /\ path_graph ex_deg_names [] g /\
  (forall x, colorNumber g x = 0%nat) /\ g_edge2name g = ex_deg_names /\
  construct_dd (sm_spec (CycleZdd g true)) = Some d /\
  zdd_sem (dd_spec d) 4 (vec_of [0;1;1;1]%nat) = true /\
  zdd_sem (dd_spec d) 4 (vec_of [1;1;1;1]%nat) = false /\
  zdd_sem (dd_spec d) 4 (vec_of [0;1;1;0]%nat) = false /\
  cycle_named ex_deg_names (vec_of [0;1;1;1]%nat) ["a"; "b"; "c"]%string.
Proof.
  destruct (path_graph_of ex_deg_names [] ["a"; "b"; "c"; "d"]%string) as (g & Eg & HP).
  { apply ex_deg_vs. } { cbn; lia. } { intros s c Hc. by apply elem_of_nil in Hc. } { constructor. } { done. }
  { intros e He. unfold ex_deg_names in He. repeat (apply elem_of_cons in He as [->|He]; [done|]). by apply elem_of_nil in He. }
  assert (exists p, (g ← graph_update ex_deg_names []; d ← construct_dd (sm_spec (CycleZdd g true));
    Some (g_edge2name g, zdd_sem (dd_spec d) 4 (vec_of [0;1;1;1]%nat), zdd_sem (dd_spec d) 4 (vec_of [1;1;1;1]%nat), zdd_sem (dd_spec d) 4 (vec_of [0;1;1;0]%nat))) = Some p /\
    p = (ex_deg_names, true, false, false)) as (p & E & ->) by (eexists; split; vm_compute; reflexivity).
  rewrite Eg in E. cbn [mbind option_bind] in E. destruct (construct_dd _) as [d|] eqn:Ed; [|done]. cbn [mbind option_bind] in E. injection E as E1 E2 E3 E4.
  exists g, d. split; [done|]. split; [done|]. split.
  { intros x. destruct (decide (colorNumber g x = 0%nat)) as [|Hn]; [done|]. destruct HP as (Hg & _). assert (inr g x) as Hx by (by apply color_out).
    destruct (color_some ex_deg_names [] g Hg x Hx Hn) as [c Hc]. by apply elem_of_nil in Hc. }
  split; [done|]. split; [done|]. split; [done|]. split; [done|]. split; [done|].
  split; [cbn; lia|]. split; [repeat constructor; set_solver|]. intros s t. split.
  - intros (a & e & He & Hv & Hj). destruct a as [|[|[|[|a]]]]; cbn in He; simplify_eq.
    1: destruct Hj as [Hj|Hj]; injection Hj as <- <-; [left|right]; exists [], ["c"; "a"]%string; reflexivity.
    1: destruct Hj as [Hj|Hj]; injection Hj as <- <-; [left|right]; exists ["a"]%string, ["a"]%string; reflexivity.
    1: destruct Hj as [Hj|Hj]; injection Hj as <- <-; [left|right]; exists ["a"; "b"]%string, []; reflexivity.
  - assert (forall s t, next_to s t ["a"; "b"; "c"; "a"]%string -> exists a, (a < 3)%nat /\ ex_deg_names !! a = Some (s, t)) as HN.
    { intros s' t' (l1 & l2 & El). destruct l1 as [|x1 [|x2 [|x3 [|x4 l1]]]]; cbn in El; injection El; intros; subst; [by exists 0%nat; split; [lia|]|by exists 1%nat; split; [lia|]|by exists 2%nat; split; [lia|]|done|by destruct l1]. }
    intros [H|H]; destruct (HN _ _ H) as (a & Ha & He); exists a; eexists; (split; [exact He|]); (split; [destruct a as [|[|[|a]]]; cbn; lia|]); [by left|by right].
Qed.

(** the square a b c d with the diagonal a c; a and c are paired, and so are b and b's opposite d *)
Definition ex_sq_names : list edge_name := [("a", "b"); ("a", "c"); ("b", "c"); ("c", "d"); ("d", "a")]%string.
Definition ex_sq_one : list (string * string) := [("b", "x"); ("d", "x")]%string.
Example C44_case : exists g d, graph_update ex_sq_names ex_sq_one = Some g /\ path_graph ex_sq_names ex_sq_one g /\
  g_hasColorPairs g = true /\ color_pairs ex_sq_one /\ g_edge2name g = ex_sq_names /\
  construct_dd (sm_spec (PathZdd g true)) = Some d /\
  zdd_sem (dd_spec d) 5 (vec_of [0;1;1;0;0]%nat) = true /\
  zdd_sem (dd_spec d) 5 (vec_of [0;1;0;1;1]%nat) = true /\
  zdd_sem (dd_spec d) 5 (vec_of [1;1;1;0;1]%nat) = false /\
  zdd_sem (dd_spec d) 5 (vec_of [0;0;1;0;0]%nat) = false /\
  zdd_sem (dd_spec d) 5 (vec_of [0;0;0;0;0]%nat) = false.
Proof.
  assert (Hp : color_pairs ex_sq_one).
  { split; [done|]. intros s c Hin. unfold ex_sq_one in *. apply elem_of_cons in Hin as [E|E%elem_of_list_singleton]; injection E as -> ->.
    - exists "d"%string. split; [done|]. intros u. rewrite elem_of_cons, elem_of_list_singleton. split; (intros [H|H]; [left|right]); congruence.
    - exists "b"%string. split; [done|]. intros u. rewrite elem_of_cons, elem_of_list_singleton. split; (intros [H|H]; [right|left]); congruence. }
  assert (Hn2c : forall s c, (s, c) ∈ ex_sq_one -> vertex_name_in ex_sq_names s).
  { intros s c Hin. unfold ex_sq_one in *. apply elem_of_cons in Hin as [E|E%elem_of_list_singleton]; injection E as -> ->.
    - exists ("a", "b")%string. split; [left|by right].
    - exists ("d", "a")%string. split; [do 4 right; left|by left]. }
  destruct (path_graph_of ex_sq_names ex_sq_one ["a"; "b"; "c"; "d"]%string) as (g & Eg & HP).
  { intros s (e & He & Hs). unfold ex_sq_names in He. repeat (apply elem_of_cons in He as [->|He]; [destruct Hs as [<-|<-]; cbn; set_solver|]). by apply elem_of_nil in He. }
  { cbn; lia. } { done. } { repeat constructor; set_solver. } { done. }
  { intros e He. unfold ex_sq_names in He. repeat (apply elem_of_cons in He as [->|He]; [done|]). by apply elem_of_nil in He. }
  assert (exists p, (g ← graph_update ex_sq_names ex_sq_one; d ← construct_dd (sm_spec (PathZdd g true));
    Some (g_edge2name g, map (fun l => zdd_sem (dd_spec d) 5 (vec_of l)) [[0;1;1;0;0]; [0;1;0;1;1]; [1;1;1;0;1]; [0;0;1;0;0]; [0;0;0;0;0]]%nat)) = Some p /\
    p = (ex_sq_names, [true; true; false; false; false])) as (p & E & ->) by (eexists; split; vm_compute; reflexivity).
  rewrite Eg in E. cbn [mbind option_bind] in E. destruct (construct_dd _) as [d|] eqn:Ed; [|done]. cbn [mbind option_bind map] in E. injection E as E1 E2 E3 E4 E5 E6.
  exists g, d. split_and!; try done. destruct HP as (Hg & _). by eapply pairs_names.
Qed.

(** ** The Hamilton variants are not exact *)
Fixpoint untouched (v : vec) (x : nat) (es : list edge_info) : bool :=
  match es with
  | [] => true
  | e :: r => ((v (List.length es) =? 0)%nat || negb ((e_v1 e =? x)%nat || (e_v2 e =? x)%nat)) && untouched v x r
  end.
Lemma untouched_ok g v x y : untouched v x (g_edgeInfo g) = true -> ~ chosen g v x y.
Proof.
  intros H (a & e & He & Hv & Hj). unfold edgeSize in Hv. revert a He Hv. induction (g_edgeInfo g) as [|e0 r IH]; intros a He Hv; [done|].
  cbn [untouched] in H. apply andb_true_iff in H as [H1 H2]. destruct a as [|a]; cbn in He.
  - injection He as ->. apply orb_true_iff in H1 as [H1|H1]; [apply Nat.eqb_eq in H1; by rewrite Nat.sub_0_r in Hv|].
    apply negb_true_iff, orb_false_iff in H1 as [N1%Nat.eqb_neq N2%Nat.eqb_neq]. unfold joins in Hj. lia.
  - eapply IH; [done|exact He|]. exact Hv.
Qed.
Lemma no_colors names g x : graph_ok names [] g -> colorNumber g x = 0%nat.
Proof.
  intros Hg. destruct (decide (colorNumber g x = 0%nat)) as [|Hn]; [done|]. assert (inr g x) as Hx by (by apply color_out).
  destruct (color_some names [] g Hg x Hx Hn) as [c Hc]. by apply elem_of_nil in Hc.
Qed.

(** a triangle a b c and a vertex d joined to b and c: the triangle is accepted although it misses d, which enters the
    frontier only after the triangle is closed *)
Theorem C45_late_vertex_refuted : exists g v,
  graph_update [("a", "b"); ("b", "c"); ("c", "a"); ("b", "d"); ("c", "d")]%string [] = Some g /\
  path_graph [("a", "b"); ("b", "c"); ("c", "a"); ("b", "d"); ("c", "d")]%string [] g /\
  vec_ok 2 v /\ zdd_sem (sm_spec (HamiltonCycleZdd g true)) (edgeSize g) v = true /\ ~ is_hamilton_cycle g v.
Proof.
  destruct (path_graph_of [("a", "b"); ("b", "c"); ("c", "a"); ("b", "d"); ("c", "d")]%string [] ["a"; "b"; "c"; "d"]%string) as (g & Eg & HP).
  { intros s (e & He & Hs). repeat (apply elem_of_cons in He as [->|He]; [destruct Hs as [<-|<-]; cbn; set_solver|]). by apply elem_of_nil in He. }
  { cbn; lia. } { intros s c Hc. by apply elem_of_nil in Hc. } { constructor. } { done. }
  { intros e He. repeat (apply elem_of_cons in He as [->|He]; [done|]). by apply elem_of_nil in He. }
  set (v := vec_of [0;0;1;1;1]%nat).
  assert (exists p, (g ← graph_update [("a", "b"); ("b", "c"); ("c", "a"); ("b", "d"); ("c", "d")]%string [];
    Some (vertexSize g, zdd_sem (sm_spec (HamiltonCycleZdd g true)) (edgeSize g) v, untouched v 4 (g_edgeInfo g))) = Some p /\ p = (4%nat, true, true)) as (p & E & ->)
    by (eexists; split; vm_compute; reflexivity).
  rewrite Eg in E. cbn [mbind option_bind] in E. injection E as E1 E2 E3.
  exists g, v. split; [done|]. split; [done|]. split; [apply vec_of_ok; repeat constructor|]. split; [done|].
  intros (c & Hc & Hall). destruct (cycle_cover g v c 4 Hc) as [y Hy]; [apply Hall; rewrite E1; lia|]. by apply (untouched_ok g v 4 y E3).
Qed.

(** the vertex at index 0 of the mate array is not looked at when a cycle is closed: the square a b c d is accepted
    although it misses x, whose edges come later *)
Theorem C45_first_vertex_refuted : exists g v,
  graph_update [("a", "b"); ("b", "c"); ("c", "d"); ("d", "a"); ("x", "a"); ("x", "b"); ("a", "c"); ("b", "d")]%string [] = Some g /\
  path_graph [("a", "b"); ("b", "c"); ("c", "d"); ("d", "a"); ("x", "a"); ("x", "b"); ("a", "c"); ("b", "d")]%string [] g /\
  maxFrontierSize g = vertexSize g /\
  vec_ok 2 v /\ zdd_sem (sm_spec (HamiltonCycleZdd g true)) (edgeSize g) v = true /\ ~ is_hamilton_cycle g v.
Proof.
  destruct (path_graph_of [("a", "b"); ("b", "c"); ("c", "d"); ("d", "a"); ("x", "a"); ("x", "b"); ("a", "c"); ("b", "d")]%string [] ["a"; "b"; "c"; "d"; "x"]%string) as (g & Eg & HP).
  { intros s (e & He & Hs). repeat (apply elem_of_cons in He as [->|He]; [destruct Hs as [<-|<-]; cbn; set_solver|]). by apply elem_of_nil in He. }
  { cbn; lia. } { intros s c Hc. by apply elem_of_nil in Hc. } { constructor. } { done. }
  { intros e He. repeat (apply elem_of_cons in He as [->|He]; [done|]). by apply elem_of_nil in He. }
  set (v := vec_of [0;0;0;0;1;1;1;1]%nat).
  assert (exists p, (g ← graph_update [("a", "b"); ("b", "c"); ("c", "d"); ("d", "a"); ("x", "a"); ("x", "b"); ("a", "c"); ("b", "d")]%string [];
    Some (vertexSize g, maxFrontierSize g, zdd_sem (sm_spec (HamiltonCycleZdd g true)) (edgeSize g) v, untouched v 1 (g_edgeInfo g))) = Some p /\ p = (5%nat, 5%nat, true, true)) as (p & E & ->)
    by (eexists; split; vm_compute; reflexivity).
  rewrite Eg in E. cbn [mbind option_bind] in E. injection E as E1 E1' E2 E3.
  exists g, v. split; [done|]. split; [done|]. split; [congruence|]. split; [apply vec_of_ok; repeat constructor|]. split; [done|].
  intros (c & Hc & Hall). destruct (cycle_cover g v c 1 Hc) as [y Hy]; [apply Hall; rewrite E1; lia|]. by apply (untouched_ok g v 1 y E3).
Qed.

(** a path a b c, where a and b are to be joined: the edge a b alone is accepted although it misses c *)
Theorem C45_path_refuted : exists g v,
  graph_update [("a", "b"); ("b", "c")]%string [("a", "r"); ("b", "r")]%string = Some g /\
  path_graph [("a", "b"); ("b", "c")]%string [("a", "r"); ("b", "r")]%string g /\ g_hasColorPairs g = true /\
  vec_ok 2 v /\ zdd_sem (sm_spec (HamiltonPathZdd g true)) (edgeSize g) v = true /\ ~ is_hamilton_links g v.
Proof.
  destruct (path_graph_of [("a", "b"); ("b", "c")]%string [("a", "r"); ("b", "r")]%string ["a"; "b"; "c"]%string) as (g & Eg & HP).
  { intros s (e & He & Hs). repeat (apply elem_of_cons in He as [->|He]; [destruct Hs as [<-|<-]; cbn; set_solver|]). by apply elem_of_nil in He. }
  { cbn; lia. }
  { intros s c Hin. exists ("a", "b")%string. split; [left|]. apply elem_of_cons in Hin as [E|E%elem_of_list_singleton]; injection E as -> ->; [by left|by right]. }
  { repeat constructor; set_solver. } { done. }
  { intros e He. repeat (apply elem_of_cons in He as [->|He]; [done|]). by apply elem_of_nil in He. }
  set (v := vec_of [0;1]%nat).
  assert (exists p, (g ← graph_update [("a", "b"); ("b", "c")]%string [("a", "r"); ("b", "r")]%string;
    Some (vertexSize g, g_hasColorPairs g, zdd_sem (sm_spec (HamiltonPathZdd g true)) (edgeSize g) v, untouched v 3 (g_edgeInfo g))) = Some p /\ p = (3%nat, true, true, true)) as (p & E & ->)
    by (eexists; split; vm_compute; reflexivity).
  rewrite Eg in E. cbn [mbind option_bind] in E. injection E as E1 E1' E2 E3.
  exists g, v. split; [done|]. split; [done|]. split; [done|]. split; [apply vec_of_ok; repeat constructor|]. split; [done|].
  intros (ps & Hps & Hall). destruct (links_cover g v ps 3 Hps) as [y Hy]; [apply Hall; rewrite E1; lia|]. by apply (untouched_ok g v 3 y E3).
Qed.

(** hypotheses of C45 met: on the square with both diagonals the Hamiltonian cycle a b c d is accepted, a triangle is not *)
Definition ex_k4_names : list edge_name := [("a", "b"); ("b", "c"); ("c", "d"); ("d", "a"); ("a", "c"); ("b", "d")]%string.
Example C45_case : exists g, graph_update ex_k4_names [] = Some g /\ path_graph ex_k4_names [] g /\ (forall x, colorNumber g x = 0%nat) /\
  zdd_sem (sm_spec (HamiltonCycleZdd g true)) (edgeSize g) (vec_of [0;0;1;1;1;1]%nat) = true /\
  zdd_sem (sm_spec (HamiltonCycleZdd g true)) (edgeSize g) (vec_of [0;1;0;0;1;1]%nat) = false.
Proof.
  destruct (path_graph_of ex_k4_names [] ["a"; "b"; "c"; "d"]%string) as (g & Eg & HP).
  { intros s (e & He & Hs). unfold ex_k4_names in He. repeat (apply elem_of_cons in He as [->|He]; [destruct Hs as [<-|<-]; cbn; set_solver|]). by apply elem_of_nil in He. }
  { cbn; lia. } { intros s c Hc. by apply elem_of_nil in Hc. } { constructor. } { done. }
  { intros e He. unfold ex_k4_names in He. repeat (apply elem_of_cons in He as [->|He]; [done|]). by apply elem_of_nil in He. }
  assert (exists p, (g ← graph_update ex_k4_names []; Some (zdd_sem (sm_spec (HamiltonCycleZdd g true)) (edgeSize g) (vec_of [0;0;1;1;1;1]%nat),
    zdd_sem (sm_spec (HamiltonCycleZdd g true)) (edgeSize g) (vec_of [0;1;0;0;1;1]%nat))) = Some p /\ p = (true, false)) as (p & E & ->)
    by (eexists; split; vm_compute; reflexivity).
  rewrite Eg in E. cbn [mbind option_bind] in E. injection E as E1 E2.
  exists g. split; [done|]. split; [done|]. split; [|done]. intros x. destruct HP as (Hg & _). by apply (no_colors ex_k4_names).
Qed.

Print Assumptions C43_cycles.
Print Assumptions C44_paths.
Print Assumptions C45_hamilton_cycles_partial.
Print Assumptions C45_hamilton_paths_partial.
Print Assumptions C43_memory_safe.
Print Assumptions C43_contract.
Print Assumptions C43_from_names.
Print Assumptions C44_from_names.
Print Assumptions C45_late_vertex_refuted.
Print Assumptions C45_first_vertex_refuted.
Print Assumptions C45_path_refuted.
