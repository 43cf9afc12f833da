(** C46: FrontierBasedSearch — exactly the edge sets whose components respect the colors. *)
From stdpp Require Import strings gmap.
From Coq Require Import String.
From Verif Require Import Base Sem Ex M_Table M_Engine M_Builder P_Builder M_Graph S_Graph P_Graph5 Props_Graph S_Degree P_Front M_Fbs S_Simpath S_Fbs P_Simpath5 P_Simpath6 P_Fbs4 P_Fbs5 P_Fbs6.
From Verif Require Import Props_Degree Props_Simpath.
Local Open Scope Z_scope.

(** what all theorems of this file assume: a numbered graph (C36) with an edge, without self-loops, with at most 32766
    vertices (offsets are int16_t and 32766, 32767 are marks), and a number of components that fits into int16_t *)
Definition fbs_graph (names : list edge_name) (n2c : list (string * string)) (g : graph) (numUEC : Z) : Prop :=
  graph_ok names n2c g /\ loop_free g /\ (1 <= edgeSize g)%nat /\ Z.of_nat (vertexSize g) <= 32766 /\ -32768 <= numUEC <= 32767.

(** FrontierBasedSearch(graph, numUEC, noLoop, lookahead): colored vertices are joined by chosen edges exactly if they
    have the same color; if numUEC >= 0 there are exactly numUEC components with an edge but no color; if noLoop, no
    chosen edge lies on a cycle. *)
Theorem C46_components : forall names n2c g numUEC noLoop lookahead v,
  fbs_graph names n2c g numUEC ->
  zdd_sem (fb_spec (Fbs g numUEC noLoop lookahead)) (edgeSize g) v = true <-> fbs_good g numUEC noLoop v.
Proof. intros names n2c g k nl la v (Hg & HL & H1 & Hm & Hk). by apply (fbs_main names n2c g). Qed.

(** Every access to the mate array, the initial mates and the edge list is in range, the memory moves included, and no
    assertion fails, in every state that can occur. *)
Theorem C46_memory_safe : forall names n2c g numUEC noLoop lookahead,
  fbs_graph names n2c g numUEC ->
  let G := Fbs g numUEC noLoop lookahead in
  is_Some (fb_root G) /\ forall l s b, reach (fb_spec G) l s -> is_Some (fb_child G s (Z.to_nat l) (negb (b =? 0)%nat)).
Proof.
  intros names n2c g k nl la (Hg & HL & H1 & Hm & Hk) G. split; [by apply (fbs_root names n2c g)|]. intros l s b Hr. by apply (fbs_safe names n2c g Hg HL H1 Hm k Hk).
Qed.

(** It meets the contract of specifications. *)
Theorem C46_contract : forall names n2c g numUEC noLoop lookahead,
  fbs_graph names n2c g numUEC ->
  let sp := fb_spec (Fbs g numUEC noLoop lookahead) in spec_ok sp /\ spec_congr sp /\ one_code sp /\ shareable sp.
Proof.
  intros names n2c g k nl la (Hg & HL & H1 & Hm & Hk) sp.
  assert (Hlev : forall l s b, reach sp l s -> -1 <= fst (get_child sp s l b) < l) by (intros l s b; by apply (fbs_levels names n2c g Hg HL H1 Hm k Hk)).
  split_and!; [|apply fb_congr| |apply fb_shareable].
  - constructor; [cbn; lia| |].
    + intros l s b Hr Hb. by apply Hlev.
    + intros l s s' _ _ H. apply bool_decide_eq_true in H. subst. by intros bs _.
  - split.
    + cbn [sp fb_spec get_root]. unfold fb_root. destruct (g_edgeInfo _ !! 0%nat); cbn; [|lia]. destruct (mapM _ _); cbn; lia.
    + intros l s b Hr Hb. by apply Hlev.
Qed.

(** ** For users of the API: everything in terms of the names *)
Lemma fbs_graph_of names n2c vs k :
  (forall s, vertex_name_in names s -> s ∈ vs) -> Z.of_nat (List.length vs) <= 32766 -> -32768 <= k <= 32767 ->
  (forall s c, (s, c) ∈ n2c -> vertex_name_in names s) -> NoDup (map fst n2c) ->
  names <> [] -> (forall e, e ∈ names -> fst e <> snd e) ->
  exists g, graph_update names n2c = Some g /\ fbs_graph names n2c g k.
Proof.
  intros Hvs Hlen Hk Hn2c Hnd Hne Hloop. destruct (path_graph_of names n2c vs) as (g & Eg & Hg & HL & H1 & Hm); [done|lia|done|done|done|done|].
  exists g. split; [done|]. split_and!; try done; try lia. pose proof (vertices_bound names n2c g vs Hg Hvs). lia.
Qed.

(** Build a graph from any list of edge names and colors; the diagram constructed from FrontierBasedSearch contains
    exactly the edge sets whose components respect the colors. *)
Theorem C46_from_names : forall (names : list edge_name) (n2c : list (string * string)) (vs : list string) numUEC noLoop lookahead,
  (forall s, vertex_name_in names s -> s ∈ vs) -> Z.of_nat (List.length vs) <= 32766 -> -32768 <= numUEC <= 32767 ->
  names <> [] -> (forall e, e ∈ names -> fst e <> snd e) ->
  (forall s c, (s, c) ∈ n2c -> vertex_name_in names s) -> NoDup (map fst n2c) ->
  exists g d, graph_update names n2c = Some g /\ first_occurrences names (g_edge2name g) /\
    construct_dd (fb_spec (Fbs g numUEC noLoop lookahead)) = Some d /\
    forall v, vec_ok 2 v ->
      zdd_sem (dd_spec d) (List.length (g_edge2name g)) v = true <-> fbs_named (g_edge2name g) n2c numUEC noLoop v.
Proof.
  intros names n2c vs k nl la Hvs Hlen Hk Hne Hloop Hn2c Hnd.
  destruct (fbs_graph_of names n2c vs k Hvs Hlen Hk Hn2c Hnd Hne Hloop) as (g & Eg & HP). pose proof HP as (Hg & _).
  destruct (C46_contract names n2c g k nl la HP) as (Hok & _).
  destruct (construct_built _ Hok) as (d & E & HB). exists g, d. split_and!; [done|apply Hg|done|].
  intros v Hv. rewrite <- (gr_edgeSize _ _ _ Hg). destruct (built_sem _ d (edgeSize g) v Hok HB Hv) as [_ ->].
  rewrite (C46_components names n2c g k nl la v HP). by apply (fbs_names names n2c g Hg Hn2c).
Qed.

(** Give all vertices one color and ask for no further components and no cycles: the spanning trees. *)
Theorem C46_spanning_trees : forall (names : list edge_name) (vs : list string) (c : string) lookahead,
  (forall s, vertex_name_in names s <-> s ∈ vs) -> NoDup vs -> Z.of_nat (List.length vs) <= 32766 ->
  names <> [] -> (forall e, e ∈ names -> fst e <> snd e) ->
  exists g d, graph_update names (map (fun s => (s, c)) vs) = Some g /\ first_occurrences names (g_edge2name g) /\
    construct_dd (fb_spec (Fbs g 0 true lookahead)) = Some d /\
    forall v, vec_ok 2 v -> let en := g_edge2name g in
      zdd_sem (dd_spec d) (List.length en) v = true <->
      (forall s t, s ∈ vs -> t ∈ vs -> connected_named en v s t) /\
      (forall a e, en !! a = Some e -> v (List.length en - a)%nat <> 0%nat -> ~ rtc (chosen_named_but en v a) (fst e) (snd e)).
Proof.
  intros names vs c la Hvs Hnd Hlen Hne Hloop. set (n2c := map (fun s => (s, c)) vs).
  assert (Hin : forall s d, (s, d) ∈ n2c <-> s ∈ vs /\ d = c).
  { intros s d. unfold n2c. rewrite elem_of_list_fmap. split; [intros (t & E & Ht); by injection E as -> ->|]. intros [Hs ->]. by exists s. }
  destruct (C46_from_names names n2c vs 0 true la) as (g & d & Eg & Hfo & Ed & Hsem).
  { intros s. by apply Hvs. } { done. } { lia. } { done. } { done. }
  { intros s d [Hs _]%Hin. by apply Hvs. }
  { assert (map fst n2c = vs) as ->; [|done]. unfold n2c. rewrite map_map. apply map_id. }
  exists g, d. split_and!; [done|done|done|]. intros v Hv. cbv zeta. etransitivity; [exact (Hsem v Hv)|]. set (en := g_edge2name g). unfold fbs_named. split.
  - intros (A & _ & B). split; [|by apply B]. intros s t Hs Ht. apply (A s c t c); [by apply Hin|by apply Hin|done].
  - intros [A B]. split_and!; [|intros _; exists []; split_and!; [constructor|done|intros r Hr; by apply elem_of_nil in Hr|]|done].
    + intros s d1 t d2 [Hs ->]%Hin [Ht ->]%Hin. split; [done|]. intros _. by apply A.
    + intros s [[t Ht] Hno]. exfalso. apply (Hno s c); [done|]. apply Hin. split; [|done]. apply Hvs.
      destruct Ht as (a & e & He & _ & Hj). exists e. split.
      * apply (fo_in _ _ Hfo). by eapply elem_of_list_lookup_2.
      * destruct Hj as [->| ->]; [by left|by right].
Qed.

(** ** Cases *)
(** the square a b c d with the diagonal a c; b and d must be joined, no cycles; one further component is not possible *)
Example C46_case : exists g, graph_update ex_sq_names ex_sq_one = Some g /\ fbs_graph ex_sq_names ex_sq_one g 0 /\
  (exists d, construct_dd (fb_spec (Fbs g 0 true true)) = Some d /\
    zdd_sem (dd_spec d) 5 (vec_of [0;1;1;0;0]%nat) = true /\
    zdd_sem (dd_spec d) 5 (vec_of [0;1;1;1;0]%nat) = true /\
    zdd_sem (dd_spec d) 5 (vec_of [0;1;1;1;1]%nat) = false /\
    zdd_sem (dd_spec d) 5 (vec_of [0;0;1;0;0]%nat) = false) /\
  zdd_sem (fb_spec (Fbs g 0 false true)) 5 (vec_of [0;1;1;1;1]%nat) = true /\
  zdd_sem (fb_spec (Fbs g 1 false true)) 5 (vec_of [0;1;1;1;1]%nat) = false.
Proof.
  destruct (fbs_graph_of ex_sq_names ex_sq_one ["a"; "b"; "c"; "d"]%string 0) as (g & Eg & HP).
  { intros s (e & He & Hs). unfold ex_sq_names in He. repeat (apply elem_of_cons in He as [->|He]; [destruct Hs as [<-|<-]; cbn; set_solver|]). by apply elem_of_nil in He. }
  { cbn; lia. } { lia. }
  { intros s c Hin. unfold ex_sq_one in Hin. apply elem_of_cons in Hin as [E|E%elem_of_list_singleton]; injection E as -> ->; [exists ("a", "b")%string; split; [left|by right]|exists ("c", "d")%string; split; [unfold ex_sq_names; set_solver|by right]]. }
  { repeat constructor; set_solver. } { done. }
  { intros e He. unfold ex_sq_names in He. repeat (apply elem_of_cons in He as [->|He]; [done|]). by apply elem_of_nil in He. }
  assert (exists p, (g ← graph_update ex_sq_names ex_sq_one; d ← construct_dd (fb_spec (Fbs g 0 true true));
    Some (map (fun l => zdd_sem (dd_spec d) 5 (vec_of l)) [[0;1;1;0;0]; [0;1;1;1;0]; [0;1;1;1;1]; [0;0;1;0;0]]%nat,
      zdd_sem (fb_spec (Fbs g 0 false true)) 5 (vec_of [0;1;1;1;1]%nat), zdd_sem (fb_spec (Fbs g 1 false true)) 5 (vec_of [0;1;1;1;1]%nat))) = Some p /\
    p = ([true; true; false; false], true, false)) as (p & E & ->) by (eexists; split; vm_compute; reflexivity).
  rewrite Eg in E. cbn [mbind option_bind] in E. destruct (construct_dd _) as [d|] eqn:Ed; [|done]. cbn [mbind option_bind map] in E. injection E as E1 E2 E3 E4 E5 E6.
  exists g. split_and!; [done|done|by exists d|done|done].
Qed.
(** two disjoint edges: one component carries the color of a and b, the other one is free *)
Definition ex_two_names : list edge_name := [("a", "b"); ("c", "d")]%string.
Example C46_case_free : exists g, graph_update ex_two_names [("a", "x"); ("b", "x")]%string = Some g /\
  fbs_graph ex_two_names [("a", "x"); ("b", "x")]%string g 1 /\
  zdd_sem (fb_spec (Fbs g 1 false false)) 2 (vec_of [1;1]%nat) = true /\
  zdd_sem (fb_spec (Fbs g 1 false false)) 2 (vec_of [0;1]%nat) = false /\
  zdd_sem (fb_spec (Fbs g (-1) false false)) 2 (vec_of [0;1]%nat) = true /\
  zdd_sem (fb_spec (Fbs g 0 false false)) 2 (vec_of [1;1]%nat) = false.
Proof.
  destruct (fbs_graph_of ex_two_names [("a", "x"); ("b", "x")]%string ["a"; "b"; "c"; "d"]%string 1) as (g & Eg & HP).
  { intros s (e & He & Hs). unfold ex_two_names in He. repeat (apply elem_of_cons in He as [->|He]; [destruct Hs as [<-|<-]; cbn; set_solver|]). by apply elem_of_nil in He. }
  { cbn; lia. } { lia. }
  { intros s c Hin. exists ("a", "b")%string. split; [left|]. apply elem_of_cons in Hin as [E|E%elem_of_list_singleton]; injection E as -> ->; [by left|by right]. }
  { repeat constructor; set_solver. } { done. }
  { intros e He. unfold ex_two_names in He. repeat (apply elem_of_cons in He as [->|He]; [done|]). by apply elem_of_nil in He. }
  assert (exists p, (g ← graph_update ex_two_names [("a", "x"); ("b", "x")]%string;
    Some (zdd_sem (fb_spec (Fbs g 1 false false)) 2 (vec_of [1;1]%nat), zdd_sem (fb_spec (Fbs g 1 false false)) 2 (vec_of [0;1]%nat),
      zdd_sem (fb_spec (Fbs g (-1) false false)) 2 (vec_of [0;1]%nat), zdd_sem (fb_spec (Fbs g 0 false false)) 2 (vec_of [1;1]%nat))) = Some p /\
    p = (true, false, true, false)) as (p & E & ->) by (eexists; split; vm_compute; reflexivity).
  rewrite Eg in E. cbn [mbind option_bind] in E. injection E as E1 E2 E3 E4.
  exists g. split_and!; done.
Qed.

Print Assumptions C46_components.
Print Assumptions C46_memory_safe.
Print Assumptions C46_contract.
Print Assumptions C46_from_names.
Print Assumptions C46_spanning_trees.
