(** C36: Graph numbering. *)
From stdpp Require Import strings gmap.
From Coq Require Import String.
From Verif Require Import Base M_Graph S_Graph P_Graph P_Graph5.
Local Open Scope nat_scope.

(** For every list of edge names (duplicates, reversed duplicates and self-loops included) on fewer than 65535
    vertex names and every coloring of its vertices, update() succeeds and everything observable is as specified
    by [graph_ok] (S_Graph.v): edge and vertex numbers, the leaving order of the vertices, v0, the final flags,
    the name lookups, the color numbers, virtual mates and allColorsSeen. *)
Theorem C36_graph_numbering names n2c vs :
  (forall s, vertex_name_in names s -> s ∈ vs) -> (N.of_nat (length vs) < 65535)%N ->
  (forall s c, (s, c) ∈ n2c -> vertex_name_in names s) -> NoDup (map fst n2c) -> (N.of_nat (length n2c) <= 65535)%N ->
  exists g, graph_update names n2c = Some g /\ graph_ok names n2c g.
Proof. apply graph_update_ok. Qed.

(** A color for a name that is not a vertex is rejected. *)
Theorem C36_unknown_vertex_rejected names n2c s c :
  (s, c) ∈ n2c -> ~ vertex_name_in names s -> graph_update names n2c = None.
Proof.
  intros Hsc Hno. unfold graph_update.
  destruct (uniq_ok names) as (l & n2e0 & -> & Hfo & _). destruct (stack_ok l) as (st & n2v0 & -> & Hn2v0 & Hnds & Hst & _).
  destruct (number_vertices st n2v0) as [[n2v v2n]|] eqn:En; [|done]. cbn [mbind option_bind].
  destruct (ofold (edge_step n2v) l _) as [[[[es index] n2e] vmax]|]; [|done]. cbn [mbind option_bind].
  assert (n2v !! s = None) as Hs.
  { unfold number_vertices in En. match type of En with ofold ?f _ _ = _ => eapply (ofold_inv_run f (fun _ a => fst a !! s = None) _ _ _ En) end.
    - cbn [fst]. destruct (n2v0 !! s) eqn:E; [|done]. exfalso. apply Hno. apply (vertex_names_fo _ _ s Hfo), Hst, Hn2v0. by rewrite E.
    - intros pre x post [a b] [a' b'] Hl Ha. cbn [fst] in *. destruct (_ <? _)%N; [done|]. intros E. injection E as <- <-.
      rewrite lookup_insert_ne; [done|]. intros ->. apply Hno, (vertex_names_fo _ _ s Hfo), Hst. rewrite Hl. set_solver. }
  assert (color_sets n2v n2c = None) as ->; [|done]. unfold color_sets.
  match goal with |- context [ofold ?f n2c ?a] => assert (forall b, ofold f n2c b = None) as H; [|by rewrite H] end.
  clear -Hsc Hs. induction n2c as [|[s' c'] n2c IH]; intros b; [by apply elem_of_nil in Hsc|]. cbn [ofold fst snd].
  apply elem_of_cons in Hsc as [E|Hsc].
  - injection E as <- <-. rewrite Hs. done.
  - destruct (_ =? 0); [done|]. by apply IH.
Qed.

(** Frontier states indexed by v - v0 fit into maxFrontierSize() cells, and no smaller number suffices. *)
Theorem C36_frontier_size g :
  (forall a e, g_edgeInfo g !! a = Some e -> e_v2 e - e_v0 e < maxFrontierSize g) /\
  (0 < edgeSize g -> exists a e, g_edgeInfo g !! a = Some e /\ e_v2 e - e_v0 e + 1 = maxFrontierSize g).
Proof.
  unfold maxFrontierSize, edgeSize.
  assert (forall l n, (n <= foldl (fun n e => Nat.max n (e_v2 e - e_v0 e + 1)) n l) /\
    (forall e, e ∈ l -> e_v2 e - e_v0 e + 1 <= foldl (fun n e => Nat.max n (e_v2 e - e_v0 e + 1)) n l) /\
    (foldl (fun n e => Nat.max n (e_v2 e - e_v0 e + 1)) n l = n \/
     exists e, e ∈ l /\ e_v2 e - e_v0 e + 1 = foldl (fun n e => Nat.max n (e_v2 e - e_v0 e + 1)) n l)) as H.
  { induction l as [|e l IH]; intros n; cbn [foldl].
    - split_and!; [lia|intros e He; by apply elem_of_nil in He|by left].
    - destruct (IH (Nat.max n (e_v2 e - e_v0 e + 1))) as (H1 & H2 & H3). split_and!; [lia| |].
      + intros f Hf. apply elem_of_cons in Hf as [->|Hf]; [lia|by apply H2].
      + destruct H3 as [->|(f & Hf & <-)]; [|right; exists f; split; [by right|done]].
        destruct (Nat.max_spec n (e_v2 e - e_v0 e + 1)) as [[_ ->]|[_ ->]]; [right; exists e; split; [left|done]|by left]. }
  destruct (H (g_edgeInfo g) 0) as (_ & H2 & H3). split.
  - intros a e He. apply elem_of_list_lookup_2, H2 in He. lia.
  - intros Hlen. destruct H3 as [Hz|(e & He & E)].
    + exfalso. destruct (g_edgeInfo g) as [|e l] eqn:El; [simpl in Hlen; lia|]. specialize (H2 e ltac:(left)). lia.
    + apply elem_of_list_lookup in He as [a Ha]. by exists a, e.
Qed.

(** A graph with a triangle, a pendant edge, a duplicate, a reversed duplicate, a self-loop and two colors. *)
Definition ex_names : list edge_name :=
  [("a", "b"); ("b", "c"); ("b", "a"); ("c", "a"); ("c", "d"); ("d", "d"); ("a", "b")]%string.
Definition ex_colors : list (string * string) := [("a", "x"); ("b", "y"); ("d", "x")]%string.
Example C36_case : exists g, graph_update ex_names ex_colors = Some g /\ graph_ok ex_names ex_colors g /\
  vertexSize g = 4 /\ edgeSize g = 5 /\ getVertex g "b"%string = Some 1 /\ getVertex g "a"%string = Some 2 /\
  virtualMate g 2 = 4 /\ map e_v0 (g_edgeInfo g) = [1; 1; 2; 3; 4] /\
  map e_v1final (g_edgeInfo g) = [false; true; true; true; true].
Proof.
  destruct (C36_graph_numbering ex_names ex_colors ["a"; "b"; "c"; "d"]%string) as (g & Hg & Hok).
  - intros s (e & He & Hs). unfold ex_names in He. repeat (apply elem_of_cons in He as [->|He]; [destruct Hs as [<-|<-]; cbn; set_solver|]). by apply elem_of_nil in He.
  - done.
  - intros s c Hc. unfold ex_colors in Hc. unfold vertex_name_in, ex_names.
    apply elem_of_cons in Hc as [E|Hc]; [injection E as -> ->; exists ("a", "b")%string; split; [set_solver|by left]|].
    apply elem_of_cons in Hc as [E|Hc]; [injection E as -> ->; exists ("a", "b")%string; split; [set_solver|by right]|].
    apply elem_of_list_singleton in Hc. injection Hc as -> ->. exists ("c", "d")%string. split; [set_solver|by right].
  - cbn. repeat constructor; set_solver.
  - done.
  - exists g. split; [done|]. split; [done|]. vm_compute in Hg. injection Hg as <-. split_and!; by vm_compute.
Qed.

Print Assumptions C36_graph_numbering.
Print Assumptions C36_unknown_vertex_rejected.
Print Assumptions C36_frontier_size.
