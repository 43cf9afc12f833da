(** C29: DegreeConstraint. *)
From stdpp Require Import strings gmap.
From Coq Require Import String.
From Verif Require Import Base Sem Ex M_Table M_Engine M_Builder P_Builder M_Size M_Graph S_Graph P_Graph5 Props_Graph M_Degree S_Degree P_Front P_Degree.
From Verif Require Import P_Size.
Local Open Scope Z_scope.

(** On every numbered graph without self-loops and with at least one edge, the specification accepts exactly the edge
    sets in which the degree of every constrained vertex is allowed; all choices (lookahead or not) in the ZDD reading,
    and without lookahead in the BDD reading too. *)
Theorem C29_degree_constraint : forall (G : degc) (v : vec),
  let g := dc_graph G in let n := edgeSize g in
  numbering_ok (vertexSize g) (g_edgeInfo g) -> loop_free g -> (1 <= n)%nat ->
  List.length (dc_cons G) = S (vertexSize g) ->
  (forall x c, (1 <= x <= vertexSize g)%nat -> dc_cons G !! x = Some c -> countable n c) ->
  (zdd_sem (deg_spec G) n v = true <-> degrees_ok g (dc_cons G) v) /\
  (dc_lookahead G = false -> bdd_sem (deg_spec G) n v = zdd_sem (deg_spec G) n v).
Proof.
  intros G v g n HN HL Hn HC HU.
  assert (HU' : forall x c, (1 <= x <= vertexSize g)%nat -> dc_cons G !! x = Some (Some c) ->
    upper_sound n c /\ (upperBound c <= 32767 \/ Z.of_nat n <= 32767)) by (intros x c Hx Hc; by eapply (HU x)).
  split; [by apply deg_sem|]. intros Hla. by apply deg_sem_bdd.
Qed.

(** Every array access is in range, in every state that can occur. *)
Theorem C29_memory_safe : forall (G : degc),
  let g := dc_graph G in let n := edgeSize g in
  numbering_ok (vertexSize g) (g_edgeInfo g) -> loop_free g ->
  List.length (dc_cons G) = S (vertexSize g) ->
  (forall x c, (1 <= x <= vertexSize g)%nat -> dc_cons G !! x = Some c -> countable n c) ->
  forall l s b, reach (deg_spec G) l s -> is_Some (deg_child G s (Z.to_nat l) (negb (b =? 0)%nat)).
Proof.
  intros G g n HN HL HC HU l s b Hr.
  assert (HU' : forall x c, (1 <= x <= vertexSize g)%nat -> dc_cons G !! x = Some (Some c) ->
    upper_sound n c /\ (upperBound c <= 32767 \/ Z.of_nat n <= 32767)) by (intros x c Hx Hc; by eapply (HU x)).
  by eapply deg_safe.
Qed.

(** It meets the contract of specifications. *)
Theorem C29_contract : forall (G : degc),
  let g := dc_graph G in let n := edgeSize g in
  numbering_ok (vertexSize g) (g_edgeInfo g) -> loop_free g ->
  List.length (dc_cons G) = S (vertexSize g) ->
  (forall x c, (1 <= x <= vertexSize g)%nat -> dc_cons G !! x = Some c -> countable n c) ->
  let sp := deg_spec G in spec_ok sp /\ spec_congr sp /\ one_code sp /\ shareable sp.
Proof.
  intros G g n HN HL HC HU sp.
  assert (HU' : forall x c, (1 <= x <= vertexSize g)%nat -> dc_cons G !! x = Some (Some c) ->
    upper_sound n c /\ (upperBound c <= 32767 \/ Z.of_nat n <= 32767)) by (intros x c Hx Hc; by eapply (HU x)).
  split_and!; [|apply deg_congr| |apply deg_shareable].
  - constructor; [simpl; lia| |].
    + intros l s b Hr _. by apply deg_levels.
    + intros l s s' _ _ H. apply bool_decide_eq_true in H. subst. by intros bs _.
  - split; [cbn; lia|]. intros l s b Hr _. by apply deg_levels.
Qed.

Lemma degree_names names n2c g v s x : graph_ok names n2c g -> getVertex g s = Some x ->
  degree (g_edgeInfo g) v x = degree_named (g_edge2name g) v s.
Proof.
  intros Hg Hx. pose proof (gr_ends _ _ _ Hg) as He. pose proof (gr_edgeSize _ _ _ Hg) as Hlen. unfold edgeSize in Hlen.
  assert (forall t y, getVertex g t = Some y -> (y =? x)%nat = bool_decide (t = s)) as Heq.
  { intros t y Hy. destruct (bool_decide_reflect (t = s)) as [->|Hne]; destruct (Nat.eqb_spec y x) as [->|Hn]; [done|congruence| |done].
    apply (gr_vertex_name _ _ _ Hg) in Hx as (_ & _ & <-), Hy as (_ & _ & <-). done. }
  revert He Hlen. generalize (g_edge2name g) (g_edgeInfo g). induction l as [|e l IH]; intros [|i es] He Hlen; [done|done|done|].
  cbn [degree degree_named]. cbn [List.length] in Hlen. injection Hlen as Hlen. rewrite (IH es); [|intros a; apply (He (S a))|done].
  cbn [List.length]. rewrite Hlen. f_equal. destruct (v _ =? 0)%nat; [done|].
  destruct (He 0%nat e i eq_refl eq_refl) as [[H1 H2]|[H1 H2]]; rewrite (Heq _ _ H1), (Heq _ _ H2); lia.
Qed.

Lemma fo_length names l : first_occurrences names l -> (List.length l <= List.length names)%nat /\ (names <> [] -> l <> []).
Proof.
  induction 1 as [|names l e H [IH1 IH2]|names l e f H [IH1 IH2] Hf]; [done| |]; rewrite ?app_length; cbn [List.length].
  - split; [lia|]. intros _ E. by apply app_eq_nil in E as [_ ?].
  - split; [lia|]. intros _. apply IH2. intros ->. by apply elem_of_nil in Hf.
Qed.
Lemma fo_in names l : first_occurrences names l -> forall e, e ∈ l -> e ∈ names.
Proof.
  induction 1 as [|names l e H IH Hn|names l e f H IH Hf]; intros e' He'; [done| |].
  - apply elem_of_app in He' as [He'|He']; apply elem_of_app; [left; by apply IH|by right].
  - apply elem_of_app. left. by apply IH.
Qed.

Lemma sets_ok names n2c g la dflt sets : graph_ok names n2c g -> Forall (fun tc => vertex_name_in names (fst tc)) sets ->
  exists cons, ofold (fun G tc => deg_set_name G (fst tc) (snd tc)) sets (deg_new g dflt la) = Some (DegC g cons la) /\
    List.length cons = S (vertexSize g) /\
    forall s x, getVertex g s = Some x -> cons !! x = Some (last_constraint dflt sets s).
Proof.
  intros Hg Hs.
  match goal with |- context [ofold ?f sets ?a] => destruct (ofold_inv f (fun pre G => exists cons, G = DegC g cons la /\
    List.length cons = S (vertexSize g) /\ forall s x, getVertex g s = Some x -> cons !! x = Some (last_constraint dflt pre s)) sets a) as (G & E & cons & -> & H1 & H2) end.
  - eexists. split; [reflexivity|]. cbn [List.length]. rewrite replicate_length. split; [done|]. intros s x Hx.
    apply (gr_vertex_range _ _ _ Hg) in Hx. destruct x as [|x]; [lia|]. cbn [lookup list_lookup]. apply lookup_replicate. cbn. split; [done|lia].
  - intros pre [t c] post G Hl (cons & -> & HC & HL). cbn [fst snd]. unfold deg_set_name, deg_set. cbn [dc_graph dc_cons dc_lookahead].
    assert (vertex_name_in names t) as Ht. { subst sets. apply Forall_app in Hs as [_ Hs]. by inversion Hs. }
    apply (gr_vertex _ _ _ Hg) in Ht as [x Hx]. rewrite Hx. cbn [mbind option_bind].
    pose proof (gr_vertex_range _ _ _ Hg _ _ Hx) as Hr. destruct (Nat.ltb_spec x 1); [lia|]. destruct (Nat.ltb_spec (vertexSize g) x); [lia|]. cbn [orb].
    eexists. split; [reflexivity|]. eexists. split; [reflexivity|]. split; [by rewrite insert_length|].
    intros s y Hy. unfold last_constraint. rewrite foldl_app. cbn [foldl fst snd]. fold (last_constraint dflt pre s).
    destruct (bool_decide_reflect (t = s)) as [->|Hne].
    + assert (y = x) as -> by congruence. apply list_lookup_insert. lia.
    + rewrite list_lookup_insert_ne; [by apply HL|]. intros ->.
      apply (gr_vertex_name _ _ _ Hg) in Hx as (_ & _ & <-), Hy as (_ & _ & <-). done.
  - by exists cons.
Qed.

(** For users of the API: build a graph from any list of edge names, set constraints by vertex name in any order; the
    diagram constructed is exactly the family of edge sets whose degrees are allowed at every vertex. *)
Theorem C29_from_names : forall (names : list edge_name) (n2c : list (string * string)) (vs : list string)
    (dflt : option int_subset) (sets : list (string * option int_subset)) (lookahead : bool),
  (forall s, vertex_name_in names s -> s ∈ vs) -> (N.of_nat (List.length vs) < 65535)%N ->
  (forall s c, (s, c) ∈ n2c -> vertex_name_in names s) -> NoDup (map fst n2c) -> (N.of_nat (List.length n2c) <= 65535)%N ->
  names <> [] -> (forall e, e ∈ names -> fst e <> snd e) ->
  Forall (fun tc => vertex_name_in names (fst tc)) sets ->
  (forall c, c = dflt \/ (exists s, (s, c) ∈ sets) -> countable (List.length names) c) ->
  exists g G d, graph_update names n2c = Some g /\
    ofold (fun G tc => deg_set_name G (fst tc) (snd tc)) sets (deg_new g dflt lookahead) = Some G /\
    construct_dd (deg_spec G) = Some d /\
    forall v, vec_ok 2 v -> zdd_sem (dd_spec d) (edgeSize g) v = true <->
      forall s c, vertex_name_in names s -> last_constraint dflt sets s = Some c ->
        contains c (degree_named (g_edge2name g) v s) = true.
Proof.
  intros names n2c vs dflt sets la Hvs Hlen Hn2c Hnd Hlen2 Hne Hloop Hsets HU.
  destruct (C36_graph_numbering names n2c vs Hvs Hlen Hn2c Hnd Hlen2) as (g & Eg & Hg).
  destruct (sets_ok names n2c g la dflt sets Hg Hsets) as (cons & EG & HC & HL).
  pose proof (gr_numbering _ _ _ Hg) as HN. pose proof (gr_edges _ _ _ Hg) as Hfo. destruct (fo_length _ _ Hfo) as [Hfl Hfne].
  pose proof (gr_edgeSize _ _ _ Hg) as Hes.
  assert (loop_free g) as HF.
  { intros a e He. destruct (lookup_lt_is_Some_2 (g_edge2name g) a) as [f Hf].
    { rewrite <- Hes. apply lookup_lt_Some in He. done. }
    assert (fst f <> snd f) as Hd by (apply Hloop; eapply (fo_in _ _ Hfo); by eapply elem_of_list_lookup_2).
    intros E. apply Hd. destruct (gr_ends _ _ _ Hg _ _ _ Hf He) as [[H1 H2]|[H1 H2]]; rewrite E in *;
    apply (gr_vertex_name _ _ _ Hg) in H1 as (_ & _ & <-), H2 as (_ & _ & <-); done. }
  assert (1 <= edgeSize g)%nat as Hn1. { rewrite Hes. destruct (g_edge2name g); [by destruct (Hfne Hne)|cbn; lia]. }
  assert (forall x c, (1 <= x <= vertexSize g)%nat -> cons !! x = Some c -> countable (edgeSize g) c) as HU'.
  { intros x c Hx Hc. destruct (gr_vertex_all _ _ _ Hg x Hx) as [s Hs]. rewrite (HL _ _ Hs) in Hc. injection Hc as <-.
    assert (countable (List.length names) (last_constraint dflt sets s)) as Hcc.
    { unfold last_constraint. clear -HU. assert (countable (List.length names) dflt) as H0 by (apply HU; by left).
      assert (forall c s, (s, c) ∈ sets -> countable (List.length names) c) as H1 by (intros c t Ht; apply HU; right; by exists t).
      clear HU. revert dflt H0. induction sets as [|[t c] sets IH]; intros dflt H0; cbn [foldl fst snd]; [done|]. apply IH.
      - intros c' t' H. eapply H1. by right.
      - destruct (bool_decide _); [eapply H1; by left|done]. }
    intros c' Hc'. destruct (Hcc c' Hc') as [H1 H2]. split; [intros y Hy; apply H1; lia|]. destruct H2; [by left|right; lia]. }
  exists g, (DegC g cons la).
  destruct (C29_contract (DegC g cons la) HN HF HC HU') as (Hok & _).
  destruct (construct_built _ Hok) as (d & E & HB). exists d. split_and!; [done..|].
  intros v Hv. destruct (built_sem _ d (edgeSize g) v Hok HB Hv) as [_ ->].
  destruct (C29_degree_constraint (DegC g cons la) v HN HF Hn1 HC HU') as [-> _]. unfold degrees_ok. cbn [dc_cons dc_graph]. split.
  - intros H s c Hs Hc. apply (gr_vertex _ _ _ Hg) in Hs as [x Hx]. rewrite <- (degree_names _ _ _ v s x Hg Hx).
    apply (H x); [by eapply (gr_vertex_range _ _ _ Hg)|]. by rewrite (HL _ _ Hx), Hc.
  - intros H x c Hx Hc. destruct (gr_vertex_all _ _ _ Hg x Hx) as [s Hs]. rewrite (degree_names _ _ _ v s x Hg Hs).
    apply H; [by apply (gr_vertex _ _ _ Hg)|]. rewrite (HL _ _ Hs) in Hc. by injection Hc.
Qed.

(** A triangle a b c with a pendant vertex d: degree 1 or 2 everywhere by default, d unconstrained, a exactly 2. *)
Definition ex_deg_names : list edge_name := [("a", "b"); ("b", "c"); ("c", "a"); ("c", "d")]%string.
Definition ex_deg_sets : list (string * option int_subset) :=
  [("d", None); ("a", Some (int_range 2 2 1))]%string.
Definition ex_deg_diagram : option dd :=
  g ← graph_update ex_deg_names [];
  G ← ofold (fun G tc => deg_set_name G (fst tc) (snd tc)) ex_deg_sets (deg_new g (Some (int_range 1 2 1)) true);
  construct_dd (deg_spec G).
Lemma ex_deg_vs s : vertex_name_in ex_deg_names s -> s ∈ ["a"; "b"; "c"; "d"]%string.
Proof.
  intros (e & He & Hs). unfold ex_deg_names in He. repeat (apply elem_of_cons in He as [->|He]; [destruct Hs as [<-|<-]; cbn; set_solver|]). by apply elem_of_nil in He.
Qed.
Lemma ex_deg_graph : exists g, graph_update ex_deg_names [] = Some g /\ graph_ok ex_deg_names [] g.
Proof.
  apply (C36_graph_numbering ex_deg_names [] ["a"; "b"; "c"; "d"]%string).
  - apply ex_deg_vs.
  - done.
  - intros s c Hc. by apply elem_of_nil in Hc.
  - constructor.
  - done.
Qed.
Example C29_case : exists g G d, graph_update ex_deg_names [] = Some g /\
  ofold (fun G tc => deg_set_name G (fst tc) (snd tc)) ex_deg_sets (deg_new g (Some (int_range 1 2 1)) true) = Some G /\
  construct_dd (deg_spec G) = Some d /\
  g_edge2name g = ex_deg_names /\
  numbering_ok (vertexSize g) (g_edgeInfo g) /\ loop_free g /\
  countable 4 (Some (int_range 1 2 1)) /\
  zdd_sem (dd_spec d) 4 (vec_of [1;1;1;1]%nat) = false /\
  zdd_sem (dd_spec d) 4 (vec_of [1;1;0;1]%nat) = true /\
  zdd_sem (dd_spec d) 4 (vec_of [0;1;1;1]%nat) = true /\
  zdd_sem (dd_spec d) 4 (vec_of [1;0;1;1]%nat) = false /\
  map List.length (tab d) = [2;1;2;1;1]%nat.
Proof.
  destruct ex_deg_graph as (g0 & Eg0 & Hok).
  destruct (C29_from_names ex_deg_names [] ["a"; "b"; "c"; "d"]%string (Some (int_range 1 2 1)) ex_deg_sets true) as (g & G & d & Eg & EG & Ed & _); [..|assert (g0 = g) as -> by congruence].
  - apply ex_deg_vs.
  - done.
  - intros s c Hc. by apply elem_of_nil in Hc.
  - constructor.
  - done.
  - done.
  - intros e He. unfold ex_deg_names in He. repeat (apply elem_of_cons in He as [->|He]; [done|]). by apply elem_of_nil in He.
  - clear. repeat constructor; [exists ("c", "d")%string|exists ("a", "b")%string]; (split; [set_solver|]); [by right|by left].
  - intros c [->|[s Hs]] c' Hc'.
    + injection Hc' as <-. split; [intros x _ H; apply int_range_contains in H; cbn in *; lia|left; cbn; lia].
    + unfold ex_deg_sets in Hs. apply elem_of_cons in Hs as [E|Hs]; [injection E as -> ->; done|]. apply elem_of_list_singleton in Hs. injection Hs as -> ->.
      injection Hc' as <-. split; [intros x _ H; apply int_range_contains in H; cbn in *; lia|left; cbn; lia].
  - assert (exists d', ex_deg_diagram = Some d' /\
      zdd_sem (dd_spec d') 4 (vec_of [1;1;1;1]%nat) = false /\ zdd_sem (dd_spec d') 4 (vec_of [1;1;0;1]%nat) = true /\
      zdd_sem (dd_spec d') 4 (vec_of [0;1;1;1]%nat) = true /\ zdd_sem (dd_spec d') 4 (vec_of [1;0;1;1]%nat) = false /\
      map List.length (tab d') = [2;1;2;1;1]%nat) as (d' & Ed' & Hd).
    { eexists. split; [vm_compute; reflexivity|]. by vm_compute. }
    unfold ex_deg_diagram in Ed'. rewrite Eg in Ed'. cbn [mbind option_bind] in Ed'. rewrite EG in Ed'. cbn [mbind option_bind] in Ed'.
    assert (d' = d) as -> by congruence.
    assert (exists es, (g ← graph_update ex_deg_names []; Some (g_edgeInfo g, g_edge2name g)) = Some (es, ex_deg_names) /\
      forallb (fun e => negb (e_v1 e =? e_v2 e)%nat) es = true) as (es & Ees & Hes).
    { eexists. split; [vm_compute; reflexivity|]. by vm_compute. }
    rewrite Eg in Ees. cbn [mbind option_bind] in Ees. injection Ees as Ees En.
    exists g, G, d. split; [done|]. split; [done|]. split; [done|]. split; [done|]. split; [apply Hok|]. split; [|split; [|done]].
    + intros a e He. rewrite Ees in He. rewrite forallb_forall in Hes. apply elem_of_list_lookup_2, elem_of_list_In, Hes, negb_true_iff, Nat.eqb_neq in He. done.
    + intros c' Hc'. injection Hc' as <-. split; [intros x _ H; apply int_range_contains in H; cbn in *; lia|left; cbn; lia].
Qed.

(** Without [loop_free] the claim is false: a single self-loop with the only allowed degree 2 is rejected. *)
Theorem C29_self_loop_refuted : exists (g : graph) (G : degc) (v : vec),
  graph_update [("a", "a")]%string [] = Some g /\ G = deg_new g (Some (int_range 2 2 1)) false /\
  degrees_ok g (dc_cons G) v /\ zdd_sem (deg_spec G) 1 v = false.
Proof.
  assert (exists p, (g ← graph_update [("a", "a")]%string [];
      let G := deg_new g (Some (int_range 2 2 1)) false in
      Some (vertexSize g, degree (g_edgeInfo g) (fun _ => 1%nat) 1, zdd_sem (deg_spec G) 1 (fun _ => 1%nat))) = Some p /\
      p = (1%nat, 2, false)) as (p & E & ->).
  { eexists. split; vm_compute; reflexivity. }
  destruct (graph_update [("a", "a")]%string []) as [g|]; [|done]. cbn [mbind option_bind] in E. injection E as Ev Ed Ez.
  exists g, (deg_new g (Some (int_range 2 2 1)) false), (fun _ => 1%nat). split_and!; [done..| |done].
  intros x c Hx Hc. assert (x = 1)%nat as -> by lia. cbn [deg_new dc_cons] in Hc. rewrite Ev in Hc. cbn in Hc. injection Hc as <-. by rewrite Ed.
Qed.

(** Without edges the specification is the empty family, although the empty set satisfies everything. *)
Theorem C29_no_edges_refuted : exists (g : graph) (G : degc) (v : vec),
  graph_update [] [] = Some g /\ G = deg_new g None false /\
  degrees_ok g (dc_cons G) v /\ zdd_sem (deg_spec G) 0 v = false.
Proof.
  assert (exists p, (g ← graph_update [] []; Some (vertexSize g, zdd_sem (deg_spec (deg_new g None false)) 0 (fun _ => 0%nat))) = Some p /\
      p = (0%nat, false)) as (p & E & ->).
  { eexists. split; vm_compute; reflexivity. }
  destruct (graph_update [] []) as [g|]; [|done]. cbn [mbind option_bind] in E. injection E as Ev Ez.
  exists g, (deg_new g None false), (fun _ => 0%nat). split_and!; [done..| |done]. intros x c Hx. lia.
Qed.

(** With lookahead the specification must be read as a ZDD. *)
Example C29_lookahead_bdd : exists (g : graph) (v : vec),
  graph_update [("a", "b"); ("b", "c")]%string [] = Some g /\
  let G := deg_new g (Some (int_range 0 0 1)) true in
  bdd_sem (deg_spec G) 2 v <> zdd_sem (deg_spec G) 2 v.
Proof.
  assert (exists p, (g ← graph_update [("a", "b"); ("b", "c")]%string [];
    let G := deg_new g (Some (int_range 0 0 1)) true in
    Some (bdd_sem (deg_spec G) 2 (vec_of [1;0]%nat), zdd_sem (deg_spec G) 2 (vec_of [1;0]%nat))) = Some p /\ p = (true, false)) as (p & E & ->).
  { eexists. split; vm_compute; reflexivity. }
  destruct (graph_update [("a", "b"); ("b", "c")]%string []) as [g|]; [|done]. cbn [mbind option_bind] in E. injection E as E1 E2.
  exists g, (vec_of [1;0]%nat). split; [done|]. cbn zeta. by rewrite E1, E2.
Qed.

Print Assumptions C29_degree_constraint.
Print Assumptions C29_memory_safe.
Print Assumptions C29_contract.
Print Assumptions C29_from_names.
Print Assumptions C29_self_loop_refuted.
Print Assumptions C29_no_edges_refuted.
