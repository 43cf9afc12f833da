(** C56: the program ddpaths. *)
From stdpp Require Import strings gmap.
From Coq Require Import String.
From Verif Require Import Base Sem Ex M_Table M_Engine M_Builder P_Builder M_Ops M_Conv M_Subset M_Reducer M_Equal M_Eval S_Eval S_Big M_Size S_Spec M_Graph S_Graph P_Graph5 Props_Graph S_GraphIO M_GraphIO P_GraphIO Props_GraphIO
  M_Degree S_Degree M_Simpath S_Simpath P_Simpath1 P_Simpath3 P_Simpath4 P_Simpath5 P_Simpath6 P_Uncolored M_PathMap S_PathMap P_PathMap P_PathMap2 M_Fbs S_Fbs.
From Verif Require Import Props_Reduce Props_Degree Props_Simpath Props_PathMap Props_Fbs S_Api P_Api Props_Api S_Ddpaths M_Ddpaths P_Ddpaths.
Local Open Scope Z_scope.

(** ** the graph *)
Lemma path_search names n2c g : path_graph names n2c g -> search_graph g.
Proof. intros (Hg & HL & H1 & Hm). split; [apply Hg|done]. Qed.
Lemma clear_search g : search_graph g -> search_graph (clearColors g).
Proof. done. Qed.
Lemma clear_uncolored g : uncolored (clearColors g).
Proof.
  assert (H : forall k i, default 0%nat (replicate k 0%nat !! i) = 0%nat).
  { intros k i. destruct (replicate k 0%nat !! i) eqn:E; [|done]. by apply lookup_replicate in E as [-> _]. }
  split; [done|]. split; intros x; unfold colorNumber, virtualMate; destruct (_ && _); try done; apply H.
Qed.

(** ** what each specification contributes *)
Lemma sm_top G : (top_level (sm_spec G) <= edgeSize (sm_graph G))%nat.
Proof. unfold top_level. cbn [sm_spec get_root]. unfold sm_root. destruct (g_edgeInfo (sm_graph G) !! 0%nat); cbn; [|lia]. destruct (mapM _ _); cbn; [|lia]. unfold sm_n. lia. Qed.
Lemma unc_sm_api g ham la : search_graph g -> uncolored g -> let sp := sm_spec (Simpath g true ham la) in
  api_spec 2 (edgeSize g) AZdd sp (means AZdd sp (edgeSize g)).
Proof.
  intros HS HU sp. set (G := Simpath g true ham la).
  assert (Hlev : forall l s b, reach sp l s -> (b < 2)%nat -> -1 <= fst (get_child sp s l b) < l).
  { intros l s b Hr Hb. apply (unc_facts g HS HU G eq_refl eq_refl) with (b := negb (b =? 0)%nat) in Hr. destruct Hr as [_ H]. destruct b as [|[|b]]; [done|done|lia]. }
  apply as_user; [|apply sm_congr| |done|apply (sm_top G)].
  - constructor; [simpl; lia| |].
    + intros l s b Hr Hb. by apply Hlev.
    + intros l s s' _ _ H. apply bool_decide_eq_true in H. subst. by intros bs _.
  - split.
    + cbn [sp sm_spec get_root]. unfold sm_root. destruct (g_edgeInfo _ !! 0%nat); cbn; [|lia]. destruct (mapM _ _); cbn; lia.
    + intros l s b Hr Hb. by apply Hlev.
Qed.
Lemma unc_vm g : uncolored g -> forall x, virtualMate g x <> 0%nat ->
  (1 <= x <= vertexSize g)%nat /\ (1 <= virtualMate g x <= vertexSize g)%nat /\ virtualMate g x <> x /\ virtualMate g (virtualMate g x) = x.
Proof. intros (_ & _ & H) x Hx. by rewrite H in Hx. Qed.
Lemma pm_api g : search_graph g -> (forall x, virtualMate g x <> 0%nat ->
  (1 <= x <= vertexSize g)%nat /\ (1 <= virtualMate g x <= vertexSize g)%nat /\ virtualMate g x <> x /\ virtualMate g (virtualMate g x) = x) ->
  api_spec 2 (edgeSize g) AZdd (pm_spec g) (means AZdd (pm_spec g) (edgeSize g)).
Proof.
  intros (HN & HL & H1 & Hm) Hvm.
  assert (Hlev : forall l s b, reach (pm_spec g) l s -> -1 <= fst (get_child (pm_spec g) s l b) < l).
  { intros l s b Hr. destruct (pm_step g HN HL Hvm l s (negb (b =? 0)%nat) H1 Hr) as (res & E & Hres). cbn [pm_spec get_child]. by rewrite E. }
  apply as_user; [| | |done|].
  - constructor; [simpl; lia| |].
    + intros l s b Hr Hb. by apply Hlev.
    + intros l s s' _ _ H. apply bool_decide_eq_true in H. subst. by intros bs _.
  - constructor; cbn [pm_spec equal_to].
    + intros. by apply bool_decide_eq_true.
    + intros. apply bool_decide_ext. split; congruence.
    + intros l s s' s'' _ _ _ E1 E2. apply bool_decide_eq_true in E1, E2. subst. by apply bool_decide_eq_true.
    + intros l s s' b _ _ _ H. apply bool_decide_eq_true in H. subst. split; [done|]. intros _. by apply bool_decide_eq_true.
  - split; [cbn; lia|]. intros l s b Hr Hb. by apply Hlev.
  - unfold top_level. cbn. lia.
Qed.

(** the edge sets that -t path and -t cycle must report at least, and may report at most: equal but for -hamilton *)
Definition pd_least (g : graph) (o : pd_opts) (v : vec) : Prop :=
  if o_hamilton o then if o_cycle o then is_hamilton_cycle g v else is_hamilton_links g v
  else if o_cycle o then is_cycle g v else if o_slow o then is_tour g v else is_links g v.
Definition pd_most (g : graph) (o : pd_opts) (v : vec) : Prop :=
  if o_cycle o then is_cycle g v else if o_slow o && negb (o_hamilton o) then is_tour g v else is_links g v.
(** the graph is fit for the search: pairs for -t path, cleared colors for -t cycle *)
Definition pd_fit (names : list edge_name) (n2c : list (string * string)) (o : pd_opts) (g : graph) : Prop :=
  if o_cycle o then exists g0, path_graph names n2c g0 /\ g = clearColors g0
  else path_graph names n2c g /\ g_hasColorPairs g = true.
Lemma fit_search names n2c o g : pd_fit names n2c o g -> search_graph g.
Proof. unfold pd_fit. destruct (o_cycle o); [intros (g0 & H & ->); by apply clear_search, (path_search names n2c)|intros [H _]; by apply (path_search names n2c)]. Qed.
Lemma fit_vm names n2c g : path_graph names n2c g -> forall x, virtualMate g x <> 0%nat ->
  (1 <= x <= vertexSize g)%nat /\ (1 <= virtualMate g x <= vertexSize g)%nat /\ virtualMate g x <> x /\ virtualMate g (virtualMate g x) = x.
Proof. intros (Hg & _ & H1 & _). exact (vm_facts names n2c g Hg H1). Qed.
Lemma fit_api names n2c o g : pd_fit names n2c o g ->
  let R := means AZdd (pd_spec g o) (edgeSize g) in
  api_spec 2 (edgeSize g) AZdd (pd_spec g o) R /\
  forall v, (pd_least g o v -> R v = true) /\ (R v = true -> pd_most g o v) /\ (R v = true -> deg_good g v).
Proof.
  intros HF R. pose proof (fit_search _ _ _ _ HF) as HS. subst R. unfold pd_fit in HF. unfold pd_spec, pd_least, pd_most. destruct (o_cycle o) eqn:Ec.
  - destruct HF as (g0 & HP & Eg). assert (HU : uncolored g) by (subst g; apply clear_uncolored). pose proof HU as (HU1 & HU2 & HU3).
    destruct (o_hamilton o) eqn:Eh; [|destruct (o_slow o) eqn:Es].
    + split; [by apply unc_sm_api|]. intros v. destruct (unc_cycle g HS HU true (negb (o_nola o)) v) as [A B]. split; [exact A|]. split; [exact B|]. intros H. apply cycle_degrees; [done|done|by apply B].
    + split; [by apply pm_api, unc_vm|]. intros v. pose proof HS as (HN & HL & H1 & Hm).
      assert (HE : zdd_sem (pm_spec g) (edgeSize g) v = true <-> is_cycle g v). { rewrite <- (tour_cycle g v HU3), (tour_good g v). apply (pm_sem g HN HL (unc_vm g HU) v). exact H1. }
      split; [apply HE|]. split; [apply HE|]. intros H. apply cycle_degrees; [done|done|by apply HE].
    + split; [by apply unc_sm_api|]. intros v. destruct (unc_cycle g HS HU false (negb (o_nola o)) v) as [A B]. split; [exact A|]. split; [exact B|]. intros H. apply cycle_degrees; [done|done|by apply B].
  - destruct HF as [HP Hp]. pose proof HP as (Hg & HL & H1 & Hm).
    assert (Hpd : paired g). { intros x Hx Hc. by apply (gr_pairs _ _ _ Hg). }
    assert (HA : forall ham, api_spec 2 (edgeSize g) AZdd (sm_spec (Simpath g false ham (negb (o_nola o)))) (means AZdd (sm_spec (Simpath g false ham (negb (o_nola o)))) (edgeSize g))).
    { intros ham. destruct (C43_contract names n2c g (Simpath g false ham (negb (o_nola o))) HP eq_refl Hp) as (O1 & O2 & O3 & _). apply as_user; [done|done|done|done|apply (sm_top (Simpath g false ham (negb (o_nola o))))]. }
    destruct (o_hamilton o) eqn:Eh; [|destruct (o_slow o) eqn:Es]; cbn [negb andb].
    + split; [apply HA|]. intros v. rewrite andb_false_r. destruct (C45_hamilton_paths_partial names n2c g (negb (o_nola o)) v HP Hp) as [A B]. split; [exact A|]. split; [exact B|].
      intros H. apply (links_degrees g HS names n2c v Hg Hp). by apply B.
    + split; [by apply pm_api, (fit_vm names n2c)|]. intros v. pose proof (C55_tours names n2c g v HP) as HE. split; [apply HE|]. split; [apply HE|].
      intros H. apply (tour_degrees g HS v); [|done|by apply HE]. intros x Hx. destruct (fit_vm names n2c g HP x Hx) as (A & B & _).
      destruct (proj1 (gr_mate _ _ _ Hg x (virtualMate g x) A B) eq_refl) as (_ & Hn & _). lia.
    + split; [apply HA|]. intros v. pose proof (C44_paths names n2c g (negb (o_nola o)) v HP Hp) as HE. split; [apply HE|]. split; [apply HE|].
      intros H. apply (links_degrees g HS names n2c v Hg Hp). by apply HE.
Qed.

(** ** the program *)
(** With every combination of options ddpaths ends with a diagram, and it contains exactly the solutions of the wanted
    size: cycles, path systems, or tours for -slow; with -hamilton all Hamiltonian solutions and nothing but solutions. *)
Theorem C56_program : forall names n2c o g, pd_fit names n2c o g ->
  (exists f, ddpaths g o f) /\
  forall f, ddpaths g o f -> forall v, vec_ok 2 v ->
    (pd_least g o v -> sized g (o_lb o) (o_ub o) v -> zdd_sem (dd_spec f) (edgeSize g) v = true) /\
    (zdd_sem (dd_spec f) (edgeSize g) v = true -> pd_most g o v /\ sized g (o_lb o) (o_ub o) v).
Proof.
  intros names n2c o g HF. pose proof (fit_search _ _ _ _ HF) as HS. destruct (fit_api _ _ _ _ HF) as [HA HR]. split; [by eapply program_ex|].
  intros f Hf v Hv. destruct (program_api g HS o _ f HA) as (f2 & P & A & B & C); [intros w _; by apply HR|done|].
  pose proof (reduce_step g _ _ _ _ A B) as HD. destruct (C54_meaning 2 (edgeSize g) AZdd f P ltac:(lia) HD) as (_ & _ & _ & HM). cbn [means] in HM. rewrite (HM v Hv), (C v Hv).
  destruct (HR v) as (R1 & R2 & _). split; [intros H1 H2; split; [by apply R1|done]|intros [H1 H2]; split; [by apply R2|done]].
Qed.

(** Without -hamilton: exactly the solutions; zddCardinality, which -count prints, is their number; and with the final
    reduction the diagram does not depend on -dc, -nola, -p or, for cycles and one pair of ends, -slow. *)
Theorem C56_exact : forall names n2c o g f, pd_fit names n2c o g -> o_hamilton o = false -> ddpaths g o f ->
  (forall v, vec_ok 2 v -> zdd_sem (dd_spec f) (edgeSize g) v = true <->
     (if o_cycle o then is_cycle g v else if o_slow o then is_tour g v else is_links g v) /\ sized g (o_lb o) (o_ub o) v) /\
  (forall junk, exists ds (L : list (list nat)), zdd_cardinality (max_words 2) junk f = Some ds /\ S_Big.decimal ds (N.of_nat (List.length L)) /\
     NoDup L /\ forall l, l ∈ L <-> List.length l = edgeSize g /\ Forall (fun x => (x < 2)%nat) l /\
       (if o_cycle o then is_cycle g (vec_of_list l) else if o_slow o then is_tour g (vec_of_list l) else is_links g (vec_of_list l)) /\ sized g (o_lb o) (o_ub o) (vec_of_list l)).
Proof.
  intros names n2c o g f HF Hh Hf. pose proof (fit_search _ _ _ _ HF) as HS. destruct (fit_api _ _ _ _ HF) as [HA HR].
  destruct (program_api g HS o _ f HA) as (f2 & P & A & B & C); [intros w _; by apply HR|done|].
  pose proof (reduce_step g _ _ _ _ A B) as HD. destruct (C54_meaning 2 (edgeSize g) AZdd f P ltac:(lia) HD) as (_ & _ & _ & HM). cbn [means] in HM.
  assert (HE : forall v, vec_ok 2 v -> P v = true <-> (if o_cycle o then is_cycle g v else if o_slow o then is_tour g v else is_links g v) /\ sized g (o_lb o) (o_ub o) v).
  { intros v Hv. rewrite (C v Hv). destruct (HR v) as (R1 & R2 & _). unfold pd_least, pd_most in R1, R2. rewrite Hh in R1, R2. cbn [negb] in R2. rewrite andb_true_r in R2. split; intros [H1 H2]; (split; [|done]); [by apply R2|by apply R1]. }
  split.
  - intros v Hv. rewrite (HM v Hv). by apply HE.
  - intros junk. destruct (C54_count 2 (edgeSize g) f P junk ltac:(lia) HD) as (ds & N & E & HN & L & H1 & -> & H3). exists ds, L.
    split; [done|]. split; [done|]. split; [done|]. intros l. rewrite H3. split; intros (Q1 & Q2 & Q3); (split; [done|]); (split; [done|]); apply HE; try done.
    all: intros i; unfold vec_of_list; destruct (le_lt_dec (List.length l) (i - 1)) as [Hi|Hi]; [rewrite nth_overflow by done; lia|];
      rewrite Forall_forall in Q2; apply Q2, elem_of_list_In, nth_In; done.
Qed.
Theorem C56_same_diagram : forall names n2c o o' g f f', pd_fit names n2c o g -> ddpaths g o f -> ddpaths g o' f' ->
  o_cycle o' = o_cycle o -> o_lb o' = o_lb o -> o_ub o' = o_ub o -> o_hamilton o = false -> o_hamilton o' = false ->
  o_nored o = false -> o_nored o' = false -> (o_cycle o = false -> g_numColor g = 1%nat \/ o_slow o' = o_slow o) ->
  dd_eq false f f' = Some true.
Proof.
  intros names n2c o o' g f f' HF Hf Hf' E1 E2 E3 Hh Hh' Hn Hn' Hslow. pose proof (fit_search _ _ _ _ HF) as HS.
  assert (HF' : pd_fit names n2c o' g) by (unfold pd_fit in *; by rewrite E1).
  destruct (fit_api _ _ _ _ HF) as [HA HR]. destruct (fit_api _ _ _ _ HF') as [HA' HR'].
  destruct (program_api g HS o _ f HA) as (f2 & P & A & B & C); [intros w _; by apply HR|done|].
  destruct (program_api g HS o' _ f' HA') as (f2' & P' & A' & B' & C'); [intros w _; by apply HR'|done|].
  unfold pd_reduce in B, B'. rewrite Hn in B. rewrite Hn' in B'.
  destruct (C54_canonical 2 (edgeSize g) AZdd false f2 f2' P P' f f' ltac:(lia) A A' B B' ltac:(done)) as (b & -> & Hb). f_equal. apply Hb.
  intros v Hv. apply eq_true_iff_eq. rewrite (C v Hv), (C' v Hv), E2, E3.
  destruct (HR v) as (R1 & R2 & _). destruct (HR' v) as (R1' & R2' & _). unfold pd_least, pd_most in R1, R2, R1', R2'.
  rewrite Hh in R1, R2. rewrite Hh' in R1', R2'. rewrite E1 in R1', R2'. cbn [negb] in R2, R2'. rewrite andb_true_r in R2, R2'.
  assert (HW : (means AZdd (pd_spec g o) (edgeSize g) v = true <-> means AZdd (pd_spec g o') (edgeSize g) v = true)); [|by rewrite HW].
  destruct (o_cycle o) eqn:Ec; [split; intros H; [exact (R1' (R2 H))|exact (R1 (R2' H))]|]. unfold pd_fit in HF. rewrite Ec in HF. destruct HF as [HP Hp]. destruct (Hslow eq_refl) as [HK|Es].
  - assert (is_tour g v <-> is_links g v) as HT by (rewrite <- (C55_tours names n2c g v HP); by apply (C55_paths names n2c g v HP)).
    assert (forall b b' : bool, (if b then is_tour g v else is_links g v) -> if b' then is_tour g v else is_links g v) as HT2 by (intros [] []; apply HT || done).
    split; intros H; [exact (R1' (HT2 _ _ (R2 H)))|exact (R1 (HT2 _ _ (R2' H)))].
  - rewrite Es in R1', R2'. split; intros H; [exact (R1' (R2 H))|exact (R1 (R2' H))].
Qed.

(** -t cc and -t forest *)
Theorem C56_components : forall names n2c g forest uec lb ub nored, fbs_graph names n2c g uec ->
  (exists f, ddcomponents g forest uec lb ub nored f) /\
  forall f, ddcomponents g forest uec lb ub nored f -> forall v, vec_ok 2 v ->
    zdd_sem (dd_spec f) (edgeSize g) v = true <-> fbs_good g uec forest v /\ sized g lb ub v.
Proof.
  intros names n2c g forest uec lb ub nored HF. assert (HS : search_graph g). { destruct HF as (Hg & HL & H1 & Hm & _). split; [apply Hg|]. split; [done|]. split; [done|lia]. }
  assert (HA : api_spec 2 (edgeSize g) AZdd (fb_spec (Fbs g uec forest true)) (means AZdd (fb_spec (Fbs g uec forest true)) (edgeSize g))).
  { destruct (C46_contract names n2c g uec forest true HF) as (O1 & O2 & O3 & _). apply as_user; [done|done|done|done|].
    unfold top_level. cbn [fb_spec get_root]. unfold fb_root. destruct (g_edgeInfo _ !! 0%nat); cbn; [|lia]. destruct (mapM _ _); cbn; [|lia]. unfold fb_n. cbn. lia. }
  split; [by eapply components_ex|]. intros f Hf v Hv. destruct (components_api g HS _ _ _ _ _ _ f HA Hf) as (f2 & P & A & B & C).
  pose proof (reduce_step g _ _ _ _ A B) as HD. destruct (C54_meaning 2 (edgeSize g) AZdd f P ltac:(lia) HD) as (_ & _ & _ & HM). cbn [means] in HM. rewrite (HM v Hv), (C v Hv).
  cbn [means]. by rewrite (C46_components names n2c g uec forest true v HF).
Qed.

(** ** reading *)
Lemma vertex_count es n2c g us : graph_ok es n2c g -> NoDup us -> (forall s, s ∈ us <-> vertex_name_in es s) -> vertexSize g = List.length us.
Proof.
  intros Hg Hnd Hus. apply Nat.le_antisymm; [apply (vertices_bound es n2c g us Hg); intros s; by rewrite Hus|].
  transitivity (List.length (map (vertexName g) (seq 1 (vertexSize g)))); [|by rewrite map_length, seq_length].
  apply submseteq_length, NoDup_submseteq; [done|]. intros s Hs. apply Hus in Hs.
  destruct (proj2 (gr_vertex _ _ _ Hg s) Hs) as [v Hv]. apply (gr_vertex_name _ _ _ Hg) in Hv as (_ & Hr & <-).
  apply elem_of_list_fmap. exists v. split; [done|]. apply elem_of_seq. lia.
Qed.
Lemma graph_ok_members es n2c n2c' g : (forall x, x ∈ n2c <-> x ∈ n2c') -> graph_ok es n2c g -> graph_ok es n2c' g.
Proof.
  intros HE Hg. destruct Hg. constructor; try assumption.
  - intros s v Hv. rewrite (gr_color_zero _ _ Hv). split; intros H c Hc; apply (H c), HE, Hc.
  - intros s t v w c d Hv Hw Hs Ht. apply HE in Hs, Ht. by apply gr_color_eq with s t.
Qed.
Lemma no_color_zero es g : graph_ok es [] g -> g_numColor g = 0%nat.
Proof.
  intros Hg. destruct (decide (g_numColor g = 0%nat)) as [|Hn]; [done|]. exfalso. destruct (gr_color_all _ _ _ Hg 1%nat) as [x Hx]; [lia|].
  assert (inr g x) as Hr by (apply color_out; lia). destruct (color_some es [] g Hg x Hr) as [c Hc]; [lia|]. by apply elem_of_nil in Hc.
Qed.
Lemma pd_path_graph es n2c g : graph_ok es n2c g -> es <> [] -> (forall e, e ∈ es -> fst e <> snd e) -> Z.of_nat (vertexSize g) <= 32767 -> path_graph es n2c g.
Proof.
  intros Hg Hne Hloop Hm. split; [done|]. split; [|split; [|done]].
  - eapply names_loop_free; [done|done|]. apply fo_in. apply Hg.
  - rewrite (gr_edgeSize _ _ _ Hg). destruct (fo_length _ _ (gr_edges _ _ _ Hg)) as [_ Hfne]. destruct (g_edge2name g); [by destruct (Hfne Hne)|cbn; lia].
Qed.
(** On an edge list without loops and a group file that names its vertices, -t cycle and -t cc always get a graph to
    search, -t path gets one if the groups are pairs, and without groups if there are vertices named "1" and by the
    number of vertices, which are then the ends of the path. *)
Theorem C56_prepare : forall (es : list edge_name) (n2c : list (string * string)) (vs : list string) o,
  NoDup vs -> (forall s, s ∈ vs <-> vertex_name_in es s) -> Z.of_nat (List.length vs) <= 32766 -> es <> [] -> (forall e, e ∈ es -> fst e <> snd e) ->
  (forall s c, (s, c) ∈ n2c -> vertex_name_in es s) -> NoDup (map fst n2c) ->
  (o_cycle o = true -> exists g, pd_graph es n2c TCycle = Some g /\ pd_fit es n2c o g) /\
  (o_cycle o = false -> color_pairs n2c -> exists g, pd_graph es n2c TPath = Some g /\ pd_fit es n2c o g) /\
  (o_cycle o = false -> n2c = [] -> vertex_name_in es "1" -> vertex_name_in es (decimal (List.length vs)) ->
    exists g c, pd_graph es [] TPath = Some g /\ pd_fit es [("1", c); (decimal (List.length vs), c)]%string o g) /\
  (forall uec, -32768 <= uec <= 32767 -> exists g, pd_graph es n2c TComponents = Some g /\ fbs_graph es n2c g uec).
Proof.
  intros es n2c vs o Hnd Hvs Hlen Hne Hloop Hn2c Hndc.
  destruct (path_graph_of es n2c vs) as (g & Eg & HP); [intros s; by rewrite Hvs|lia|done|done|done|done|]. pose proof HP as (Hg & HL & H1 & Hm).
  assert (HE : (edgeSize g =? 0)%nat = false) by (apply Nat.eqb_neq; lia). unfold pd_graph, pd_fit. split; [|split; [|split]].
  - intros ->. exists (clearColors g). rewrite Eg. cbn [mbind option_bind]. change (edgeSize (clearColors g)) with (edgeSize g). rewrite HE. split; [done|]. by exists g.
  - intros -> Hp. exists g. rewrite Eg. cbn [mbind option_bind]. pose proof (pairs_names es n2c g Hg Hn2c Hp) as Hc.
    destruct (proj1 (gr_pairs _ _ _ Hg) Hc) as [Hk _]. rewrite (proj2 (Nat.eqb_neq _ 0)) by lia. cbn [mbind option_bind]. by rewrite HE, Hc.
  - intros -> -> Ha Hb. rewrite Eg. cbn [mbind option_bind]. rewrite (no_color_zero es g Hg). cbn [Nat.eqb].
    pose proof (vertex_count es [] g vs Hg Hnd Hvs) as HV.
    destruct (C50_default_path_color es vs g) as (m & g' & E' & Hg' & Hm'); [intros s; by rewrite Hvs|lia|done|done|by rewrite HV|].
    rewrite E'. cbn [mbind option_bind]. exists g', "#ff7777"%string.
    pose proof (vertex_count es m g' vs Hg' Hnd Hvs) as HV'.
    assert (Hg2 : graph_ok es [("1", "#ff7777"); (decimal (List.length vs), "#ff7777")]%string g').
    { eapply graph_ok_members; [|exact Hg']. intros [s c]. rewrite Hm', HV, elem_of_cons, elem_of_list_singleton. split; [intros [[->| ->] ->]; auto|intros [H|H]; injection H as -> ->; auto]. }
    assert (HP2 : path_graph es [("1", "#ff7777"); (decimal (List.length vs), "#ff7777")]%string g') by (apply pd_path_graph; [done|done|done|lia]).
    assert (Hd : (decimal (List.length vs) <> "1")%string).
    { change "1"%string with (decimal 1). intros H. apply decimal_inj in H. destruct vs as [|a [|b vs]]; try done. destruct es as [|e es']; [done|].
      assert (HA : fst e ∈ [a]). { apply Hvs. exists e. split; [left|by left]. } assert (HB : snd e ∈ [a]). { apply Hvs. exists e. split; [left|by right]. }
      apply elem_of_list_singleton in HA, HB. apply (Hloop e); [left|congruence]. }
    assert (Hc : g_hasColorPairs g' = true).
    { apply (pairs_names es _ g' Hg2).
      - intros s c Hs. rewrite elem_of_cons, elem_of_list_singleton in Hs. destruct Hs as [H|H]; injection H as -> ->; done.
      - split; [done|]. intros s c Hs. rewrite elem_of_cons, elem_of_list_singleton in Hs. destruct Hs as [H|H]; injection H as -> ->.
        + exists (decimal (List.length vs)). split; [done|]. intros u. rewrite elem_of_cons, elem_of_list_singleton. split; [intros [H|H]; injection H; auto|intros [->| ->]; auto].
        + exists "1"%string. split; [intros H; by apply Hd|]. intros u. rewrite elem_of_cons, elem_of_list_singleton. split; [intros [H|H]; injection H; auto|intros [->| ->]; auto]. }
    pose proof HP2 as (_ & _ & H1' & _). rewrite (proj2 (Nat.eqb_neq (edgeSize g') 0)) by lia. rewrite Hc. done.
  - intros uec Hu. exists g. rewrite Eg. cbn [mbind option_bind]. rewrite HE. split; [done|]. split_and!; try done; try lia.
    rewrite (vertex_count es n2c g vs Hg Hnd Hvs). done.
Qed.

(** ** What does not hold *)
(** -slow is not only slower: with two pairs of ends it reports a different family. *)
Definition opts (cyc dc slow : bool) (lb ub : option Z) : pd_opts := PdOpts cyc dc lb ub false slow false false.
Theorem C56_slow_refuted : exists names n2c g f f' v v', pd_fit names n2c (opts false false false None None) g /\
  ddpaths g (opts false false false None None) f /\ ddpaths g (opts false false true None None) f' /\ vec_ok 2 v /\ vec_ok 2 v' /\
  zdd_sem (dd_spec f) (edgeSize g) v = true /\ zdd_sem (dd_spec f') (edgeSize g) v = false /\
  zdd_sem (dd_spec f) (edgeSize g) v' = false /\ zdd_sem (dd_spec f') (edgeSize g) v' = true.
Proof.
  destruct C55_two_pairs_refuted as (g & v & v' & Eg & HP & Hp & Hv & Hv' & L1 & T1 & L2 & T2). exists ex_sq4, ex_sq4_col, g.
  assert (HF : forall slow, pd_fit ex_sq4 ex_sq4_col (opts false false slow None None) g) by (intros slow; split; [exact HP|exact Hp]).
  destruct (C56_program _ _ _ _ (HF false)) as [[f Hf] _]. destruct (C56_program _ _ _ _ (HF true)) as [[f' Hf'] _].
  destruct (C56_exact _ _ _ _ _ (HF false) eq_refl Hf) as [HA _]. destruct (C56_exact _ _ _ _ _ (HF true) eq_refl Hf') as [HB _].
  cbn [opts o_cycle o_slow o_lb o_ub] in HA, HB.
  assert (HS : forall w, sized g None None w) by (intros w; split; done).
  pose proof (fun w => C55_tours ex_sq4 ex_sq4_col g w HP) as HT.
  exists f, f', v, v'. split; [exact (HF false)|]. split; [exact Hf|]. split; [exact Hf'|]. split; [exact Hv|]. split; [exact Hv'|]. split; [|split; [|split]].
  - apply HA; [exact Hv|]. split; [exact L1|apply HS].
  - apply not_true_is_false. intros H. apply HB in H as [H _]; [|exact Hv]. apply HT in H. congruence.
  - apply not_true_is_false. intros H. apply HA in H as [H _]; [|exact Hv']. by apply L2.
  - apply HB; [exact Hv'|]. split; [by apply HT|apply HS].
Qed.

(** ** Cases *)
(** the square with a diagonal and the ends b, d: the path of two edges is reported by -ub 2 and not by -lb 3; the cycles of
    the same graph, for which the colors are cleared; and the fit graph of the numbered path 1 2 without a group file *)
Example C56_case : exists g f f' h v w, pd_graph ex_sq_names ex_sq_one TPath = Some g /\
  pd_fit ex_sq_names ex_sq_one (opts false true false None (Some 2)) g /\
  ddpaths g (opts false true false None (Some 2)) f /\ ddpaths g (opts false false true (Some 3) None) f' /\
  zdd_sem (dd_spec f) (edgeSize g) v = true /\ zdd_sem (dd_spec f') (edgeSize g) v = false /\
  zdd_sem (dd_spec f) (edgeSize g) w = false /\ zdd_sem (dd_spec f') (edgeSize g) w = true /\
  pd_graph ex_sq_names ex_sq_one TCycle = Some h /\ pd_fit ex_sq_names ex_sq_one (opts true true true None None) h /\
  (exists z, pd_graph [("1", "2")]%string [] TPath = Some z).
Proof.
  destruct C44_case as (g & _ & Eg & HP & Hc & _).
  set (v := vec_of [0;1;1;0;0]%nat). set (w := vec_of [0;1;0;1;1]%nat).
  assert (exists p, (g ← graph_update ex_sq_names ex_sq_one;
    Some (g_numColor g, edgeSize g, zdd_sem (sm_spec (PathZdd g true)) 5 v, zdd_sem (sm_spec (PathZdd g true)) 5 w)) = Some p /\ p = (1%nat, 5%nat, true, true)) as (p & E & ->)
    by (eexists; split; vm_compute; reflexivity).
  rewrite Eg in E. cbn [mbind option_bind] in E. injection E as E1 E2 E3 E4. rewrite <- E2 in E3, E4.
  assert (E5 : S_Spec.chosen v 5 = 2) by (vm_compute; reflexivity). assert (E6 : S_Spec.chosen w 5 = 3) by (vm_compute; reflexivity).
  assert (HF : forall dc slow lb ub, pd_fit ex_sq_names ex_sq_one (opts false dc slow lb ub) g) by (intros; split; [exact HP|exact Hc]).
  destruct (C56_program _ _ _ _ (HF true false None (Some 2))) as [[f Hf] _]. destruct (C56_program _ _ _ _ (HF false true (Some 3) None)) as [[f' Hf'] _].
  destruct (C56_exact _ _ _ _ _ (HF true false None (Some 2)) eq_refl Hf) as [HA _]. destruct (C56_exact _ _ _ _ _ (HF false true (Some 3) None) eq_refl Hf') as [HB _].
  cbn [opts o_cycle o_slow o_lb o_ub] in HA, HB.
  assert (Hv : vec_ok 2 v) by (apply vec_of_ok; repeat constructor). assert (Hw : vec_ok 2 w) by (apply vec_of_ok; repeat constructor).
  apply (C44_paths _ _ g true v HP Hc) in E3. apply (C44_paths _ _ g true w HP Hc) in E4.
  assert (HT : forall u, is_links g u -> is_tour g u).
  { intros u Hu. apply (C55_paths _ _ g u HP Hc E1) in Hu. by apply (C55_tours _ _ g u HP). }
  exists g, f, f', (clearColors g), v, w. split; [|split; [exact (HF true false None (Some 2))|split; [exact Hf|split; [exact Hf'|]]]].
  { unfold pd_graph. rewrite Eg. cbn [mbind option_bind]. rewrite E1. cbn [Nat.eqb mbind option_bind]. by rewrite E2, Hc. }
  split; [|split; [|split; [|split; [|split; [|split]]]]].
  - apply HA; [exact Hv|]. split; [exact E3|]. unfold sized. rewrite E2. split; [done|]. intros b H. injection H as <-. rewrite E5. lia.
  - apply not_true_is_false. intros H. apply HB in H as [_ H]; [|exact Hv]. destruct H as [H _]. specialize (H _ eq_refl). rewrite E2 in H. lia.
  - apply not_true_is_false. intros H. apply HA in H as [_ H]; [|exact Hw]. destruct H as [_ H]. specialize (H _ eq_refl). rewrite E2 in H. lia.
  - apply HB; [exact Hw|]. split; [by apply HT|]. unfold sized. rewrite E2. split; [|done]. intros b H. injection H as <-. rewrite E6. lia.
  - unfold pd_graph. rewrite Eg. cbn [mbind option_bind]. change (edgeSize (clearColors g)) with (edgeSize g). by rewrite E2.
  - exists g. split; [exact HP|done].
  - assert (exists p, (z ← pd_graph [("1", "2")]%string [] TPath; Some (edgeSize z)) = Some p /\ p = 1%nat) as (p & E & _) by (eexists; split; vm_compute; reflexivity).
    destruct (pd_graph _ _ _) as [z|]; [by exists z|done].
Qed.

Print Assumptions C56_program.
Print Assumptions C56_exact.
Print Assumptions C56_same_diagram.
Print Assumptions C56_components.
Print Assumptions C56_prepare.
Print Assumptions C56_slow_refuted.
Print Assumptions C56_case.
