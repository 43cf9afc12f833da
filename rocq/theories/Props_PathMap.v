(** C55: PathZddByStdMap. *)
From stdpp Require Import strings gmap.
From Coq Require Import String.
From Verif Require Import Base Sem Ex M_Table M_Engine M_Builder P_Builder M_Graph S_Graph P_Graph5 Props_Graph S_Degree P_Front M_Simpath S_Simpath P_Simpath1 P_Simpath3 P_Simpath4 P_Simpath5 P_Simpath6.
From Verif Require Import Props_Degree Props_Simpath M_PathMap S_PathMap P_PathMap P_PathMap2.
From Verif Require Import M_Equal S_Api Props_Api.
Local Open Scope Z_scope.

(** On every graph (with or without colors): exactly the edge sets that, together with one virtual edge for every
    color of two vertices, form one simple cycle. *)
Theorem C55_tours : forall names n2c g v, path_graph names n2c g ->
  zdd_sem (pm_spec g) (edgeSize g) v = true <-> is_tour g v.
Proof. intros names n2c g v (Hg & HL & H1 & Hm). exact (tour_main names n2c g Hg HL H1 v). Qed.

(** On a graph without colors: exactly the simple cycles. *)
Theorem C55_cycles : forall names n2c g v, path_graph names n2c g -> (forall x, colorNumber g x = 0%nat) ->
  zdd_sem (pm_spec g) (edgeSize g) v = true <-> is_cycle g v.
Proof.
  intros names n2c g v HP Hc. rewrite (C55_tours names n2c g v HP). destruct HP as (Hg & HL & H1 & Hm). apply tour_cycle. intros x.
  destruct (decide (virtualMate g x = 0%nat)) as [|Hx]; [done|]. destruct (vm_facts names n2c g Hg H1 x Hx) as (R1 & R2 & _).
  destruct (proj1 (gr_mate _ _ _ Hg x (virtualMate g x) R1 R2) eq_refl) as (_ & Hn & _). by destruct Hn.
Qed.

(** On a graph with a single pair of colored vertices: exactly the simple paths from one to the other. *)
Theorem C55_paths : forall names n2c g v, path_graph names n2c g -> g_hasColorPairs g = true -> g_numColor g = 1%nat ->
  zdd_sem (pm_spec g) (edgeSize g) v = true <-> is_links g v.
Proof.
  intros names n2c g v HP Hp HK. rewrite (C55_tours names n2c g v HP). destruct HP as (Hg & HL & H1 & Hm).
  destruct (gr_color_all _ _ _ Hg 1%nat) as [s Hs]; [lia|]. pose proof (color_out g s ltac:(lia)) as Rs.
  assert (Hms : virtualMate g s <> 0%nat) by (apply (gr_pairs _ _ _ Hg); [done|done|lia]).
  destruct (vm_facts names n2c g Hg H1 s Hms) as (_ & R2 & R3 & R4).
  destruct (proj1 (gr_mate _ _ _ Hg s (virtualMate g s) Rs R2) eq_refl) as (_ & _ & Hall).
  apply (tour_path names n2c g Hg H1 s (virtualMate g s)); [done|done| |done|].
  - intros x Hx. destruct (vm_facts names n2c g Hg H1 x Hx) as (Q1 & Q2 & _). destruct (proj1 (gr_mate _ _ _ Hg x (virtualMate g x) Q1 Q2) eq_refl) as (_ & Hn & _).
    apply Hall; [done|]. pose proof (gr_color_range _ _ _ Hg x). lia.
  - intros x. split.
    + intros Hx. apply Hall; [apply color_out; lia|congruence].
    + intros Hx. rewrite <- Hs. apply Hall; [|done]. destruct Hx; subst; lia.
Qed.

(** The assertion in getChild never fails and every edge number is in range. *)
Theorem C55_memory_safe : forall names n2c g, path_graph names n2c g ->
  forall l s b, reach (pm_spec g) l s -> is_Some (pm_child g s (Z.to_nat l) (negb (b =? 0)%nat)).
Proof.
  intros names n2c g (Hg & HL & H1 & Hm) l s b Hr.
  destruct (pm_step g (gr_numbering _ _ _ Hg) HL (vm_facts names n2c g Hg H1) l s (negb (b =? 0)%nat) H1 Hr) as (res & -> & _). by eexists.
Qed.

(** It meets the contract of specifications. *)
Theorem C55_contract : forall names n2c g, path_graph names n2c g ->
  let sp := pm_spec g in spec_ok sp /\ spec_congr sp /\ one_code sp /\ shareable sp.
Proof.
  intros names n2c g (Hg & HL & H1 & Hm) sp.
  assert (Hlev : forall l s b, reach sp l s -> -1 <= fst (get_child sp s l b) < l).
  { intros l s b Hr. destruct (pm_step g (gr_numbering _ _ _ Hg) HL (vm_facts names n2c g Hg H1) l s (negb (b =? 0)%nat) H1 Hr) as (res & E & Hres).
    cbn [sp pm_spec get_child]. by rewrite E. }
  split_and!.
  - constructor; [simpl; lia| |].
    + intros l s b Hr Hb. by apply Hlev.
    + intros l s s' _ _ H. apply bool_decide_eq_true in H. subst. by intros bs _.
  - constructor; cbn [sp pm_spec equal_to].
    + intros. by apply bool_decide_eq_true.
    + intros. apply bool_decide_ext. split; congruence.
    + intros l s s' s'' _ _ _ E1 E2. apply bool_decide_eq_true in E1, E2. subst. by apply bool_decide_eq_true.
    + intros l s s' b _ _ _ H. apply bool_decide_eq_true in H. subst. split; [done|]. intros _. by apply bool_decide_eq_true.
  - split; [cbn; lia|]. intros l s b Hr Hb. by apply Hlev.
  - split; cbn [sp pm_spec equal_to hash_code].
    + intros. apply bool_decide_ext. split; congruence.
    + intros l s s' H. apply bool_decide_eq_true in H. by subst.
Qed.

(** ddpaths offers PathZddByStdMap ("-slow") instead of PathZdd and CycleZdd, with or without lookahead: for cycles, and
    for paths with one pair of ends, the reduced diagrams are equal, whether built sequentially or in parallel. *)
Theorem C55_same_diagram : forall names n2c g G d1 d1' d2 d2', path_graph names n2c g -> sm_graph G = g -> sm_ham G = false ->
  (if sm_cycle G then forall x, colorNumber g x = 0%nat else g_hasColorPairs g = true /\ g_numColor g = 1%nat) ->
  constructed (sm_spec G) d1 -> reduced_as AZdd d1 d1' ->
  constructed (pm_spec g) d2 -> reduced_as AZdd d2 d2' -> dd_eq false d1' d2' = Some true.
Proof.
  intros names n2c g G d1 d1' d2 d2' HP HG Hh Hc K1 R1 K2 R2. set (n := edgeSize g).
  destruct (C55_contract names n2c g HP) as (O2 & C2 & One2 & _).
  destruct (C43_contract names n2c g G HP HG) as (O1 & C1 & One1 & _). { destruct (sm_cycle G); [done|by destruct Hc]. }
  assert (T2 : (top_level (pm_spec g) <= n)%nat) by (unfold top_level; cbn; lia).
  assert (T1 : (top_level (sm_spec G) <= n)%nat).
  { unfold top_level. cbn [sm_spec get_root]. unfold sm_root. destruct (g_edgeInfo (sm_graph G) !! 0%nat); cbn; [|lia]. destruct (mapM _ _); cbn; [|lia]. unfold sm_n, n. rewrite HG. lia. }
  pose proof (as_user 2 n AZdd (sm_spec G) O1 C1 One1 eq_refl T1) as A1. pose proof (as_user 2 n AZdd (pm_spec g) O2 C2 One2 eq_refl T2) as A2.
  destruct (C54_canonical 2 n AZdd false d1 d2 _ _ d1' d2' ltac:(lia) (ad_construct 2 n _ _ _ _ A1 K1) (ad_construct 2 n _ _ _ _ A2 K2) R1 R2 ltac:(done)) as (b & -> & Hb).
  f_equal. apply Hb. intros v Hv. unfold n. cbn [means]. apply eq_true_iff_eq. destruct G as [g' cyc ham la]. cbn in HG, Hh, Hc. subst g' ham. destruct cyc.
  - rewrite (C55_cycles names n2c g v HP Hc). apply (C43_cycles names n2c g la v HP Hc).
  - destruct Hc as [Hc HK]. rewrite (C55_paths names n2c g v HP Hc HK). apply (C44_paths names n2c g la v HP Hc).
Qed.

(** ** In terms of names *)
Theorem C55_cycles_from_names : forall (names : list edge_name) (vs : list string),
  (forall s, vertex_name_in names s -> s ∈ vs) -> Z.of_nat (List.length vs) <= 32767 ->
  names <> [] -> (forall e, e ∈ names -> fst e <> snd e) ->
  exists g d, graph_update names [] = Some g /\ first_occurrences names (g_edge2name g) /\
    construct_dd (pm_spec g) = Some d /\
    forall v, vec_ok 2 v ->
      zdd_sem (dd_spec d) (List.length (g_edge2name g)) v = true <-> exists c, cycle_named (g_edge2name g) v c.
Proof.
  intros names vs Hvs Hlen Hne Hloop.
  destruct (path_graph_of names [] vs Hvs Hlen) as (g & Eg & HP); [intros s c Hc; by apply elem_of_nil in Hc|constructor|done|done|].
  pose proof HP as (Hg & _). destruct (C55_contract names [] g HP) as (Hok & _).
  destruct (construct_built _ Hok) as (d & E & HB). exists g, d. split_and!; [done|apply Hg|done|].
  intros v Hv. rewrite <- (gr_edgeSize _ _ _ Hg). destruct (built_sem _ d (edgeSize g) v Hok HB Hv) as [_ ->].
  rewrite (C55_cycles names [] g v HP) by (intros x; by apply (no_colors names)). by apply (is_cycle_names names []).
Qed.

(** the chosen edges are exactly those of a simple path from s to t *)
Definition path_named (en : list edge_name) (v : vec) (s t : string) : Prop :=
  exists l, NoDup (s :: l ++ [t]) /\ forall x y, chosen_named en v x y <-> next_to x y (s :: l ++ [t]) \/ next_to y x (s :: l ++ [t]).
Lemma next_rev_s (x y : string) l : next_to x y l -> next_to y x (rev l).
Proof. intros (l1 & l2 & ->). exists (rev l2), (rev l1). rewrite rev_app_distr. cbn. by rewrite <- !app_assoc. Qed.
Lemma path_named_sym en v s t : path_named en v s t -> path_named en v t s.
Proof.
  intros (l & H1 & H2). exists (rev l). assert (Er : rev (s :: l ++ [t]) = t :: rev l ++ [s]) by (cbn; by rewrite rev_app_distr).
  split; [rewrite <- Er; rewrite NoDup_ListNoDup; apply List.NoDup_rev; by apply NoDup_ListNoDup|].
  intros x y. rewrite H2, <- Er. split.
  - intros [H|H]; apply next_rev_s in H; tauto.
  - intros [H|H]; apply next_rev_s in H; rewrite rev_involutive in H; tauto.
Qed.
Theorem C55_paths_from_names : forall (names : list edge_name) (s t c : string) (vs : list string),
  (forall s, vertex_name_in names s -> s ∈ vs) -> Z.of_nat (List.length vs) <= 32767 ->
  names <> [] -> (forall e, e ∈ names -> fst e <> snd e) ->
  vertex_name_in names s -> vertex_name_in names t -> s <> t ->
  exists g d, graph_update names [(s, c); (t, c)] = Some g /\ first_occurrences names (g_edge2name g) /\
    construct_dd (pm_spec g) = Some d /\
    forall v, vec_ok 2 v -> zdd_sem (dd_spec d) (List.length (g_edge2name g)) v = true <-> path_named (g_edge2name g) v s t.
Proof.
  intros names s t c vs Hvs Hlen Hne Hloop Is It Hst. set (n2c := [(s, c); (t, c)]).
  assert (Hin : forall u k, (u, k) ∈ n2c <-> (u = s \/ u = t) /\ k = c).
  { intros u k. unfold n2c. rewrite elem_of_cons, elem_of_list_singleton. split.
    - intros [E|E]; injection E as -> ->; tauto.
    - intros [[->| ->] ->]; tauto. }
  assert (Hn2c : forall u k, (u, k) ∈ n2c -> vertex_name_in names u). { intros u k H%Hin. by destruct H as [[->| ->] _]. }
  assert (Hp : color_pairs n2c).
  { split; [done|]. intros u k H. apply Hin in H as [[->| ->] ->].
    - exists t. split; [done|]. intros u. rewrite Hin. tauto.
    - exists s. split; [done|]. intros u. rewrite Hin. tauto. }
  assert (Hnd : NoDup (map fst n2c)). { cbn. constructor; [|apply NoDup_singleton]. by intros ?%elem_of_list_singleton. }
  destruct (path_graph_of names n2c vs Hvs Hlen Hn2c Hnd Hne Hloop) as (g & Eg & HP).
  pose proof HP as (Hg & _). pose proof (pairs_names names n2c g Hg Hn2c Hp) as Hc.
  assert (HK : g_numColor g = 1%nat).
  { destruct (decide (2 <= g_numColor g)%nat) as [H2|H2].
    - exfalso. destruct (gr_color_all _ _ _ Hg 1%nat) as [x Hx]; [lia|]. destruct (gr_color_all _ _ _ Hg 2%nat) as [y Hy]; [lia|].
      assert (Rx : inr g x) by (apply color_out; lia). assert (Ry : inr g y) by (apply color_out; lia).
      destruct (color_some names n2c g Hg x Rx) as [k Hk]; [lia|]. destruct (color_some names n2c g Hg y Ry) as [k' Hk']; [lia|].
      pose proof (proj2 (gr_color_eq _ _ _ Hg _ _ x y k k' (nm_get names n2c g Hg x Rx) (nm_get names n2c g Hg y Ry) Hk Hk')) as E.
      apply Hin in Hk as [_ ->], Hk' as [_ ->]. specialize (E eq_refl). lia.
    - pose proof (proj1 (gr_pairs _ _ _ Hg) Hc) as [? _]. lia. }
  destruct (C55_contract names n2c g HP) as (Hok & _).
  destruct (construct_built _ Hok) as (d & E & HB). exists g, d. split_and!; [done|apply Hg|done|].
  intros v Hv. rewrite <- (gr_edgeSize _ _ _ Hg). destruct (built_sem _ d (edgeSize g) v Hok HB Hv) as [_ ->].
  rewrite (C55_paths names n2c g v HP Hc HK). rewrite (is_links_names names n2c) by done. split.
  - intros (f & F1 & F2 & F3 & F4 & F5).
    assert (exists p, f = [(c, p)]) as [p ->].
    { assert (Hall : forall k p, (k, p) ∈ f -> k = c). { intros k p Hkp. assert (k ∈ map fst f) as Hm by (apply elem_of_list_fmap; by exists (k, p)). apply F2 in Hm as [u Hu]. by apply Hin in Hu as [_ ->]. }
      destruct f as [|[k p] [|[k' p'] f]].
      - assert (c ∈ map fst ([] : list (string * list string))) as Hm by (apply F2; exists s; apply Hin; tauto). by apply elem_of_nil in Hm.
      - exists p. by rewrite (Hall k p) by left.
      - exfalso. cbn in F1. apply NoDup_cons in F1 as [F1 _]. apply F1. rewrite (Hall k p), (Hall k' p') by set_solver. left. }
    cbn in F3. rewrite app_nil_r in F3. destruct (F4 c p) as (a & l & b & -> & Ha & Hb); [left|]. apply Hin in Ha as [Ha _], Hb as [Hb _].
    assert (Nab : a <> b). { intros ->. apply NoDup_cons in F3 as [F3 _]. apply F3, elem_of_app. right. left. }
    assert (HPn : path_named (g_edge2name g) v a b).
    { exists l. split; [done|]. intros x y. rewrite F5. split; [|intros H; eexists; split; [left|done]]. intros (p & Hp'%elem_of_list_singleton & H). by subst. }
    destruct Ha as [->| ->], Hb as [->| ->]; [done|done|by apply path_named_sym|done].
  - intros (l & L1 & L2). exists [(c, s :: l ++ [t])]. split_and!.
    + apply NoDup_singleton.
    + intros k. cbn. rewrite elem_of_list_singleton. split; [intros ->; exists s; apply Hin; tauto|]. intros [u Hu]. by apply Hin in Hu as [_ ->].
    + cbn. by rewrite app_nil_r.
    + intros k p Hkp. apply elem_of_list_singleton in Hkp. injection Hkp as -> ->. exists s, l, t. split; [done|]. split; apply Hin; tauto.
    + intros x y. rewrite L2. cbn. split; [intros H; eexists; split; [left|done]|]. intros (p & Hp'%elem_of_list_singleton & H). by subst.
Qed.

(** ** Several pairs *)
(** With two pairs it is not the same as PathZdd: on the square a b c d where a, b and c, d are to be joined, it misses the
    only solution {ab, cd} and accepts {bc, da}, which joins a to d and b to c. *)
Definition ex_sq4 : list edge_name := [("a", "b"); ("b", "c"); ("c", "d"); ("d", "a")]%string.
Definition ex_sq4_col : list (string * string) := [("a", "x"); ("b", "x"); ("c", "y"); ("d", "y")]%string.
Theorem C55_two_pairs_refuted : exists g v v',
  graph_update ex_sq4 ex_sq4_col = Some g /\ path_graph ex_sq4 ex_sq4_col g /\ g_hasColorPairs g = true /\ vec_ok 2 v /\ vec_ok 2 v' /\
  is_links g v /\ zdd_sem (pm_spec g) (edgeSize g) v = false /\
  ~ is_links g v' /\ zdd_sem (pm_spec g) (edgeSize g) v' = true.
Proof.
  assert (Hn2c : forall s c, (s, c) ∈ ex_sq4_col -> vertex_name_in ex_sq4 s).
  { intros s c Hin. unfold ex_sq4_col in Hin. repeat (apply elem_of_cons in Hin as [E|Hin]; [injection E as -> ->|]); [..|by apply elem_of_nil in Hin].
    - exists ("a", "b")%string. split; [left|by left].
    - exists ("a", "b")%string. split; [left|by right].
    - exists ("c", "d")%string. split; [do 2 right; left|by left].
    - exists ("c", "d")%string. split; [do 2 right; left|by right]. }
  destruct (path_graph_of ex_sq4 ex_sq4_col ["a"; "b"; "c"; "d"]%string) as (g & Eg & HP).
  { intros s (e & He & Hs). unfold ex_sq4 in He. repeat (apply elem_of_cons in He as [->|He]; [destruct Hs as [<-|<-]; cbn; set_solver|]). by apply elem_of_nil in He. }
  { cbn; lia. } { exact Hn2c. } { repeat constructor; set_solver. } { done. }
  { intros e He. unfold ex_sq4 in He. repeat (apply elem_of_cons in He as [->|He]; [done|]). by apply elem_of_nil in He. }
  set (v := vec_of [0;1;0;1]%nat). set (v' := vec_of [1;0;1;0]%nat).
  assert (exists p, (g ← graph_update ex_sq4 ex_sq4_col;
    Some (g_hasColorPairs g, zdd_sem (pm_spec g) (edgeSize g) v, zdd_sem (pm_spec g) (edgeSize g) v',
      zdd_sem (sm_spec (PathZdd g true)) (edgeSize g) v, zdd_sem (sm_spec (PathZdd g true)) (edgeSize g) v')) = Some p /\ p = (true, false, true, true, false)) as (p & E & ->)
    by (eexists; split; vm_compute; reflexivity).
  rewrite Eg in E. cbn [mbind option_bind] in E. injection E as E1 E2 E3 E4 E5.
  exists g, v, v'. split; [exact Eg|]. split; [exact HP|]. split; [exact E1|]. split; [apply vec_of_ok; repeat constructor|]. split; [apply vec_of_ok; repeat constructor|].
  split; [by apply (C44_paths ex_sq4 ex_sq4_col g true v HP E1)|]. split; [exact E2|]. split; [|exact E3].
  intros H. apply (C44_paths ex_sq4 ex_sq4_col g true v' HP E1) in H. congruence.
Qed.

(** ** Cases *)
(** the square with one diagonal and the pair b, d: two of its paths are accepted, other sets are not; and without
    colors the triangle a b c *)
Example C55_case : exists g d g' d', graph_update ex_sq_names ex_sq_one = Some g /\ path_graph ex_sq_names ex_sq_one g /\
  g_hasColorPairs g = true /\ g_numColor g = 1%nat /\
  construct_dd (pm_spec g) = Some d /\
  map (fun l => zdd_sem (dd_spec d) 5 (vec_of l)) [[0;1;1;0;0]; [0;1;0;1;1]; [1;1;1;0;1]; [0;0;1;0;0]; [0;0;0;0;0]]%nat = [true; true; false; false; false] /\
  graph_update ex_deg_names [] = Some g' /\ path_graph ex_deg_names [] g' /\ (forall x, colorNumber g' x = 0%nat) /\
  construct_dd (pm_spec g') = Some d' /\
  map (fun l => zdd_sem (dd_spec d') 4 (vec_of l)) [[0;1;1;1]; [1;1;1;1]; [0;1;1;0]]%nat = [true; false; false].
Proof.
  destruct C44_case as (g & _ & Eg & HP & Hc & _). destruct C43_case as (g' & _ & Eg' & HP' & Hc' & _).
  assert (exists p, (g ← graph_update ex_sq_names ex_sq_one; d ← construct_dd (pm_spec g);
    Some (g_numColor g, map (fun l => zdd_sem (dd_spec d) 5 (vec_of l)) [[0;1;1;0;0]; [0;1;0;1;1]; [1;1;1;0;1]; [0;0;1;0;0]; [0;0;0;0;0]]%nat)) = Some p /\
    p = (1%nat, [true; true; false; false; false])) as (p & E & ->) by (eexists; split; vm_compute; reflexivity).
  rewrite Eg in E. cbn [mbind option_bind] in E. destruct (construct_dd (pm_spec g)) as [d|] eqn:Ed; [|done]. cbn [mbind option_bind] in E. injection E as E1 E2.
  assert (exists p, (g ← graph_update ex_deg_names []; d ← construct_dd (pm_spec g);
    Some (map (fun l => zdd_sem (dd_spec d) 4 (vec_of l)) [[0;1;1;1]; [1;1;1;1]; [0;1;1;0]]%nat)) = Some p /\
    p = [true; false; false]) as (p & E' & ->) by (eexists; split; vm_compute; reflexivity).
  rewrite Eg' in E'. cbn [mbind option_bind] in E'. destruct (construct_dd (pm_spec g')) as [d'|] eqn:Ed'; [|done]. cbn [mbind option_bind] in E'.
  exists g, d, g', d'. split; [exact Eg|]. split; [exact HP|]. split; [exact Hc|]. split; [exact E1|]. split; [exact Ed|]. split; [cbn [map]; congruence|].
  split; [exact Eg'|]. split; [exact HP'|]. split; [exact Hc'|]. split; [exact Ed'|]. injection E' as E6 E7 E8. cbn [map]. by rewrite E6, E7, E8.
Qed.

Print Assumptions C55_tours.
Print Assumptions C55_cycles.
Print Assumptions C55_paths.
Print Assumptions C55_memory_safe.
Print Assumptions C55_contract.
Print Assumptions C55_same_diagram.
Print Assumptions C55_cycles_from_names.
Print Assumptions C55_paths_from_names.
Print Assumptions C55_two_pairs_refuted.
