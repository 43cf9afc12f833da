(** Graph::update: the observable graph. *)
From stdpp Require Import strings gmap sorting.
From Coq Require Import String.
From Verif Require Import Base M_Graph S_Graph P_Graph P_Graph2 P_Graph3 P_Graph4.
Local Open Scope nat_scope.

Lemma vertex_names_fo names l s : first_occurrences names l -> vertex_name_in l s <-> vertex_name_in names s.
Proof.
  intros Hf. destruct (fo_in _ _ Hf) as [H1 H2]. split.
  - intros (e & He & Hs). exists e. split; [by apply H1|done].
  - intros (e & He & Hs). destruct (H2 e He) as (f & Hfl & Hse). exists f. split; [done|]. destruct e as [e1 e2]. destruct Hse as [->| ->]; cbn [fst snd] in *; tauto.
Qed.

Lemma elem2 (x v w : nat) : x ∈ [v; w] <-> x = v \/ x = w.
Proof. rewrite elem_of_cons, elem_of_list_singleton. done. Qed.

Theorem graph_update_ok names n2c vs :
  (forall s, vertex_name_in names s -> s ∈ vs) -> (N.of_nat (length vs) < 65535)%N ->
  (forall s c, (s, c) ∈ n2c -> vertex_name_in names s) -> NoDup (map fst n2c) -> (N.of_nat (length n2c) <= 65535)%N ->
  exists g, graph_update names n2c = Some g /\ graph_ok names n2c g.
Proof.
  intros Hvs Hmaxv Hcn Hnd Hmaxc. unfold graph_update.
  destruct (uniq_ok names) as (l & n2e0 & -> & Hfo & Hn2e0 & Hn2e0').
  pose proof (fo_distinct _ _ Hfo) as Hdist. pose proof (fun s => vertex_names_fo _ _ s Hfo) as Hvn. destruct (fo_in _ _ Hfo) as [Hfo1 Hfo2].
  destruct (stack_ok l) as (st & n2v0 & -> & Hn2v0 & Hnds & Hst & Hlv).
  assert (length st <= length vs) as Hlst. { apply submseteq_length, NoDup_submseteq; [done|]. intros s Hs. apply Hvs, Hvn, Hst, Hs. }
  destruct (number_ok st n2v0 Hn2v0 Hnds) as (n2v & -> & Hn2v). { unfold max_vertices. lia. }
  cbn [mbind option_bind].
  destruct (edges_ok l st n2v n2e0 Hn2v Hst Hdist) as (index & n2e & vmax & -> & -> & Hindex & Hn2e1 & Hn2e2). cbn [mbind option_bind].
  destruct (nedge_ok l st n2v Hn2v Hnds Hst Hlv Hdist) as [Hne Hninc].
  set (ne := map (nedge n2v) l) in *. set (m := length st) in *.
  assert (Hn2vr : forall s v, n2v !! s = Some v -> 1 <= v <= m).
  { intros s v Hs. apply Hn2v in Hs as (i & -> & Hi). apply lookup_lt_Some in Hi. unfold m. lia. }
  assert (Hn2vi : forall s t v, n2v !! s = Some v -> n2v !! t = Some v -> s = t).
  { intros s t v Hs Ht. apply Hn2v in Hs as (i & -> & Hi). apply Hn2v in Ht as (j & E & Hj). injection E as <-. congruence. }
  assert (Hn2vs : forall s, vertex_name_in names s <-> is_Some (n2v !! s)).
  { intros s. rewrite <- Hvn, <- Hst, elem_of_list_lookup. split.
    - intros [i Hi]. exists (S i). apply Hn2v. by exists i.
    - intros [v Hv]. apply Hn2v in Hv as (i & -> & Hi). by exists i. }
  assert (Hn2va : forall v, 1 <= v <= m -> exists s, n2v !! s = Some v /\ st !! (v - 1) = Some s).
  { intros v Hv. destruct (lookup_lt_is_Some_2 st (v - 1)) as [s Hs]; [fold m; lia|]. exists s. split; [|done]. apply Hn2v. exists (v - 1). split; [lia|done]. }
  (* colors *)
  destruct (color_sets_ok n2v n2c) as (sets & -> & Hsets & Hmem); [|done|].
  { intros s c Hsc. destruct (proj1 (Hn2vs s) (Hcn _ _ Hsc)) as [v Hv]. exists v. split; [done|]. apply Hn2vr in Hv. lia. }
  cbn [mbind option_bind].
  assert (Hkeys : forall i j c ws xs, sets !! i = Some (c, ws) -> sets !! j = Some (c, xs) -> i = j).
  { intros i j c ws xs Hi Hj. destruct Hsets as [Hs _]. apply slt_sorted_NoDup in Hs. eapply (NoDup_lookup _ i j c Hs); rewrite list_lookup_fmap.
    - by rewrite Hi. - by rewrite Hj. }
  assert (Hfun : forall s c d, (s, c) ∈ n2c -> (s, d) ∈ n2c -> c = d).
  { intros s c d Hc Hd. apply elem_of_list_lookup in Hc as [i Hi], Hd as [j Hj].
    assert (i = j) as ->; [|congruence]. eapply (NoDup_lookup _ i j s Hnd); rewrite list_lookup_fmap; [by rewrite Hi|by rewrite Hj]. }
  assert (Hdisj : sets_disjoint m sets).
  { split.
    - intros c v Hc. apply Hmem in Hc as (s & _ & Hs). by apply Hn2vr in Hs.
    - intros i j c d ws xs v Hi Hj Hv Hw.
      destruct (proj1 (Hmem c v)) as (s & Hs & Hs'); [exists ws; split; [by eapply elem_of_list_lookup_2|done]|].
      destruct (proj1 (Hmem d v)) as (t & Ht & Ht'); [exists xs; split; [by eapply elem_of_list_lookup_2|done]|].
      assert (s = t) as -> by (by eapply Hn2vi). assert (c = d) as -> by (by eapply Hfun). by eapply Hkeys. }
  destruct (color_numbers_ok m sets Hsets Hdisj) as (mate & col0 & pairs & -> & Hlm & Hlc0 & Hcol0 & Hmate & Hpairs). cbn [mbind option_bind].
  destruct Hdisj as [Hmr Hdisj]. destruct Hsets as [Hsort Hset].
  assert (Hle0 : forall v x, col0 !! v = Some x -> x <= length sets).
  { intros v x Hx. destruct (Hcol0 v x Hx) as [[-> _]|(i & c & ws & -> & Hi & _)]; [lia|]. apply lookup_lt_Some in Hi. lia. }
  assert (Hcls : forall i c ws v, sets !! i = Some (c, ws) -> 1 <= v <= m -> col0 !! v = Some (S i) <-> v ∈ ws).
  { intros i c ws v Hi Hv. destruct (lookup_lt_is_Some_2 col0 v) as [x Hx]; [lia|]. rewrite Hx. split.
    - intros E. injection E as ->. destruct (Hcol0 _ _ Hx) as [[? _]|(j & d & xs & E & Hj & Hvx)]; [done|]. injection E as <-. rewrite Hi in Hj. by injection Hj as <- <-.
    - intros Hvw. destruct (Hcol0 _ _ Hx) as [[-> Hno]|(j & d & xs & -> & Hj & Hvx)].
      + exfalso. apply (Hno c). exists ws. split; [by eapply elem_of_list_lookup_2|done].
      + f_equal. f_equal. eapply (Hdisj j i d c xs ws v); done. }
  assert (Hsetv : forall i c ws v, sets !! i = Some (c, ws) -> v ∈ ws -> 1 <= v <= m).
  { intros i c ws v Hi Hv. apply (Hmr c). exists ws. split; [by eapply elem_of_list_lookup_2|done]. }
  assert (Hsurj0 : forall n, 1 <= n <= length sets -> exists v, 1 <= v <= m /\ col0 !! v = Some n).
  { intros n Hn. destruct (lookup_lt_is_Some_2 sets (n - 1)) as [[c ws] Hi]; [lia|].
    destruct (Hset c ws) as [Hnn _]; [by eapply elem_of_list_lookup_2|]. destruct ws as [|v ws]; [done|].
    assert (1 <= v <= m) as Hv by (eapply Hsetv; [done|left]). exists v. split; [done|].
    replace n with (S (n - 1)) by lia. eapply Hcls; [done|done|left]. }
  destruct (sort_colors_ok m (length sets) col0 Hlc0 Hle0 Hsurj0) as (col & f & -> & Hlc & Hcf & Hf0 & Hfr & Hfi & Hfs & Hc0). cbn [mbind option_bind].
  assert (Hle : forall v x, col !! v = Some x -> x <= length sets).
  { intros v x Hx. destruct v as [|v].
    - rewrite Hc0 in Hx. by eapply Hle0.
    - destruct (lookup_lt_is_Some_2 col0 (S v)) as [y Hy]; [apply lookup_lt_Some in Hx; lia|]. rewrite (Hcf (S v) y ltac:(lia) Hy) in Hx. injection Hx as <-.
      pose proof (Hle0 _ _ Hy). destruct (decide (y = 0)) as [->|]; [rewrite Hf0; lia|]. apply Hfr. lia. }
  destruct (last_edges_ok m ne Hne) as (last & second & -> & Hll & Hls & Hlast & Hsecond). cbn [mbind option_bind].
  assert (Hsurj : forall n, 1 <= n <= length sets -> exists v, 1 <= v <= m /\ col !! v = Some n).
  { intros n Hn. destruct (Hfs n Hn) as (x & Hx & <-). destruct (Hsurj0 x Hx) as (v & Hv & Hcv). exists v. split; [done|]. apply Hcf; [lia|done]. }
  destruct (final_color_top (length sets) col ne m Hlc Hle) as (first & -> & Hfirst).
  { rewrite Hc0. destruct (lookup_lt_is_Some_2 col0 0) as [x Hx]; [lia|]. rewrite Hx. destruct (Hcol0 _ _ Hx) as [[-> _]|(i & c & ws & -> & Hi & Hv)]; [done|].
    eapply Hsetv in Hv; [lia|done]. }
  { intros b e He. destruct (ne_range _ _ Hne _ _ He) as (? & ? & ?). lia. }
  { intros n Hn. destruct (Hsurj n Hn) as (v & Hv & Hcv). destruct (ne_used _ _ Hne v Hv) as [b Hb]. exists b, v. done. }
  cbn [mbind option_bind].
  destruct (edge_infos_ok m ne last second first Hne Hll Hls Hlast) as (infos & -> & Hli & Hinfo). cbn [mbind option_bind].
  eexists. split; [reflexivity|]. pose proof (infos_incident _ _ _ _ _ _ Hli Hinfo) as Hinc.
  assert (Hie : forall a i, infos !! a = Some i -> exists e, ne !! a = Some e /\ e_v1 i = fst e /\ e_v2 i = snd e).
  { intros a i Ha. destruct (Hinfo _ _ Ha) as (e & _ & _ & _ & _ & _ & He & _ & _ & _ & _ & E1 & E2 & _). by exists e. }
  assert (Hei : forall a e, ne !! a = Some e -> exists i, infos !! a = Some i /\ e_v1 i = fst e /\ e_v2 i = snd e).
  { intros a e He. destruct (lookup_lt_is_Some_2 infos a) as [i Hi]; [rewrite Hli; by eapply lookup_lt_Some|]. exists i. split; [done|].
    destruct (Hie _ _ Hi) as (e' & He' & E1 & E2). assert (e' = e) as -> by congruence. done. }
  set (g := Graph n2v (""%string :: st) n2e l infos index mate col m (length sets) pairs).
  assert (HcN : forall v x, 1 <= v <= m -> col0 !! v = Some x -> colorNumber g v = f x).
  { intros v x Hv Hx. unfold colorNumber. cbn [g_vMax g_colorNumber g]. rewrite (proj2 (Nat.leb_le _ _)) by lia. rewrite (proj2 (Nat.leb_le _ _)) by lia. cbn [andb].
    rewrite (Hcf v x) by (lia || done). done. }
  assert (HvN : forall v w, 1 <= v <= m -> mate !! v = Some w -> virtualMate g v = w).
  { intros v w Hv Hx. unfold virtualMate. cbn [g_vMax g_virtualMate g]. rewrite (proj2 (Nat.leb_le _ _)) by lia. rewrite (proj2 (Nat.leb_le _ _)) by lia. cbn [andb].
    by rewrite Hx. }
  assert (Hcls' : forall v, 1 <= v <= m -> colorNumber g v <> 0 -> exists i c ws, sets !! i = Some (c, ws) /\ v ∈ ws).
  { intros v Hv Hn. destruct (lookup_lt_is_Some_2 col0 v) as [x Hx]; [lia|]. rewrite (HcN v x Hv Hx) in Hn.
    destruct (Hcol0 _ _ Hx) as [[-> _]|(i & c & ws & -> & Hi & Hw)]; [done|]. by exists i, c, ws. }
  assert (Hcn0 : forall i c ws v, sets !! i = Some (c, ws) -> v ∈ ws -> 1 <= v <= m /\ col0 !! v = Some (S i) /\ colorNumber g v = f (S i) /\ f (S i) <> 0 /\ S i <= length sets).
  { intros i c ws v Hi Hv. pose proof (Hsetv _ _ _ _ Hi Hv) as Hvm. assert (col0 !! v = Some (S i)) as Hx by (by eapply Hcls). pose proof (Hle0 _ _ Hx).
    split_and!; [lia|lia|done|by apply HcN|specialize (Hfr (S i)); lia|done]. }
  assert (Hcnx : forall i c ws v, sets !! i = Some (c, ws) -> 1 <= v <= m -> colorNumber g v = f (S i) -> v ∈ ws).
  { intros i c ws v Hi Hv E. destruct (lookup_lt_is_Some_2 col0 v) as [x Hx]; [lia|]. rewrite (HcN v x Hv Hx) in E.
    apply (Hcls i c ws v Hi Hv). rewrite Hx. f_equal. apply lookup_lt_Some in Hi. pose proof (Hfr (S i) ltac:(lia)). pose proof (Hle0 _ _ Hx).
    assert (x <> 0) by (intros ->; lia). apply Hfi; [lia|lia|done]. }
  (* a set of exactly two vertices *)
  assert (Hpair : forall i c v w, (sets !! i = Some (c, [v; w]) \/ sets !! i = Some (c, [w; v])) ->
     1 <= v <= m /\ 1 <= w <= m /\ v <> w /\ colorNumber g v <> 0 /\ forall x, 1 <= x <= m -> colorNumber g x = colorNumber g v <-> x = v \/ x = w).
  { intros i c v w Hi. assert (exists ws, sets !! i = Some (c, ws) /\ (forall x, x ∈ ws <-> x = v \/ x = w) /\ v <> w) as (ws & Hws & Hel & Hvw).
    { destruct Hi as [Hi|Hi]; eexists; (split; [done|]); (split; [intros x; rewrite elem2; tauto|]);
        (destruct (Hset c _ (elem_of_list_lookup_2 _ _ _ Hi)) as [_ Hs]; apply sorted_NoDup, NoDup_cons in Hs as [Hs _]; intros ->; apply Hs; left). }
    destruct (Hcn0 i c ws v Hws) as (Rv & Cv & Nv & Zv & _); [apply Hel; by left|]. destruct (Hcn0 i c ws w Hws) as (Rw & Cw & Nw & Zw & _); [apply Hel; by right|].
    split_and!; [lia|lia|lia|lia|done|by rewrite Nv|]. intros x Hx. rewrite <- Hel, Nv. split; [by eapply Hcnx|]. intros Hxw. by apply (Hcn0 i c ws x). }
  constructor.
  - eapply infos_numbering; done.
  - done.
  - unfold edgeSize. cbn [g_edgeInfo g_edge2name g]. rewrite Hli. apply map_length.
  - intros s. symmetry. apply Hn2vs.
  - intros s v Hs. by apply Hn2vr in Hs.
  - intros s v. unfold getVertex, vertexName, vertexSize. cbn [g_name2vertex g_vMax g_vertex2name g]. split.
    + intros Hs. pose proof (Hn2vr _ _ Hs). split_and!; [apply Hn2vs; by eexists|lia|lia|].
      destruct (Nat.ltb_spec v 1); [lia|]. destruct (Nat.ltb_spec m v); [lia|]. cbn [orb]. apply Hn2v in Hs as (i & -> & Hi). simpl. by rewrite Hi.
    + intros (Hs & Hv & Hname). revert Hname. destruct (Nat.ltb_spec v 1); [lia|]. destruct (Nat.ltb_spec m v); [lia|]. cbn [orb].
      destruct (Hn2va v Hv) as (t & Ht & Ht'). destruct v as [|v]; [lia|]. simpl in *. rewrite Nat.sub_0_r in Ht'. rewrite Ht'. simpl. by intros <-.
  - intros v Hv. destruct (Hn2va v Hv) as (s & Hs & _). by exists s.
  - intros a e i He Hi. cbn [g_edge2name g_edgeInfo g] in *. destruct (Hie _ _ Hi) as (p & Hp & E1 & E2).
    assert (p = nedge n2v e) as ->. { unfold ne in Hp. rewrite list_lookup_fmap, He in Hp. by injection Hp as <-. }
    rewrite E1, E2. unfold getVertex, nedge. cbn [fst snd g_name2vertex g].
    assert (Hv : vertex_name_in names (fst e) /\ vertex_name_in names (snd e)).
    { apply elem_of_list_lookup_2 in He. apply Hfo1 in He. split; exists e; tauto. }
    destruct Hv as [V1 V2]. apply Hn2vs in V1 as [x Hx], V2 as [y Hy]. unfold num. rewrite Hx, Hy. cbn [default]. unfold id.
    destruct (decide (x <= y)).
    + left. rewrite Nat.min_l, Nat.max_r by lia. done.
    + right. rewrite Nat.min_r, Nat.max_l by lia. done.
  - intros e a. unfold getEdge. cbn [g_name2edge g_edge2name g]. split.
    + intros He. destruct (n2e0 !! e) as [o|] eqn:E0.
      * destruct (proj1 (Hn2e0' e)) as (h & Hh & Hse); [by rewrite E0|]. destruct (Hfo2 h Hh) as (k & Hk & Hse').
        apply elem_of_list_lookup in Hk as [b Hb]. assert (same_edge e k) as Hek by (by eapply same_edge_trans).
        pose proof (Hn2e1 b k e Hb (same_edge_sym _ _ Hek)) as Hb'. rewrite He in Hb'. injection Hb' as <-. by exists k.
      * rewrite Hn2e2, E0 in He; [done|]. intros h Hh Hse. assert (is_Some (n2e0 !! e)) as [? ?]; [|congruence]. apply Hn2e0'. exists h.
        split; [by apply Hfo1|by apply same_edge_sym].
    + intros (h & Hh & Hse). eapply Hn2e1; [done|by apply same_edge_sym].
  - intros e He. unfold getEdge. cbn [g_name2edge g]. rewrite Hn2e2.
    + destruct (n2e0 !! e) as [o|] eqn:E0; [|done]. destruct (proj1 (Hn2e0' e)) as (h & Hh & Hse); [by rewrite E0|]. by apply He in Hse.
    + intros h Hh Hse. apply (He h); [by apply Hfo1|by apply same_edge_sym].
  - intros v w a. unfold getEdgeV. cbn [g_edgeIndex g_edgeInfo g]. rewrite Hindex. fold ne. split.
    + intros Ha. destruct (Hei _ _ Ha) as (i & Hi & E1 & E2). exists i. split; [done|]. rewrite E1, E2. destruct (w <? v); cbn [fst snd]; tauto.
    + intros (i & Hi & Hvw). destruct (Hie _ _ Hi) as (e & He & E1 & E2). destruct (ne_range _ _ Hne _ _ He) as (R1 & R2 & R3). rewrite He. f_equal.
      destruct e as [e1 e2]. cbn [fst snd] in *. destruct (Nat.ltb_spec w v), Hvw as [[V1 V2]|[V1 V2]]; f_equal; lia.
  - intros s v Hs. unfold getVertex in Hs. cbn [g_name2vertex g] in Hs. pose proof (Hn2vr _ _ Hs) as Hv.
    destruct (lookup_lt_is_Some_2 col0 v) as [x Hx]; [lia|]. rewrite (HcN v x Hv Hx). split.
    + intros E c Hc. assert (cmember sets c v) as (ws & Hws & Hvw). { apply Hmem. by exists s. }
      apply elem_of_list_lookup in Hws as [i Hi]. destruct (Hcn0 i c ws v Hi Hvw) as (_ & Cv & _ & Z & _). rewrite Hx in Cv. injection Cv as ->. done.
    + intros Hno. destruct (Hcol0 _ _ Hx) as [[-> _]|(i & c & ws & -> & Hi & Hw)]; [done|]. exfalso.
      destruct (proj1 (Hmem c v)) as (t & Ht & Ht'); [exists ws; split; [by eapply elem_of_list_lookup_2|done]|].
      assert (t = s) as -> by (by eapply Hn2vi). by apply (Hno c).
  - intros s t v w c d Hs Ht Hc Hd. unfold getVertex in Hs, Ht. cbn [g_name2vertex g] in Hs, Ht.
    assert (cmember sets c v) as (ws & Hws & Hvw). { apply Hmem. by exists s. }
    assert (cmember sets d w) as (xs & Hxs & Hwx). { apply Hmem. by exists t. }
    apply elem_of_list_lookup in Hws as [i Hi], Hxs as [j Hj].
    destruct (Hcn0 i c ws v Hi Hvw) as (Rv & Cv & Nv & Zv & Lv). destruct (Hcn0 j d xs w Hj Hwx) as (Rw & Cw & Nw & Zw & Lw). rewrite Nv, Nw. split.
    + intros E. apply Hfi in E; [|lia|lia]. injection E as ->. congruence.
    + intros ->. f_equal. f_equal. by eapply Hkeys.
  - intros v. unfold colorNumber. cbn [g_vMax g_colorNumber g g_numColor]. destruct ((1 <=? v) && (v <=? m)); [|lia].
    destruct (col !! v) as [x|] eqn:E; [|simpl; lia]. simpl. by eapply Hle.
  - intros n Hn. cbn [g_numColor g] in Hn. destruct (Hfs n Hn) as (x & Hx & <-). destruct (Hsurj0 x Hx) as (v & Hv & Hcv). exists v. by apply HcN.
  - intros v. unfold virtualMate. cbn [g_vMax g_virtualMate g]. unfold vertexSize. cbn [g_vMax g]. destruct ((1 <=? v) && (v <=? m)); [|lia].
    destruct (mate !! v) as [x|] eqn:E; [|simpl; lia]. simpl. destruct (Hmate _ _ E) as [[-> _]|(c & Hc)]; [lia|].
    assert (exists ws, (c, ws) ∈ sets /\ x ∈ ws) as Hcm by (destruct Hc as [Hc|Hc]; eexists; (split; [done|apply elem2; tauto])). apply Hmr in Hcm. lia.
  - intros v w Hv Hw. unfold vertexSize in *. cbn [g_vMax g] in *. destruct (lookup_lt_is_Some_2 mate v) as [x Hx]; [lia|]. rewrite (HvN v x Hv Hx). split.
    + intros ->. destruct (Hmate _ _ Hx) as [[-> _]|(c & Hc)]; [lia|].
      assert (exists i, sets !! i = Some (c, [v; w]) \/ sets !! i = Some (c, [w; v])) as (i & Hi).
      { destruct Hc as [Hc|Hc]; apply elem_of_list_lookup in Hc as [i Hi]; exists i; tauto. }
      destruct (Hpair i c v w Hi) as (_ & _ & H1 & H2 & H3). done.
    + intros (Hvw & Hcv & Hall). destruct (Hcls' v Hv Hcv) as (i & c & ws & Hi & Hvws).
      destruct (Hcn0 i c ws v Hi Hvws) as (_ & _ & Nv & _ & _).
      assert (Hel : forall y, y ∈ ws <-> y = v \/ y = w).
      { intros y. split.
        - intros Hy. destruct (Hcn0 i c ws y Hi Hy) as (Ry & _ & Ny & _ & _). apply Hall; [done|]. congruence.
        - intros [->| ->]; [done|]. eapply Hcnx; [done|done|]. rewrite <- Nv. apply Hall; [done|by right]. }
      assert (ws = [v; w] \/ ws = [w; v]) as Hws.
      { destruct (Hset c ws) as [_ Hs]; [by eapply elem_of_list_lookup_2|]. apply sorted_NoDup in Hs.
        assert (ws ≡ₚ [w; v]) as Hp.
        { apply NoDup_Permutation; [done| |intros y; rewrite Hel, elem2; tauto]. repeat constructor; [|apply not_elem_of_nil]. intros H. by apply elem_of_list_singleton in H. }
        symmetry in Hp. apply Permutation_length_2_inv in Hp. tauto. }
      destruct (Hmate _ _ Hx) as [[-> Hno]|(d & Hd)].
      * exfalso. apply elem_of_list_lookup_2 in Hi. destruct Hws as [-> | ->]; destruct (Hno _ _ _ Hi); done.
      * assert (exists xs, (d, xs) ∈ sets /\ v ∈ xs /\ x ∈ xs) as (xs & Hxs & Hvxs & Hxxs).
        { destruct Hd as [Hd|Hd]; eexists; (split; [done|]); rewrite !elem2; tauto. }
        apply elem_of_list_lookup in Hxs as [j Hj]. assert (i = j) as <- by (by eapply Hdisj). rewrite Hi in Hj. injection Hj as <- <-.
        apply Hel in Hxxs as [->|]; [|done]. exfalso.
        assert (c = c) by done. destruct Hd as [Hd|Hd]; apply elem_of_list_lookup in Hd as [j Hj]; destruct (Hpair j c v v) as (_ & _ & ? & _); tauto.
  - unfold vertexSize. cbn [g_vMax g g_hasColorPairs g_numColor]. rewrite Hpairs. split.
    + intros [Hne' H2]. split; [destruct sets; [done|simpl; lia]|]. intros v Hv Hcv. destruct (Hcls' v Hv Hcv) as (i & c & ws & Hi & Hvws).
      pose proof (elem_of_list_lookup_2 _ _ _ Hi) as Hin. specialize (H2 _ _ Hin). destruct ws as [|x [|y [|]]]; try done.
      destruct (lookup_lt_is_Some_2 mate v) as [w Hw]; [lia|]. rewrite (HvN v w Hv Hw). destruct (Hmate _ _ Hw) as [[-> Hno]|(d & Hd)].
      * destruct (Hno _ _ _ Hin). apply elem2 in Hvws. destruct Hvws; congruence.
      * assert (exists xs, (d, xs) ∈ sets /\ w ∈ xs) as Hd' by (destruct Hd as [Hd|Hd]; eexists; (split; [done|apply elem2; tauto])).
        apply Hmr in Hd'. lia.
    + intros [Hn Hall]. split; [by intros ->; simpl in Hn; lia|]. intros c ws Hin. apply elem_of_list_lookup in Hin as [i Hi].
      destruct (Hset c ws) as [Hnn _]; [by eapply elem_of_list_lookup_2|]. destruct ws as [|v ws]; [done|].
      destruct (Hcn0 i c _ v Hi) as (Rv & _ & Nv & Zv & _); [left|]. destruct (lookup_lt_is_Some_2 mate v) as [w Hw]; [lia|].
      assert (virtualMate g v <> 0) as Hm by (apply Hall; [done|by rewrite Nv]). rewrite (HvN v w Rv Hw) in Hm.
      destruct (Hmate _ _ Hw) as [[-> _]|(d & Hd)]; [done|].
      assert (exists xs, (d, xs) ∈ sets /\ v ∈ xs /\ length xs = 2) as (xs & Hxs & Hvxs & Hlen).
      { destruct Hd as [Hd|Hd]; eexists; (split; [done|]); (split; [apply elem2; tauto|done]). }
      apply elem_of_list_lookup in Hxs as [j Hj]. assert (i = j) as <- by (eapply (Hdisj i j c d); [done|done|left|done]). rewrite Hi in Hj. by injection Hj as <- <-.
  - intros a i Ha. cbn [g_edgeInfo g g_numColor] in *.
    destruct (Hinfo _ _ Ha) as (e & l1 & l2 & s1 & s2 & l0 & He & Hl1 & Hl2 & Hs1 & Hs2 & E1 & E2 & Hv0 & Hl0 & Hge & Hlt & F1 & F2 & F3 & F4 & F5 & F6).
    rewrite F5, Hfirst.
    assert (Hct : forall b n, 1 <= n -> ctouch ne col b n <-> exists v, incident infos b v /\ colorNumber g v = n).
    { intros b n Hn. unfold ctouch. split; intros (v & Hv & Hc); exists v.
      - split; [by apply Hinc|]. assert (1 <= v <= m) as Hvm. { destruct Hv as (e' & He' & Hv'). destruct (ne_range _ _ Hne _ _ He') as (?&?&?). lia. }
        destruct (lookup_lt_is_Some_2 col0 v) as [x Hx]; [lia|]. rewrite (HcN v x Hvm Hx). rewrite (Hcf v x ltac:(lia) Hx) in Hc. by injection Hc.
      - apply Hinc in Hv. split; [done|]. assert (1 <= v <= m) as Hvm. { destruct Hv as (e' & He' & Hv'). destruct (ne_range _ _ Hne _ _ He') as (?&?&?). lia. }
        destruct (lookup_lt_is_Some_2 col0 v) as [x Hx]; [lia|]. rewrite (HcN v x Hvm Hx) in Hc. rewrite (Hcf v x ltac:(lia) Hx). by f_equal. }
    split; intros H n Hn; destruct (H n Hn) as (b & Hb).
    + destruct Hb as [Hb Ht]. apply Hct in Ht as (v & ?); [|lia]. by exists b, v.
    + destruct Hb as (v & Hb & Hv). exists b. split; [done|]. apply Hct; [lia|]. by exists v.
Qed.
