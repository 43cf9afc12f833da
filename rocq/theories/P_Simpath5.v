(** From a numbered graph to the assumptions of the frontier search, and from numbers to names. *)
From stdpp Require Import strings gmap.
From Coq Require Import String.
From Verif Require Import Base Sem M_Graph S_Graph P_Front M_Degree S_Degree M_Simpath S_Simpath P_Simpath1 P_Simpath2 P_Simpath3 P_Simpath4.
Local Open Scope nat_scope.

(** more colors than vertices cannot be *)
Lemma colors_vertices names n2c g : graph_ok names n2c g -> g_numColor g <= vertexSize g.
Proof.
  intros Hg. destruct (decide (g_numColor g <= vertexSize g)) as [|Hn]; [done|]. exfalso.
  assert (seq 1 (g_numColor g) ⊆+ map (colorNumber g) (seq 1 (vertexSize g))) as Hs.
  { apply NoDup_submseteq; [apply NoDup_seq|]. intros c Hc. apply elem_of_seq in Hc. destruct (gr_color_all _ _ _ Hg c) as [x Hx]; [lia|].
    apply elem_of_list_fmap. exists x. split; [done|]. apply elem_of_seq. unfold colorNumber in Hx. unfold vertexSize.
    destruct (Nat.leb_spec 1 x), (Nat.leb_spec x (g_vMax g)); cbn in Hx; lia. }
  apply submseteq_length in Hs. rewrite map_length, !seq_length in Hs. lia.
Qed.
Lemma color_out g x : colorNumber g x <> 0 -> 1 <= x <= vertexSize g.
Proof. unfold colorNumber, vertexSize. destruct (Nat.leb_spec 1 x), (Nat.leb_spec x (g_vMax g)); cbn; lia. Qed.
Lemma pairs_of names n2c g : graph_ok names n2c g -> g_hasColorPairs g = true ->
  forall z, colorNumber g z <> 0 -> exists z', z' <> z /\ forall x, colorNumber g x = colorNumber g z <-> x = z \/ x = z'.
Proof.
  intros Hg Hp z Hz. pose proof (color_out g z Hz) as Hr. destruct (proj1 (gr_pairs _ _ _ Hg) Hp) as [_ Hm]. specialize (Hm z Hr Hz).
  pose proof (gr_mate_range _ _ _ Hg z) as Hw. destruct (proj1 (gr_mate _ _ _ Hg z (virtualMate g z) Hr ltac:(lia)) eq_refl) as (Hne & _ & Hx).
  exists (virtualMate g z). split; [congruence|]. intros x. split.
  - intros E. apply Hx; [|done]. apply color_out. congruence.
  - intros H. apply Hx; [|done]. destruct H; subst; lia.
Qed.

Section plain.
Context (g : graph).

Lemma chosen_E G v x y : sm_graph G = g -> chosen g v x y <-> E G (chv G v) (edgeSize g) x y.
Proof.
  intros <-. unfold chosen, E, chv, edgeSize. split.
  - intros (a & e & He & Hv & Hj). exists a, e. split; [by eapply lookup_lt_Some|]. split; [done|]. split; [|done]. apply negb_true_iff, Nat.eqb_neq. exact Hv.
  - intros (a & e & _ & He & Hv & Hj). exists a, e. split; [done|]. split; [|done]. by apply negb_true_iff, Nat.eqb_neq in Hv.
Qed.
Lemma good_cycle_iff G v : sm_graph G = g -> sm_cycle G = true -> good G (chv G v) <-> is_cycle g v.
Proof.
  intros HG Hc. unfold good. rewrite Hc. unfold is_cycle, cycle_of, cyc_rel. rewrite HG. change (length (g_edgeInfo g)) with (edgeSize g).
  split; intros (c & H2 & H3 & H4); exists c; (split; [done|]); (split; [done|]); intros x y; [rewrite (chosen_E G v x y HG)|rewrite <- (chosen_E G v x y HG)]; exact (H4 x y).
Qed.
Lemma good_links_iff G v : sm_graph G = g -> sm_cycle G = false -> good G (chv G v) <-> is_links g v.
Proof.
  intros HG Hc. unfold good. rewrite Hc. unfold is_links, links_of, link_rel. rewrite HG. change (length (g_edgeInfo g)) with (edgeSize g).
  split; intros (c & H2 & H3 & H4 & H5); exists c; (split; [done|]); (split; [done|]); (split; [done|]); intros x y; [rewrite (chosen_E G v x y HG)|rewrite <- (chosen_E G v x y HG)]; exact (H5 x y).
Qed.
Lemma next_some {A} (x : A) l a : x ∈ l -> exists y, next_to x y (l ++ [a]).
Proof.
  intros Hx. apply elem_of_list_split in Hx as (l1 & l2 & ->). destruct l2 as [|b l2]; [exists a, l1, []; by rewrite <- app_assoc|]. exists b, l1, (l2 ++ [a]). by rewrite <- app_assoc.
Qed.
Lemma cycle_cover v c x : cycle_of g v c -> x ∈ c -> exists y, chosen g v x y.
Proof.
  intros (H2 & H3 & H4) Hx. destruct c as [|a c]; [by apply elem_of_nil in Hx|]. destruct (next_some x (a :: c) a Hx) as [y Hy]. exists y. apply H4. left. exact Hy.
Qed.
Lemma links_cover v ps x : links_of g v ps -> x ∈ concat ps -> exists y, chosen g v x y.
Proof.
  intros (H2 & H3 & H4 & H5) Hx. apply in_concat_iff in Hx as (k & p & Hk & Hx). destruct (H4 k p Hk) as (a & l & b & -> & _ & _).
  assert (exists y, next_to x y (a :: l ++ [b]) \/ next_to y x (a :: l ++ [b])) as [y Hy].
  { rewrite app_comm_cons in *. apply elem_of_app in Hx as [Hx| ->%elem_of_list_singleton].
    - destruct (next_some x (a :: l) b Hx) as [y Hy]. exists y. by left.
    - destruct (snoc_inv (a :: l)) as [|(l' & c & ->)]; [done|]. exists c. right. exists l', []. by rewrite <- app_assoc. }
  exists y. apply H5. exists (a :: l ++ [b]). split; [by eapply elem_of_list_lookup_2|done].
Qed.

End plain.

Section ready.
Context (names : list edge_name) (n2c : list (string * string)) (g : graph).
Context (Hg : graph_ok names n2c g) (HL : loop_free g) (H1 : 1 <= edgeSize g) (Hm : (Z.of_nat (vertexSize g) <= 32767)%Z).
(** the diagram accepts what is right, and only what is right up to the Hamilton condition *)
Lemma cycle_main ham la v : (forall x, colorNumber g x = 0) -> let G := Simpath g true ham la in
  ((if ham then is_hamilton_cycle g v else is_cycle g v) -> zdd_sem (sm_spec G) (edgeSize g) v = true) /\
  (zdd_sem (sm_spec G) (edgeSize g) v = true -> is_cycle g v).
Proof.
  intros Hc G. pose proof (colors_vertices _ _ _ Hg) as HK.
  destruct (sm_sem G) with (v := v) as [S1 S2].
  - exact (gr_numbering _ _ _ Hg).
  - exact HL.
  - exact Hm.
  - cbn. lia.
  - cbn. intros x. apply color_out.
  - cbn. exact (gr_color_range _ _ _ Hg).
  - cbn. intros _ x. apply Hc.
  - cbn. exact (gr_color_all _ _ _ Hg).
  - cbn. intros z Hz. by rewrite Hc in Hz.
  - done.
  - cbn. exact (fun _ => gr_seen _ _ _ Hg).
  - exact H1.
  - split.
    + intros Hv. apply S1. split.
      * apply (good_cycle_iff g G v eq_refl eq_refl). destruct ham; [destruct Hv as (c & Hv & _); by exists c|done].
      * cbn [sm_ham G]. intros ->. destruct Hv as (c & Hv & Hall). intros x Hx. destruct (cycle_cover g v c x Hv (Hall x Hx)) as [y Hy]. exists y. by apply (chosen_E g G) in Hy.
    + intros Hv. apply (good_cycle_iff g G v eq_refl eq_refl). by apply S2.
Qed.
Lemma links_main ham la v : g_hasColorPairs g = true -> let G := Simpath g false ham la in
  ((if ham then is_hamilton_links g v else is_links g v) -> zdd_sem (sm_spec G) (edgeSize g) v = true) /\
  (zdd_sem (sm_spec G) (edgeSize g) v = true -> is_links g v).
Proof.
  intros Hp G. pose proof (colors_vertices _ _ _ Hg) as HK.
  destruct (sm_sem G) with (v := v) as [S1 S2].
  - exact (gr_numbering _ _ _ Hg).
  - exact HL.
  - exact Hm.
  - cbn. lia.
  - cbn. intros x. apply color_out.
  - cbn. exact (gr_color_range _ _ _ Hg).
  - done.
  - cbn. exact (gr_color_all _ _ _ Hg).
  - cbn. by eapply pairs_of.
  - cbn. intros _. by apply (gr_pairs _ _ _ Hg).
  - cbn. exact (fun _ => gr_seen _ _ _ Hg).
  - exact H1.
  - split.
    + intros Hv. apply S1. split.
      * apply (good_links_iff g G v eq_refl eq_refl). destruct ham; [destruct Hv as (c & Hv & _); by exists c|done].
      * cbn [sm_ham G]. intros ->. destruct Hv as (c & Hv & Hall). intros x Hx. destruct (links_cover g v c x Hv (Hall x Hx)) as [y Hy]. exists y. by apply (chosen_E g G) in Hy.
    + intros Hv. apply (good_links_iff g G v eq_refl eq_refl). by apply S2.
Qed.
(** safety and contract *)
Lemma sm_facts G : sm_graph G = g -> (sm_cycle G = true -> forall x, colorNumber g x = 0) -> (sm_cycle G = false -> g_hasColorPairs g = true) ->
  forall l s b, reach (sm_spec G) l s -> is_Some (sm_child G s (Z.to_nat l) b) /\ (-1 <= fst (get_child (sm_spec G) s l (if b then 1 else 0)) < l)%Z.
Proof.
  intros HG Hc Hp l s b Hr. pose proof (colors_vertices _ _ _ Hg) as HK.
  assert (Hpair : forall z, colorNumber g z <> 0 -> exists z', z' <> z /\ forall x, colorNumber g x = colorNumber g z <-> x = z \/ x = z').
  { intros z Hz. assert (sm_cycle G = true \/ sm_cycle G = false) as [Ht|Ht] by (destruct (sm_cycle G); [by left|by right]); [by rewrite (Hc Ht) in Hz|]. by apply (pairs_of _ _ _ Hg (Hp Ht)). }
  assert (HK1 : sm_cycle G = false -> 1 <= g_numColor g) by (intros Ht; by apply (gr_pairs _ _ _ Hg), Hp).
  split.
  - eapply sm_safe; rewrite ?HG; try done; try (exact (gr_numbering _ _ _ Hg)).
    + lia.
    + intros x. apply color_out.
    + exact (gr_color_range _ _ _ Hg).
    + exact (gr_color_all _ _ _ Hg).
    + exact (fun _ => gr_seen _ _ _ Hg).
  - eapply sm_levels; rewrite ?HG; try done; try (exact (gr_numbering _ _ _ Hg)).
    + lia.
    + intros x. apply color_out.
    + exact (gr_color_range _ _ _ Hg).
    + exact (gr_color_all _ _ _ Hg).
    + exact (fun _ => gr_seen _ _ _ Hg).
Qed.
End ready.
