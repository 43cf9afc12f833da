(** The cycle searches on a numbered graph without colors, whatever the marks allColorsSeen say: clearColors does not
    update them. *)
From stdpp Require Import strings gmap.
From Verif Require Import Base Sem M_Graph S_Graph P_Front M_Degree S_Degree P_Degree M_Simpath S_Simpath P_Simpath1 P_Simpath3 P_Simpath4 P_Simpath5.
Local Open Scope nat_scope.

(** what the searches need of a graph, colors apart *)
Definition search_graph (g : graph) : Prop :=
  numbering_ok (vertexSize g) (g_edgeInfo g) /\ loop_free g /\ 1 <= edgeSize g /\ (Z.of_nat (vertexSize g) <= 32767)%Z.
Definition uncolored (g : graph) : Prop := g_numColor g = 0 /\ (forall x, colorNumber g x = 0) /\ forall x, virtualMate g x = 0.

Section uncolored.
Context (g : graph) (HS : search_graph g) (HU : uncolored g).
Lemma unc_cycle ham la v : let G := Simpath g true ham la in
  ((if ham then is_hamilton_cycle g v else is_cycle g v) -> zdd_sem (sm_spec G) (edgeSize g) v = true) /\
  (zdd_sem (sm_spec G) (edgeSize g) v = true -> is_cycle g v).
Proof.
  destruct HS as (HN & HL & H1 & Hm), HU as (HK & Hc & Hv'). intros G.
  destruct (sm_sem G) with (v := v) as [S1 S2].
  - exact HN.
  - exact HL.
  - exact Hm.
  - cbn. lia.
  - cbn. intros x Hx. by rewrite Hc in Hx.
  - cbn. intros x. rewrite Hc. lia.
  - cbn. intros _ x. apply Hc.
  - cbn. intros c Hc'. lia.
  - cbn. intros z Hz. by rewrite Hc in Hz.
  - done.
  - done.
  - exact H1.
  - split.
    + intros Hv. apply S1. split.
      * apply (good_cycle_iff g G v eq_refl eq_refl). destruct ham; [destruct Hv as (c & Hv & _); by exists c|done].
      * cbn [sm_ham G]. intros ->. destruct Hv as (c & Hv & Hall). intros x Hx. destruct (cycle_cover g v c x Hv (Hall x Hx)) as [y Hy]. exists y. by apply (chosen_E g G) in Hy.
    + intros Hv. apply (good_cycle_iff g G v eq_refl eq_refl). by apply S2.
Qed.
Lemma unc_facts G : sm_graph G = g -> sm_cycle G = true ->
  forall l s b, reach (sm_spec G) l s -> is_Some (sm_child G s (Z.to_nat l) b) /\ (-1 <= fst (get_child (sm_spec G) s l (if b then 1 else 0)) < l)%Z.
Proof.
  intros HG Ht l s b Hr. destruct HS as (HN & HL & H1 & Hm), HU as (HK & Hc & Hv').
  split; [eapply sm_safe|eapply sm_levels]; rewrite ?HG, ?Ht; try done.
  all: first [lia|intros x Hx; by rewrite Hc in Hx|intros x; rewrite Hc; lia|intros c Hc'; lia].
Qed.
End uncolored.
