(** PathZddByStdMap: tours are cycles without pairs and paths with one pair. *)
From stdpp Require Import strings gmap.
From Verif Require Import Base Sem P_Size M_Graph S_Graph P_Front M_Degree S_Degree P_Degree S_Simpath P_Simpath1 P_Simpath2 P_Simpath3 P_Simpath5 M_PathMap S_PathMap P_PathMap.
Local Open Scope nat_scope.

Section tours.
Context (names : list edge_name) (n2c : list (string * string)) (g : graph) (Hg : graph_ok names n2c g) (HL : loop_free g) (H1 : 1 <= edgeSize g).
Notation m := (vertexSize g).
Notation vm := (virtualMate g).

Lemma vm_facts x : vm x <> 0 -> 1 <= x <= m /\ 1 <= vm x <= m /\ vm x <> x /\ vm (vm x) = x.
Proof.
  intros Hx. pose proof (gr_mate_range _ _ _ Hg x) as Hw.
  assert (1 <= x <= m) as Hr.
  { unfold virtualMate in Hx. destruct ((1 <=? x) && (x <=? g_vMax g)) eqn:E1; [|done]. apply andb_true_iff in E1 as [E1%Nat.leb_le E2%Nat.leb_le]. unfold vertexSize. lia. }
  destruct (proj1 (gr_mate _ _ _ Hg x (vm x) Hr ltac:(lia)) eq_refl) as (Hne & Hc & Hall).
  split; [done|]. split; [lia|]. split; [done|]. apply (gr_mate _ _ _ Hg (vm x) x ltac:(lia) Hr).
  assert (colorNumber g (vm x) = colorNumber g x) as Ec by (apply Hall; [lia|by right]). rewrite Ec. split; [done|]. split; [done|].
  intros y Hy. rewrite (Hall y Hy). tauto.
Qed.
Lemma joined_F v x y : joined g v x y <-> F g (chv g v) (edgeSize g) x y.
Proof.
  unfold joined, F, chosen, E, chv, edgeSize. split; (intros [(a & e & H)|H]; [left|by right]).
  - destruct H as (He & Hv & Hj). exists a, e. split; [by eapply lookup_lt_Some|]. split; [done|]. split; [|done]. by apply negb_true_iff, Nat.eqb_neq.
  - destruct H as (_ & He & Hv & Hj). exists a, e. split; [done|]. split; [|done]. by apply negb_true_iff, Nat.eqb_neq in Hv.
Qed.
Lemma tour_good v : is_tour g v <-> good g (chv g v).
Proof.
  unfold is_tour, good, cyc_rel. change (length (g_edgeInfo g)) with (edgeSize g).
  split; intros (c & C1 & C2 & C3); exists c; (split; [done|]); (split; [done|]); intros x y; [rewrite <- joined_F|rewrite joined_F]; done.
Qed.
Lemma tour_main v : zdd_sem (pm_spec g) (edgeSize g) v = true <-> is_tour g v.
Proof. rewrite tour_good. apply pm_sem; [apply Hg|done|apply vm_facts|exact H1]. Qed.

Lemma tour_cycle v : (forall x, vm x = 0) -> is_tour g v <-> is_cycle g v.
Proof.
  intros Hz. assert (HJ : forall x y, joined g v x y <-> chosen g v x y). { intros x y. split; [|by left]. intros [?|(s & Hs & _)]; [done|]. by rewrite Hz in Hs. }
  split; intros (c & C1 & C2 & C3); exists c; (split; [done|]); (split; [done|]); intros x y; [rewrite <- HJ|rewrite HJ]; done.
Qed.

(** *** one pair *)
Lemma chosen_range v x y : chosen g v x y -> 1 <= x <= m /\ 1 <= y <= m.
Proof. intros (a & e & He & _ & Hj). destruct (no_range _ _ (gr_numbering _ _ _ Hg) _ _ He) as (R1 & R2 & R3 & R4). unfold joins in Hj. lia. Qed.
Lemma mid_out s : vm s <> 0 -> m < mid g s.
Proof. intros Hs. destruct (vm_facts s Hs) as (A & B & _). unfold mid. lia. Qed.
Lemma next_close (x y a b : nat) l : next_to x y ((a :: l ++ [b]) ++ [a]) <-> next_to x y (a :: l ++ [b]) \/ (x = b /\ y = a).
Proof.
  rewrite next_app. split.
  - intros [H|[H|(k & k' & E1 & E2)]]; [by left|by apply next_one in H|]. right. rewrite app_comm_cons in E1. apply app_inj_tail in E1 as [_ ->]. by injection E2 as ->.
  - intros [H|[-> ->]]; [by left|]. right; right. by exists (a :: l), [].
Qed.
Context (s t : nat) (Hst : vm s = t) (Ht0 : t <> 0) (Honly : forall x, vm x <> 0 -> x = s \/ x = t).
Context (Hk1 : g_numColor g = 1) (Hcol : forall x, colorNumber g x = 1 <-> x = s \/ x = t).
Notation c0 := (mid g s).
Lemma half_one x y : virtual_half g x y <-> ((x = s \/ x = t) /\ y = c0) \/ (x = c0 /\ (y = s \/ y = t)).
Proof.
  assert (Hs : vm s <> 0) by (by rewrite Hst). destruct (vm_facts s Hs) as (A & B & C & D). rewrite Hst in *.
  assert (mid g t = c0) as Em by (unfold mid; rewrite D, Hst; lia). split.
  - intros (u & Hu & H). destruct (Honly u Hu) as [->| ->]; rewrite ?Em in H; destruct H as [[-> ->]|[-> ->]]; tauto.
  - intros [[[->| ->] ->]|[-> [->| ->]]]; [exists s|exists t|exists s|exists t]; (split; [lia|]); rewrite ?Em; tauto.
Qed.
Lemma tour_path v : is_tour g v <-> is_links g v.
Proof.
  assert (Hs : vm s <> 0) by (by rewrite Hst). destruct (vm_facts s Hs) as (A & B & C & D). pose proof (mid_out s Hs) as Hm. rewrite Hst in *.
  split.
  - intros (c & HC). destruct (cyc_rot_at nocol (joined g v) c c0 HC) as (l & (C1 & C2 & C3) & _).
    { eapply (cyc_in nocol _ _ _ s HC). right. apply half_one. tauto. }
    destruct l as [|a l]; [cbn in C1; lia|]. destruct (snoc_inv l) as [->|(q & b & ->)]; [cbn in C1; lia|]. clear C1 c HC.
    change (take 1 (c0 :: a :: q ++ [b])) with [c0] in C3. apply NoDup_cons in C2 as [N0 N1].
    assert (HX : forall x y, x <> c0 -> y <> c0 -> next_to x y ((c0 :: a :: q ++ [b]) ++ [c0]) <-> next_to x y (a :: q ++ [b])).
    { intros x y Nx Ny. change (c0 :: a :: q ++ [b]) with (c0 :: (a :: q) ++ [b]). rewrite next_close. cbn [app]. rewrite next_cons. split; [|tauto].
      intros [[[? _]|?]|[_ ?]]; done. }
    assert (Hch : forall x y, chosen g v x y <-> next_to x y (a :: q ++ [b]) \/ next_to y x (a :: q ++ [b])).
    { intros x y. split.
      - intros Hc. destruct (chosen_range v x y Hc) as [Rx Ry]. rewrite <- !HX by lia. apply C3. by left.
      - intros Hn. assert (x <> c0 /\ y <> c0) as [Nx Ny]. { split; intros ->; apply N0; destruct Hn as [Hn|Hn]; by apply next_in in Hn as [? ?]. }
        rewrite <- !HX in Hn by done. apply C3 in Hn as [?|Hh]; [done|]. apply half_one in Hh. tauto. }
    assert (Hab : forall z, z = a \/ z = b -> z = s \/ z = t).
    { intros z Hz. assert (joined g v c0 z) as [Hc|Hh].
      - apply C3. destruct Hz as [->| ->].
        + left. by exists [], ((q ++ [b]) ++ [c0]).
        + right. exists (c0 :: a :: q), []. cbn. by rewrite <- app_assoc.
      - apply chosen_range in Hc. lia.
      - apply half_one in Hh. destruct Hh as [[[?|?] _]|[_ ?]]; [lia|lia|done]. }
    exists [a :: q ++ [b]]. split; [by rewrite Hk1|]. split; [cbn; by rewrite app_nil_r|]. split.
    + intros k p Hp. destruct k; [|done]. injection Hp as <-. exists a, q, b. split; [done|]. split; apply Hcol, Hab; tauto.
    + intros x y. rewrite Hch. split; [intros H; eexists; split; [left|done]|]. intros (p & Hp%elem_of_list_singleton & H). by subst.
  - intros (ps & L1 & L2 & L3 & L4). rewrite Hk1 in L1. destruct ps as [|p [|]]; [done| |done]. destruct (L3 0 p eq_refl) as (a & q & b & -> & Ca & Cb). clear L1 L3.
    cbn in L2. rewrite app_nil_r in L2. apply Hcol in Ca, Cb.
    assert (Nab : a <> b). { intros ->. apply NoDup_cons in L2 as [L2 _]. apply L2, elem_of_app. right. left. }
    assert (Hch : forall x y, chosen g v x y <-> next_to x y (a :: q ++ [b]) \/ next_to y x (a :: q ++ [b])).
    { intros x y. rewrite L4. split; [|intros H; eexists; split; [left|done]]. intros (p & Hp%elem_of_list_singleton & H). by subst. }
    assert (Hin : forall z, z ∈ a :: q ++ [b] -> 1 <= z <= m).
    { intros z Hz. apply elem_of_list_split in Hz as (l1 & l2 & E1). destruct l2 as [|y l2].
      - destruct (snoc_inv l1) as [->|(k & y & ->)]; [by destruct q|]. apply (chosen_range v y z). apply Hch. left. exists k, []. by rewrite E1, <- app_assoc.
      - apply (chosen_range v z y). apply Hch. left. by exists l1, l2. }
    exists (c0 :: a :: q ++ [b]). split; [cbn; rewrite app_length; cbn; lia|]. split.
    + constructor; [|done]. intros Hc. apply Hin in Hc. lia.
    + intros x y. change (take 1 (c0 :: a :: q ++ [b])) with [c0]. change (c0 :: a :: q ++ [b]) with (c0 :: (a :: q) ++ [b]). rewrite !next_close. cbn [app]. rewrite !(next_cons _ _ c0).
      assert (HQ : forall w, (exists l', a :: q ++ [b] = w :: l') <-> w = a). { intros w. split; [intros [l' E1]; by injection E1|intros ->; by eexists]. }
      rewrite (HQ x), (HQ y). clear HQ. unfold joined. rewrite half_one, Hch.
      assert (Hends : forall z, z = s \/ z = t <-> z = a \/ z = b) by (intros z; lia). rewrite !Hends. tauto.
Qed.
End tours.
