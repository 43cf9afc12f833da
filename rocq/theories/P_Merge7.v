(** The builder of M_Merge.v with the default merge_states (always 0), for every specification that keeps the contract. *)
From Verif Require Import Base Sem M_Table Tree M_Hash M_Sweeper M_Engine M_Builder M_Merge S_Merge P_Hash P_Pass P_Core P_Level P_Engine P_Builder P_Merge4.
Local Open Scope Z_scope.

Lemma nzN_T0 i ts : nzN i ts = T0 -> forall T, In T ts -> T = T0.
Proof.
  unfold nzN. destruct (all0 ts) eqn:E; [|done]. intros _ T HT. rewrite all0_true in E.
  apply In_nth_error in HT as [b Hb]. specialize (E b). by rewrite (nth_error_nth _ _ T0 Hb) in E.
Qed.

Lemma stree_parent sp l s b : spec_ok sp -> reach sp l s -> (b < ar sp)%nat ->
  nz (stree sp (fst (get_child sp s l b)) (snd (get_child sp s l b))) <> T0 -> nz (stree sp l s) <> T0.
Proof.
  intros Hok Hr Hb Hne E. pose proof (reach_pos _ _ _ Hr). rewrite stree_node in E by done. cbn [nz] in E.
  apply Hne. eapply nzN_T0; [exact E|]. rewrite map_map. apply in_map_iff. exists b. split; [done|]. apply in_seq. lia.
Qed.
Lemma reach_nonzero sp : spec_ok sp -> forall l s, reach sp l s -> nz (stree sp l s) <> T0 -> nz (root_tree sp) <> T0.
Proof.
  intros Hok l s. induction 1 as [H|l s b Hr IH Hb Hp]; [done|]. intros Hne. apply IH. by eapply stree_parent.
Qed.

Theorem merge0_ok sp : spec_ok sp ->
  exists d, construct_merge sp (fun _ _ => 0%nat) = Some d /\ d_ar d = ar sp /\ dd_wf d /\
    nz (root_tree (dd_spec d)) = nz (root_tree sp).
Proof.
  intros Hok. unfold construct_merge. destruct (get_root sp) as [c s] eqn:Eg.
  pose proof (built_term sp Hok) as Ht. rewrite Eg in Ht. cbn [fst] in Ht.
  destruct (Z.leb_spec c 0) as [Hc|Hc].
  { destruct (Ht Hc) as (H1 & H2 & _ & H3 & _). by eexists. }
  destruct (mbuild_ok (ar sp) (sp_hash sp) (sp_eqb sp) (fun _ _ => 0%nat) (fun i s b => get_child sp s (Z.of_nat i) b)
    (final_state sp) (fun _ => T1) (fun i s => reach sp (Z.of_nat i) s) (fun i s => nz (stree sp (Z.of_nat i) s)) (Z.to_nat c) s)
    as (t & root & E & Hwf & Hlen & (T & HT & Enz) & Hroot); try done.
  - intros i x y Hx Hy He _ _. f_equal. by apply equal_tree.
  - intros i x b Hx Hb. split; [by apply (ok_level sp Hok)|]. split.
    + intros Hp. rewrite Z2Nat.id by lia. by apply reach_child.
    + intros Hn. by exists (Z.of_nat i), x, b.
  - intros i x Hx. pose proof (reach_pos _ _ _ Hx). rewrite stree_node by done. cbn [nz]. rewrite Nat2Z.id. f_equal.
    rewrite map_map. apply map_ext_in. intros b Hb. unfold mctree.
    destruct (get_child sp x (Z.of_nat i) b) as [cd s']. cbn [fst snd].
    destruct (Z.eqb_spec cd 0) as [->|]; [by rewrite stree_0|].
    destruct (Z.ltb_spec cd 0); [by rewrite stree_neg|]. by rewrite Z2Nat.id by lia.
  - apply Hok.
  - lia.
  - rewrite Z2Nat.id by lia. pose proof (reach_root sp) as Hr. rewrite Eg in Hr. by apply Hr.
  - intros x. by right.
  - intros x (l & y & b & Hy & Hb & Hn & _). rewrite Z2Nat.id by lia.
    assert (nz (root_tree sp) <> T0) as Hne.
    { eapply reach_nonzero; [done|exact Hy|]. eapply stree_parent; [done|exact Hy|exact Hb|].
      rewrite stree_neg by done. done. }
    unfold root_tree in Hne. by rewrite Eg in Hne.
  - match type of E with ?x = _ => match goal with |- context [mbind _ ?y] => change y with x end end.
    rewrite E. cbn [mbind option_bind]. eexists. split; [done|]. split; [done|]. split; [done|].
    rewrite (root_tree_dd _ T) by done. rewrite Enz. unfold root_tree. rewrite Eg. cbn [fst snd]. by rewrite Z2Nat.id by lia.
Qed.
