(** The builder with merge_states keeps exactly the cheapest members. *)
From Verif Require Import Base Sem M_Table Tree M_Hash M_Sweeper M_Engine M_Builder M_Merge S_Merge P_Engine P_Builder P_Merge0 P_Merge4.
Local Open Scope Z_scope.

Lemma zdd_eval_final sp l : forall c s v, zdd_eval sp l c s v = match zfinal_at sp l c s v with Some _ => true | None => false end.
Proof.
  induction l as [|l IH]; intros c s v; cbn [zdd_eval zfinal_at].
  - by destruct (c <? 0).
  - destruct (c =? Z.of_nat (S l)); [apply IH|]. destruct (v (S l) =? 0)%nat; [apply IH|done].
Qed.
Lemma bdd_eval_final sp l : forall c s v, bdd_eval sp l c s v = match bfinal_at sp l c s v with Some _ => true | None => false end.
Proof.
  induction l as [|l IH]; intros c s v; cbn [bdd_eval bfinal_at].
  - by destruct (c <? 0).
  - destruct (c =? Z.of_nat (S l)); [apply IH|]. apply IH.
Qed.
Lemma zfinal_term sp l : forall c s v s', c <= 0 -> zfinal_at sp l c s v = Some s' -> s' = s.
Proof.
  induction l as [|l IH]; intros c s v s' Hc; cbn [zfinal_at].
  - destruct (c <? 0); congruence.
  - destruct (Z.eqb_spec c (Z.of_nat (S l))); [lia|]. destruct (v (S l) =? 0)%nat; [by apply IH|done].
Qed.
Lemma bfinal_term sp l : forall c s v s', c <= 0 -> bfinal_at sp l c s v = Some s' -> s' = s.
Proof.
  induction l as [|l IH]; intros c s v s' Hc; cbn [bfinal_at].
  - destruct (c <? 0); congruence.
  - destruct (Z.eqb_spec c (Z.of_nat (S l))); [lia|]. by apply IH.
Qed.

Theorem construct_merge_ok sp mrg cost : merge_ok sp mrg cost ->
  exists d, construct_merge sp mrg = Some d /\ d_ar d = ar sp /\ dd_wf d /\
    forall n v, vec_ok (ar sp) v ->
      (zdd_sem (dd_spec d) n v = true <-> cheapest (zfinal sp n) (ar sp) cost v) /\
      (bdd_sem (dd_spec d) n v = true <-> cheapest (bfinal sp n) (ar sp) cost v).
Proof.
  intros Hm. pose proof (mo_ok _ _ _ Hm) as Hok. unfold construct_merge.
  pose proof (built_term sp Hok) as Ht.
  destruct (get_root sp) as [c s] eqn:Eg. cbn [fst] in Ht.
  destruct (Z.leb_spec c 0) as [Hc|Hc].
  { specialize (Ht Hc). eexists. split; [done|]. pose proof Ht as (H1 & H2 & _). split; [done|]. split; [done|].
    intros n v Hv. destruct (built_sem sp _ n v Hok Ht Hv) as [Eb Ez]. rewrite Eb, Ez.
    unfold zdd_sem, bdd_sem. rewrite zdd_eval_final, bdd_eval_final. fold (zfinal sp n v) (bfinal sp n v).
    assert (forall v s', zfinal sp n v = Some s' -> s' = s) as Hz.
    { intros v' s'. unfold zfinal. rewrite Eg. cbn [fst snd]. by apply zfinal_term. }
    assert (forall v s', bfinal sp n v = Some s' -> s' = s) as Hb.
    { intros v' s'. unfold bfinal. rewrite Eg. cbn [fst snd]. by apply bfinal_term. }
    split.
    - split.
      + destruct (zfinal sp n v) as [s1|] eqn:E; [|done]. intros _. exists s1. split; [done|]. intros v' s' _ E'.
        rewrite (Hz _ _ E), (Hz _ _ E'). lia.
      + intros (s1 & -> & _). done.
    - split.
      + destruct (bfinal sp n v) as [s1|] eqn:E; [|done]. intros _. exists s1. split; [done|]. intros v' s' _ E'.
        rewrite (Hb _ _ E), (Hb _ _ E'). lia.
      + intros (s1 & -> & _). done. }
  assert (fst (get_root sp) = c) as Ec by (by rewrite Eg). assert (snd (get_root sp) = s) as Es by (by rewrite Eg).
  assert (forall x y, mrg x y = code_of (cost x ?= cost y) -> (mrg x y <> 1%nat -> mrg x y <> 2%nat -> cost x = cost y) /\
     (mrg x y = 1%nat -> cost y < cost x) /\ (mrg x y = 2%nat -> cost x < cost y)) as Hcode.
  { intros x y ->. destruct (Z.compare_spec (cost x) (cost y)); cbn; split_and!; try done; lia. }
  destruct (mbuild_ok (ar sp) (sp_hash sp) (sp_eqb sp) mrg (fun i s b => get_child sp s (Z.of_nat i) b)
    (final_state sp) (gtree sp cost) (fun i s => reach sp (Z.of_nat i) s) (fun i s => ptr sp cost (Z.of_nat i) s) (Z.to_nat c) s)
    as (t & root & E & Hwf & Hlen & (T & HT & Enz) & Hroot).
  - intros x y Hx Hy. destruct (Hcode x y (mo_final _ _ _ Hm x y Hx Hy)) as (H & _ & _). intros H1 H2.
    by apply gtree_eq, H.
  - intros x y Hx Hy H1. destruct (Hcode x y (mo_final _ _ _ Hm x y Hx Hy)) as (_ & H & _).
    apply (gtree_cheaper sp mrg cost Hm x y Hy). by apply H.
  - intros x y Hx Hy H1. destruct (Hcode x y (mo_final _ _ _ Hm x y Hx Hy)) as (_ & _ & H).
    apply (gtree_cheaper sp mrg cost Hm y x Hx). by apply H.
  - intros i x y Hx Hy He H1 H2. destruct (Hcode x y (mo_node _ _ _ Hm _ x y Hx Hy He)) as (H & _ & _).
    apply (ptr_eq sp mrg cost Hm); try done. by apply H.
  - intros i x y Hx Hy He H1. destruct (Hcode x y (mo_node _ _ _ Hm _ x y Hx Hy He)) as (_ & H & _).
    apply (ptr_loser sp mrg cost Hm _ x y Hy); [|by apply H]. by rewrite (cg_sym sp (mo_congr _ _ _ Hm)).
  - intros i x y Hx Hy He H1. destruct (Hcode x y (mo_node _ _ _ Hm _ x y Hx Hy He)) as (_ & _ & H).
    apply (ptr_loser sp mrg cost Hm _ y x Hx He). by apply H.
  - intros i x b Hx Hb. split; [by apply (ok_level sp Hok)|]. split.
    + intros Hp. rewrite Z2Nat.id by lia. by apply reach_child.
    + intros Hn. by exists (Z.of_nat i), x, b.
  - intros i x Hx. rewrite (ptr_node sp mrg cost Hm _ _ Hx), Nat2Z.id. f_equal. apply map_ext_in. intros b Hb.
    unfold pctree, mctree. cbn zeta. destruct (get_child sp x (Z.of_nat i) b) as [cd s']. cbn [fst snd].
    destruct (Z.eqb_spec cd 0); [done|]. destruct (Z.ltb_spec cd 0); [done|]. by rewrite Z2Nat.id by lia.
  - apply Hok.
  - lia.
  - rewrite Z2Nat.id by lia. rewrite <- Ec, <- Es. apply reach_root. lia.
  - intros x. unfold gtree. destruct (goodb sp cost x); [by right|by left].
  - intros x Hx. rewrite Z2Nat.id by lia. rewrite <- Ec, <- Es. apply (ptr_root sp mrg cost Hm x); [lia|done].
  - rewrite E. cbn [mbind option_bind]. exists (Dd (ar sp) t root). split; [done|]. split; [done|]. split; [done|].
    intros n v Hv.
    assert (nz (root_tree (dd_spec (Dd (ar sp) t root))) = nz (root_tree (psp sp cost))) as En.
    { rewrite (root_tree_dd _ T) by done. rewrite Enz. unfold ptr. rewrite Z2Nat.id by lia.
      change (root_tree (psp sp cost)) with (stree (psp sp cost) (fst (get_root sp)) (snd (get_root sp))).
      pose proof (root_winner sp mrg cost Hm ltac:(lia)) as Hw. rewrite Ec, Es in *. by rewrite Hw. }
    assert (spec_ok (psp sp cost)) as Hpok by (by eapply psp_ok).
    assert (vec_ok (ar (psp sp cost)) v) as Hv' by done.
    assert (vec_ok (ar (dd_spec (Dd (ar sp) t root))) v) as Hv'' by done.
    pose proof (dd_spec_ok _ Hwf) as Hdok.
    rewrite <- (cheapest_z sp mrg cost Hm n v ltac:(lia) Hv), <- (cheapest_b sp mrg cost Hm n v ltac:(lia) Hv).
    rewrite <- (zdd_sem_psp sp mrg cost Hm n v ltac:(lia) Hv), <- (bdd_sem_psp sp mrg cost Hm n v ltac:(lia) Hv).
    rewrite (bdd_sem_tree (dd_spec _)), (zdd_sem_tree (dd_spec _)) by done.
    rewrite <- (tbdd_nz n (root_tree (dd_spec _))), <- (tzdd_nz n (root_tree (dd_spec _))), En, tbdd_nz, tzdd_nz.
    rewrite <- (bdd_sem_tree (psp sp cost)), <- (zdd_sem_tree (psp sp cost)) by done. done.
Qed.
