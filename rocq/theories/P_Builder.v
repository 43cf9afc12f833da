From Verif Require Import Base Sem M_Table Tree M_Hash M_Sweeper M_Engine M_Builder P_Hash P_Pass P_Core P_Level P_Engine.
Local Open Scope Z_scope.

(** what all the builders guarantee *)
Definition built (sp : spec) (d : dd) : Prop :=
  d_ar d = ar sp /\ dd_wf d /\ numVars d = top_level sp /\
  nz (root_tree (dd_spec d)) = nz (root_tree sp) /\
  (forall f, (0 < row f)%nat -> is_Some (tget (tab d) f) -> code f <> code (rt d) ->
     exists f' b g, child (tab d) f' b = Some g /\ code g = code f /\ (row f < row f')%nat) /\
  ((forall i s s', equal_to sp i s s' = equal_to sp i s' s) ->
   (forall i s s', equal_to sp i s s' = true -> hash_code sp i s = hash_code sp i s') ->
   forall i r, (0 < i)%nat -> tab d !! i = Some r ->
   exists rs, (length r <= length rs)%nat /\ Forall (reach sp (Z.of_nat i)) rs /\
     ForallOrdPairs (fun s s' => equal_to sp (Z.of_nat i) s s' = false) rs).

Lemma reach_root_only sp : spec_ok sp -> forall l s, reach sp l s -> l <= fst (get_root sp) /\
  (l = fst (get_root sp) -> s = snd (get_root sp)).
Proof.
  intros Hok l s. induction 1 as [H|l s b Hr [IH1 IH2] Hb Hp]; [done|].
  pose proof (ok_level sp Hok l s b Hr Hb). split; [lia|]. intros. lia.
Qed.

Lemma term_dd_wf a f : (0 < a)%nat -> (row f = 0 /\ col f < 2)%nat -> dd_wf (Dd a (init_table a 0) f).
Proof.
  intros Ha [Hr Hc]. split; [done|]. split.
  - constructor; simpl.
    + exists (terminal_row a). split_and!; try done. repeat constructor; apply replicate_length.
    + intros [|i] r j p Hi Hj; [|done]. inversion Hi; subst. destruct j as [|[|j]]; simpl in Hj; inversion Hj; apply replicate_length.
    + intros [|i] r j p b g Hi H; [lia|]. done.
  - unfold valid. simpl. by rewrite Hr.
Qed.

Lemma built_term sp : spec_ok sp -> fst (get_root sp) <= 0 ->
  built sp (Dd (ar sp) (init_table (ar sp) 0) (if fst (get_root sp) =? 0 then n0 else n1)).
Proof.
  intros Hok Hc.
  assert (dd_wf (Dd (ar sp) (init_table (ar sp) 0) (if fst (get_root sp) =? 0 then n0 else n1))) as Hwf.
  { apply term_dd_wf; [apply Hok|]. destruct (fst (get_root sp) =? 0); simpl; lia. }
  split_and!; try done.
  - unfold numVars, top_level. simpl. lia.
  - unfold root_tree at 2. destruct (Z.eqb_spec (fst (get_root sp)) 0) as [E|E].
    + rewrite E, stree_0. rewrite (root_tree_dd _ T0); [done|done|]. by apply rep_0.
    + rewrite stree_neg by lia. rewrite (root_tree_dd _ T1); [done|done|]. by apply rep_1.
  - intros f Hf [p Hp]. exfalso. unfold tget in Hp. simpl in Hp. destruct (row f); [lia|done].
  - intros _ _ [|i] r Hi Hr; [lia|done].
Qed.

Section inst.
  Context (sp : spec) (Hok : spec_ok sp) (nt tasks : nat) (Hnt : (0 < nt)%nat) (Htk : (0 < tasks)%nat).
  Context (sched : nat -> list (nat * nat)) (Hs : sched_ok nt (fun _ => tasks) sched).
  Context (grp : Z -> St sp -> nat) (Hgrp : forall c s, (grp c s < tasks)%nat).
  Context (Hgeq : forall c s s', hash_code sp c s = hash_code sp c s' -> grp c s = grp c s').
  Let ch := fun (i _g : nat) (s : St sp) (b : nat) =>
    let r := get_child sp s (Z.of_nat i) b in Some (fst r, grp (fst r) (snd r), snd r).

  Let n := Z.to_nat (fst (get_root sp)).
  Definition bR (i g : nat) (s : St sp) : Prop :=
    reach sp (Z.of_nat i) s /\ ((i < n)%nat -> g = grp (Z.of_nat i) s).

  Lemma inst_built : 0 < fst (get_root sp) ->
    exists t root, build (ar sp) (sp_hash sp) (sp_eqb sp) nt (fun _ => tasks) ch sched false n 0 (snd (get_root sp)) = Some (t, root) /\
      built sp (Dd (ar sp) t root).
  Proof.
    intros Hc.
    pose (tr := fun (i g : nat) (s : St sp) => nz (stree sp (Z.of_nat i) s)).
    destruct (build_ok (ar sp) nt (fun _ => tasks) (sp_eqb sp) (sp_hash sp) ch sched false bR tr n 0 (snd (get_root sp)))
      as (t & root & E & Hwf & Hlen & (T & HT & Enz) & Hroot & Hpar & Hreps).
    - intros i g s b [Hr _] Hb. do 3 eexists. split; [reflexivity|].
      pose proof (ok_level sp Hok _ _ b Hr Hb) as Hl. split; [done|]. intros Hp. split; [apply Hgrp|].
      rewrite <- (Z2Nat.id (fst (get_child sp s (Z.of_nat i) b))) by lia.
      rewrite Nat2Z.id. split; [|].
      + rewrite Z2Nat.id by lia. by apply reach_child.
      + by rewrite Z2Nat.id by lia.
    - intros i g s [Hr _]. unfold tr. pose proof (reach_pos _ _ _ Hr).
      rewrite stree_node by done. cbn [nz]. rewrite Nat2Z.id. f_equal. rewrite map_map. apply map_ext_in.
      intros b Hb. apply in_seq in Hb. unfold ctree, ch. cbn beta iota zeta.
      destruct (Z.eqb_spec (fst (get_child sp s (Z.of_nat i) b)) 0) as [->|]; [by rewrite stree_0|].
      destruct (Z.ltb_spec (fst (get_child sp s (Z.of_nat i) b)) 0); [by rewrite stree_neg|].
      by rewrite Z2Nat.id by lia.
    - intros i g s s' [Hr _] [Hr' _] He. unfold tr. f_equal. by apply equal_tree.
    - intros i. apply Hs.
    - intros i x Hx. destruct (Hs i) as [_ HF]. rewrite Forall_forall in HF. by apply HF.
    - apply Hok.
    - unfold n. lia.
    - done.
    - done.
    - split; [|lia]. unfold n. rewrite Z2Nat.id by lia. by apply reach_root.
    - exists t, root. split; [done|]. split_and!; try done.
      + unfold numVars, top_level. simpl. unfold n in Hlen. lia.
      + rewrite (root_tree_dd _ T) by done. rewrite Enz. unfold tr, root_tree, n. by rewrite Z2Nat.id by lia.
      + intros Hsym Hhash i r Hi Hr. simpl in Hr. assert (i <= n)%nat as Hin by (apply lookup_lt_Some in Hr; lia).
        destruct (decide (i = n)) as [->|Hne].
        { exists [snd (get_root sp)]. split_and!.
          - destruct Hroot as [->|[-> Hl]].
            + destruct r as [|p r]; [simpl; lia|]. exfalso.
              destruct (Hpar (mk n 0)) as (f' & b & g & Hch & _ & Hlt); [simpl; lia| | |].
              * unfold tget. simpl. rewrite Hr. by eexists.
              * intros E'. inversion E'. lia.
              * unfold child, tget in Hch. simpl in Hlt. destruct (t !! row f') as [x|] eqn:Ex; [|done].
                apply lookup_lt_Some in Ex. lia.
            + rewrite Hr in Hl. simpl in Hl. inversion Hl as [Hl']. simpl. lia.
          - constructor; [|done]. unfold n. rewrite Z2Nat.id by lia. by apply reach_root.
          - repeat constructor. }
        destruct (Hreps i r ltac:(lia) Hr) as (rs & Hle & HF & HP). exists (map snd rs). split_and!.
        * by rewrite map_length.
        * apply Forall_map. eapply Forall_impl; [exact HF|]. intros [g s] [_ [Hre _]]. done.
        * assert (eq_hash_ok (sp_hash sp) (sp_eqb sp) i) as Hoki.
          { split; [intros; apply Hsym|intros s s' He; by apply Hhash]. }
          specialize (HP Hoki). clear Hle. induction HP as [|x rs Hx HP IH]; [constructor|]. simpl.
          apply Forall_cons in HF as [Hxr HF]. constructor; [|by apply IH].
          apply Forall_map. rewrite Forall_forall in *. intros y Hy.
          destruct (equal_to sp (Z.of_nat i) (snd x) (snd y)) eqn:Ee; [|done].
          rewrite <- Ee. apply (Hx y Hy).
          destruct Hxr as [_ [_ Hgx]], (HF y Hy) as [_ [_ Hgy]]. rewrite Hgx, Hgy by lia.
          by apply Hgeq, Hhash.
  Qed.
End inst.

Theorem construct_built sp : spec_ok sp -> exists d, construct_dd sp = Some d /\ built sp d.
Proof.
  intros Hok. unfold construct_dd. destruct (get_root sp) as [c s] eqn:Eg.
  pose proof (built_term sp Hok) as Ht. pose proof (inst_built sp Hok 1 1 ltac:(lia) ltac:(lia) (fun _ => [(0%nat, 0%nat)])
    ltac:(intros i; split; [done|repeat constructor]) (fun _ _ => 0%nat) ltac:(intros; simpl; lia) ltac:(done)) as Hb.
  rewrite Eg in Ht, Hb. simpl in Ht, Hb.
  destruct (Z.leb_spec c 0) as [Hc|Hc]; [eexists; split; [done|by apply Ht]|].
  destruct (Hb Hc) as (t & root & E & HB).
  match type of E with ?x = _ => match goal with |- context [mbind _ ?y] => change y with x end end.
  rewrite E. cbn [mbind option_bind]. by eexists.
Qed.

Theorem construct_mp_built sp nt tasks sched :
  spec_ok sp -> (0 < nt)%nat -> (0 < tasks)%nat -> sched_ok nt (fun _ => tasks) sched ->
  exists d, construct_mp sp nt tasks sched = Some d /\ built sp d.
Proof.
  intros Hok Hnt Htk Hs. unfold construct_mp. destruct (get_root sp) as [c s] eqn:Eg.
  pose proof (built_term sp Hok) as Ht. pose proof (inst_built sp Hok nt tasks Hnt Htk sched Hs
    (fun c s => N.to_nat (hash_code sp c s mod N.of_nat tasks)%N)) as Hb.
  rewrite Eg in Ht, Hb. simpl in Ht, Hb.
  destruct (Z.leb_spec c 0) as [Hc|Hc]; [eexists; split; [done|by apply Ht]|].
  destruct Hb as (t & root & E & HB).
  - intros c' s'. pose proof (N.mod_lt (hash_code sp c' s') (N.of_nat tasks)). lia.
  - intros c' s1 s2 ->. done.
  - done.
  - match type of E with ?x = _ => match goal with |- context [mbind _ ?y] => change y with x end end.
    rewrite E. cbn [mbind option_bind]. by eexists.
Qed.

Lemma built_sem sp d n v : spec_ok sp -> built sp d -> vec_ok (ar sp) v ->
  bdd_sem (dd_spec d) n v = bdd_sem sp n v /\ zdd_sem (dd_spec d) n v = zdd_sem sp n v.
Proof.
  intros Hok (Ha & Hwf & _ & Enz & _) Hv. pose proof (dd_spec_ok d Hwf) as Hok'.
  assert (vec_ok (ar (dd_spec d)) v) as Hv' by (simpl; by rewrite Ha).
  rewrite !bdd_sem_tree, !zdd_sem_tree by done.
  rewrite <- (tbdd_nz n (root_tree (dd_spec d))), <- (tzdd_nz n (root_tree (dd_spec d))), Enz, tbdd_nz, tzdd_nz. done.
Qed.
