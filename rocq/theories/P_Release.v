(** zddSubset gives the same result whether or not the rows of its input are released on the way. *)
From Verif Require Import Base Sem M_Table M_Hash M_Sweeper M_Engine M_Builder M_Subset P_Subset.

Lemma ofold_ext {A S} (f g : S -> A -> option S) l : (forall s x, x ∈ l -> f s x = g s x) -> forall s, ofold f l s = ofold g l s.
Proof.
  induction l as [|x l IH]; intros H s; simpl; [done|]. rewrite <- (H s x) by left. destruct (f s x); [|done].
  apply IH. intros s' y Hy. apply H. by right.
Qed.

Section cong.
Context {S : Type} (a : nat) (hashf : nat -> S -> N) (eqbf : nat -> S -> S -> bool) (nt : nat) (ngr : nat -> nat).
Context (sched : nat -> list (nat * nat)) (single : bool).
Context (ch ch' : nat -> nat -> S -> nat -> option (Z * nat * S)).
Context (Hch : forall i g s b, 0 < i -> ch i g s b = ch' i g s b).
Lemma build_cong n g s : build a hashf eqbf nt ngr ch sched single n g s = build a hashf eqbf nt ngr ch' sched single n g s.
Proof.
  unfold build. f_equal. apply ofold_ext. intros st i Hi.
  assert (0 < i) as Hi0. { apply elem_of_reverse, elem_of_seq in Hi. lia. }
  unfold construct. destruct (out st !! i); [|done]. cbn [mbind option_bind].
  destruct (pass1 _ _ _ _ _ _ _ _ _) as [[[idss m] tr]|]; [|done]. cbn [mbind option_bind].
  destruct (fst tr !! i); [|done]. cbn [mbind option_bind].
  destruct (set_row _ _ _) as [t1|]; [|done]. cbn [mbind option_bind].
  assert (pass2 a nt ngr ch sched i (work st) idss t1 = pass2 a nt ngr ch' sched i (work st) idss t1) as ->; [|done].
  unfold pass2. apply ofold_ext. intros acc [g' y] _. destruct (idss !! g') as [ids|]; [|done]. cbn [mbind option_bind].
  apply ofold_ext. intros [[[t w] low] dead] [p f] _. unfold pass2_node. destruct (neqb f n1); [done|].
  unfold ofor. rewrite (ofold_ext (pass2_branch ngr ch i g' y (p_st p) (col f)) (pass2_branch ngr ch' i g' y (p_st p) (col f))); [done|].
  intros [[[t' w'] low'] az] b _. unfold pass2_branch. by rewrite Hch.
Qed.
End cong.

Section rel.
Context (d : dd) (Hd : dd_wf d) (H0 : tab d !! 0 = Some (terminal_row (d_ar d))).
Notation t := (tab d).
Lemma child_low f b g : child t f b = Some g -> row g <= row f.
Proof.
  destruct Hd as (_ & Hw & _). unfold child, tget. destruct (t !! row f) as [r|] eqn:E; [|done]. cbn [mbind option_bind].
  destruct (r !! col f) as [p|] eqn:Ep; [|done]. cbn [mbind option_bind]. intros Hb.
  destruct (decide (row f = 0)) as [Z|Z].
  - rewrite Z in *. rewrite H0 in E. injection E as <-. unfold terminal_row in Ep.
    destruct (col f) as [|[|]]; [..|done]; simpl in Ep; injection Ep as <-; apply lookup_replicate in Hb; destruct Hb as [-> _]; simpl; lia.
  - destruct (wf_child _ _ Hw (row f) r (col f) p b g) as [? _]; [lia|done..|]. lia.
Qed.
Lemma down_loop_rel n i fuel f z : row f <= i -> 
  down_table_loop (input_at false n i t) fuel f z = down_table_loop t fuel f z /\
  forall g, down_table_loop t fuel f z = Some g -> row g <= i.
Proof.
  revert f. induction fuel as [|k IH]; intros f Hf; cbn [down_table_loop].
  - destruct (_ <=? _)%Z; split; intros; simplify_eq; done.
  - destruct (_ <=? _)%Z; [split; intros; simplify_eq; done|]. rewrite input_at_child by done.
    destruct (child t f 0) as [g|] eqn:E; [|split; [done|intros; done]]. cbn [mbind option_bind].
    apply IH. apply child_low in E. lia.
Qed.
Lemma down_table_rel n i f b z : row f <= i ->
  down_table (input_at false n i t) f b z = down_table t f b z /\ forall g, down_table t f b z = Some g -> row g <= i.
Proof.
  intros Hf. unfold down_table. rewrite input_at_child by done. destruct (child t f b) as [g|] eqn:E; [|split; intros; done].
  cbn [mbind option_bind]. apply down_loop_rel. apply child_low in E. lia.
Qed.
Lemma sub_meet_rel sp n i fuel f k s : row f <= i ->
  sub_meet sp (input_at false n i t) fuel f k s = sub_meet sp t fuel f k s.
Proof.
  revert f k s. induction fuel as [|m IH]; intros f k s Hf; cbn [sub_meet]; [done|].
  destruct (_ || _ || _); [done|]. destruct (_ <? _)%Z.
  - destruct (down_table_rel n i f 0 k Hf) as [-> Hg]. destruct (down_table t f 0 k) as [g|]; [|done]. cbn [mbind option_bind].
    apply IH. by apply Hg.
  - destruct (down_spec _ _ _ _ _) as [[i' s']|]; [|done]. cbn [mbind option_bind]. by apply IH.
Qed.
Lemma subset_release threads sched single sp :
  zdd_subset_gen threads sched single false d sp = zdd_subset_gen threads sched single true d sp.
Proof.
  unfold zdd_subset_gen. destruct (get_root sp) as [c s]. destruct (sub_meet _ _ _ _ _ _) as [[[f i] s']|]; [|done].
  cbn [mbind option_bind]. destruct (_ <=? _)%Z; [done|].
  erewrite build_cong; [reflexivity|]. intros l g st b _. unfold sub_child.
  destruct (down_table_rel (Z.to_nat (sub_code f i)) l (mk l g) b (Z.of_nat l - 1)%Z) as [-> Hg]; [simpl; lia|].
  change (input_at true (Z.to_nat (sub_code f i)) l t) with t. destruct (down_table t (mk l g) b _) as [f'|]; [|done]. cbn [mbind option_bind].
  destruct (down_spec _ _ _ _ _) as [[ii s1]|]; [|done]. cbn [mbind option_bind]. rewrite sub_meet_rel; [done|]. by apply Hg.
Qed.
End rel.
