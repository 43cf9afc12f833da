(** Decision trees: unfoldings of specifications and of node tables (proof device). *)
From Verif Require Import Base Sem M_Table.

Inductive tree := T0 | T1 | TN (l : nat) (ts : list tree).

Section tree_ind'.
  Variable P : tree -> Prop.
  Hypothesis H0 : P T0.
  Hypothesis H1 : P T1.
  Hypothesis HN : forall l ts, Forall P ts -> P (TN l ts).
  Fixpoint tree_ind' (T : tree) : P T :=
    match T with
    | T0 => H0
    | T1 => H1
    | TN l ts => HN l ts ((fix go ts : Forall P ts :=
        match ts with
        | [] => Forall_nil_2 P
        | t :: ts' => Forall_cons_2 P t ts' (tree_ind' t) (go ts')
        end) ts)
    end.
End tree_ind'.

Global Instance tree_eq_dec : EqDecision tree.
Proof.
  refine (fix go (x y : tree) : Decision (x = y) :=
    match x, y with
    | T0, T0 => left _
    | T1, T1 => left _
    | TN l ts, TN l' ts' =>
        match decide (l = l') with
        | left _ => match @list_eq_dec _ go ts ts' with left _ => left _ | right _ => right _ end
        | right _ => right _
        end
    | _, _ => right _
    end); congruence.
Defined.

Definition tlev (T : tree) : nat := match T with TN l _ => l | _ => 0 end.

Fixpoint tbdd (l : nat) (T : tree) (v : vec) : bool :=
  match l with
  | O => bool_decide (T = T1)
  | S l' => match T with
            | TN k ts => if k =? l then tbdd l' (nth (v l) ts T0) v else tbdd l' T v
            | _ => tbdd l' T v
            end
  end.

Fixpoint tzdd (l : nat) (T : tree) (v : vec) : bool :=
  match l with
  | O => bool_decide (T = T1)
  | S l' => match T with
            | TN k ts => if k =? l then tzdd l' (nth (v l) ts T0) v
                         else if v l =? 0 then tzdd l' T v else false
            | _ => if v l =? 0 then tzdd l' T v else false
            end
  end.

(** Ordered trees with all nodes of arity [a]. *)
Inductive tok (a : nat) : tree -> Prop :=
| tok_0 : tok a T0
| tok_1 : tok a T1
| tok_N l ts : 0 < l -> length ts = a -> Forall (tok a) ts -> Forall (fun t => tlev t < l) ts ->
               tok a (TN l ts).

(** Unfolding of a specification. *)
Fixpoint unfold (sp : spec) (fuel : nat) (c : Z) (s : St sp) : tree :=
  if (c =? 0)%Z then T0 else if (c <? 0)%Z then T1 else
  match fuel with
  | O => T0
  | S k => TN (Z.to_nat c)
              (map (fun b => let r := get_child sp s c b in unfold sp k (fst r) (snd r)) (seq 0 (ar sp)))
  end.

Definition stree (sp : spec) (c : Z) (s : St sp) : tree := unfold sp (Z.to_nat c) c s.
Definition root_tree (sp : spec) : tree := stree sp (fst (get_root sp)) (snd (get_root sp)).

(** Unfolding of a node table. *)
Inductive rep (t : table) : nid -> tree -> Prop :=
| rep_0 f : row f = 0 -> col f = 0 -> rep t f T0
| rep_1 f : row f = 0 -> col f = 1 -> rep t f T1
| rep_N f p ts : 0 < row f -> tget t f = Some p -> Forall2 (rep t) p ts ->
                 Forall (fun g => row g < row f) p -> rep t f (TN (row f) ts).

(** * Specifications and trees *)
Section spec_tree.
  Context (sp : spec) (Hok : spec_ok sp).

  Definition creach (c : Z) (s : St sp) : Prop := (0 < c)%Z -> reach sp c s.

  Lemma creach_root : creach (fst (get_root sp)) (snd (get_root sp)).
  Proof. intros H. by apply reach_root. Qed.

  Lemma creach_child l s b :
    reach sp l s -> b < ar sp -> creach (fst (get_child sp s l b)) (snd (get_child sp s l b)).
  Proof. intros ?? H. by apply reach_child. Qed.

  Lemma unfold_fuel k k' c s :
    creach c s -> Z.to_nat c <= k -> Z.to_nat c <= k' -> unfold sp k c s = unfold sp k' c s.
  Proof.
    revert k' c s; induction k as [|k IH]; intros k' c s Hr Hk Hk'.
    - assert (c <= 0)%Z by lia. destruct k'; simpl; destruct (Z.eqb_spec c 0); try done;
        destruct (Z.ltb_spec c 0); try done; lia.
    - destruct (Z.leb_spec c 0) as [Hc|Hc].
      + simpl. destruct k'; simpl; destruct (Z.eqb_spec c 0); try done;
          destruct (Z.ltb_spec c 0); try done; lia.
      + destruct k' as [|k']; [lia|]. simpl.
        destruct (Z.eqb_spec c 0); [done|]. destruct (Z.ltb_spec c 0); [done|].
        f_equal. apply map_ext_in. intros b Hb. apply in_seq in Hb.
        specialize (Hr Hc).
        pose proof (ok_level sp Hok c s b Hr ltac:(lia)) as Hl.
        apply IH; [by apply creach_child; [|lia]|lia|lia].
  Qed.

  Lemma stree_node c s :
    (0 < c)%Z -> reach sp c s ->
    stree sp c s = TN (Z.to_nat c)
       (map (fun b => stree sp (fst (get_child sp s c b)) (snd (get_child sp s c b))) (seq 0 (ar sp))).
  Proof.
    intros Hc Hr. unfold stree at 1. destruct (Z.to_nat c) as [|k] eqn:Hk; [lia|]. simpl.
    destruct (Z.eqb_spec c 0); [lia|]. destruct (Z.ltb_spec c 0); [lia|]. rewrite Hk.
    f_equal. apply map_ext_in. intros b Hb. apply in_seq in Hb.
    pose proof (ok_level sp Hok c s b Hr ltac:(lia)) as Hl.
    apply unfold_fuel; [by apply creach_child; [|lia]|lia|lia].
  Qed.

  Lemma stree_0 s : stree sp 0 s = T0.
  Proof. done. Qed.
  Lemma stree_neg c s : (c < 0)%Z -> stree sp c s = T1.
  Proof. intros H. unfold stree. rewrite Z2Nat.nonpos by lia. simpl.
    destruct (Z.eqb_spec c 0); [lia|]. by destruct (Z.ltb_spec c 0); [|lia]. Qed.

  Lemma stree_lev c s : creach c s -> tlev (stree sp c s) = Z.to_nat c.
  Proof.
    intros Hr. destruct (Z.leb_spec c 0) as [Hc|Hc].
    - destruct (decide (c = 0%Z)) as [->|]; [done|]. rewrite stree_neg by lia. simpl. lia.
    - rewrite stree_node by auto. done.
  Qed.

  Lemma stree_tok c s : creach c s -> tok (ar sp) (stree sp c s).
  Proof.
    remember (Z.to_nat c) as k eqn:Hk. revert c s Hk.
    induction k as [k IH] using lt_wf_ind. intros c s Hk Hr.
    destruct (Z.leb_spec c 0) as [Hc|Hc].
    - destruct (decide (c = 0%Z)) as [->|]; [constructor|]. rewrite stree_neg by lia. constructor.
    - rewrite stree_node by auto. constructor.
      + lia.
      + by rewrite map_length, seq_length.
      + apply Forall_forall. intros T HT. apply elem_of_list_In, in_map_iff in HT.
        destruct HT as (b & <- & Hb). apply in_seq in Hb.
        pose proof (ok_level sp Hok c s b (Hr Hc) ltac:(lia)) as Hl.
        eapply IH; [|reflexivity|by apply creach_child; [auto|lia]]. lia.
      + apply Forall_forall. intros T HT. apply elem_of_list_In, in_map_iff in HT.
        destruct HT as (b & <- & Hb). apply in_seq in Hb.
        pose proof (ok_level sp Hok c s b (Hr Hc) ltac:(lia)) as Hl.
        rewrite stree_lev by (by apply creach_child; [auto|lia]). lia.
  Qed.

  Lemma nth_map_seq {A} (f : nat -> A) a b d : b < a -> nth b (map f (seq 0 a)) d = f b.
  Proof.
    intros H. rewrite (nth_indep _ d (f 0)) by (rewrite map_length, seq_length; lia).
    rewrite map_nth, seq_nth by lia. done.
  Qed.

  Lemma bdd_eval_tree l c s v :
    vec_ok (ar sp) v -> creach c s -> bdd_eval sp l c s v = tbdd l (stree sp c s) v.
  Proof.
    intros Hv. revert c s. induction l as [|l IH]; intros c s Hr.
    - simpl. destruct (Z.ltb_spec c 0) as [Hc|Hc].
      + rewrite stree_neg by lia. done.
      + destruct (decide (c = 0%Z)) as [->|]; [done|]. rewrite stree_node by (try apply Hr; lia). done.
    - destruct (Z.leb_spec c 0) as [Hc|Hc].
      + cbn [bdd_eval tbdd]. destruct (Z.eqb_spec c (Z.of_nat (S l))); [lia|].
        rewrite IH by done.
        destruct (decide (c = 0%Z)) as [->|]; [done|]. rewrite stree_neg by lia. done.
      + cbn [bdd_eval]. destruct (Z.eqb_spec c (Z.of_nat (S l))) as [->|Hne].
        * rewrite (stree_node (Z.of_nat (S l)) s) by auto. cbn [tbdd].
          rewrite Nat2Z.id, Nat.eqb_refl. rewrite IH by (apply creach_child; auto).
          by rewrite nth_map_seq by apply Hv.
        * rewrite IH by done. rewrite (stree_node c s) by auto. cbn [tbdd].
          destruct (Nat.eqb_spec (Z.to_nat c) (S l)); [lia|]. done.
  Qed.

  Lemma zdd_eval_tree l c s v :
    vec_ok (ar sp) v -> creach c s -> zdd_eval sp l c s v = tzdd l (stree sp c s) v.
  Proof.
    intros Hv. revert c s. induction l as [|l IH]; intros c s Hr.
    - simpl. destruct (Z.ltb_spec c 0) as [Hc|Hc].
      + rewrite stree_neg by lia. done.
      + destruct (decide (c = 0%Z)) as [->|]; [done|]. rewrite stree_node by (try apply Hr; lia). done.
    - destruct (Z.leb_spec c 0) as [Hc|Hc].
      + cbn [zdd_eval tzdd]. destruct (Z.eqb_spec c (Z.of_nat (S l))); [lia|].
        rewrite IH by done.
        destruct (decide (c = 0%Z)) as [->|]; [done|]. rewrite stree_neg by lia. done.
      + cbn [zdd_eval]. destruct (Z.eqb_spec c (Z.of_nat (S l))) as [->|Hne].
        * rewrite (stree_node (Z.of_nat (S l)) s) by auto. cbn [tzdd].
          rewrite Nat2Z.id, Nat.eqb_refl. rewrite IH by (apply creach_child; auto).
          by rewrite nth_map_seq by apply Hv.
        * rewrite IH by done. rewrite (stree_node c s) by auto. cbn [tzdd].
          destruct (Nat.eqb_spec (Z.to_nat c) (S l)); [lia|]. done.
  Qed.

  Lemma bdd_sem_tree n v : vec_ok (ar sp) v -> bdd_sem sp n v = tbdd n (root_tree sp) v.
  Proof. intros Hv. apply bdd_eval_tree; [done|apply creach_root]. Qed.
  Lemma zdd_sem_tree n v : vec_ok (ar sp) v -> zdd_sem sp n v = tzdd n (root_tree sp) v.
  Proof. intros Hv. apply zdd_eval_tree; [done|apply creach_root]. Qed.

  (** states with the same future have the same tree *)
  Lemma same_future_child c s s' b :
    (0 < c)%Z -> b < ar sp -> same_future sp c s s' ->
    fst (get_child sp s c b) = fst (get_child sp s' c b) /\
    same_future sp (fst (get_child sp s c b)) (snd (get_child sp s c b)) (snd (get_child sp s' c b)).
  Proof.
    intros Hc Hb Hf.
    assert (fst (get_child sp s c b) = fst (get_child sp s' c b)) as He.
    { pose proof (Hf [b] ltac:(repeat constructor; lia)) as H. cbn in H.
      destruct (Z.ltb_spec 0 c); [|lia]. by inversion H. }
    split; [done|]. intros bs Hbs.
    pose proof (Hf (b :: bs) ltac:(constructor; [lia|done])) as H. cbn [run] in H.
    destruct (Z.ltb_spec 0 c); [|lia]. rewrite <- He in H. by inversion H.
  Qed.

  Lemma same_future_tree c s s' :
    creach c s -> creach c s' -> same_future sp c s s' -> stree sp c s = stree sp c s'.
  Proof.
    remember (Z.to_nat c) as k eqn:Hk. revert c s s' Hk.
    induction k as [k IH] using lt_wf_ind. intros c s s' Hk Hr Hr' Hf.
    destruct (Z.leb_spec c 0) as [Hc|Hc].
    - destruct (decide (c = 0%Z)) as [->|]; [done|]. by rewrite !stree_neg by lia.
    - rewrite !stree_node by auto. f_equal. apply map_ext_in. intros b Hb. apply in_seq in Hb.
      destruct (same_future_child c s s' b Hc ltac:(lia) Hf) as [He Hf'].
      pose proof (ok_level sp Hok c s b (Hr Hc) ltac:(lia)) as Hl.
      assert (creach (fst (get_child sp s' c b)) (snd (get_child sp s' c b))) as Hc'
        by (apply creach_child; [auto|lia]).
      rewrite <- He in *. eapply IH; [|reflexivity|apply creach_child; [auto|lia]| |done]; [lia|].
      done.
  Qed.

  Lemma equal_tree l s s' :
    reach sp l s -> reach sp l s' -> equal_to sp l s s' = true -> stree sp l s = stree sp l s'.
  Proof.
    intros H H' He. apply same_future_tree; [by intros _|by intros _|by apply (ok_equal sp Hok)].
  Qed.

  Lemma root_tok : tok (ar sp) (root_tree sp).
  Proof. apply stree_tok, creach_root. Qed.
End spec_tree.

Lemma reach_pos sp l s : reach sp l s -> (0 < l)%Z.
Proof. by destruct 1. Qed.

(** * Basic facts on trees *)
Lemma tok_lev_child a l ts b : tok a (TN l ts) -> tlev (nth b ts T0) < l.
Proof.
  inversion 1; subst. destruct (decide (b < length ts)).
  - eapply (Forall_forall (fun t => tlev t < l)); [done|]. apply elem_of_list_In, nth_In. done.
  - rewrite nth_overflow by lia. done.
Qed.

Lemma tok_child a l ts b : tok a (TN l ts) -> tok a (nth b ts T0).
Proof.
  inversion 1; subst. destruct (decide (b < length ts)).
  - eapply (Forall_forall (tok (length ts))); [done|]. apply elem_of_list_In, nth_In. done.
  - rewrite nth_overflow by lia. constructor.
Qed.

Lemma tbdd_T0 l v : tbdd l T0 v = false.
Proof. induction l; simpl; done. Qed.
Lemma tzdd_T0 l v : tzdd l T0 v = false.
Proof. induction l; simpl; [done|]. by destruct (v (S l) =? 0). Qed.

(** BDD reading of a tree whose level is below [l]: skip. *)
Lemma tbdd_skip l T v : tlev T < S l -> tbdd (S l) T v = tbdd l T v.
Proof.
  intros H. destruct T as [| |k ts]; try done. simpl in H. cbn [tbdd].
  destruct (Nat.eqb_spec k (S l)); [lia|done].
Qed.
Lemma tzdd_skip l T v : tlev T < S l -> tzdd (S l) T v = if v (S l) =? 0 then tzdd l T v else false.
Proof.
  intros H. destruct T as [| |k ts]; try done. simpl in H. cbn [tzdd].
  destruct (Nat.eqb_spec k (S l)); [lia|done].
Qed.
Lemma tbdd_node l ts v : tbdd (S l) (TN (S l) ts) v = tbdd l (nth (v (S l)) ts T0) v.
Proof. cbn [tbdd]. by rewrite Nat.eqb_refl. Qed.
Lemma tzdd_node l ts v : tzdd (S l) (TN (S l) ts) v = tzdd l (nth (v (S l)) ts T0) v.
Proof. cbn [tzdd]. by rewrite Nat.eqb_refl. Qed.

(** ** Collapsing all-zero nodes *)
Definition all0 (ts : list tree) : bool := forallb (fun t => bool_decide (t = T0)) ts.
Definition nzN (l : nat) (ts : list tree) : tree := if all0 ts then T0 else TN l ts.
Fixpoint nz (T : tree) : tree :=
  match T with
  | TN l ts => nzN l (map nz ts)
  | _ => T
  end.

Lemma all0_true ts : all0 ts = true <-> forall b, nth b ts T0 = T0.
Proof.
  unfold all0. rewrite forallb_forall. split.
  - intros H b. destruct (decide (b < length ts)).
    + specialize (H (nth b ts T0) (nth_In _ _ l)). by apply bool_decide_eq_true in H.
    + by rewrite nth_overflow by lia.
  - intros H x Hx. apply bool_decide_eq_true. apply In_nth with (d := T0) in Hx.
    destruct Hx as (b & _ & <-). done.
Qed.

Lemma tlev_nz T : tlev (nz T) <= tlev T.
Proof. destruct T as [| |l ts]; simpl; try lia. unfold nzN. destruct (all0 _); simpl; lia. Qed.

Lemma nth_map_T0 (f : tree -> tree) ts b : f T0 = T0 -> nth b (map f ts) T0 = f (nth b ts T0).
Proof. intros H. rewrite <- H at 1. apply map_nth. Qed.

Lemma tbdd_nz l T v : tbdd l (nz T) v = tbdd l T v.
Proof.
  revert T. induction l as [|l IH]; intros T.
  - destruct T as [| |k ts]; try done. cbn [tbdd nz]. unfold nzN.
    destruct (all0 _); done.
  - destruct T as [| |k ts]; try done. cbn [nz]. unfold nzN.
    destruct (all0 (map nz ts)) eqn:Ha.
    + rewrite tbdd_T0. cbn [tbdd]. destruct (Nat.eqb_spec k (S l)).
      * rewrite <- IH. rewrite <- (nth_map_T0 nz) by done.
        rewrite (proj1 (all0_true _) Ha). by rewrite tbdd_T0.
      * rewrite <- IH. cbn [nz]. unfold nzN. rewrite Ha. by rewrite tbdd_T0.
    + cbn [tbdd]. destruct (Nat.eqb_spec k (S l)).
      * rewrite nth_map_T0 by done. apply IH.
      * rewrite <- (IH (TN k ts)). cbn [nz]. unfold nzN. by rewrite Ha.
Qed.

Lemma tzdd_nz l T v : tzdd l (nz T) v = tzdd l T v.
Proof.
  revert T. induction l as [|l IH]; intros T.
  - destruct T as [| |k ts]; try done. cbn [tzdd nz]. unfold nzN.
    destruct (all0 _); done.
  - destruct T as [| |k ts]; try done. cbn [nz]. unfold nzN.
    destruct (all0 (map nz ts)) eqn:Ha.
    + rewrite tzdd_T0. cbn [tzdd]. destruct (Nat.eqb_spec k (S l)).
      * rewrite <- IH. rewrite <- (nth_map_T0 nz) by done.
        rewrite (proj1 (all0_true _) Ha). by rewrite tzdd_T0.
      * destruct (v (S l) =? 0); [|done].
        rewrite <- IH. cbn [nz]. unfold nzN. rewrite Ha. by rewrite tzdd_T0.
    + cbn [tzdd]. destruct (Nat.eqb_spec k (S l)).
      * rewrite nth_map_T0 by done. apply IH.
      * destruct (v (S l) =? 0); [|done].
        rewrite <- (IH (TN k ts)). cbn [nz]. unfold nzN. by rewrite Ha.
Qed.

Lemma nz_idem T : nz (nz T) = nz T.
Proof.
  induction T as [| |l ts IH] using tree_ind'; try done.
  cbn [nz]. unfold nzN. destruct (all0 (map nz ts)) eqn:Ha; [done|].
  cbn [nz]. rewrite map_map.
  assert (map (fun T => nz (nz T)) ts = map nz ts) as ->.
  { apply map_ext_in. intros T HT.
    apply elem_of_list_In in HT. by eapply Forall_forall in IH. }
  unfold nzN. by rewrite Ha.
Qed.

(** ** Node tables and trees *)
Lemma rep_det t f T T' : rep t f T -> rep t f T' -> T = T'.
Proof.
  revert f T'. induction T as [| |l ts IH] using tree_ind'; intros f T' H H'.
  - inversion H; subst; inversion H'; subst; try done; congruence || lia.
  - inversion H; subst; inversion H'; subst; try done; congruence || lia.
  - inversion H as [| |f' p ts' Hr Hg HF Hlt]; subst.
    inversion H' as [| |f2 p2 ts2 Hr2 Hg2 HF2 Hlt2]; subst; try lia.
    rewrite Hg in Hg2; inversion Hg2; subst p2. f_equal.
    clear -IH HF HF2. revert ts2 HF2. induction HF as [|g T p ts HgT HF IHF]; intros ts2 HF2.
    + by inversion HF2.
    + inversion HF2; subst. inversion IH; subst. f_equal; eauto.
Qed.

Lemma rep_lev t f T : rep t f T -> tlev T = row f.
Proof. by destruct 1. Qed.

Lemma rep_valid t f T : rep t f T -> valid t f.
Proof.
  unfold valid. destruct 1 as [f H1 H2|f H1 H2|f p ts H1 H2 _ _].
  - rewrite H1. simpl. lia.
  - rewrite H1. simpl. lia.
  - destruct (Nat.eqb_spec (row f) 0); [lia|]. rewrite H2. by eexists.
Qed.

Lemma rep_exists a t : table_wf a t -> forall f, valid t f -> exists T, rep t f T.
Proof.
  intros Hwf f. remember (row f) as k eqn:Hk. revert f Hk.
  induction k as [k IH] using lt_wf_ind. intros f Hk Hv. unfold valid in Hv.
  destruct (Nat.eqb_spec (row f) 0) as [H0|H0].
  - destruct (decide (col f = 0)); [exists T0; by constructor|].
    exists T1; constructor; lia.
  - destruct Hv as [p Hp].
    assert (exists r, t !! row f = Some r /\ r !! col f = Some p) as (r & Hr & Hrp).
    { unfold tget in Hp. destruct (t !! row f) as [r|]; [|done]. by exists r. }
    assert (forall g, g ∈ p -> row g < row f /\ exists T, rep t g T) as Hch.
    { intros g Hg. apply elem_of_list_lookup in Hg. destruct Hg as [b Hb].
      destruct (wf_child a t Hwf (row f) r (col f) p b g ltac:(lia) Hr Hrp Hb) as [Hlt Hvg].
      split; [done|]. eapply IH; [|reflexivity|done]. lia. }
    assert (exists ts, Forall2 (rep t) p ts) as [ts Hts].
    { clear -Hch. induction p as [|g p IHp]; [by exists []|].
      destruct IHp as [ts Hts]. { intros g' Hg'. apply Hch. by right. }
      destruct (Hch g ltac:(by left)) as [_ [T HT]]. exists (T :: ts). by constructor. }
    exists (TN (row f) ts). econstructor; [lia|done|done|].
    apply Forall_forall. intros g Hg. by apply Hch.
Qed.

Lemma rep_tok a t f T : table_wf a t -> rep t f T -> tok a T.
Proof.
  intros Hwf. revert f. induction T as [| |l ts IH] using tree_ind'; intros f H; try constructor.
  - inversion H; subst; lia.
  - inversion H as [| |f' p ts' Hr Hg HF Hlt]; subst.
    rewrite <- (Forall2_length _ _ _ HF).
    unfold tget in Hg. destruct (t !! row f) as [r|] eqn:Hrow; [|done].
    by eapply (wf_arity a t Hwf).
  - inversion H as [| |f' p ts' Hr Hg HF Hlt]; subst. clear -IH HF.
    revert ts IH HF. induction p as [|g p IHp]; intros ts IH HF; inversion HF; subst; [constructor|].
    inversion IH; subst. constructor; eauto.
  - inversion H as [| |f' p ts' Hr Hg HF Hlt]; subst. clear -Hlt HF.
    revert ts HF. induction p as [|g p IHp]; intros ts HF; inversion HF; subst; [constructor|].
    inversion Hlt; subst. constructor; [|by apply IHp]. by erewrite rep_lev.
Qed.

Lemma id_level_le f : (Z.to_nat (id_level f) <= row f).
Proof. unfold id_level. destruct (Nat.ltb_spec 0 (row f)); lia. Qed.

Lemma unfold_rep d f T fuel :
  d_ar d = d_ar d ->
  (forall p g, tget (tab d) g = Some p -> 0 < row g -> length p = d_ar d) ->
  rep (tab d) f T -> row f <= fuel -> unfold (dd_spec d) fuel (id_level f) f = T.
Proof.
  intros _ Har. revert f fuel. induction T as [| |l ts IH] using tree_ind'; intros f fuel H Hfuel.
  - inversion H as [? H1 H2|? H1 H2|]; subst. unfold id_level. rewrite H1, H2. by destruct fuel.
  - inversion H as [? H1 H2|? H1 H2|]; subst. unfold id_level. rewrite H1, H2. by destruct fuel.
  - inversion H as [| |f' p ts' Hr Hg HF Hlt]; subst.
    destruct fuel as [|fuel]; [lia|].
    assert (id_level f = Z.of_nat (row f)) as Hid.
    { unfold id_level. destruct (Nat.ltb_spec 0 (row f)); [done|lia]. }
    cbn [unfold]. rewrite Hid. destruct (Z.eqb_spec (Z.of_nat (row f)) 0); [lia|].
    destruct (Z.ltb_spec (Z.of_nat (row f)) 0); [lia|]. rewrite Nat2Z.id. f_equal.
    assert (length p = d_ar d) as Hlen by (by eapply Har).
    assert (length ts = d_ar d) as Hlts by (rewrite <- Hlen; symmetry; by eapply Forall2_length).
    apply list_eq. intros b.
    destruct (decide (b < d_ar d)) as [Hb|Hb].
    2:{ rewrite !lookup_ge_None_2; [done| |].
        - rewrite Hlts. lia. - rewrite map_length, seq_length. simpl. lia. }
    destruct (lookup_lt_is_Some_2 p b ltac:(lia)) as [g Hgb].
    destruct (lookup_lt_is_Some_2 ts b ltac:(lia)) as [T HT].
    rewrite HT.
    rewrite list_lookup_fmap, lookup_seq_lt by (simpl; lia). cbn [fmap option_fmap option_map Nat.add].
    assert (child (tab d) f b = Some g) as Hc by (unfold child; rewrite Hg; exact Hgb).
    cbn [dd_spec get_child]. rewrite Hc. cbn [fst snd]. f_equal.
    eapply (Forall_lookup_1 _ _ _ _ IH HT).
    + by eapply (Forall2_lookup_lr _ _ _ _ _ _ HF).
    + apply (Forall_lookup_1 _ _ _ _ Hlt) in Hgb. lia.
Qed.

Lemma root_level_eq d :
  valid (tab d) (rt d) -> fst (get_root (dd_spec d)) = id_level (rt d).
Proof.
  unfold valid. simpl. unfold neqb, n1, id_level. simpl.
  destruct (Nat.eqb_spec (row (rt d)) 0) as [H|H]; intros Hv.
  - rewrite H. simpl. destruct (Nat.eqb_spec (col (rt d)) 1) as [->|]; [done|].
    replace (col (rt d)) with 0 by lia. done.
  - simpl. destruct (Nat.ltb_spec 0 (row (rt d))); [done|lia].
Qed.

Lemma table_wf_arity a t : table_wf a t ->
  forall p g, tget t g = Some p -> 0 < row g -> length p = a.
Proof.
  intros Hwf p g Hg _. unfold tget in Hg. destruct (t !! row g) as [r|] eqn:Hr; [|done].
  by eapply (wf_arity a t Hwf).
Qed.

Lemma root_tree_dd d T : dd_wf d -> rep (tab d) (rt d) T -> root_tree (dd_spec d) = T.
Proof.
  intros (Ha & Hwf & Hv) Hrep. unfold root_tree, stree. rewrite root_level_eq by done.
  change (snd (get_root (dd_spec d))) with (rt d).
  pose proof (table_wf_arity _ _ Hwf) as HA.
  pose proof (id_level_le (rt d)) as Hle.
  destruct (decide (row (rt d) = 0)) as [H0|H0].
  - apply unfold_rep; [done|done|done|lia].
  - apply unfold_rep; [done|done|done|]. unfold id_level.
    destruct (Nat.ltb_spec 0 (row (rt d))); lia.
Qed.

Lemma neqb_true f g : neqb f g = true <-> code f = code g.
Proof.
  unfold neqb, code. rewrite andb_true_iff, !Nat.eqb_eq. split.
  - intros [-> ->]. done.
  - by inversion 1.
Qed.
Lemma neqb_false f g : neqb f g = false <-> code f <> code g.
Proof. rewrite <- not_true_iff_false. by rewrite neqb_true. Qed.

Lemma tget_code t f g : code f = code g -> tget t f = tget t g.
Proof. unfold code, tget. by inversion 1. Qed.
Lemma child_code t f g b : code f = code g -> child t f b = child t g b.
Proof. unfold child. intros H. by rewrite (tget_code t f g H). Qed.

Lemma rep_code t f g T : code f = code g -> rep t f T -> rep t g T.
Proof.
  unfold code. intros H HT. inversion H as [[Hr Hc]]. inversion HT; subst.
  - apply rep_0; congruence.
  - apply rep_1; congruence.
  - rewrite Hr. econstructor; [lia| |done|by rewrite <- Hr].
    by rewrite <- (tget_code t f g).
Qed.

Lemma dd_reach_valid d : dd_wf d -> forall l f, reach (dd_spec d) l f ->
  valid (tab d) f /\ l = Z.of_nat (row f) /\ 0 < row f.
Proof.
  intros (Ha & Hwf & Hv) l f H. induction H as [H|l f b Hr IH Hb Hp].
  - rewrite root_level_eq in * by done. simpl. unfold id_level in *.
    destruct (Nat.ltb_spec 0 (row (rt d))); [|lia]. auto.
  - destruct IH as (IHv & -> & Hpos). cbn [dd_spec get_child] in *.
    destruct (child (tab d) f b) as [g|] eqn:Hg; [|simpl in Hp; lia].
    cbn [fst snd] in *. unfold id_level in *.
    destruct (Nat.ltb_spec 0 (row g)); [|lia]. split_and!; try done.
    unfold child in Hg. destruct (tget (tab d) f) as [p|] eqn:Hp'; [|done]. simpl in Hg.
    unfold tget in Hp'. destruct (tab d !! row f) as [r|] eqn:Hrow; [|done]. simpl in Hp'.
    by destruct (wf_child _ _ Hwf _ _ _ _ _ _ Hpos Hrow Hp' Hg).
Qed.

Lemma dd_run_code d f g c bs :
  code f = code g -> run (dd_spec d) c f bs = run (dd_spec d) c g bs.
Proof.
  revert c f g. induction bs as [|b bs IH]; intros c f g H; [done|].
  cbn [run]. destruct (0 <? c)%Z; [|done]. cbn [dd_spec get_child].
  rewrite (child_code _ _ _ b H). done.
Qed.

(** A well-formed structure is a specification that obeys the contract. *)
Lemma dd_spec_ok d : dd_wf d -> spec_ok (dd_spec d).
Proof.
  intros Hd. pose proof Hd as (Ha & Hwf & Hv). constructor; [done| |].
  - intros l f b Hr Hb. destruct (dd_reach_valid d Hd l f Hr) as (Hvf & -> & Hpos).
    cbn [dd_spec get_child]. destruct (child (tab d) f b) as [g|] eqn:Hg; cbn [fst snd]; [|lia].
    unfold child in Hg. destruct (tget (tab d) f) as [p|] eqn:Hp'; [|done]. simpl in Hg.
    unfold tget in Hp'. destruct (tab d !! row f) as [r|] eqn:Hrow; [|done]. simpl in Hp'.
    destruct (wf_child _ _ Hwf _ _ _ _ _ _ Hpos Hrow Hp' Hg).
    unfold id_level. destruct (Nat.ltb_spec 0 (row g)); lia.
  - intros l f g Hf Hg He bs _. apply dd_run_code. by apply neqb_true.
Qed.

Lemma dd_bdd_sem d n v T : dd_wf d -> rep (tab d) (rt d) T -> vec_ok (d_ar d) v ->
  bdd_sem (dd_spec d) n v = tbdd n T v.
Proof.
  intros Hd HT Hv. rewrite bdd_sem_tree by (try apply dd_spec_ok; done).
  by rewrite (root_tree_dd d T).
Qed.
Lemma dd_zdd_sem d n v T : dd_wf d -> rep (tab d) (rt d) T -> vec_ok (d_ar d) v ->
  zdd_sem (dd_spec d) n v = tzdd n T v.
Proof.
  intros Hd HT Hv. rewrite zdd_sem_tree by (try apply dd_spec_ok; done).
  by rewrite (root_tree_dd d T).
Qed.
