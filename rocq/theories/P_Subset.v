From Verif Require Import Base Sem M_Table Tree M_Hash M_Sweeper M_Engine M_Builder M_Subset P_Hash P_Pass P_Core P_Level P_Engine P_Builder.
Local Open Scope nat_scope.

(** ** Conjunction of trees in the ZDD reading *)
Fixpoint tand (k : nat) (A B : tree) : tree :=
  match A, B with
  | T0, _ | _, T0 => T0
  | T1, T1 => T1
  | _, _ =>
    match k with
    | O => T0
    | S k =>
      match A, B with
      | TN la xs, TN lb ys =>
          if la <? lb then tand k A (nth 0 ys T0)
          else if lb <? la then tand k (nth 0 xs T0) B
          else nzN la (map (fun b => tand k (nth b xs T0) (nth b ys T0)) (seq 0 (length xs)))
      | TN la xs, _ => tand k (nth 0 xs T0) B
      | _, TN lb ys => tand k A (nth 0 ys T0)
      | _, _ => T0
      end
    end
  end.
Lemma tand_0l k B : tand k T0 B = T0.
Proof. by destruct k. Qed.
Lemma tand_0r k A : tand k A T0 = T0.
Proof. destruct k; by destruct A. Qed.
Definition tconj (A B : tree) : tree := tand (tlev A + tlev B) A B.

Lemma tok_pos a l ts : tok a (TN l ts) -> 0 < l.
Proof. by inversion 1. Qed.

Lemma tand_fuel a k k' A B : tok a A -> tok a B -> tlev A + tlev B <= k -> tlev A + tlev B <= k' ->
  tand k A B = tand k' A B.
Proof.
  revert k' A B. induction k as [|k IH]; intros k' A B HA HB Hk Hk'.
  - destruct A as [| |la xs]; [by destruct k'| |apply tok_pos in HA; simpl in Hk; lia].
    destruct B as [| |lb ys]; [by destruct k'|by destruct k'|apply tok_pos in HB; simpl in Hk; lia].
  - destruct A as [| |la xs]; [by destruct k'| |].
    + destruct B as [| |lb ys]; [by destruct k'|by destruct k'|].
      pose proof (tok_pos _ _ _ HB). pose proof (tok_lev_child _ _ _ 0 HB). simpl in Hk, Hk'.
      destruct k' as [|k']; [lia|]. cbn [tand].
      apply IH; [done|by eapply tok_child|simpl; lia|simpl; lia].
    + pose proof (tok_pos _ _ _ HA). pose proof (tok_lev_child _ _ _ 0 HA).
      destruct B as [| |lb ys]; [by destruct k'| |].
      * simpl in Hk, Hk'. destruct k' as [|k']; [lia|]. cbn [tand].
        apply IH; [by eapply tok_child|done|simpl; lia|simpl; lia].
      * pose proof (tok_pos _ _ _ HB). pose proof (tok_lev_child _ _ _ 0 HB). simpl in Hk, Hk'.
        destruct k' as [|k']; [lia|]. cbn [tand].
        destruct (Nat.ltb_spec la lb); [apply IH; [done|by eapply tok_child|simpl; lia|simpl; lia]|].
        destruct (Nat.ltb_spec lb la); [apply IH; [by eapply tok_child|done|simpl; lia|simpl; lia]|].
        f_equal. apply map_ext. intros b.
        pose proof (tok_lev_child _ _ _ b HA). pose proof (tok_lev_child _ _ _ b HB).
        apply IH; [by eapply tok_child|by eapply tok_child|lia|lia].
Qed.

Section conj.
  Context (a : nat).
  Lemma tconj_0l B : tconj T0 B = T0.
  Proof. unfold tconj. by destruct (_ + _). Qed.
  Lemma tconj_0r A : tconj A T0 = T0.
  Proof. unfold tconj. destruct (_ + _); by destruct A. Qed.
  Lemma tconj_11 : tconj T1 T1 = T1.
  Proof. done. Qed.
  Lemma tconj_low_l A lb ys : tok a A -> tok a (TN lb ys) -> tlev A < lb ->
    tconj A (TN lb ys) = tconj A (nth 0 ys T0).
  Proof.
    intros HA HB Hlt. pose proof (tok_lev_child _ _ _ 0 HB). pose proof (tok_child _ _ _ 0 HB). unfold tconj.
    cbn [tlev]. destruct A as [| |la xs]; cbn [tlev] in *.
    - by rewrite !tand_0l.
    - destruct lb as [|lb]; [lia|]. cbn [Nat.add tand]. apply (tand_fuel a); try done; simpl; lia.
    - destruct (la + lb) as [|k] eqn:E; [lia|]. cbn [tand]. destruct (Nat.ltb_spec la lb); [|lia].
      apply (tand_fuel a); try done; simpl; lia.
  Qed.
  Lemma tconj_low_r la xs B : tok a (TN la xs) -> tok a B -> tlev B < la ->
    tconj (TN la xs) B = tconj (nth 0 xs T0) B.
  Proof.
    intros HA HB Hlt. pose proof (tok_lev_child _ _ _ 0 HA). pose proof (tok_child _ _ _ 0 HA). unfold tconj.
    cbn [tlev]. destruct B as [| |lb ys]; cbn [tlev] in *.
    - by rewrite !tand_0r.
    - destruct la as [|la]; [lia|]. cbn [Nat.add tand]. apply (tand_fuel a); try done; simpl; lia.
    - destruct (la + lb) as [|k] eqn:E; [lia|]. cbn [tand]. destruct (Nat.ltb_spec la lb); [lia|].
      destruct (Nat.ltb_spec lb la); [|lia]. apply (tand_fuel a); try done; simpl; lia.
  Qed.
  Lemma tconj_node l xs ys : tok a (TN l xs) -> tok a (TN l ys) ->
    tconj (TN l xs) (TN l ys) = nzN l (map (fun b => tconj (nth b xs T0) (nth b ys T0)) (seq 0 a)).
  Proof.
    intros HA HB. pose proof (tok_pos _ _ _ HA). unfold tconj at 1. cbn [tlev].
    destruct (l + l) as [|k] eqn:E; [lia|]. cbn [tand]. rewrite Nat.ltb_irrefl.
    assert (length xs = a) as -> by (by inversion HA).
    f_equal. apply map_ext. intros b. pose proof (tok_lev_child _ _ _ b HA). pose proof (tok_lev_child _ _ _ b HB).
    apply (tand_fuel a); [by eapply tok_child|by eapply tok_child|lia|lia].
  Qed.
  Lemma tzdd_T1_nz n v : tzdd n T1 v = forallb (fun l => v l =? 0) (seq 1 n).
  Proof.
    induction n as [|n IH]; [done|]. rewrite seq_S, forallb_app. cbn [tzdd]. rewrite IH. simpl.
    destruct (v (S n) =? 0); by rewrite ?andb_true_r, ?andb_false_r.
  Qed.
  Lemma tzdd_nzN n l ts v : tzdd n (nzN l ts) v = tzdd n (TN l ts) v.
  Proof.
    unfold nzN. destruct (all0 ts) eqn:Ha; [|done]. rewrite tzdd_T0. symmetry.
    induction n as [|n IH]; [done|]. cbn [tzdd]. destruct (l =? S n).
    - rewrite (proj1 (all0_true ts) Ha). by rewrite tzdd_T0.
    - rewrite IH. by destruct (v (S n) =? 0).
  Qed.
  (** all levels above [m] up to [n] are 0 *)
  Lemma tzdd_le m n T v : tlev T <= m -> m <= n ->
    tzdd n T v = forallb (fun l => v l =? 0) (seq (S m) (n - m)) && tzdd m T v.
  Proof.
    intros HT Hmn. induction n as [|n IH].
    - replace m with 0 by lia. done.
    - destruct (decide (m = S n)) as [->|Hne]; [by rewrite Nat.sub_diag|].
      rewrite tzdd_skip by lia. rewrite IH by lia. replace (S n - m) with (S (n - m)) by lia.
      rewrite seq_S, forallb_app. replace (S m + (n - m)) with (S n) by lia. simpl forallb at 3.
      destruct (v (S n) =? 0); [by rewrite !andb_true_r|]. by rewrite andb_false_r.
  Qed.
  Lemma tzdd_le1 l n T v : tlev T < l -> 0 < l <= n ->
    tzdd n T v = (forallb (fun l => v l =? 0) (seq (S l) (n - l)) && (v l =? 0)) && tzdd (l - 1) T v.
  Proof.
    intros HT Hl. rewrite (tzdd_le l n) by lia. destruct l as [|l]; [lia|].
    rewrite tzdd_skip by done. simpl. rewrite Nat.sub_0_r. destruct (v (S l) =? 0); [by rewrite andb_true_r|].
    by rewrite !andb_false_r.
  Qed.
  Lemma tzdd_top l n ts v : 0 < l <= n ->
    tzdd n (TN l ts) v = forallb (fun l => v l =? 0) (seq (S l) (n - l)) && tzdd (l - 1) (nth (v l) ts T0) v.
  Proof.
    intros Hl. rewrite (tzdd_le l n) by (simpl; lia). destruct l as [|l]; [lia|].
    rewrite tzdd_node. simpl. by rewrite Nat.sub_0_r.
  Qed.
  Lemma tand_sem k A B n v : tok a A -> tok a B -> tlev A + tlev B <= k -> tlev A <= n -> tlev B <= n -> vec_ok a v ->
    tzdd n (tconj A B) v = tzdd n A v && tzdd n B v.
  Proof.
    revert A B n. induction k as [k IH] using lt_wf_ind. intros A B n HA HB Hk HAn HBn Hv.
    destruct A as [| |la xs]; [by rewrite tconj_0l, tzdd_T0| |].
    - destruct B as [| |lb ys]; [by rewrite tconj_0r, !tzdd_T0, andb_false_r|by rewrite tconj_11, andb_diag|].
      pose proof (tok_pos _ _ _ HB) as Hp. pose proof (tok_lev_child _ _ _ 0 HB). simpl in Hk, HBn.
      rewrite tconj_low_l by (simpl; done). rewrite (IH (k - 1)); [|lia|done|by eapply tok_child|simpl; lia|simpl; lia|lia|done].
      rewrite (tzdd_le1 lb n T1), (tzdd_top lb n ys), (tzdd_le1 lb n (nth 0 ys T0)) by (simpl; lia).
      destruct (Nat.eqb_spec (v lb) 0) as [->|]; simpl; [|by rewrite !andb_false_r].
      rewrite !andb_true_r. done.
    - pose proof (tok_pos _ _ _ HA) as Hp. pose proof (tok_lev_child _ _ _ 0 HA). simpl in Hk, HAn.
      destruct B as [| |lb ys]; [by rewrite tconj_0r, !tzdd_T0, andb_false_r| |].
      + rewrite tconj_low_r by (simpl; done). rewrite (IH (k - 1)); [|lia|by eapply tok_child|done|simpl; lia|lia|simpl; lia|done].
        rewrite (tzdd_le1 la n T1), (tzdd_top la n xs), (tzdd_le1 la n (nth 0 xs T0)) by (simpl; lia).
        destruct (Nat.eqb_spec (v la) 0) as [->|]; simpl; [|by rewrite !andb_false_r].
        rewrite !andb_true_r. done.
      + pose proof (tok_pos _ _ _ HB) as Hp'. pose proof (tok_lev_child _ _ _ 0 HB). simpl in Hk, HBn.
        destruct (lt_eq_lt_dec la lb) as [[Hlt|Heq]|Hlt].
        * rewrite tconj_low_l by (simpl; done). rewrite (IH (k - 1)); [|lia|done|by eapply tok_child|simpl; lia|simpl; lia|lia|done].
          rewrite (tzdd_le1 lb n (TN la xs)), (tzdd_top lb n ys), (tzdd_le1 lb n (nth 0 ys T0)) by (simpl; lia).
          destruct (Nat.eqb_spec (v lb) 0) as [->|]; simpl; [|by rewrite !andb_false_r].
          rewrite !andb_true_r. done.
        * subst lb. rewrite tconj_node by done. rewrite tzdd_nzN. rewrite !tzdd_top by lia.
          rewrite nth_map_seq by apply Hv.
          pose proof (tok_lev_child _ _ _ (v la) HA). pose proof (tok_lev_child _ _ _ (v la) HB).
          rewrite (IH (k - 1)); [|lia|by eapply tok_child|by eapply tok_child|lia|lia|lia|done].
          destruct (forallb _ _); [done|by rewrite !andb_false_l].
        * rewrite tconj_low_r by (simpl; done). rewrite (IH (k - 1)); [|lia|by eapply tok_child|done|simpl; lia|lia|simpl; lia|done].
          rewrite (tzdd_le1 la n (TN lb ys)), (tzdd_top la n xs), (tzdd_le1 la n (nth 0 xs T0)) by (simpl; lia).
          destruct (Nat.eqb_spec (v la) 0) as [->|]; simpl; [|by rewrite !andb_false_r].
          rewrite !andb_true_r. done.
  Qed.
End conj.

(** ** The down loops *)
Section sub.
  Context (d : dd) (Hd : dd_wf d) (sp : spec) (Hok : spec_ok sp) (Hone : one_code sp) (Har : ar sp = d_ar d).
  Local Open Scope Z_scope.
  Notation a := (ar sp).

  Definition dtree (f : nid) : tree := unfold (dd_spec d) (row f) (id_level f) f.

  Lemma dtree_rep f : valid (tab d) f -> rep (tab d) f (dtree f).
  Proof.
    destruct Hd as (Ha & Hwf & _). intros Hv. destruct (rep_exists _ _ Hwf f Hv) as [T HT].
    unfold dtree. rewrite (unfold_rep d f T); [done|done| |done|done]. apply (table_wf_arity _ _ Hwf).
  Qed.
  Lemma dtree_tok f : valid (tab d) f -> tok a (dtree f).
  Proof. intros Hv. rewrite Har. eapply rep_tok; [apply Hd|by apply dtree_rep]. Qed.
  Lemma dtree_lev f : valid (tab d) f -> tlev (dtree f) = row f.
  Proof. intros Hv. eapply rep_lev. by apply dtree_rep. Qed.

  Lemma dtree_node f : valid (tab d) f -> (0 < row f)%nat -> exists ts, dtree f = TN (row f) ts /\
    forall b, (b < a)%nat -> exists g, child (tab d) f b = Some g /\ valid (tab d) g /\ (row g < row f)%nat /\ nth b ts T0 = dtree g.
  Proof.
    intros Hv Hp. pose proof (dtree_rep f Hv) as HR. pose proof (dtree_tok f Hv) as Ht.
    inversion HR as [? H1 ?|? H1 ?|? p ts H1 Hg HF Hlt E]; subst; try lia. exists ts. split; [done|].
    rewrite <- H in Ht. assert (length ts = a) as Hl by (by inversion Ht).
    pose proof (Forall2_length _ _ _ HF) as Hlen. intros b Hb.
    destruct (lookup_lt_is_Some_2 p b ltac:(lia)) as [g Hgb].
    destruct (Forall2_lookup_l _ _ _ _ _ HF Hgb) as (T & HT & Hrep). exists g.
    assert (valid (tab d) g) as Hvg by (by eapply rep_valid). split_and!; try done.
    - unfold child. rewrite Hg. done.
    - by eapply Forall_lookup_1 in Hlt.
    - rewrite (nth_lookup_Some _ _ _ _ HT). eapply rep_det; [exact Hrep|by apply dtree_rep].
  Qed.

  Lemma kcode_pos f : (0 < row f)%nat -> kcode f = Z.of_nat (row f).
  Proof. unfold kcode, neqb, n1. simpl. destruct (Nat.eqb_spec (row f) 0); [lia|done]. Qed.
  Lemma kcode_term f : valid (tab d) f -> row f = 0%nat ->
    (kcode f = 0 /\ dtree f = T0) \/ (kcode f = -1 /\ dtree f = T1).
  Proof.
    intros Hv Hr. pose proof (dtree_rep f Hv) as HR. unfold kcode, neqb, n1. simpl. rewrite Hr.
    inversion HR as [? H1 H2|? H1 H2|]; subst; try lia; rewrite H2; [by left|by right].
  Qed.
  Lemma kcode_row f : valid (tab d) f -> -1 <= kcode f /\ Z.max 0 (kcode f) = Z.of_nat (row f).
  Proof.
    intros Hv. destruct (decide (row f = 0%nat)) as [E|E].
    - destruct (kcode_term f Hv E) as [[-> _]|[-> _]]; lia.
    - rewrite kcode_pos by lia. lia.
  Qed.

  Context (t : table) (L : nat) (Hag : forall f b, (row f <= L)%nat -> child t f b = child (tab d) f b).

  Lemma a_pos : (0 < a)%nat.
  Proof. apply Hok. Qed.

  Lemma down_table_loop_ok fuel f z B : valid (tab d) f -> (row f <= L)%nat -> (row f <= fuel)%nat -> 0 <= z ->
    tok a B -> Z.of_nat (tlev B) <= z ->
    exists g, down_table_loop t fuel f z = Some g /\ valid (tab d) g /\ (row g <= row f)%nat /\ Z.of_nat (row g) <= z /\
      tconj (dtree f) B = tconj (dtree g) B.
  Proof.
    revert f. induction fuel as [|fuel IH]; intros f Hv HL Hf Hz HB HBz; simpl.
    - destruct (Z.leb_spec (Z.of_nat (row f)) z); [|lia]. exists f. split_and!; done || lia.
    - destruct (Z.leb_spec (Z.of_nat (row f)) z); [exists f; split_and!; done || lia|].
      destruct (dtree_node f Hv ltac:(lia)) as (ts & E & Hch).
      destruct (Hch 0%nat a_pos) as (g & Hc & Hvg & Hlt & En). rewrite Hag by done. rewrite Hc. cbn [mbind option_bind].
      destruct (IH g) as (g' & E' & Hv' & Hr' & Hz' & Et); try done; try lia.
      exists g'. split_and!; try done; try lia. rewrite <- Et, E. rewrite (tconj_low_r a); [by rewrite En| |done|lia].
      rewrite <- E. by apply dtree_tok.
  Qed.

  Lemma get_child_code i s b : reach sp i s -> (b < a)%nat -> -1 <= fst (get_child sp s i b).
  Proof. apply Hone. Qed.

  Lemma down_spec_loop_ok fuel i s z A : creach sp i s -> -1 <= i -> (Z.to_nat i <= fuel)%nat -> 0 <= z ->
    tok a A -> Z.of_nat (tlev A) <= z ->
    exists i' s', down_spec_loop sp fuel i s z = Some (i', s') /\ creach sp i' s' /\ -1 <= i' /\ i' <= i /\ i' <= z /\
      tconj A (stree sp i s) = tconj A (stree sp i' s').
  Proof.
    revert i s. induction fuel as [|fuel IH]; intros i s Hr Hi Hf Hz HA HAz; simpl.
    - destruct (Z.leb_spec i z); [|lia]. exists i, s. split_and!; done || lia.
    - destruct (Z.leb_spec i z); [exists i, s; split_and!; done || lia|].
      specialize (Hr ltac:(lia)). pose proof (ok_level sp Hok i s 0 Hr a_pos) as Hl.
      pose proof (get_child_code i s 0 Hr a_pos) as Hc.
      destruct (IH (fst (get_child sp s i 0)) (snd (get_child sp s i 0))) as (i' & s' & E & H1 & H2 & H3 & H4 & H5); try done; try lia.
      { by apply creach_child, a_pos. }
      exists i', s'. split_and!; try done; try lia. rewrite <- H5.
      assert (tok a (stree sp i s)) as Ht by (apply stree_tok; [done|by intros _]).
      rewrite (stree_node sp Hok) in * by (try done; lia).
      rewrite (tconj_low_l a); [|done|done|lia]. by rewrite nth_map_seq by apply a_pos.
  Qed.

  Lemma sub_meet_ok fuel f i s : valid (tab d) f -> (row f <= L)%nat -> creach sp i s -> -1 <= i ->
    (row f + Z.to_nat i <= fuel)%nat ->
    exists f' i' s', sub_meet sp t fuel f i s = Some (f', i', s') /\ valid (tab d) f' /\ (row f' <= row f)%nat /\
      creach sp i' s' /\ -1 <= i' /\ i' <= i /\ (i' = 0 \/ kcode f' = 0 \/ i' = kcode f') /\
      tconj (dtree f) (stree sp i s) = tconj (dtree f') (stree sp i' s').
  Proof.
    revert f i s. induction fuel as [|fuel IH]; intros f i s Hv HL Hr Hi Hf.
    - cbn [sub_meet]. destruct (kcode_row f Hv) as [Hk1 Hk2].
      destruct ((i =? 0) || (kcode f =? 0) || (i =? kcode f)) eqn:Ec.
      + exists f, i, s. split_and!; try done; try lia.
      + lia.
    - cbn [sub_meet]. destruct (kcode_row f Hv) as [Hk1 Hk2].
      destruct ((i =? 0) || (kcode f =? 0) || (i =? kcode f)) eqn:Ec.
      { exists f, i, s. split_and!; try done; try lia. }
      assert (i <> 0 /\ kcode f <> 0 /\ i <> kcode f) as (N1 & N2 & N3) by lia. clear Ec.
      destruct (Z.ltb_spec i (kcode f)) as [Hlt|Hge].
      + assert (0 < row f)%nat as Hp by lia. destruct (dtree_node f Hv Hp) as (ts & E & Hch).
        destruct (Hch 0%nat a_pos) as (g & Hc & Hvg & Hltg & En). unfold down_table. rewrite Hag by done. rewrite Hc.
        cbn [mbind option_bind].
        assert (tok a (stree sp i s)) as Ht by (by apply stree_tok).
        pose proof (stree_lev sp Hok i s Hr) as Hlev.
        destruct (down_table_loop_ok (row g) g (Z.max 0 i) (stree sp i s)) as (g' & E' & Hv' & Hr' & Hz' & Et); try done; try lia.
        rewrite E'. cbn [mbind option_bind].
        destruct (IH g' i s) as (f' & i' & s' & E2 & H1 & H2 & H3 & H4 & H5 & H6 & H7); try done; try lia.
        exists f', i', s'. split_and!; try done; try lia. rewrite <- H7, <- Et, E, <- En.
        apply (tconj_low_r a); [rewrite <- E; by apply dtree_tok|done|lia].
      + assert (0 < i) as Hp by lia. specialize (Hr Hp). unfold down_spec.
        pose proof (ok_level sp Hok i s 0 Hr a_pos) as Hl. pose proof (get_child_code i s 0 Hr a_pos) as Hc.
        pose proof (dtree_tok f Hv) as Ht. pose proof (dtree_lev f Hv) as Hlev.
        destruct (down_spec_loop_ok (Z.to_nat (fst (get_child sp s i 0))) (fst (get_child sp s i 0)) (snd (get_child sp s i 0))
          (Z.max 0 (kcode f)) (dtree f)) as (i1 & s1 & E & H1 & H2 & H3 & H4 & H5); try done; try lia.
        { by apply creach_child, a_pos. }
        rewrite E. cbn [mbind option_bind].
        destruct (IH f i1 s1) as (f' & i' & s' & E2 & G1 & G2 & G3 & G4 & G5 & G6 & G7); try done; try lia.
        exists f', i', s'. split_and!; try done; try lia. rewrite <- G7, <- H5.
        assert (tok a (stree sp i s)) as Ht' by (apply stree_tok; [done|by intros _]).
        rewrite (stree_node sp Hok) in * by (try done; lia).
        rewrite (tconj_low_l a); [|done|done|lia]. by rewrite nth_map_seq by apply a_pos.
  Qed.

  (** the tree of what the loop ends with *)
  Lemma sub_code_tree f i s : valid (tab d) f -> creach sp i s -> -1 <= i ->
    (i = 0 \/ kcode f = 0 \/ i = kcode f) ->
    (sub_code f i = 0 /\ tconj (dtree f) (stree sp i s) = T0) \/
    (sub_code f i = -1 /\ tconj (dtree f) (stree sp i s) = T1) \/
    (sub_code f i = i /\ 0 < i /\ i = Z.of_nat (row f)).
  Proof.
    intros Hv Hr Hi Hor. unfold sub_code. destruct (kcode_row f Hv) as [Hk1 Hk2].
    destruct (Z.eqb_spec i 0) as [->|Hi0]; simpl.
    { left. rewrite stree_0, tconj_0r. done. }
    destruct (Z.eqb_spec (kcode f) 0) as [Hk0|Hk0].
    { assert (row f = 0%nat) by lia. destruct (kcode_term f Hv H) as [[_ ->]|[? _]]; [|lia].
      left. rewrite tconj_0l, Hk0. simpl. by rewrite orb_true_r. }
    destruct (Z.leb_spec i 0) as [Hle|Hgt]; simpl.
    { right; left. split; [done|]. rewrite stree_neg by lia. assert (row f = 0%nat) by lia.
      destruct (kcode_term f Hv H) as [[? _]|[_ ->]]; [lia|]. done. }
    destruct (Z.leb_spec (kcode f) 0); [lia|]. right; right. split_and!; try done. lia.
  Qed.
End sub.

Lemma down_table_loop_stop t fuel f z : (Z.of_nat (row f) <= z)%Z -> down_table_loop t fuel f z = Some f.
Proof. intros H. destruct fuel; simpl; by destruct (Z.leb_spec (Z.of_nat (row f)) z); [|lia]. Qed.

Lemma input_at_child shared n i t f b : row f <= i -> child (input_at shared n i t) f b = child t f b.
Proof.
  intros H. unfold input_at. destruct shared; [done|]. unfold child, tget.
  rewrite list_lookup_imap. destruct (t !! row f) as [r|]; [|done]. simpl.
  destruct (Nat.ltb_spec i (row f)); [lia|done].
Qed.

Lemma dtree_code d f g : code f = code g -> dtree d f = dtree d g.
Proof.
  intros E. unfold dtree. assert (id_level f = id_level g) as -> by (unfold id_level; by inversion E).
  assert (row f = row g) as -> by (by inversion E). set (k := row g). set (c := id_level g). clearbody k c.
  destruct k; simpl; [done|]. destruct (c =? 0)%Z, (c <? 0)%Z; try done. f_equal. apply map_ext. intros b.
  cbn [dd_spec get_child]. by rewrite (child_code _ _ _ b E).
Qed.

Definition sub_built (d : dd) (sp : spec) (d' : dd) : Prop :=
  d_ar d' = ar sp /\ dd_wf d' /\ numVars d' <= min (row (rt d)) (top_level sp) /\
  nz (root_tree (dd_spec d')) = tconj (dtree d (rt d)) (root_tree sp) /\
  (forall f, (0 < row f)%nat -> is_Some (tget (tab d') f) -> code f <> code (rt d') ->
     exists f' b g, child (tab d') f' b = Some g /\ code g = code f /\ (row f < row f')%nat) /\
  ((forall i s s', equal_to sp i s s' = equal_to sp i s' s) ->
   (forall i s s', equal_to sp i s s' = true -> hash_code sp i s = hash_code sp i s') ->
   forall i r, (0 < i)%nat -> tab d' !! i = Some r ->
   exists rs : list (nat * St sp), (length r <= length rs)%nat /\
     Forall (fun x => is_Some (tget (tab d) (mk i (fst x))) /\ reach sp (Z.of_nat i) (snd x)) rs /\
     ForallOrdPairs (fun x y => fst x = fst y -> equal_to sp (Z.of_nat i) (snd x) (snd y) = false) rs).

Section subset.
  Context (d : dd) (Hd : dd_wf d) (sp : spec) (Hok : spec_ok sp) (Hone : one_code sp) (Har : ar sp = d_ar d).
  Context (nt : nat) (Hnt : 0 < nt) (sched : nat -> list (nat * nat)) (Hs : sched_ok nt (sub_groups (tab d)) sched).
  Context (single shared : bool).
  Local Open Scope Z_scope.

  Lemma groups_valid i g : (0 < i)%nat -> valid (tab d) (mk i g) -> (g < sub_groups (tab d) i)%nat.
  Proof.
    intros Hi. unfold valid, sub_groups. simpl. destruct (Nat.eqb_spec i 0); [lia|]. intros [p Hp]. unfold tget in Hp. simpl in Hp.
    destruct (tab d !! i) as [r|]; [|done]. simpl in Hp. by apply lookup_lt_Some in Hp.
  Qed.
  Lemma valid_mk f : valid (tab d) f -> valid (tab d) (mk (row f) (col f)).
  Proof. done. Qed.

  Theorem subset_built : exists d', zdd_subset_gen nt sched single shared d sp = Some d' /\ sub_built d sp d'.
  Proof.
    pose proof Hd as (Ha & Hwf & Hvr). unfold zdd_subset_gen. destruct (get_root sp) as [c s] eqn:Eg.
    assert (creach sp c s) as Hcr.
    { pose proof (creach_root sp) as H. by rewrite Eg in H. }
    assert (-1 <= c) as Hc1 by (destruct Hone as [H _]; by rewrite Eg in H).
    assert (root_tree sp = stree sp c s) as Ert by (unfold root_tree; by rewrite Eg).
    destruct (sub_meet_ok d Hd sp Hok Hone Har (tab d) (row (rt d)) ltac:(done) (sub_fuel (rt d) c) (rt d) c s)
      as (f & i & s' & E & Hv & Hrow & Hcr' & Hi1 & Hi2 & Hor & Et); try done.
    rewrite E. cbn [mbind option_bind].
    destruct (sub_code_tree d Hd sp Har f i s' Hv Hcr' Hi1 Hor) as [[Es ET]|[[Es ET]|(Es & Hip & Hir)]]; rewrite Es.
    1, 2: simpl; eexists; split; [done|]; assert (dd_wf (Dd (ar sp) (init_table (ar sp) 0) n0)) as W0 by (apply term_dd_wf; [apply Hok|simpl; lia]);
      assert (dd_wf (Dd (ar sp) (init_table (ar sp) 0) n1)) as W1 by (apply term_dd_wf; [apply Hok|simpl; lia]);
      split_and!; try done; [unfold numVars; simpl; lia|idtac|
        intros g Hg [p Hp]; exfalso; unfold tget in Hp; simpl in Hp; by destruct (row g); [lia|]|
        intros _ _ [|j] r Hj Hr; [lia|done]].
    1: rewrite (root_tree_dd _ T0); [|done|by apply rep_0]; rewrite Ert, Et, ET; done.
    1: rewrite (root_tree_dd _ T1); [|done|by apply rep_1]; rewrite Ert, Et, ET; done.
    destruct (Z.leb_spec i 0); [lia|]. set (n := Z.to_nat i).
    pose (tr := fun (i g : nat) (s : St sp) => tconj (dtree d (mk i g)) (stree sp (Z.of_nat i) s)).
    pose (R := fun (i g : nat) (s : St sp) => valid (tab d) (mk i g) /\ reach sp (Z.of_nat i) s).
    assert (forall i g s b, R i g s -> (b < ar sp)%nat -> exists c g' s',
      sub_child sp (fun i => input_at shared n i (tab d)) i g s b = Some (c, g', s') /\ c < Z.of_nat i /\
      (0 < c -> (g' < sub_groups (tab d) (Z.to_nat c))%nat /\ R (Z.to_nat c) g' s') /\
      exists ts, dtree d (mk i g) = TN i ts /\
        tconj (nth b ts T0) (stree sp (fst (get_child sp s (Z.of_nat i) b)) (snd (get_child sp s (Z.of_nat i) b))) =
        if c =? 0 then T0 else if c <? 0 then T1 else tr (Z.to_nat c) g' s') as Hchild.
    { intros i1 g s1 b [Hvg Hr] Hb. pose proof (reach_pos _ _ _ Hr) as Hp. unfold sub_child, down_table.
      pose proof (fun f b => input_at_child shared n i1 (tab d) f b) as Hag.
      rewrite Hag by done.
      destruct (dtree_node d Hd sp Har (mk i1 g) Hvg ltac:(simpl; lia)) as (ts & Ets & Hch).
      destruct (Hch b Hb) as (g1 & Hc' & Hvg1 & Hlt & En). rewrite Hc'. cbn [mbind option_bind]. simpl in Hlt.
      assert (down_table_loop (input_at shared n i1 (tab d)) (row g1) g1 (Z.max 0 (Z.of_nat i1 - 1)) = Some g1) as ->.
      { apply down_table_loop_stop. lia. }
      cbn [mbind option_bind]. unfold down_spec.
      pose proof (ok_level sp Hok _ s1 b Hr Hb) as Hl. pose proof (proj2 Hone _ s1 b Hr Hb) as Hcc.
      destruct (kcode_row d Hd sp Har g1 Hvg1) as [Hk1 Hk2].
      destruct (down_spec_loop_ok d sp Hok Hone Har (Z.to_nat (fst (get_child sp s1 (Z.of_nat i1) b))) (fst (get_child sp s1 (Z.of_nat i1) b))
        (snd (get_child sp s1 (Z.of_nat i1) b)) (Z.max 0 (kcode g1)) (dtree d g1)) as (i2 & s2 & E2 & H1 & H2 & H3 & H4 & H5); try done; try lia.
      { by apply creach_child. } { by apply dtree_tok. } { rewrite dtree_lev by done. lia. }
      rewrite E2. cbn [mbind option_bind].
      destruct (sub_meet_ok d Hd sp Hok Hone Har (input_at shared n i1 (tab d)) i1 Hag (sub_fuel g1 i2) g1 i2 s2)
        as (f' & i3 & s3 & E3 & G1 & G2 & G3 & G4 & G5 & G6 & G7); try done; try lia.
      rewrite E3. cbn [mbind option_bind]. do 3 eexists. split; [reflexivity|].
      destruct (sub_code_tree d Hd sp Har f' i3 s3 G1 G3 G4 G6) as [[Es' ET]|[[Es' ET]|(Es' & Hip' & Hir')]]; rewrite Es'.
      - split; [lia|]. split; [lia|]. exists ts. split; [done|]. rewrite En, H5, G7, ET. done.
      - split; [lia|]. split; [lia|]. exists ts. split; [done|]. rewrite En, H5, G7, ET. done.
      - split; [lia|]. assert (valid (tab d) (mk (row f') (col f'))) as Hvm by done.
        assert (Z.to_nat i3 = row f') as Ei by lia. split.
        + intros _. rewrite Ei. split; [apply groups_valid; [lia|done]|]. split; [done|]. rewrite <- Hir'. by apply G3.
        + exists ts. split; [done|]. destruct (Z.eqb_spec i3 0); [lia|]. destruct (Z.ltb_spec i3 0); [lia|].
          rewrite En, H5, G7. unfold tr. rewrite Ei, <- Hir'. by rewrite (dtree_code d f' (mk (row f') (col f'))). }
    destruct (build_ok (ar sp) nt (sub_groups (tab d)) (sp_eqb sp) (sp_hash sp)
      (sub_child sp (fun i => input_at shared n i (tab d))) sched single R tr n (col f) s')
      as (t & root & EB & Hwf' & Hlen & (T & HT & Enz) & Hroot & Hpar & Hreps).
    - intros i1 g s1 b HR Hb. destruct (Hchild i1 g s1 b HR Hb) as (c' & g' & s1' & E1 & E2 & E3 & _). eauto 10.
    - intros i1 g s1 HR. pose proof HR as [Hvg Hr]. pose proof (reach_pos _ _ _ Hr) as Hp.
      destruct (dtree_node d Hd sp Har (mk i1 g) Hvg ltac:(simpl; lia)) as (ts & Ets & Hch). simpl in Ets.
      unfold tr. pose proof (dtree_tok d Hd sp Har _ Hvg) as Ht1.
      assert (tok (ar sp) (stree sp (Z.of_nat i1) s1)) as Ht2 by (apply stree_tok; [done|by intros _]).
      rewrite Ets in *. rewrite (stree_node sp Hok) in * by done. rewrite Nat2Z.id in *.
      rewrite (tconj_node (ar sp)) by done. f_equal. apply map_ext_in. intros b Hb. apply in_seq in Hb.
      rewrite nth_map_seq by lia.
      destruct (Hchild i1 g s1 b HR ltac:(lia)) as (c' & g' & s1' & E1 & _ & _ & (ts' & Ets' & Etc)).
      assert (ts' = ts) as -> by congruence. rewrite Etc. unfold ctree. by rewrite E1.
    - intros i1 g s1 s2 [Hvg Hr] [_ Hr'] He. unfold tr. f_equal. by apply equal_tree.
    - intros i1. apply Hs.
    - intros i1 x Hx. destruct (Hs i1) as [_ HF]. rewrite Forall_forall in HF. by apply HF.
    - apply Hok.
    - unfold n. lia.
    - assert (n = row f) as -> by (unfold n; lia). apply groups_valid; [lia|done].
    - done.
    - split; [|unfold n; rewrite Z2Nat.id by lia; by apply Hcr'].
      assert (n = row f) as -> by (unfold n; lia). done.
    - rewrite EB. cbn [mbind option_bind]. eexists. split; [done|]. split_and!; try done.
      + unfold numVars, top_level. simpl. rewrite Eg. simpl. unfold n in Hlen. lia.
      + rewrite (root_tree_dd _ T) by done. rewrite Enz, Ert, Et. unfold tr, n. rewrite Z2Nat.id by lia.
        f_equal. apply dtree_code. unfold code. simpl. f_equal. lia.
      + intros Hsym Hhash i1 r Hi Hr. simpl in Hr.
        assert (i1 <= n)%nat as Hin by (apply lookup_lt_Some in Hr; lia).
        destruct (Hreps i1 r ltac:(lia) Hr) as (rs & Hle & HF & HP). exists rs. split_and!; try done.
        * eapply Forall_impl; [exact HF|]. intros [g s1] [_ [Hvg Hre]]. simpl in *. split; [|done].
          unfold valid in Hvg. simpl in Hvg. by destruct (Nat.eqb_spec i1 0); [lia|].
        * apply HP. split; [intros; apply Hsym|intros ? ? He; by apply Hhash].
  Qed.
End subset.

Lemma sub_built_sem d sp d' n v : dd_wf d -> spec_ok sp -> ar sp = d_ar d -> sub_built d sp d' -> vec_ok (ar sp) v ->
  row (rt d) <= n -> top_level sp <= n ->
  zdd_sem (dd_spec d') n v = zdd_sem (dd_spec d) n v && zdd_sem sp n v.
Proof.
  intros Hd Hok Har (Ha & Hwf & _ & Enz & _) Hv Hn1 Hn2.
  assert (vec_ok (ar (dd_spec d')) v) as Hv' by (simpl; by rewrite Ha).
  rewrite (zdd_sem_tree (dd_spec d')) by (try apply dd_spec_ok; done).
  rewrite <- tzdd_nz, Enz.
  assert (valid (tab d) (rt d)) as Hvr by apply Hd.
  rewrite (zdd_sem_tree sp) by done.
  rewrite (dd_zdd_sem d n v (dtree d (rt d))); [|done|by apply dtree_rep|by rewrite <- Har].
  apply (tand_sem (ar sp) (tlev (dtree d (rt d)) + tlev (root_tree sp))); try done.
  - by apply dtree_tok.
  - by apply root_tok.
  - rewrite dtree_lev by done. lia.
  - unfold root_tree. rewrite stree_lev by (try done; apply creach_root). done.
Qed.
