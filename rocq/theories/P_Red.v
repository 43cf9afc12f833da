(** Reduction of decision trees: the four deletion rules, their meaning and canonicity. *)
From Verif Require Import Base Sem M_Table Tree.

Inductive rmode := RB | RZ | RQ | RN.

Definition delT (m : rmode) (ts : list tree) : bool :=
  match m with
  | RB => forallb (fun t => bool_decide (t = nth 0 ts T0)) (tail ts)
  | RZ => forallb (fun t => bool_decide (t = T0)) (tail ts)
  | RQ => all0 ts
  | RN => false
  end.
Definition redN (m : rmode) (l : nat) (ts : list tree) : tree := if delT m ts then nth 0 ts T0 else TN l ts.
Fixpoint red (m : rmode) (T : tree) : tree :=
  match T with TN l ts => redN m l (map (red m) ts) | _ => T end.

Lemma redRN T : red RN T = T.
Proof.
  induction T as [| |l ts IH] using tree_ind'; try done. cbn [red]. unfold redN. simpl. f_equal.
  induction IH; simpl; congruence.
Qed.

Lemma redRQ T : red RQ T = nz T.
Proof.
  induction T as [| |l ts IH] using tree_ind'; try done. cbn [red nz].
  assert (map (red RQ) ts = map nz ts) as -> by (induction IH; simpl; congruence).
  unfold redN, nzN. simpl. destruct (all0 (map nz ts)) eqn:E; [|done].
  apply (proj1 (all0_true _) E).
Qed.

Lemma red_T0 m : red m T0 = T0. Proof. done. Qed.

Lemma red_lev a m T : tok a T -> tlev (red m T) <= tlev T.
Proof.
  induction T as [| |l ts IH] using tree_ind'; intros Hok; try done. cbn [red tlev]. unfold redN.
  destruct (delT m _); [|done]. rewrite nth_map_T0 by done. pose proof (tok_lev_child _ _ _ 0 Hok).
  destruct (decide (0 < length ts)) as [Hl|Hl].
  - assert (nth 0 ts T0 ∈ ts) as Hin by (apply elem_of_list_In, nth_In; done).
    pose proof (proj1 (Forall_forall _ _) IH _ Hin (tok_child _ _ _ 0 Hok)). simpl in *. lia.
  - rewrite nth_overflow by lia. simpl. lia.
Qed.

Lemma red_tok a m T : tok a T -> tok a (red m T).
Proof.
  induction T as [| |l ts IH] using tree_ind'; intros Hok; try done. cbn [red]. unfold redN.
  destruct (delT m _).
  - rewrite nth_map_T0 by done. destruct (decide (0 < length ts)) as [Hl|Hl].
    + assert (nth 0 ts T0 ∈ ts) as Hin by (apply elem_of_list_In, nth_In; done).
      apply (proj1 (Forall_forall _ _) IH _ Hin). by eapply tok_child.
    + rewrite nth_overflow by lia. constructor.
  - inversion Hok as [| |l' ts' H1 H2 H3 H4]; subst. constructor.
    + done.
    + by rewrite map_length.
    + apply Forall_fmap. eapply Forall_impl; [apply Forall_and; split; [exact IH|exact H3]|].
      intros T [Ha Hb]. by apply Ha.
    + apply Forall_fmap. eapply Forall_impl; [apply Forall_and; split; [exact H3|exact H4]|].
      intros T [Ha Hb]. simpl. pose proof (red_lev _ m _ Ha). lia.
Qed.

(** the tree is a node at its own level after reduction, or it was deleted *)
Lemma red_node_cases a m l ts : tok a (TN l ts) ->
  (delT m (map (red m) ts) = true /\ red m (TN l ts) = red m (nth 0 ts T0) /\ tlev (red m (TN l ts)) < l) \/
  (delT m (map (red m) ts) = false /\ red m (TN l ts) = TN l (map (red m) ts)).
Proof.
  intros Hok. cbn [red]. unfold redN. destruct (delT m _); [left|right]; [|done].
  rewrite nth_map_T0 by done. split_and!; [done..|].
  pose proof (red_lev _ m _ (tok_child _ _ _ 0 Hok)). pose proof (tok_lev_child _ _ _ 0 Hok). lia.
Qed.

Lemma delT_RB ts : delT RB ts = true <-> forall b, b < length ts -> nth b ts T0 = nth 0 ts T0.
Proof.
  cbn [delT]. rewrite forallb_forall. split.
  - intros H b Hb. destruct ts as [|T ts]; [simpl in Hb; lia|]. destruct b as [|b]; [done|]. simpl in *.
    assert (b < length ts) as Hlt by lia. pose proof (H (nth b ts T0) (nth_In _ _ Hlt)) as Hx. by apply bool_decide_eq_true in Hx.
  - intros H T HT. apply bool_decide_eq_true. destruct ts as [|T1 ts]; [done|]. simpl in HT.
    apply In_nth with (d := T0) in HT as (b & Hb & <-). apply (H (S b)). simpl. lia.
Qed.
Lemma delT_RZ ts : delT RZ ts = true <-> forall b, 0 < b -> nth b ts T0 = T0.
Proof.
  cbn [delT]. rewrite forallb_forall. split.
  - intros H b Hb. destruct ts as [|T ts]; [by destruct b|]. destruct b as [|b]; [lia|]. simpl in *.
    destruct (decide (b < length ts)); [|by apply nth_overflow; lia].
    assert (b < length ts) as Hlt by lia. pose proof (H (nth b ts T0) (nth_In _ _ Hlt)) as Hx. by apply bool_decide_eq_true in Hx.
  - intros H T HT. apply bool_decide_eq_true. destruct ts as [|T1 ts]; [done|]. simpl in HT.
    apply In_nth with (d := T0) in HT as (b & Hb & <-). apply (H (S b)). lia.
Qed.

(** ** Meaning *)
Lemma tbdd_above l T v : tlev T < l -> tbdd l T v = tbdd (pred l) T v.
Proof. destruct l as [|l]; [lia|]. intros H. rewrite tbdd_skip by lia. done. Qed.

Lemma tbdd_red a m T v : tok a T -> vec_ok a v -> m <> RZ -> forall l, tlev T <= l -> tbdd l (red m T) v = tbdd l T v.
Proof.
  intros Hok Hv Hm. destruct m; [|done| |].
  2:{ intros l _. rewrite redRQ. apply tbdd_nz. }
  2:{ intros l _. by rewrite redRN. }
  intros l. revert T Hok. induction l as [|l IH]; intros T Hok Hl.
  - destruct T as [| |k ts]; try done. inversion Hok; subst. simpl in Hl. lia.
  - destruct T as [| |k ts]; try done. cbn [tlev] in Hl.
    destruct (decide (k = S l)) as [->|Hne].
    + rewrite tbdd_node. pose proof (tok_lev_child _ _ _ (v (S l)) Hok) as Hc.
      rewrite <- IH; [|by eapply tok_child|simpl in Hc; lia].
      assert (v (S l) < length ts) as Hlen by (inversion Hok; subst; apply Hv).
      destruct (red_node_cases _ RB _ _ Hok) as [(Hd & E & Hlev)|(Hd & E)].
      * rewrite tbdd_skip by done. rewrite E. f_equal.
        pose proof (proj1 (delT_RB _) Hd (v (S l)) ltac:(by rewrite map_length)) as Eq.
        rewrite !nth_map_T0 in Eq by done. done.
      * rewrite E, tbdd_node, nth_map_T0 by done. done.
    + rewrite !tbdd_skip; [|simpl; lia|].
      * apply IH; [done|simpl; lia].
      * pose proof (red_lev a RB (TN k ts) Hok). simpl tlev in *. lia.
Qed.

Lemma tzdd_red a m T v : tok a T -> vec_ok a v -> m <> RB -> forall l, tlev T <= l -> tzdd l (red m T) v = tzdd l T v.
Proof.
  intros Hok Hv Hm. destruct m; [done| | |].
  2:{ intros l _. rewrite redRQ. apply tzdd_nz. }
  2:{ intros l _. by rewrite redRN. }
  intros l. revert T Hok. induction l as [|l IH]; intros T Hok Hl.
  - destruct T as [| |k ts]; try done. inversion Hok; subst. simpl in Hl. lia.
  - destruct T as [| |k ts]; try done. cbn [tlev] in Hl.
    destruct (decide (k = S l)) as [->|Hne].
    + rewrite tzdd_node. pose proof (tok_lev_child _ _ _ (v (S l)) Hok) as Hc.
      rewrite <- IH; [|by eapply tok_child|simpl in Hc; lia].
      destruct (red_node_cases _ RZ _ _ Hok) as [(Hd & E & Hlev)|(Hd & E)].
      * rewrite tzdd_skip by done. rewrite E. destruct (Nat.eqb_spec (v (S l)) 0) as [->|Hnz]; [done|].
        pose proof (proj1 (delT_RZ _) Hd (v (S l)) ltac:(lia)) as Eq.
        rewrite !nth_map_T0 in Eq by done. rewrite Eq. by rewrite tzdd_T0.
      * rewrite E, tzdd_node, nth_map_T0 by done. done.
    + rewrite !tzdd_skip; [|simpl; lia|].
      * rewrite IH; [done|done|simpl; lia].
      * pose proof (red_lev a RZ (TN k ts) Hok). simpl tlev in *. lia.
Qed.

Lemma red_idem m T : red m (red m T) = red m T.
Proof.
  induction T as [| |l ts IH] using tree_ind'; try done. cbn [red]. unfold redN.
  assert (map (red m) (map (red m) ts) = map (red m) ts) as Hmm.
  { rewrite map_map. apply map_ext_in. intros T HT. apply elem_of_list_In in HT. by eapply Forall_forall in IH. }
  destruct (delT m (map (red m) ts)) eqn:Hd.
  - rewrite <- nth_map_T0 by done. by rewrite Hmm.
  - cbn [red]. rewrite Hmm. unfold redN. by rewrite Hd.
Qed.

(** end of the path of 0-branches *)
Fixpoint tz (T : tree) : bool :=
  match T with T0 => false | T1 => true | TN _ ts => match ts with t :: _ => tz t | [] => false end end.
Lemma tz_node l ts : tz (TN l ts) = tz (nth 0 ts T0).
Proof. by destruct ts. Qed.
Lemma tz_red m T : tz (red m T) = tz T.
Proof.
  induction T as [| |l ts IH] using tree_ind'; try done. cbn [red]. unfold redN.
  assert (tz (nth 0 (map (red m) ts) T0) = tz (nth 0 ts T0)) as E.
  { rewrite nth_map_T0 by done. destruct ts as [|T ts]; [done|]. simpl. by inversion IH. }
  destruct (delT m _); rewrite ?tz_node; done.
Qed.

(** ** Canonicity *)
Lemma red_normal_node a m l ts : tok a (TN l ts) -> red m (TN l ts) = TN l ts ->
  delT m ts = false /\ Forall (fun T => red m T = T) ts.
Proof.
  intros Hok Hn. destruct (red_node_cases a m l ts Hok) as [(_ & _ & Hlev)|(Hd & E)].
  - rewrite Hn in Hlev. simpl in Hlev. lia.
  - assert (map (red m) ts = ts) as E' by congruence. rewrite E' in Hd. split; [done|].
    clear -E'. induction ts as [|T ts IH]; [constructor|]. simpl in E'. injection E' as E1 E2. constructor; [done|]. by apply IH.
Qed.

Definition vupd (v : vec) (l b : nat) : vec := fun k => if k =? l then b else v k.
Lemma vupd_ok a v l b : vec_ok a v -> b < a -> vec_ok a (vupd v l b).
Proof. intros Hv Hb k. unfold vupd. destruct (k =? l); [done|apply Hv]. Qed.

Lemma tbdd_ext l T v v' : (forall k, k <= l -> v k = v' k) -> tbdd l T v = tbdd l T v'.
Proof.
  revert T. induction l as [|l IH]; intros T H; [done|]. cbn [tbdd]. rewrite H by lia.
  assert (forall T, tbdd l T v = tbdd l T v') as E by (intros; apply IH; intros; apply H; lia).
  destruct T; rewrite ?E; done.
Qed.
Lemma tzdd_ext l T v v' : (forall k, k <= l -> v k = v' k) -> tzdd l T v = tzdd l T v'.
Proof.
  revert T. induction l as [|l IH]; intros T H; [done|]. cbn [tzdd]. rewrite H by lia.
  assert (forall T, tzdd l T v = tzdd l T v') as E by (intros; apply IH; intros; apply H; lia).
  destruct T; rewrite ?E; done.
Qed.

Lemma list_eq_nth (l l' : list tree) : length l = length l' ->
  (forall b, b < length l -> nth b l T0 = nth b l' T0) -> l = l'.
Proof. intros Hl H. by apply (nth_ext l l' T0 T0). Qed.

Lemma bdd_canon a n A B : 0 < a -> tok a A -> tok a B -> red RB A = A -> red RB B = B ->
  tlev A <= n -> tlev B <= n ->
  (forall v, vec_ok a v -> tbdd n A v = tbdd n B v) -> A = B.
Proof.
  intros Ha. revert A B. induction n as [|n IH]; intros A B HA HB NA NB LA LB Heq.
  - assert (vec_ok a (fun _ => 0)) as Hv0 by (by intros ?).
    specialize (Heq _ Hv0). simpl in Heq.
    destruct A as [| |k ts]; [| |inversion HA; simpl in LA; lia];
    (destruct B as [| |k' ts']; [| |inversion HB; simpl in LB; lia]); done.
  - assert (forall A k ts, A = TN (S n) ts -> tok a A -> red RB A = A -> k < S n -> forall B, tok a B -> red RB B = B -> tlev B = k ->
       (forall v, vec_ok a v -> tbdd (S n) A v = tbdd (S n) B v) -> False) as Hmix.
    { clear A B HA HB NA NB LA LB Heq. intros A k ts -> HA NA Hk B HB NB LB Heq.
      destruct (red_normal_node _ _ _ _ HA NA) as [Hd Hch].
      assert (forall b, b < a -> nth b ts T0 = B) as Hall.
      { intros b Hb. apply IH; [by eapply tok_child|done| |done| |lia|].
        - assert (length ts = a) as Hlen by (by inversion HA).
          apply (proj1 (Forall_forall _ _) Hch), elem_of_list_In, nth_In. lia.
        - pose proof (tok_lev_child _ _ _ b HA). lia.
        - intros v Hv. specialize (Heq (vupd v (S n) b) (vupd_ok _ _ _ _ Hv Hb)).
          rewrite tbdd_node, tbdd_skip in Heq by lia. unfold vupd in Heq at 1. rewrite Nat.eqb_refl in Heq.
          rewrite (tbdd_ext n (nth b ts T0) _ v) in Heq.
          2:{ intros k' Hk'. unfold vupd. destruct (Nat.eqb_spec k' (S n)); [lia|done]. }
          rewrite (tbdd_ext n B _ v) in Heq; [done|].
          intros k' Hk'. unfold vupd. destruct (Nat.eqb_spec k' (S n)); [lia|done]. }
      assert (delT RB ts = true); [|congruence]. apply delT_RB. intros b Hb.
      assert (length ts = a) as Hlen by (by inversion HA). rewrite !Hall by lia. done. }
    destruct (decide (tlev A = S n)) as [EA|EA], (decide (tlev B = S n)) as [EB|EB].
    + destruct A as [| |k ts]; try done. destruct B as [| |k' ts']; try done. simpl in EA, EB. subst k k'.
      destruct (red_normal_node _ _ _ _ HA NA) as [_ HcA]. destruct (red_normal_node _ _ _ _ HB NB) as [_ HcB].
      assert (length ts = a /\ length ts' = a) as [L1 L2] by (by inversion HA; inversion HB).
      f_equal. apply list_eq_nth; [congruence|]. intros b Hb. rewrite L1 in Hb.
      apply IH; [by eapply tok_child|by eapply tok_child| | | | |].
      * apply (proj1 (Forall_forall _ _) HcA), elem_of_list_In, nth_In. lia.
      * apply (proj1 (Forall_forall _ _) HcB), elem_of_list_In, nth_In. lia.
      * pose proof (tok_lev_child _ _ _ b HA). lia.
      * pose proof (tok_lev_child _ _ _ b HB). lia.
      * intros v Hv. specialize (Heq (vupd v (S n) b) (vupd_ok _ _ _ _ Hv Hb)).
        rewrite !tbdd_node in Heq. unfold vupd in Heq at 1 3. rewrite Nat.eqb_refl in Heq.
        assert (forall T, tbdd n T (vupd v (S n) b) = tbdd n T v) as Ex.
        { intros T. apply tbdd_ext. intros k' Hk'. unfold vupd. destruct (Nat.eqb_spec k' (S n)); [lia|done]. }
        rewrite !Ex in Heq. done.
    + exfalso. destruct A as [| |k ts]; try done. simpl in EA. subst k.
      by apply (Hmix (TN (S n) ts) (tlev B) ts eq_refl HA NA ltac:(lia) B HB NB eq_refl).
    + exfalso. destruct B as [| |k ts]; try done. simpl in EB. subst k.
      apply (Hmix (TN (S n) ts) (tlev A) ts eq_refl HB NB ltac:(lia) A HA NA eq_refl). intros v Hv. symmetry. by apply Heq.
    + apply IH; try done; try lia. intros v Hv. specialize (Heq v Hv).
      rewrite !tbdd_skip in Heq by lia. done.
Qed.

Lemma zdd_canon a n A B : 0 < a -> tok a A -> tok a B -> red RZ A = A -> red RZ B = B ->
  tlev A <= n -> tlev B <= n ->
  (forall v, vec_ok a v -> tzdd n A v = tzdd n B v) -> A = B.
Proof.
  intros Ha. revert A B. induction n as [|n IH]; intros A B HA HB NA NB LA LB Heq.
  - assert (vec_ok a (fun _ => 0)) as Hv0 by (by intros ?).
    specialize (Heq _ Hv0). simpl in Heq.
    destruct A as [| |k ts]; [| |inversion HA; simpl in LA; lia];
    (destruct B as [| |k' ts']; [| |inversion HB; simpl in LB; lia]); done.
  - assert (forall A k ts, A = TN (S n) ts -> tok a A -> red RZ A = A -> k < S n -> forall B, tok a B -> red RZ B = B -> tlev B = k ->
       (forall v, vec_ok a v -> tzdd (S n) A v = tzdd (S n) B v) -> False) as Hmix.
    { clear A B HA HB NA NB LA LB Heq. intros A k ts -> HA NA Hk B HB NB LB Heq.
      destruct (red_normal_node _ _ _ _ HA NA) as [Hd Hch].
      assert (length ts = a) as Hlen by (by inversion HA).
      assert (forall b, 0 < b -> b < a -> nth b ts T0 = T0) as Hall.
      { intros b Hb0 Hb. apply IH; [by eapply tok_child|constructor| |done| |simpl; lia|].
        - apply (proj1 (Forall_forall _ _) Hch), elem_of_list_In, nth_In. lia.
        - pose proof (tok_lev_child _ _ _ b HA). lia.
        - intros v Hv. specialize (Heq (vupd v (S n) b) (vupd_ok _ _ _ _ Hv Hb)).
          rewrite tzdd_node, tzdd_skip in Heq by lia. unfold vupd in Heq at 1 3. rewrite Nat.eqb_refl in Heq.
          destruct (Nat.eqb_spec b 0); [lia|].
          rewrite (tzdd_ext n (nth b ts T0) _ v) in Heq.
          2:{ intros k' Hk'. unfold vupd. destruct (Nat.eqb_spec k' (S n)); [lia|done]. }
          by rewrite tzdd_T0. }
      assert (delT RZ ts = true); [|congruence]. apply delT_RZ. intros b Hb.
      destruct (decide (b < a)); [by apply Hall|]. apply nth_overflow. lia. }
    destruct (decide (tlev A = S n)) as [EA|EA], (decide (tlev B = S n)) as [EB|EB].
    + destruct A as [| |k ts]; try done. destruct B as [| |k' ts']; try done. simpl in EA, EB. subst k k'.
      destruct (red_normal_node _ _ _ _ HA NA) as [_ HcA]. destruct (red_normal_node _ _ _ _ HB NB) as [_ HcB].
      assert (length ts = a /\ length ts' = a) as [L1 L2] by (by inversion HA; inversion HB).
      f_equal. apply list_eq_nth; [congruence|]. intros b Hb. rewrite L1 in Hb.
      apply IH; [by eapply tok_child|by eapply tok_child| | | | |].
      * apply (proj1 (Forall_forall _ _) HcA), elem_of_list_In, nth_In. lia.
      * apply (proj1 (Forall_forall _ _) HcB), elem_of_list_In, nth_In. lia.
      * pose proof (tok_lev_child _ _ _ b HA). lia.
      * pose proof (tok_lev_child _ _ _ b HB). lia.
      * intros v Hv. specialize (Heq (vupd v (S n) b) (vupd_ok _ _ _ _ Hv Hb)).
        rewrite !tzdd_node in Heq. unfold vupd in Heq at 1 3. rewrite Nat.eqb_refl in Heq.
        assert (forall T, tzdd n T (vupd v (S n) b) = tzdd n T v) as Ex.
        { intros T. apply tzdd_ext. intros k' Hk'. unfold vupd. destruct (Nat.eqb_spec k' (S n)); [lia|done]. }
        rewrite !Ex in Heq. done.
    + exfalso. destruct A as [| |k ts]; try done. simpl in EA. subst k.
      by apply (Hmix (TN (S n) ts) (tlev B) ts eq_refl HA NA ltac:(lia) B HB NB eq_refl).
    + exfalso. destruct B as [| |k ts]; try done. simpl in EB. subst k.
      apply (Hmix (TN (S n) ts) (tlev A) ts eq_refl HB NB ltac:(lia) A HA NA eq_refl). intros v Hv. symmetry. by apply Heq.
    + apply IH; try done; try lia. intros v Hv. specialize (Heq (vupd v (S n) 0) (vupd_ok _ _ _ _ Hv Ha)).
      rewrite !tzdd_skip in Heq by lia. unfold vupd in Heq at 1 3. rewrite Nat.eqb_refl in Heq. simpl in Heq.
      assert (forall T, tzdd n T (vupd v (S n) 0) = tzdd n T v) as Ex.
      { intros T. apply tzdd_ext. intros k' Hk'. unfold vupd. destruct (Nat.eqb_spec k' (S n)); [lia|done]. }
      rewrite !Ex in Heq. done.
Qed.
