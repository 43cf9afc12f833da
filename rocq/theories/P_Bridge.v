(** Proofs about the bridge to SAPPOROBDD. *)
From stdpp Require Import gmap sets.
From Verif Require Import Base Sem Tree M_Table M_Eval P_Eval S_Bridge M_Bridge.
Local Open Scope Z_scope.

Section order.
  Context (o : order) (Ho : order_ok o).
  Lemma ord_nodup : NoDup o.
  Proof. unfold order_ok in Ho. apply NoDup_ListNoDup. eapply Permutation_NoDup; [symmetry; exact Ho|]. apply NoDup_ListNoDup, NoDup_seq. Qed.
  Lemma ord_range x : x ∈ o -> (1 <= x <= length o)%nat.
  Proof. intros H. assert (x ∈ seq 1 (length o)) as H1%elem_of_seq by (unfold order_ok in Ho; by rewrite <- Ho). lia. Qed.
  Lemma ord_in x : (1 <= x <= length o)%nat -> x ∈ o.
  Proof. intros H. assert (x ∈ seq 1 (length o)) as H1 by (apply elem_of_seq; lia). unfold order_ok in Ho. by rewrite <- Ho in H1. Qed.
  Lemma lev_at i x : o !! i = Some x -> lev_of_var o x = Z.of_nat i + 1.
  Proof.
    intros H. unfold lev_of_var. destruct (list_find (x =.) o) as [[j y]|] eqn:E.
    - apply list_find_Some in E as (E & -> & _). f_equal. f_equal. by apply (NoDup_lookup o j i y ord_nodup).
    - apply list_find_None in E. rewrite Forall_forall in E. destruct (E x); [by eapply elem_of_list_lookup_2|done].
  Qed.
  Lemma lev_none x : x ∉ o -> lev_of_var o x = 0.
  Proof.
    intros H. unfold lev_of_var. destruct (list_find (x =.) o) as [[j y]|] eqn:E; [|done].
    apply list_find_Some in E as (E & -> & _). destruct H. by eapply elem_of_list_lookup_2.
  Qed.
  Lemma lev_zero : lev_of_var o 0 = 0.
  Proof. apply lev_none. intros H%ord_range. lia. Qed.
  Lemma vol_lev l x : var_of_lev o l = Some x <-> 1 <= l /\ x ∈ o /\ lev_of_var o x = l.
  Proof.
    unfold var_of_lev. destruct (Z.leb_spec 1 l); [|split; [done|lia]]. split.
    - intros H1. split; [done|]. split; [by eapply elem_of_list_lookup_2|]. rewrite (lev_at _ _ H1). lia.
    - intros (_ & H1 & H2). apply elem_of_list_lookup in H1 as [i H1]. rewrite (lev_at _ _ H1) in H2. rewrite <- H1. f_equal. lia.
  Qed.
  Lemma lev_in x : x ∈ o -> 1 <= lev_of_var o x <= Z.of_nat (length o).
  Proof. intros H. apply elem_of_list_lookup in H as [i H]. rewrite (lev_at _ _ H). apply lookup_lt_Some in H. lia. Qed.
  Lemma lev_inj x y : x ∈ o -> y ∈ o -> lev_of_var o x = lev_of_var o y -> x = y.
  Proof.
    intros Hx Hy E. assert (var_of_lev o (lev_of_var o y) = Some x) as H1 by (apply vol_lev; split; [by apply lev_in|done]).
    assert (var_of_lev o (lev_of_var o y) = Some y) as H2 by (apply vol_lev; split; [by apply lev_in|done]). congruence.
  Qed.
  Lemma at_level_lev off k x : at_level o off k x <-> x ∈ o /\ 0 < Z.of_nat k + off /\ lev_of_var o x = Z.of_nat k + off.
  Proof.
    unfold at_level. pose proof (vol_lev (Z.of_nat k + off) x) as H. unfold var_of_lev in H. destruct (Z.leb_spec 1 (Z.of_nat k + off)).
    - rewrite H. naive_solver lia.
    - naive_solver lia.
  Qed.

  (** Top() *)
  Lemma topmost_spec p k : (k <= length o)%nat ->
    (topmost p o k = 0%nat /\ forall x, x ∈ o -> lev_of_var o x <= Z.of_nat k -> p x = false) \/
    (topmost p o k ∈ o /\ p (topmost p o k) = true /\ lev_of_var o (topmost p o k) <= Z.of_nat k /\
     forall x, x ∈ o -> lev_of_var o (topmost p o k) < lev_of_var o x <= Z.of_nat k -> p x = false).
  Proof.
    induction k as [|k IH]; intros Hk.
    - left. split; [done|]. intros x Hx Hl. pose proof (lev_in x Hx). lia.
    - cbn [topmost]. destruct (lookup_lt_is_Some_2 o k) as [y Hy]; [lia|]. rewrite Hy. pose proof (lev_at _ _ Hy) as Ly.
      assert (y ∈ o) as Hyo by (by eapply elem_of_list_lookup_2).
      destruct (p y) eqn:Ep.
      + right. split_and!; [done|done|lia|]. intros x Hx Hl. lia.
      + destruct (IH ltac:(lia)) as [[H1 H2]|(H1 & H2 & H3 & H4)].
        * left. split; [done|]. intros x Hx Hl. destruct (decide (lev_of_var o x = lev_of_var o y)) as [E|]; [by rewrite (lev_inj x y Hx Hyo E)|apply H2; [done|lia]].
        * right. split_and!; [done|done|lia|]. intros x Hx Hl. destruct (decide (lev_of_var o x = lev_of_var o y)) as [E|]; [by rewrite (lev_inj x y Hx Hyo E)|apply H4; [done|lia]].
  Qed.
  Lemma top_spec p : let x := topmost p o (length o) in
    (x = 0%nat /\ lev_of_var o x = 0 /\ forall y, y ∈ o -> p y = false) \/
    (x ∈ o /\ p x = true /\ 1 <= lev_of_var o x <= Z.of_nat (length o) /\ forall y, y ∈ o -> lev_of_var o x < lev_of_var o y -> p y = false).
  Proof.
    intros x. destruct (topmost_spec p (length o)) as [[H1 H2]|(H1 & H2 & H3 & H4)]; [lia| |]; fold x in H1.
    - left. split; [done|]. rewrite H1. split; [apply lev_zero|]. intros y Hy. apply H2; [done|by apply lev_in].
    - right. split; [done|]. split; [done|]. split; [by apply lev_in|]. intros y Hy Hl. apply H4; [done|]. split; [done|by apply lev_in].
  Qed.
End order.

(** BDD_NewVar *)
Lemma new_ok o : order_ok o -> order_ok (new_var o).
Proof.
  intros H. unfold order_ok, new_var in *. rewrite app_length. cbn [length]. rewrite Nat.add_1_r, seq_S. rewrite <- H. done.
Qed.
Lemma enough_ok o n : order_ok o -> order_ok (enough_vars o n) /\ Z.of_nat (length (enough_vars o n)) = Z.max n (Z.of_nat (length o)) /\
  o `prefix_of` enough_vars o n.
Proof.
  intros H. unfold enough_vars. set (k := Z.to_nat _).
  assert (order_ok (Nat.iter k new_var o) /\ length (Nat.iter k new_var o) = (k + length o)%nat /\ o `prefix_of` Nat.iter k new_var o) as (A & B & C).
  { clearbody k. induction k as [|k (I1 & I2 & I3)]; [done|]. assert (Nat.iter (S k) new_var o = new_var (Nat.iter k new_var o)) as -> by done. set (o1 := Nat.iter k new_var o) in *. clearbody o1.
    split; [by apply new_ok|]. split; [unfold new_var; rewrite app_length; cbn [length]; lia|]. unfold new_var. by apply prefix_app_r. }
  split; [done|]. split; [lia|done].
Qed.

(** the vector of a set *)
Definition assign (o : order) (off : Z) (s : gset nat) : vec := fun k =>
  match var_of_lev o (Z.of_nat k + off) with Some x => if decide (x ∈ s) then 1%nat else 0%nat | None => 0%nat end.
Lemma at_level_vol o off k x : at_level o off k x <-> var_of_lev o (Z.of_nat k + off) = Some x.
Proof. unfold at_level, var_of_lev. destruct (Z.leb_spec 1 (Z.of_nat k + off)); naive_solver lia. Qed.
Lemma stands_assign o off n v s : stands_for o off n v s <-> forall k, (1 <= k <= n)%nat -> v k = assign o off s k.
Proof.
  unfold stands_for, assign. split; intros H k Hk; specialize (H k Hk).
  - destruct (var_of_lev o (Z.of_nat k + off)) as [x|] eqn:E.
    + destruct (decide (x ∈ s)) as [Hx|Hx]; destruct H as [[H1 (y & Hy & H2)]|[H1 H2]]; rewrite ?at_level_vol in *; try done.
      * destruct H2. exists x. split; [done|]. by apply at_level_vol.
      * destruct Hx. congruence.
    + destruct H as [[H1 (y & Hy & H2)]|[H1 H2]]; [|done]. rewrite at_level_vol in H2. congruence.
  - rewrite H. destruct (var_of_lev o (Z.of_nat k + off)) as [x|] eqn:E.
    + destruct (decide (x ∈ s)) as [Hx|Hx]; [left|right]; (split; [done|]).
      * exists x. split; [done|]. by apply at_level_vol.
      * intros (y & Hy & H2). rewrite at_level_vol in H2. congruence.
    + right. split; [done|]. intros (y & Hy & H2). rewrite at_level_vol in H2. congruence.
Qed.
Lemma assign_ok o off s : vec_ok 2 (assign o off s).
Proof. intros k. unfold assign. destruct (var_of_lev _ _); [destruct (decide _); lia|lia]. Qed.
Lemma covered_S o off l s x : order_ok o -> var_of_lev o (Z.of_nat (S l) + off) = Some x ->
  covered o off (S l) s <-> covered o off l (s ∖ {[x]}).
Proof.
  intros Ho Hx. split.
  - intros H y Hy. apply elem_of_difference in Hy as [Hy Hn]. destruct (H y Hy) as (k & Hk & Hl). exists k. split; [|done].
    destruct (decide (k = S l)) as [->|]; [|lia]. destruct Hn. rewrite at_level_vol in Hl. set_solver.
  - intros H y Hy. destruct (decide (y = x)) as [->|Hn].
    + exists (S l). split; [lia|]. by apply at_level_vol.
    + destruct (H y) as (k & Hk & Hl); [set_solver|]. exists k. split; [lia|done].
Qed.
Lemma covered_S_not o off l s : covered o off l s -> covered o off (S l) s.
Proof. intros H y Hy. destruct (H y Hy) as (k & Hk & Hl). exists k. split; [lia|done]. Qed.
Lemma covered_S_zero o off l s : assign o off s (S l) = 0%nat -> covered o off (S l) s -> covered o off l s.
Proof.
  intros Hz H y Hy. destruct (H y Hy) as (k & Hk & Hl). exists k. split; [|done]. destruct (decide (k = S l)) as [->|]; [|lia].
  rewrite at_level_vol in Hl. unfold assign in Hz. rewrite Hl in Hz. by destruct (decide (y ∈ s)).
Qed.
Lemma covered_not o off l s x : order_ok o -> covered o off l s -> var_of_lev o (Z.of_nat (S l) + off) = Some x -> x ∉ s.
Proof.
  intros Ho H Hx Hin. destruct (H x Hin) as (k & Hk & Hl). rewrite at_level_vol in Hl. apply (vol_lev o Ho) in Hx, Hl. lia.
Qed.
Lemma assign_eq o off l s x k : order_ok o -> var_of_lev o (Z.of_nat (S l) + off) = Some x -> (k <= l)%nat -> assign o off (s ∖ {[x]}) k = assign o off s k.
Proof.
  intros Ho Hx Hk. unfold assign. destruct (var_of_lev o (Z.of_nat k + off)) as [y|] eqn:E; [|done].
  assert (y <> x). { intros ->. apply (vol_lev o Ho) in Hx, E. lia. }
  destruct (decide (y ∈ s)), (decide (y ∈ s ∖ {[x]})); set_solver.
Qed.
Lemma tzdd_ext l : forall T v v', (forall k, (1 <= k <= l)%nat -> v k = v' k) -> tzdd l T v = tzdd l T v'.
Proof. induction l as [|l IH]; intros T v v' H; [done|]. cbn [tzdd]. rewrite (H (S l)) by lia. destruct T; try (by rewrite (IH _ v v') by (intros; apply H; lia)). destruct (_ =? _)%nat; by rewrite (IH _ v v') by (intros; apply H; lia). Qed.
Lemma tbdd_ext l : forall T v v', (forall k, (1 <= k <= l)%nat -> v k = v' k) -> tbdd l T v = tbdd l T v'.
Proof. induction l as [|l IH]; intros T v v' H; [done|]. cbn [tbdd]. rewrite (H (S l)) by lia. destruct T; try (by rewrite (IH _ v v') by (intros; apply H; lia)). destruct (_ =? _)%nat; by rewrite (IH _ v v') by (intros; apply H; lia). Qed.
