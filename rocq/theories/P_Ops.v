(** Proofs about the specification operators. *)
From Verif Require Import Base Sem M_Table Tree M_Ops.
Local Open Scope Z_scope.

Lemma run_nonpos sp c s bs : c <= 0 -> run sp c s bs = [c].
Proof. intros H. destruct bs; simpl; [done|]. by destruct (Z.ltb_spec 0 c); [lia|]. Qed.

Lemma same_future_nonpos sp c s s' : c <= 0 -> same_future sp c s s'.
Proof. intros H bs _. by rewrite !run_nonpos. Qed.

Lemma bdd_eval_0 sp l s v : bdd_eval sp l 0 s v = false.
Proof. induction l as [|l IH]; [done|]. cbn [bdd_eval]. destruct (Z.eqb_spec 0 (Z.of_nat (S l))); [lia|done]. Qed.
Lemma bdd_eval_neg sp l c s v : c < 0 -> bdd_eval sp l c s v = true.
Proof.
  intros H. induction l as [|l IH]; [by apply Z.ltb_lt|]. cbn [bdd_eval].
  destruct (Z.eqb_spec c (Z.of_nat (S l))); [lia|done]. Qed.
Lemma zdd_eval_0 sp l s v : zdd_eval sp l 0 s v = false.
Proof. induction l as [|l IH]; [done|]. cbn [zdd_eval]. destruct (Z.eqb_spec 0 (Z.of_nat (S l))); [lia|].
  by destruct (v (S l) =? 0)%nat. Qed.

(** a state that is only looked at through its future *)
Lemma congr_same_future sp : spec_congr sp ->
  forall l s s', reach sp l s -> reach sp l s' -> equal_to sp l s s' = true -> same_future sp l s s'.
Proof.
  intros Hc l s s' Hs Hs' He bs. revert l s s' Hs Hs' He.
  induction bs as [|b bs IH]; intros l s s' Hs Hs' He HF; [done|].
  inversion HF; subst. cbn [run]. destruct (Z.ltb_spec 0 l); [|done].
  destruct (cg_child sp Hc l s s' b Hs Hs' ltac:(done) He) as [Hl Hch].
  cbn zeta. f_equal. rewrite <- Hl.
  destruct (Z.leb_spec (fst (get_child sp s l b)) 0); [by rewrite !run_nonpos|].
  apply IH; try auto.
  - by apply reach_child.
  - rewrite Hl. apply reach_child; try done. by rewrite <- Hl.
Qed.

Section binary.
  Context (sp1 sp2 : spec).
  Context (Hok1 : spec_ok sp1) (Hok2 : spec_ok sp2) (Ha1 : ar sp1 = 2%nat) (Ha2 : ar sp2 = 2%nat).

  (** one component moves *)
  Definition mv (sp : spec) (c : Z) (s : St sp) (level : Z) (b : nat) : Z * St sp :=
    if c =? level then get_child sp s level b else (c, s).

  Lemma mv_facts sp c s level b : spec_ok sp -> creach sp c s -> 0 < level -> c <= level -> (b < ar sp)%nat ->
    fst (mv sp c s level b) < level /\ creach sp (fst (mv sp c s level b)) (snd (mv sp c s level b)).
  Proof.
    intros Hok Hr Hl Hc Hb. unfold mv. destruct (Z.eqb_spec c level) as [->|Hne]; simpl.
    - split; [by apply (ok_level sp Hok); auto|]. by apply creach_child; auto.
    - split; [lia|done].
  Qed.

  Lemma mv_future sp c s s' level b : (0 < level) -> (b < ar sp)%nat -> same_future sp c s s' ->
    fst (mv sp c s level b) = fst (mv sp c s' level b) /\
    same_future sp (fst (mv sp c s level b)) (snd (mv sp c s level b)) (snd (mv sp c s' level b)).
  Proof.
    intros Hl Hb Hf. unfold mv. destruct (Z.eqb_spec c level) as [->|]; [|done].
    by apply same_future_child.
  Qed.

  Lemma mv_eval sp l c s v : bdd_eval sp (S l) c s v =
    bdd_eval sp l (fst (mv sp c s (Z.of_nat (S l)) (v (S l)))) (snd (mv sp c s (Z.of_nat (S l)) (v (S l)))) v.
  Proof. cbn [bdd_eval]. unfold mv. by destruct (Z.eqb_spec c (Z.of_nat (S l))) as [->|]. Qed.

  Definition comp_ok (p : bstate sp1 sp2) : Prop :=
    creach sp1 (lv1 p) (st1 p) /\ creach sp2 (lv2 p) (st2 p).
  Definition comp_fut (p q : bstate sp1 sp2) : Prop :=
    lv1 p = lv1 q /\ lv2 p = lv2 q /\ same_future sp1 (lv1 p) (st1 p) (st1 q) /\
    same_future sp2 (lv2 p) (st2 p) (st2 q).

  Lemma bop_equal_fut l p q : comp_ok p -> comp_ok q -> bop_equal sp1 sp2 l p q = true -> comp_fut p q.
  Proof.
    intros [H1 H2] [H3 H4]. unfold bop_equal.
    destruct (Z.eqb_spec (lv1 p) (lv1 q)) as [E1|]; [|done].
    destruct (Z.eqb_spec (lv2 p) (lv2 q)) as [E2|]; [|done]. cbn [negb].
    intros H. split_and!; try done.
    - destruct (Z.ltb_spec 0 (lv1 p)) as [Hp|Hp]; [|by apply same_future_nonpos].
      destruct (equal_to sp1 (lv1 p) (st1 p) (st1 q)) eqn:He; [|done].
      apply (ok_equal sp1 Hok1); auto. rewrite E1 in *. auto.
    - destruct (_ && negb (equal_to sp1 _ _ _)); [done|].
      destruct (Z.ltb_spec 0 (lv2 p)) as [Hp|Hp]; [|by apply same_future_nonpos].
      destruct (equal_to sp2 (lv2 p) (st2 p) (st2 q)) eqn:He; [|done].
      apply (ok_equal sp2 Hok2); auto. rewrite E2 in *. auto.
  Qed.

  (** ** BddAnd *)
  Lemma and_child_eq p level b : and_child sp1 sp2 p level b =
    let r1 := mv sp1 (lv1 p) (st1 p) level b in
    let r2 := mv sp2 (lv2 p) (st2 p) level b in
    if (lv1 p =? level) && (fst r1 =? 0) then (0, BState (lv1 p) (snd r1) (lv2 p) (st2 p)) else
    if (lv2 p =? level) && (fst r2 =? 0) then (0, BState (fst r1) (snd r1) (lv2 p) (snd r2)) else
    (Z.max (fst r1) (fst r2), BState (fst r1) (snd r1) (fst r2) (snd r2)).
  Proof. done. Qed.

  Definition and_inv (c : Z) (p : bstate sp1 sp2) : Prop :=
    lv1 p <> 0 /\ lv2 p <> 0 /\ c = Z.max (lv1 p) (lv2 p) /\ comp_ok p.

  Lemma and_step c p b : (0 < c) -> and_inv c p -> (b < 2)%nat ->
    let r := and_child sp1 sp2 p c b in
    fst r < c /\
    ((fst r = 0 /\ (fst (mv sp1 (lv1 p) (st1 p) c b) = 0 \/ fst (mv sp2 (lv2 p) (st2 p) c b) = 0)) \/
     (and_inv (fst r) (snd r) /\
      snd r = BState (fst (mv sp1 (lv1 p) (st1 p) c b)) (snd (mv sp1 (lv1 p) (st1 p) c b))
                     (fst (mv sp2 (lv2 p) (st2 p) c b)) (snd (mv sp2 (lv2 p) (st2 p) c b)))).
  Proof.
    intros Hc (H1 & H2 & Hm & Hr1 & Hr2) Hb. cbn zeta. rewrite and_child_eq. cbn zeta.
    destruct (mv_facts sp1 (lv1 p) (st1 p) c b Hok1 Hr1 Hc ltac:(lia) ltac:(lia)) as [L1 R1].
    destruct (mv_facts sp2 (lv2 p) (st2 p) c b Hok2 Hr2 Hc ltac:(lia) ltac:(lia)) as [L2 R2].
    destruct ((lv1 p =? c) && (fst (mv sp1 (lv1 p) (st1 p) c b) =? 0)) eqn:E1.
    { apply andb_true_iff in E1 as [_ E1]. apply Z.eqb_eq in E1. simpl. auto. }
    destruct ((lv2 p =? c) && (fst (mv sp2 (lv2 p) (st2 p) c b) =? 0)) eqn:E2.
    { apply andb_true_iff in E2 as [_ E2]. apply Z.eqb_eq in E2. simpl. auto. }
    cbn [fst snd]. split; [lia|]. right. split; [|done].
    assert (fst (mv sp1 (lv1 p) (st1 p) c b) <> 0).
    { unfold mv in *. destruct (lv1 p =? c); [|done]. by apply Z.eqb_neq. }
    assert (fst (mv sp2 (lv2 p) (st2 p) c b) <> 0).
    { unfold mv in *. destruct (lv2 p =? c); [|done]. by apply Z.eqb_neq. }
    split_and!; done.
  Qed.

  Lemma and_root_inv : let r := and_root sp1 sp2 in
    (fst r = 0 /\ (fst (get_root sp1) = 0 \/ fst (get_root sp2) = 0)) \/
    (and_inv (fst r) (snd r) /\ snd r = BState (fst (get_root sp1)) (snd (get_root sp1)) (fst (get_root sp2)) (snd (get_root sp2))).
  Proof.
    cbn zeta. unfold and_root. cbn zeta.
    destruct (Z.eqb_spec (fst (get_root sp1)) 0); [by left; auto|].
    destruct (Z.eqb_spec (fst (get_root sp2)) 0); [by left; auto|].
    right. cbn [fst snd]. split; [|done]. split_and!; try done; split; apply creach_root.
  Qed.

  Lemma and_reach c p : reach (bdd_and sp1 sp2) c p -> and_inv c p.
  Proof.
    induction 1 as [H|c p b Hr IH Hb Hp].
    - destruct and_root_inv as [[E _]|[H1 _]]; [|done]. simpl in H. lia.
    - destruct (and_step c p b (reach_pos _ _ _ Hr) IH Hb) as [_ [[E _]|[H1 _]]]; [|done]. simpl in *. lia.
  Qed.

  Lemma and_run bs : Forall (fun b => (b < 2)%nat) bs -> forall c p q, comp_fut p q ->
    run (bdd_and sp1 sp2) c p bs = run (bdd_and sp1 sp2) c q bs.
  Proof.
    induction 1 as [|b bs Hb HF IH]; intros c p q (E1 & E2 & F1 & F2); [done|].
    cbn [run]. destruct (Z.ltb_spec 0 c) as [Hc|]; [|done].
    cbn zeta. f_equal. cbn [get_child bdd_and St]. rewrite !and_child_eq. cbn zeta. rewrite <- E1, <- E2.
    destruct (mv_future sp1 _ _ _ c b Hc ltac:(lia) F1) as [M1 G1].
    destruct (mv_future sp2 _ _ _ c b Hc ltac:(lia) F2) as [M2 G2].
    rewrite <- M1, <- M2.
    destruct ((lv1 p =? c) && _); [by rewrite !run_nonpos by (simpl; lia)|].
    destruct ((lv2 p =? c) && _); [by rewrite !run_nonpos by (simpl; lia)|].
    cbn [fst snd]. apply IH. split_and!; done.
  Qed.

  Lemma and_ok : spec_ok (bdd_and sp1 sp2).
  Proof.
    constructor; [simpl; lia| |].
    - intros c p b Hr Hb. apply (and_step c p b); [by eapply reach_pos|by apply and_reach|done].
    - intros c p q Hp Hq He bs Hbs. apply and_run; [done|].
      apply and_reach in Hp as (_ & _ & _ & Hp), Hq as (_ & _ & _ & Hq). by apply (bop_equal_fut c).
  Qed.

  Lemma and_eval l v : vec_ok 2 v -> forall c p, and_inv c p -> c <= Z.of_nat l ->
    bdd_eval (bdd_and sp1 sp2) l c p v = bdd_eval sp1 l (lv1 p) (st1 p) v && bdd_eval sp2 l (lv2 p) (st2 p) v.
  Proof.
    intros Hv. induction l as [|l IH]; intros c p Hi Hc.
    - destruct Hi as (H1 & H2 & -> & _). simpl.
      destruct (Z.ltb_spec (lv1 p) 0), (Z.ltb_spec (lv2 p) 0); cbn [andb];
        [apply Z.ltb_lt; lia|exfalso; lia..].
    - destruct (Z.eqb_spec c (Z.of_nat (S l))) as [->|Hne].
      + rewrite (mv_eval sp1), (mv_eval sp2). cbn [bdd_eval]. rewrite Z.eqb_refl.
        destruct (and_step (Z.of_nat (S l)) p (v (S l)) ltac:(lia) Hi (Hv _)) as [Hlt [[E0 Hz]|[Hi' E]]].
        * cbn zeta; cbn [get_child bdd_and St]. rewrite E0, bdd_eval_0.
          destruct Hz as [->| ->]; rewrite bdd_eval_0; [done|by rewrite andb_false_r].
        * cbn zeta; cbn [get_child bdd_and St]. rewrite IH; [|done|lia]. by rewrite E.
      + cbn [bdd_eval]. destruct (Z.eqb_spec c (Z.of_nat (S l))); [done|].
        rewrite IH by (try done; lia).
        destruct Hi as (_ & _ & -> & _).
        destruct (Z.eqb_spec (lv1 p) (Z.of_nat (S l))); [lia|].
        destruct (Z.eqb_spec (lv2 p) (Z.of_nat (S l))); [lia|]. done.
  Qed.

  Lemma and_sem n v : vec_ok 2 v -> (max (top_level sp1) (top_level sp2) <= n)%nat ->
    bdd_sem (bdd_and sp1 sp2) n v = bdd_sem sp1 n v && bdd_sem sp2 n v.
  Proof.
    intros Hv Hn. unfold bdd_sem, top_level in *. cbn [get_root bdd_and St].
    destruct and_root_inv as [[-> Hz]|[Hi E]].
    - rewrite bdd_eval_0. destruct Hz as [->| ->]; rewrite bdd_eval_0; [done|by rewrite andb_false_r].
    - rewrite and_eval; [by rewrite E|done|done|]. destruct Hi as (_ & _ & -> & _). rewrite E. simpl. lia.
  Qed.

  Lemma and_top : (top_level (bdd_and sp1 sp2) <= max (top_level sp1) (top_level sp2))%nat.
  Proof.
    unfold top_level. cbn [get_root bdd_and St].
    destruct and_root_inv as [[-> Hz]|[(_ & _ & -> & _) E]]; [lia|]. rewrite E. simpl. lia.
  Qed.

  (** ** BddOr *)
  Lemma or_child_eq p level b : or_child sp1 sp2 p level b =
    let r1 := mv sp1 (lv1 p) (st1 p) level b in
    let r2 := mv sp2 (lv2 p) (st2 p) level b in
    if (lv1 p =? level) && (fst r1 <? 0) then (-1, BState (lv1 p) (snd r1) (lv2 p) (st2 p)) else
    if (lv2 p =? level) && (fst r2 <? 0) then (-1, BState (fst r1) (snd r1) (lv2 p) (snd r2)) else
    (Z.max (fst r1) (fst r2), BState (fst r1) (snd r1) (fst r2) (snd r2)).
  Proof. done. Qed.

  Definition or_inv (c : Z) (p : bstate sp1 sp2) : Prop :=
    0 <= lv1 p /\ 0 <= lv2 p /\ c = Z.max (lv1 p) (lv2 p) /\ comp_ok p.

  Lemma or_step c p b : (0 < c) -> or_inv c p -> (b < 2)%nat ->
    let r := or_child sp1 sp2 p c b in
    fst r < c /\
    ((fst r = -1 /\ (fst (mv sp1 (lv1 p) (st1 p) c b) < 0 \/ fst (mv sp2 (lv2 p) (st2 p) c b) < 0)) \/
     (or_inv (fst r) (snd r) /\
      snd r = BState (fst (mv sp1 (lv1 p) (st1 p) c b)) (snd (mv sp1 (lv1 p) (st1 p) c b))
                     (fst (mv sp2 (lv2 p) (st2 p) c b)) (snd (mv sp2 (lv2 p) (st2 p) c b)))).
  Proof.
    intros Hc (H1 & H2 & Hm & Hr1 & Hr2) Hb. cbn zeta. rewrite or_child_eq. cbn zeta.
    destruct (mv_facts sp1 (lv1 p) (st1 p) c b Hok1 Hr1 Hc ltac:(lia) ltac:(lia)) as [L1 R1].
    destruct (mv_facts sp2 (lv2 p) (st2 p) c b Hok2 Hr2 Hc ltac:(lia) ltac:(lia)) as [L2 R2].
    destruct ((lv1 p =? c) && (fst (mv sp1 (lv1 p) (st1 p) c b) <? 0)) eqn:E1.
    { apply andb_true_iff in E1 as [_ E1]. apply Z.ltb_lt in E1. simpl. split; [lia|auto]. }
    destruct ((lv2 p =? c) && (fst (mv sp2 (lv2 p) (st2 p) c b) <? 0)) eqn:E2.
    { apply andb_true_iff in E2 as [_ E2]. apply Z.ltb_lt in E2. simpl. split; [lia|auto]. }
    cbn [fst snd]. split; [lia|]. right. split; [|done].
    assert (0 <= fst (mv sp1 (lv1 p) (st1 p) c b)).
    { unfold mv in *. destruct (lv1 p =? c); [|done]. by apply Z.ltb_ge. }
    assert (0 <= fst (mv sp2 (lv2 p) (st2 p) c b)).
    { unfold mv in *. destruct (lv2 p =? c); [|done]. by apply Z.ltb_ge. }
    split_and!; done.
  Qed.

  Lemma or_root_inv : let r := or_root sp1 sp2 in
    (fst r = -1 /\ (fst (get_root sp1) < 0 \/ fst (get_root sp2) < 0)) \/
    (or_inv (fst r) (snd r) /\ snd r = BState (fst (get_root sp1)) (snd (get_root sp1)) (fst (get_root sp2)) (snd (get_root sp2))).
  Proof.
    cbn zeta. unfold or_root. cbn zeta.
    destruct (Z.ltb_spec (fst (get_root sp1)) 0); [by left; auto|].
    destruct (Z.ltb_spec (fst (get_root sp2)) 0); [by left; auto|].
    right. cbn [fst snd]. split; [|done]. split_and!; try done; split; apply creach_root.
  Qed.

  Lemma or_reach c p : reach (bdd_or sp1 sp2) c p -> or_inv c p.
  Proof.
    induction 1 as [H|c p b Hr IH Hb Hp].
    - destruct or_root_inv as [[E _]|[H1 _]]; [|done]. simpl in H. lia.
    - destruct (or_step c p b (reach_pos _ _ _ Hr) IH Hb) as [_ [[E _]|[H1 _]]]; [|done]. simpl in *. lia.
  Qed.

  Lemma or_run bs : Forall (fun b => (b < 2)%nat) bs -> forall c p q, comp_fut p q ->
    run (bdd_or sp1 sp2) c p bs = run (bdd_or sp1 sp2) c q bs.
  Proof.
    induction 1 as [|b bs Hb HF IH]; intros c p q (E1 & E2 & F1 & F2); [done|].
    cbn [run]. destruct (Z.ltb_spec 0 c) as [Hc|]; [|done].
    cbn zeta. f_equal. cbn [get_child bdd_or St]. rewrite !or_child_eq. cbn zeta. rewrite <- E1, <- E2.
    destruct (mv_future sp1 _ _ _ c b Hc ltac:(lia) F1) as [M1 G1].
    destruct (mv_future sp2 _ _ _ c b Hc ltac:(lia) F2) as [M2 G2].
    rewrite <- M1, <- M2.
    destruct ((lv1 p =? c) && _); [by rewrite !run_nonpos by (simpl; lia)|].
    destruct ((lv2 p =? c) && _); [by rewrite !run_nonpos by (simpl; lia)|].
    cbn [fst snd]. apply IH. split_and!; done.
  Qed.

  Lemma or_ok : spec_ok (bdd_or sp1 sp2).
  Proof.
    constructor; [simpl; lia| |].
    - intros c p b Hr Hb. apply (or_step c p b); [by eapply reach_pos|by apply or_reach|done].
    - intros c p q Hp Hq He bs Hbs. apply or_run; [done|].
      apply or_reach in Hp as (_ & _ & _ & Hp), Hq as (_ & _ & _ & Hq). by apply (bop_equal_fut c).
  Qed.

  Lemma or_eval l v : vec_ok 2 v -> forall c p, or_inv c p -> c <= Z.of_nat l ->
    bdd_eval (bdd_or sp1 sp2) l c p v = bdd_eval sp1 l (lv1 p) (st1 p) v || bdd_eval sp2 l (lv2 p) (st2 p) v.
  Proof.
    intros Hv. induction l as [|l IH]; intros c p Hi Hc.
    - destruct Hi as (H1 & H2 & -> & _). simpl.
      destruct (Z.ltb_spec (lv1 p) 0), (Z.ltb_spec (lv2 p) 0); simpl; try lia; apply Z.ltb_ge; lia.
    - destruct (Z.eqb_spec c (Z.of_nat (S l))) as [->|Hne].
      + rewrite (mv_eval sp1), (mv_eval sp2). cbn [bdd_eval]. rewrite Z.eqb_refl.
        destruct (or_step (Z.of_nat (S l)) p (v (S l)) ltac:(lia) Hi (Hv _)) as [Hlt [[E0 Hz]|[Hi' E]]].
        * cbn zeta; cbn [get_child bdd_or St]. rewrite E0, bdd_eval_neg by lia.
          destruct Hz as [Hz|Hz]; rewrite (bdd_eval_neg _ _ _ _ _ Hz); [done|by rewrite orb_true_r].
        * cbn zeta; cbn [get_child bdd_or St]. rewrite IH; [|done|lia]. by rewrite E.
      + cbn [bdd_eval]. destruct (Z.eqb_spec c (Z.of_nat (S l))); [done|].
        rewrite IH by (try done; lia).
        destruct Hi as (_ & _ & -> & _).
        destruct (Z.eqb_spec (lv1 p) (Z.of_nat (S l))); [lia|].
        destruct (Z.eqb_spec (lv2 p) (Z.of_nat (S l))); [lia|]. done.
  Qed.

  Lemma or_sem n v : vec_ok 2 v -> (max (top_level sp1) (top_level sp2) <= n)%nat ->
    bdd_sem (bdd_or sp1 sp2) n v = bdd_sem sp1 n v || bdd_sem sp2 n v.
  Proof.
    intros Hv Hn. unfold bdd_sem, top_level in *. cbn [get_root bdd_or St].
    destruct or_root_inv as [[-> Hz]|[Hi E]].
    - rewrite bdd_eval_neg by lia. destruct Hz as [Hz|Hz]; rewrite (bdd_eval_neg _ _ _ _ _ Hz); [done|by rewrite orb_true_r].
    - rewrite or_eval; [by rewrite E|done|done|]. destruct Hi as (_ & _ & -> & _). rewrite E. simpl. lia.
  Qed.

  Lemma or_top : (top_level (bdd_or sp1 sp2) <= max (top_level sp1) (top_level sp2))%nat.
  Proof.
    unfold top_level. cbn [get_root bdd_or St].
    destruct or_root_inv as [[-> Hz]|[(_ & _ & -> & _) E]]; [lia|]. rewrite E. simpl. lia.
  Qed.

  (** ** ZddUnion *)
  Definition zmv (sp : spec) (c : Z) (s : St sp) (level : Z) (b : nat) : Z * St sp :=
    if c =? level then get_child sp s level b
    else if (b =? 0)%nat then (c, s) else (0, s).

  Lemma zmv_facts sp c s level b : spec_ok sp -> creach sp c s -> 0 < level -> c <= level -> (b < ar sp)%nat ->
    fst (zmv sp c s level b) < level /\ creach sp (fst (zmv sp c s level b)) (snd (zmv sp c s level b)).
  Proof.
    intros Hok Hr Hl Hc Hb. unfold zmv. destruct (Z.eqb_spec c level) as [->|Hne]; simpl.
    - split; [by apply (ok_level sp Hok); auto|]. by apply creach_child; auto.
    - destruct (b =? 0)%nat; simpl; (split; [lia|]); [done|]. intros ?; lia.
  Qed.

  Lemma zmv_future sp c s s' level b : (0 < level) -> (b < ar sp)%nat -> same_future sp c s s' ->
    fst (zmv sp c s level b) = fst (zmv sp c s' level b) /\
    same_future sp (fst (zmv sp c s level b)) (snd (zmv sp c s level b)) (snd (zmv sp c s' level b)).
  Proof.
    intros Hl Hb Hf. unfold zmv. destruct (Z.eqb_spec c level) as [->|].
    - by apply same_future_child.
    - destruct (b =? 0)%nat; simpl; [done|]. split; [done|]. by apply same_future_nonpos.
  Qed.

  Lemma zmv_eval sp l c s v : zdd_eval sp (S l) c s v =
    zdd_eval sp l (fst (zmv sp c s (Z.of_nat (S l)) (v (S l)))) (snd (zmv sp c s (Z.of_nat (S l)) (v (S l)))) v.
  Proof.
    cbn [zdd_eval]. unfold zmv. destruct (Z.eqb_spec c (Z.of_nat (S l))) as [->|]; [done|].
    destruct (v (S l) =? 0)%nat; [done|]. by rewrite zdd_eval_0.
  Qed.

  Lemma union_child_eq p level b : union_child sp1 sp2 p level b =
    let r1 := zmv sp1 (lv1 p) (st1 p) level b in
    let r2 := zmv sp2 (lv2 p) (st2 p) level b in
    (union_code (fst r1) (fst r2), BState (fst r1) (snd r1) (fst r2) (snd r2)).
  Proof. done. Qed.

  Lemma union_code_spec i1 i2 :
    (i1 = 0 /\ i2 = 0 /\ union_code i1 i2 = 0) \/
    (i1 <= 0 /\ i2 <= 0 /\ (i1 < 0 \/ i2 < 0) /\ union_code i1 i2 = -1) \/
    ((0 < i1 \/ 0 < i2) /\ union_code i1 i2 = Z.max i1 i2).
  Proof.
    unfold union_code. destruct (Z.eqb_spec i1 0), (Z.eqb_spec i2 0); cbn [andb]; [by left|..];
      destruct (Z.leb_spec i1 0), (Z.leb_spec i2 0); cbn [andb]; right; try (by left; split_and!; lia);
      right; split; lia.
  Qed.

  Definition union_inv (c : Z) (p : bstate sp1 sp2) : Prop :=
    c = union_code (lv1 p) (lv2 p) /\ comp_ok p.

  Lemma union_step c p b : (0 < c) -> union_inv c p -> (b < 2)%nat ->
    let r := union_child sp1 sp2 p c b in fst r < c /\ union_inv (fst r) (snd r).
  Proof.
    intros Hc (Hm & Hr1 & Hr2) Hb. cbn zeta. rewrite union_child_eq. cbn zeta.
    pose proof (union_code_spec (lv1 p) (lv2 p)) as Hu.
    destruct (zmv_facts sp1 (lv1 p) (st1 p) c b Hok1 Hr1 Hc ltac:(lia) ltac:(lia)) as [L1 R1].
    destruct (zmv_facts sp2 (lv2 p) (st2 p) c b Hok2 Hr2 Hc ltac:(lia) ltac:(lia)) as [L2 R2].
    cbn [fst snd]. split.
    - pose proof (union_code_spec (fst (zmv sp1 (lv1 p) (st1 p) c b)) (fst (zmv sp2 (lv2 p) (st2 p) c b))). lia.
    - split; [done|]. by split.
  Qed.

  Lemma union_reach c p : reach (zdd_union sp1 sp2) c p -> union_inv c p.
  Proof.
    induction 1 as [H|c p b Hr IH Hb Hp].
    - split; [done|]. split; apply creach_root.
    - apply (union_step c p b (reach_pos _ _ _ Hr) IH Hb).
  Qed.

  Lemma union_run bs : Forall (fun b => (b < 2)%nat) bs -> forall c p q, comp_fut p q ->
    run (zdd_union sp1 sp2) c p bs = run (zdd_union sp1 sp2) c q bs.
  Proof.
    induction 1 as [|b bs Hb HF IH]; intros c p q (E1 & E2 & F1 & F2); [done|].
    cbn [run]. destruct (Z.ltb_spec 0 c) as [Hc|]; [|done].
    cbn zeta. f_equal. cbn [get_child zdd_union St]. rewrite !union_child_eq. cbn zeta. rewrite <- E1, <- E2.
    destruct (zmv_future sp1 _ _ _ c b Hc ltac:(lia) F1) as [M1 G1].
    destruct (zmv_future sp2 _ _ _ c b Hc ltac:(lia) F2) as [M2 G2].
    rewrite <- M1, <- M2. cbn [fst snd]. apply IH. split_and!; done.
  Qed.

  Lemma union_ok : spec_ok (zdd_union sp1 sp2).
  Proof.
    constructor; [simpl; lia| |].
    - intros c p b Hr Hb. apply (union_step c p b); [by eapply reach_pos|by apply union_reach|done].
    - intros c p q Hp Hq He bs Hbs. apply union_run; [done|].
      apply union_reach in Hp as (_ & Hp), Hq as (_ & Hq). by apply (bop_equal_fut c).
  Qed.

  Lemma union_eval l v : vec_ok 2 v -> forall c p, union_inv c p -> c <= Z.of_nat l ->
    zdd_eval (zdd_union sp1 sp2) l c p v = zdd_eval sp1 l (lv1 p) (st1 p) v || zdd_eval sp2 l (lv2 p) (st2 p) v.
  Proof.
    intros Hv. induction l as [|l IH]; intros c p Hi Hc.
    - destruct Hi as (-> & _). simpl. pose proof (union_code_spec (lv1 p) (lv2 p)).
      destruct (Z.ltb_spec (lv1 p) 0), (Z.ltb_spec (lv2 p) 0); simpl; try (apply Z.ltb_lt; lia);
        apply Z.ltb_ge; lia.
    - destruct (Z.eqb_spec c (Z.of_nat (S l))) as [->|Hne].
      + rewrite (zmv_eval sp1), (zmv_eval sp2). cbn [zdd_eval]. rewrite Z.eqb_refl.
        destruct (union_step (Z.of_nat (S l)) p (v (S l)) ltac:(lia) Hi (Hv _)) as [Hlt Hi'].
        cbn zeta; cbn [get_child zdd_union St]. rewrite IH; [|done|lia]. by rewrite union_child_eq.
      + cbn [zdd_eval]. destruct (Z.eqb_spec c (Z.of_nat (S l))); [done|].
        rewrite IH by (try done; lia).
        destruct Hi as (-> & _). pose proof (union_code_spec (lv1 p) (lv2 p)).
        destruct (Z.eqb_spec (lv1 p) (Z.of_nat (S l))); [lia|].
        destruct (Z.eqb_spec (lv2 p) (Z.of_nat (S l))); [lia|]. by destruct (v (S l) =? 0)%nat.
  Qed.

  Lemma union_sem n v : vec_ok 2 v -> (max (top_level sp1) (top_level sp2) <= n)%nat ->
    zdd_sem (zdd_union sp1 sp2) n v = zdd_sem sp1 n v || zdd_sem sp2 n v.
  Proof.
    intros Hv Hn. unfold zdd_sem, top_level in *. cbn [get_root zdd_union St].
    rewrite union_eval; [done|done|split; [done|split; apply creach_root]|].
    unfold union_root. cbn zeta. cbn [fst].
    pose proof (union_code_spec (fst (get_root sp1)) (fst (get_root sp2))). lia.
  Qed.

  Lemma union_top : (top_level (zdd_union sp1 sp2) <= max (top_level sp1) (top_level sp2))%nat.
  Proof.
    unfold top_level. cbn [get_root zdd_union St]. unfold union_root. cbn zeta. cbn [fst].
    pose proof (union_code_spec (fst (get_root sp1)) (fst (get_root sp2))). lia.
  Qed.

  (** ** ZddIntersection *)
  Context (Hc1 : one_code sp1) (Hc2 : one_code sp2).

  Definition prod_eval l i1 s1 i2 s2 v := zdd_eval sp1 l i1 s1 v && zdd_eval sp2 l i2 s2 v.

  Lemma advance1 l v i1 s1 i2 s2 : 0 < i1 -> i2 < i1 -> i1 <= Z.of_nat l -> creach sp1 i1 s1 ->
    prod_eval l i1 s1 i2 s2 v = prod_eval l (fst (get_child sp1 s1 i1 0)) (snd (get_child sp1 s1 i1 0)) i2 s2 v.
  Proof.
    intros Hp Hlt Hle Hr. unfold prod_eval.
    pose proof (ok_level sp1 Hok1 i1 s1 0 (Hr Hp) ltac:(lia)) as Hch.
    induction l as [|l IH]; [lia|]. cbn [zdd_eval].
    destruct (Z.eqb_spec (fst (get_child sp1 s1 i1 0)) (Z.of_nat (S l))); [lia|].
    destruct (Z.eqb_spec i2 (Z.of_nat (S l))); [lia|].
    destruct (Z.eqb_spec i1 (Z.of_nat (S l))) as [E|].
    - destruct (Nat.eqb_spec (v (S l)) 0) as [->|]; [by rewrite E|by rewrite andb_false_r].
    - destruct (v (S l) =? 0)%nat; [|done]. apply IH. lia.
  Qed.

  Lemma advance2 l v i1 s1 i2 s2 : 0 < i2 -> i1 < i2 -> i2 <= Z.of_nat l -> creach sp2 i2 s2 ->
    prod_eval l i1 s1 i2 s2 v = prod_eval l i1 s1 (fst (get_child sp2 s2 i2 0)) (snd (get_child sp2 s2 i2 0)) v.
  Proof.
    intros Hp Hlt Hle Hr. unfold prod_eval.
    pose proof (ok_level sp2 Hok2 i2 s2 0 (Hr Hp) ltac:(lia)) as Hch.
    induction l as [|l IH]; [lia|]. cbn [zdd_eval].
    destruct (Z.eqb_spec (fst (get_child sp2 s2 i2 0)) (Z.of_nat (S l))); [lia|].
    destruct (Z.eqb_spec i1 (Z.of_nat (S l))); [lia|].
    destruct (Z.eqb_spec i2 (Z.of_nat (S l))) as [E|].
    - destruct (Nat.eqb_spec (v (S l)) 0) as [->|]; [by rewrite E|by rewrite andb_false_l].
    - destruct (v (S l) =? 0)%nat; [|done]. apply IH. lia.
  Qed.

  Definition code_ok (c : Z) : Prop := -1 <= c /\ c <> 0.

  Lemma child_code1 i s b : reach sp1 i s -> (b < 2)%nat -> -1 <= fst (get_child sp1 s i b).
  Proof. intros. apply Hc1; [done|lia]. Qed.
  Lemma child_code2 i s b : reach sp2 i s -> (b < 2)%nat -> -1 <= fst (get_child sp2 s i b).
  Proof. intros. apply Hc2; [done|lia]. Qed.

  Lemma meet_spec fuel i1 s1 i2 s2 :
    code_ok i1 -> code_ok i2 -> creach sp1 i1 s1 -> creach sp2 i2 s2 ->
    (Z.to_nat i1 + Z.to_nat i2 <= fuel)%nat ->
    let r := meet sp1 sp2 fuel i1 s1 i2 s2 in
    -1 <= fst r <= Z.max i1 i2 /\
    (0 < fst r -> reach sp1 (fst r) (fst (snd r)) /\ reach sp2 (fst r) (snd (snd r))) /\
    forall l v, Z.max i1 i2 <= Z.of_nat l ->
      prod_eval l i1 s1 i2 s2 v = prod_eval l (fst r) (fst (snd r)) (fst r) (snd (snd r)) v.
  Proof.
    revert i1 s1 i2 s2. induction fuel as [|k IH]; intros i1 s1 i2 s2 K1 K2 R1 R2 Hf; cbn zeta; cbn [meet].
    - unfold code_ok in *. assert (i1 = -1 /\ i2 = -1) as [-> ->] by lia. rewrite Z.eqb_refl. simpl.
      split_and!; try lia. done.
    - destruct (Z.eqb_spec i1 i2) as [->|Hne].
      { simpl. unfold code_ok in *. split_and!; try lia; [auto|done]. }
      unfold code_ok in K1, K2.
      destruct (Z.ltb_spec i2 i1) as [Hlt|Hge].
      + assert (Hp : 0 < i1) by lia.
        pose proof (ok_level sp1 Hok1 i1 s1 0 (R1 Hp) ltac:(lia)) as Hch.
        pose proof (child_code1 i1 s1 0 (R1 Hp) ltac:(lia)) as Hcc.
        destruct (Z.eqb_spec (fst (get_child sp1 s1 i1 0)) 0) as [E0|N0].
        * cbn [fst snd]. split_and!; try lia.
          intros l v Hl. rewrite advance1 by (try done; lia). rewrite E0. unfold prod_eval.
          by rewrite !zdd_eval_0.
        * destruct (IH (fst (get_child sp1 s1 i1 0)) (snd (get_child sp1 s1 i1 0)) i2 s2) as (B & R & E).
          { unfold code_ok; lia. } { unfold code_ok; lia. } { apply creach_child; [auto|lia]. } { done. } { lia. }
          split_and!; [lia|lia|done|].
          intros l v Hl. rewrite advance1 by (try done; lia). apply E. lia.
      + assert (Hp : 0 < i2) by lia.
        pose proof (ok_level sp2 Hok2 i2 s2 0 (R2 Hp) ltac:(lia)) as Hch.
        pose proof (child_code2 i2 s2 0 (R2 Hp) ltac:(lia)) as Hcc.
        destruct (Z.eqb_spec (fst (get_child sp2 s2 i2 0)) 0) as [E0|N0].
        * cbn [fst snd]. split_and!; try lia.
          intros l v Hl. rewrite advance2 by (try done; lia). rewrite E0. unfold prod_eval.
          rewrite !zdd_eval_0. by rewrite !andb_false_r.
        * destruct (IH i1 s1 (fst (get_child sp2 s2 i2 0)) (snd (get_child sp2 s2 i2 0))) as (B & R & E).
          { unfold code_ok; lia. } { unfold code_ok; lia. } { done. } { apply creach_child; [auto|lia]. } { lia. }
          split_and!; [lia|lia|done|].
          intros l v Hl. rewrite advance2 by (try done; lia). apply E. lia.
  Qed.

  Lemma meet_future fuel i1 s1 s1' i2 s2 s2' :
    (0 < i1 -> reach sp1 i1 s1) -> (0 < i2 -> reach sp2 i2 s2) -> code_ok i1 -> code_ok i2 ->
    same_future sp1 i1 s1 s1' -> same_future sp2 i2 s2 s2' ->
    let r := meet sp1 sp2 fuel i1 s1 i2 s2 in
    let r' := meet sp1 sp2 fuel i1 s1' i2 s2' in
    fst r = fst r' /\ same_future sp1 (fst r) (fst (snd r)) (fst (snd r')) /\
    same_future sp2 (fst r) (snd (snd r)) (snd (snd r')).
  Proof.
    revert i1 s1 s1' i2 s2 s2'. induction fuel as [|k IH]; intros i1 s1 s1' i2 s2 s2' R1 R2 K1 K2 F1 F2;
      cbn zeta; cbn [meet].
    - destruct (Z.eqb_spec i1 i2) as [->|]; [done|]. simpl. split_and!; [done| |]; by apply same_future_nonpos.
    - destruct (Z.eqb_spec i1 i2) as [->|]; [done|].
      unfold code_ok in K1, K2. destruct (Z.ltb_spec i2 i1).
      + destruct (same_future_child sp1 i1 s1 s1' 0 ltac:(lia) ltac:(lia) F1) as [E F].
        rewrite <- E. pose proof (child_code1 i1 s1 0 (R1 ltac:(lia)) ltac:(lia)).
        destruct (Z.eqb_spec (fst (get_child sp1 s1 i1 0)) 0) as [E0|].
        * simpl. split_and!; [done| |]; by apply same_future_nonpos.
        * apply IH; [apply creach_child; [apply R1; lia|lia]|done|unfold code_ok; lia|done|done|done].
      + destruct (same_future_child sp2 i2 s2 s2' 0 ltac:(lia) ltac:(lia) F2) as [E F].
        rewrite <- E. pose proof (child_code2 i2 s2 0 (R2 ltac:(lia)) ltac:(lia)).
        destruct (Z.eqb_spec (fst (get_child sp2 s2 i2 0)) 0) as [E0|].
        * simpl. split_and!; [done| |]; by apply same_future_nonpos.
        * apply IH; [done|apply creach_child; [apply R2; lia|lia]|done|unfold code_ok; lia|done|done].
  Qed.

  Notation inter := (zdd_intersection sp1 sp2).

  Lemma inter_step c p b : reach sp1 c (fst p) -> reach sp2 c (snd p) -> (b < 2)%nat ->
    let r := inter_child sp1 sp2 p c b in
    -1 <= fst r < c /\ (0 < fst r -> reach sp1 (fst r) (fst (snd r)) /\ reach sp2 (fst r) (snd (snd r))) /\
    forall l v, c <= Z.of_nat (S l) ->
      prod_eval l (fst (get_child sp1 (fst p) c b)) (snd (get_child sp1 (fst p) c b))
                  (fst (get_child sp2 (snd p) c b)) (snd (get_child sp2 (snd p) c b)) v =
      prod_eval l (fst r) (fst (snd r)) (fst r) (snd (snd r)) v.
  Proof.
    intros R1 R2 Hb. cbn zeta. unfold inter_child. cbn zeta.
    pose proof (reach_pos _ _ _ R1) as Hp.
    pose proof (ok_level sp1 Hok1 c _ b R1 ltac:(lia)) as L1.
    pose proof (ok_level sp2 Hok2 c _ b R2 ltac:(lia)) as L2.
    pose proof (child_code1 c _ b R1 Hb). pose proof (child_code2 c _ b R2 Hb).
    destruct (Z.eqb_spec (fst (get_child sp1 (fst p) c b)) 0) as [E1|N1].
    { cbn [fst snd]. split_and!; try lia. intros l v _. unfold prod_eval. by rewrite E1, !zdd_eval_0. }
    destruct (Z.eqb_spec (fst (get_child sp2 (snd p) c b)) 0) as [E2|N2].
    { cbn [fst snd]. split_and!; try lia. intros l v _. unfold prod_eval. by rewrite E2, !zdd_eval_0, andb_false_r. }
    destruct (meet_spec (meet_fuel (fst (get_child sp1 (fst p) c b)) (fst (get_child sp2 (snd p) c b)))
      (fst (get_child sp1 (fst p) c b)) (snd (get_child sp1 (fst p) c b))
      (fst (get_child sp2 (snd p) c b)) (snd (get_child sp2 (snd p) c b))) as (B & R & E);
      [unfold code_ok; lia|unfold code_ok; lia|apply creach_child; [done|lia]..|unfold meet_fuel; lia|].
    split_and!; [lia|lia|done|]. intros l v Hl. apply E. lia.
  Qed.

  Lemma inter_root_spec :
    let r := inter_root sp1 sp2 in
    -1 <= fst r <= Z.max 0 (Z.max (fst (get_root sp1)) (fst (get_root sp2))) /\
    (0 < fst r -> reach sp1 (fst r) (fst (snd r)) /\ reach sp2 (fst r) (snd (snd r))) /\
    forall l v, Z.max (fst (get_root sp1)) (fst (get_root sp2)) <= Z.of_nat l ->
      prod_eval l (fst (get_root sp1)) (snd (get_root sp1)) (fst (get_root sp2)) (snd (get_root sp2)) v =
      prod_eval l (fst r) (fst (snd r)) (fst r) (snd (snd r)) v.
  Proof.
    cbn zeta. unfold inter_root. cbn zeta. destruct Hc1 as [Q1 _], Hc2 as [Q2 _].
    destruct (Z.eqb_spec (fst (get_root sp1)) 0) as [E1|N1].
    { cbn [fst snd]. split_and!; try lia. intros l v _. unfold prod_eval. by rewrite E1, !zdd_eval_0. }
    destruct (Z.eqb_spec (fst (get_root sp2)) 0) as [E2|N2].
    { cbn [fst snd]. split_and!; try lia. intros l v _. unfold prod_eval. by rewrite E2, !zdd_eval_0, andb_false_r. }
    destruct (meet_spec (meet_fuel (fst (get_root sp1)) (fst (get_root sp2)))
      (fst (get_root sp1)) (snd (get_root sp1)) (fst (get_root sp2)) (snd (get_root sp2))) as (B & R & E);
      [unfold code_ok; lia|unfold code_ok; lia|apply creach_root..|unfold meet_fuel; lia|].
    split_and!; [lia|lia|done|]. intros l v Hl. apply E. lia.
  Qed.

  Lemma inter_reach c p : reach inter c p -> reach sp1 c (fst p) /\ reach sp2 c (snd p).
  Proof.
    induction 1 as [H|c p b Hr [IH1 IH2] Hb Hp].
    - by apply inter_root_spec.
    - by apply (inter_step c p b).
  Qed.

  Lemma inter_run bs : Forall (fun b => (b < 2)%nat) bs -> forall c (p q : St sp1 * St sp2),
    (0 < c -> reach sp1 c (fst p) /\ reach sp2 c (snd p)) ->
    same_future sp1 c (fst p) (fst q) -> same_future sp2 c (snd p) (snd q) ->
    run inter c p bs = run inter c q bs.
  Proof.
    induction 1 as [|b bs Hb HF IH]; intros c p q HR F1 F2; [done|].
    cbn [run]. destruct (Z.ltb_spec 0 c) as [Hc|]; [|done]. destruct (HR Hc) as [R1 R2].
    cbn zeta. f_equal. cbn [get_child inter St].
    destruct (same_future_child sp1 c _ _ b Hc ltac:(lia) F1) as [M1 G1].
    destruct (same_future_child sp2 c _ _ b Hc ltac:(lia) F2) as [M2 G2].
    destruct (inter_step c p b R1 R2 Hb) as (_ & HR' & _). revert HR'. cbn zeta.
    unfold inter_child. cbn zeta. rewrite <- M1, <- M2.
    destruct (Z.eqb_spec (fst (get_child sp1 (fst p) c b)) 0); [by intros; rewrite !run_nonpos by (simpl; lia)|].
    destruct (Z.eqb_spec (fst (get_child sp2 (snd p) c b)) 0); [by intros; rewrite !run_nonpos by (simpl; lia)|].
    intros HR'.
    pose proof (child_code1 c _ b R1 Hb). pose proof (child_code2 c _ b R2 Hb).
    destruct (meet_future (meet_fuel (fst (get_child sp1 (fst p) c b)) (fst (get_child sp2 (snd p) c b)))
      (fst (get_child sp1 (fst p) c b)) (snd (get_child sp1 (fst p) c b)) (snd (get_child sp1 (fst q) c b))
      (fst (get_child sp2 (snd p) c b)) (snd (get_child sp2 (snd p) c b)) (snd (get_child sp2 (snd q) c b)))
      as (E & K1 & K2); try done; try (unfold code_ok; lia); try (apply creach_child; [done|lia]).
    rewrite <- E. apply IH; done.
  Qed.

  Lemma inter_ok : spec_ok inter.
  Proof.
    constructor; [simpl; lia| |].
    - intros c p b Hr Hb. apply inter_reach in Hr as [H1 H2]. by apply (inter_step c p b).
    - intros c p q Hp Hq He bs Hbs. apply inter_reach in Hp as [P1 P2], Hq as [Q1 Q2].
      cbn [equal_to inter] in He. apply andb_true_iff in He as [E1 E2].
      apply inter_run; [done|done| |].
      + by apply (ok_equal sp1 Hok1). + by apply (ok_equal sp2 Hok2).
  Qed.

  Lemma inter_one_code : one_code inter.
  Proof.
    split.
    - apply inter_root_spec.
    - intros c p b Hr Hb. apply inter_reach in Hr as [H1 H2]. by apply (inter_step c p b).
  Qed.

  Lemma inter_eval l v : vec_ok 2 v -> forall c (p : St sp1 * St sp2), -1 <= c ->
    (0 < c -> reach sp1 c (fst p) /\ reach sp2 c (snd p)) -> c <= Z.of_nat l ->
    zdd_eval inter l c p v = prod_eval l c (fst p) c (snd p) v.
  Proof.
    intros Hv. induction l as [|l IH]; intros c p Hm HR Hc; unfold prod_eval.
    - simpl. by destruct (c <? 0).
    - cbn [zdd_eval]. destruct (Z.eqb_spec c (Z.of_nat (S l))) as [E|Hne].
      + destruct (HR ltac:(lia)) as [R1 R2].
        destruct (inter_step c p (v (S l)) R1 R2 (Hv _)) as (B & HR' & E'). cbn [get_child inter St].
        rewrite IH; [|lia|done|lia]. rewrite <- E' by lia. done.
      + rewrite IH by (try done; lia). unfold prod_eval. by destruct (v (S l) =? 0)%nat.
  Qed.

  Lemma inter_sem n v : vec_ok 2 v -> (max (top_level sp1) (top_level sp2) <= n)%nat ->
    zdd_sem inter n v = zdd_sem sp1 n v && zdd_sem sp2 n v.
  Proof.
    intros Hv Hn. unfold zdd_sem, top_level in *. cbn [get_root inter St].
    destruct inter_root_spec as (B & R & E).
    rewrite inter_eval by (try done; lia). rewrite <- E by lia. done.
  Qed.

  Lemma inter_top : (top_level inter <= max (top_level sp1) (top_level sp2))%nat.
  Proof. unfold top_level. destruct inter_root_spec as (B & _). cbn [get_root inter St]. lia. Qed.
End binary.

Section lookahead.
  Context (sp : spec) (Hok : spec_ok sp).

  Lemma future_bdd_eval l c s s' v : vec_ok (ar sp) v -> creach sp c s -> creach sp c s' ->
    same_future sp c s s' -> bdd_eval sp l c s v = bdd_eval sp l c s' v.
  Proof.
    intros Hv R R' F. rewrite !bdd_eval_tree by done. f_equal. by apply same_future_tree.
  Qed.
  Lemma future_zdd_eval l c s s' v : vec_ok (ar sp) v -> creach sp c s -> creach sp c s' ->
    same_future sp c s s' -> zdd_eval sp l c s v = zdd_eval sp l c s' v.
  Proof.
    intros Hv R R' F. rewrite !zdd_eval_tree by done. f_equal. by apply same_future_tree.
  Qed.

  Lemma bdd_redundant_child c s b : reach sp c s -> bdd_redundant sp s c = true -> (b < ar sp)%nat ->
    fst (get_child sp s c b) = fst (get_child sp s c 0) /\
    same_future sp (fst (get_child sp s c 0)) (snd (get_child sp s c 0)) (snd (get_child sp s c b)).
  Proof.
    intros Hr H Hb. unfold bdd_redundant in H. cbn zeta in H. rewrite forallb_forall in H.
    destruct b as [|b]; [done|].
    specialize (H (S b)). rewrite in_seq in H. specialize (H ltac:(lia)).
    apply andb_true_iff in H as [H1 H2]. apply Z.eqb_eq in H1. split; [done|].
    apply orb_true_iff in H2 as [H2|H2].
    - apply Z.leb_le in H2. by apply same_future_nonpos.
    - destruct (Z.leb_spec (fst (get_child sp s c 0)) 0); [by apply same_future_nonpos|].
      apply (ok_equal sp Hok); [| |done].
      + by apply reach_child; [|lia|].
      + rewrite H1. apply reach_child; [done|done|]. by rewrite <- H1.
  Qed.

  Lemma bdd_skip_step l c s v : vec_ok (ar sp) v -> reach sp c s -> bdd_redundant sp s c = true ->
    c <= Z.of_nat l ->
    bdd_eval sp l c s v = bdd_eval sp l (fst (get_child sp s c 0)) (snd (get_child sp s c 0)) v.
  Proof.
    intros Hv Hr Hred. pose proof (reach_pos _ _ _ Hr) as Hp.
    pose proof (ok_arity sp Hok) as Ha.
    pose proof (ok_level sp Hok c s 0 Hr Ha) as Hl0.
    induction l as [|l IH]; intros Hl; [lia|]. cbn [bdd_eval]. cbn zeta.
    destruct (Z.eqb_spec (fst (get_child sp s c 0)) (Z.of_nat (S l))); [lia|].
    destruct (Z.eqb_spec c (Z.of_nat (S l))) as [E|]; [|apply IH; lia].
    rewrite <- ?E.
    destruct (bdd_redundant_child c s (v (S l)) Hr Hred (Hv _)) as [E1 F1].
    rewrite E1. symmetry. apply future_bdd_eval; try done.
    - by apply creach_child.
    - rewrite <- E1. by apply creach_child.
  Qed.

  Lemma bdd_look_spec fuel c s : creach sp c s -> (Z.to_nat c <= fuel)%nat ->
    let r := bdd_look sp fuel c s in
    fst r <= c /\ creach sp (fst r) (snd r) /\
    (forall l v, vec_ok (ar sp) v -> c <= Z.of_nat l ->
       bdd_eval sp l c s v = bdd_eval sp l (fst r) (snd r) v) /\
    (0 < fst r -> bdd_redundant sp (snd r) (fst r) = false).
  Proof.
    revert c s. induction fuel as [|k IH]; intros c s Hr Hf; cbn zeta; cbn [bdd_look].
    - simpl. split_and!; [lia|done|done|lia].
    - destruct (Z.leb_spec 1 c) as [Hc|Hc]; cbn [andb]; [|simpl; split_and!; [lia|done|done|lia]].
      destruct (bdd_redundant sp s c) eqn:Hred; [|simpl; split_and!; [lia|done|done|done]].
      pose proof (Hr ltac:(lia)) as Hr'.
      pose proof (ok_arity sp Hok) as Ha. pose proof (ok_level sp Hok c s 0 Hr' Ha) as Hl0.
      destruct (IH (fst (get_child sp s c 0)) (snd (get_child sp s c 0))) as (B & R & E & N);
        [by apply creach_child|lia|].
      split_and!; [lia|done| |done]. intros l v Hv Hl.
      rewrite bdd_skip_step by done. apply E; [done|lia].
  Qed.

  Lemma look_at_spec r : creach sp (fst r) (snd r) ->
    let r' := bdd_look_at sp r in
    fst r' <= fst r /\ creach sp (fst r') (snd r') /\
    (forall l v, vec_ok (ar sp) v -> fst r <= Z.of_nat l ->
       bdd_eval sp l (fst r) (snd r) v = bdd_eval sp l (fst r') (snd r') v) /\
    (0 < fst r' -> bdd_redundant sp (snd r') (fst r') = false).
  Proof. intros H. by apply bdd_look_spec. Qed.

  Lemma bdd_lookahead_reach c s : reach (bdd_lookahead sp) c s -> reach sp c s /\ bdd_redundant sp s c = false.
  Proof.
    induction 1 as [H|c s b Hr [IH _] Hb Hp].
    - destruct (look_at_spec (get_root sp) (creach_root sp)) as (_ & R & _ & N). auto.
    - destruct (look_at_spec (get_child sp s c b)) as (_ & R & _ & N); [by apply creach_child|]. auto.
  Qed.

  Lemma bdd_lookahead_eval l v c s : vec_ok (ar sp) v -> creach sp c s -> c <= Z.of_nat l ->
    bdd_eval (bdd_lookahead sp) l c s v = bdd_eval sp l c s v.
  Proof.
    intros Hv. revert c s. induction l as [|l IH]; intros c s Hr Hl; [done|].
    cbn [bdd_eval]. cbn zeta. destruct (Z.eqb_spec c (Z.of_nat (S l))) as [E|].
    - cbn [get_child bdd_lookahead St]. pose proof (Hr ltac:(lia)) as Hr'.
      pose proof (ok_level sp Hok c s (v (S l)) Hr' (Hv _)) as Hl0.
      destruct (look_at_spec (get_child sp s c (v (S l)))) as (B & R & EV & _); [by apply creach_child|].
      rewrite IH; [|done|].
      + symmetry. apply EV; [done|lia].
      + etrans; [apply B|]. lia.
    - apply IH; [done|lia].
  Qed.

  Lemma bdd_lookahead_sem n v : vec_ok (ar sp) v -> (top_level sp <= n)%nat ->
    bdd_sem (bdd_lookahead sp) n v = bdd_sem sp n v.
  Proof.
    intros Hv Hn. unfold bdd_sem, top_level in *. cbn [get_root bdd_lookahead St].
    destruct (look_at_spec (get_root sp) (creach_root sp)) as (B & R & E & _).
    rewrite bdd_lookahead_eval; [|done|done|]. { symmetry. apply E; [done|lia]. }
    etrans; [apply B|]. lia.
  Qed.

  (** ZddLookahead *)
  Lemma zdd_redundant_child c s b : zdd_redundant sp s c = true -> (b < ar sp)%nat -> b <> 0%nat ->
    fst (get_child sp s c b) = 0.
  Proof.
    unfold zdd_redundant. rewrite forallb_forall. intros H Hb Hn.
    specialize (H b). rewrite in_seq in H. apply Z.eqb_eq, H. lia.
  Qed.

  Lemma zdd_skip_step l c s v : vec_ok (ar sp) v -> reach sp c s -> zdd_redundant sp s c = true ->
    c <= Z.of_nat l ->
    zdd_eval sp l c s v = zdd_eval sp l (fst (get_child sp s c 0)) (snd (get_child sp s c 0)) v.
  Proof.
    intros Hv Hr Hred. pose proof (reach_pos _ _ _ Hr) as Hp.
    pose proof (ok_arity sp Hok) as Ha.
    pose proof (ok_level sp Hok c s 0 Hr Ha) as Hl0.
    induction l as [|l IH]; intros Hl; [lia|]. cbn [zdd_eval]. cbn zeta.
    destruct (Z.eqb_spec (fst (get_child sp s c 0)) (Z.of_nat (S l))); [lia|].
    destruct (Z.eqb_spec c (Z.of_nat (S l))) as [E|].
    - rewrite <- ?E. destruct (Nat.eqb_spec (v (S l)) 0) as [->|Hne]; [done|].
      rewrite (zdd_redundant_child c s (v (S l))) by done. by rewrite zdd_eval_0.
    - destruct (v (S l) =? 0)%nat; [|done]. apply IH. lia.
  Qed.

  Lemma zdd_look_spec fuel c s : creach sp c s -> (Z.to_nat c <= fuel)%nat ->
    let r := zdd_look sp fuel c s in
    fst r <= c /\ creach sp (fst r) (snd r) /\
    (forall l v, vec_ok (ar sp) v -> c <= Z.of_nat l ->
       zdd_eval sp l c s v = zdd_eval sp l (fst r) (snd r) v) /\
    (0 < fst r -> zdd_redundant sp (snd r) (fst r) = false).
  Proof.
    revert c s. induction fuel as [|k IH]; intros c s Hr Hf; cbn zeta; cbn [zdd_look].
    - simpl. split_and!; [lia|done|done|lia].
    - destruct (Z.leb_spec 1 c) as [Hc|Hc]; cbn [andb]; [|simpl; split_and!; [lia|done|done|lia]].
      destruct (zdd_redundant sp s c) eqn:Hred; [|simpl; split_and!; [lia|done|done|done]].
      pose proof (Hr ltac:(lia)) as Hr'.
      pose proof (ok_arity sp Hok) as Ha. pose proof (ok_level sp Hok c s 0 Hr' Ha) as Hl0.
      destruct (IH (fst (get_child sp s c 0)) (snd (get_child sp s c 0))) as (B & R & E & N);
        [by apply creach_child|lia|].
      split_and!; [lia|done| |done]. intros l v Hv Hl.
      rewrite zdd_skip_step by done. apply E; [done|lia].
  Qed.

  Lemma zlook_at_spec r : creach sp (fst r) (snd r) ->
    let r' := zdd_look_at sp r in
    fst r' <= fst r /\ creach sp (fst r') (snd r') /\
    (forall l v, vec_ok (ar sp) v -> fst r <= Z.of_nat l ->
       zdd_eval sp l (fst r) (snd r) v = zdd_eval sp l (fst r') (snd r') v) /\
    (0 < fst r' -> zdd_redundant sp (snd r') (fst r') = false).
  Proof. intros H. by apply zdd_look_spec. Qed.

  Lemma zdd_lookahead_reach c s : reach (zdd_lookahead sp) c s -> reach sp c s /\ zdd_redundant sp s c = false.
  Proof.
    induction 1 as [H|c s b Hr [IH _] Hb Hp].
    - destruct (zlook_at_spec (get_root sp) (creach_root sp)) as (_ & R & _ & N). auto.
    - destruct (zlook_at_spec (get_child sp s c b)) as (_ & R & _ & N); [by apply creach_child|]. auto.
  Qed.

  Lemma zdd_lookahead_eval l v c s : vec_ok (ar sp) v -> creach sp c s -> c <= Z.of_nat l ->
    zdd_eval (zdd_lookahead sp) l c s v = zdd_eval sp l c s v.
  Proof.
    intros Hv. revert c s. induction l as [|l IH]; intros c s Hr Hl; [done|].
    cbn [zdd_eval]. cbn zeta. destruct (Z.eqb_spec c (Z.of_nat (S l))) as [E|].
    - cbn [get_child zdd_lookahead St]. pose proof (Hr ltac:(lia)) as Hr'.
      pose proof (ok_level sp Hok c s (v (S l)) Hr' (Hv _)) as Hl0.
      destruct (zlook_at_spec (get_child sp s c (v (S l)))) as (B & R & EV & _); [by apply creach_child|].
      rewrite IH; [|done|].
      + symmetry. apply EV; [done|lia].
      + etrans; [apply B|]. lia.
    - destruct (v (S l) =? 0)%nat; [|done]. apply IH; [done|lia].
  Qed.

  Lemma zdd_lookahead_sem n v : vec_ok (ar sp) v -> (top_level sp <= n)%nat ->
    zdd_sem (zdd_lookahead sp) n v = zdd_sem sp n v.
  Proof.
    intros Hv Hn. unfold zdd_sem, top_level in *. cbn [get_root zdd_lookahead St].
    destruct (zlook_at_spec (get_root sp) (creach_root sp)) as (B & R & E & _).
    rewrite zdd_lookahead_eval; [|done|done|]. { symmetry. apply E; [done|lia]. }
    etrans; [apply B|]. lia.
  Qed.

  (** contract of the lookahead specifications *)
  Context (Hcg : spec_congr sp).
  Definition ceq (c : Z) (s s' : St sp) : Prop := 0 < c -> equal_to sp c s s' = true.

  Lemma child_ceq c s s' b : reach sp c s -> reach sp c s' -> (b < ar sp)%nat -> equal_to sp c s s' = true ->
    fst (get_child sp s c b) = fst (get_child sp s' c b) /\
    ceq (fst (get_child sp s c b)) (snd (get_child sp s c b)) (snd (get_child sp s' c b)).
  Proof. intros. by apply (cg_child sp Hcg). Qed.

  Lemma bdd_redundant_congr c s s' : reach sp c s -> reach sp c s' -> equal_to sp c s s' = true ->
    bdd_redundant sp s c = bdd_redundant sp s' c.
  Proof.
    intros R R' E. pose proof (ok_arity sp Hok) as Ha.
    unfold bdd_redundant. cbn zeta. apply eq_iff_eq_true. rewrite !forallb_forall.
    destruct (child_ceq c s s' 0 R R' Ha E) as [E0 Q0].
    assert (forall b, In b (seq 1 (ar sp - 1)) ->
      ((fst (get_child sp s c 0) =? fst (get_child sp s c b)) &&
       ((fst (get_child sp s c 0) <=? 0) || equal_to sp (fst (get_child sp s c 0)) (snd (get_child sp s c 0)) (snd (get_child sp s c b)))) =
      ((fst (get_child sp s' c 0) =? fst (get_child sp s' c b)) &&
       ((fst (get_child sp s' c 0) <=? 0) || equal_to sp (fst (get_child sp s' c 0)) (snd (get_child sp s' c 0)) (snd (get_child sp s' c b))))) as Hb.
    { intros b Hb. apply in_seq in Hb. destruct (child_ceq c s s' b R R' ltac:(lia) E) as [E1 Q1].
      rewrite <- E0, <- E1. destruct (Z.eqb_spec (fst (get_child sp s c 0)) (fst (get_child sp s c b))) as [E2|]; [|done].
      cbn [andb]. destruct (Z.leb_spec (fst (get_child sp s c 0)) 0); [done|]. cbn [orb].
      assert (reach sp (fst (get_child sp s c 0)) (snd (get_child sp s c 0))) as P0 by (by apply reach_child).
      assert (reach sp (fst (get_child sp s c 0)) (snd (get_child sp s' c 0))) as P0'
        by (rewrite E0; apply reach_child; [done|done|by rewrite <- E0]).
      assert (reach sp (fst (get_child sp s c 0)) (snd (get_child sp s c b))) as P1
        by (rewrite E2; apply reach_child; [done|lia|by rewrite <- E2]).
      assert (reach sp (fst (get_child sp s c 0)) (snd (get_child sp s' c b))) as P1'
        by (rewrite E2, E1; apply reach_child; [done|lia|by rewrite <- E1, <- E2]).
      specialize (Q0 ltac:(done)). specialize (Q1 ltac:(lia)). rewrite <- E2 in Q1.
      apply eq_iff_eq_true. split; intros HH.
      - eapply (cg_trans sp Hcg); [..|exact Q1]; try done.
        eapply (cg_trans sp Hcg); [..|exact HH]; try done. by rewrite (cg_sym sp Hcg).
      - eapply (cg_trans sp Hcg); [..|]; [| | |exact Q0|]; try done.
        eapply (cg_trans sp Hcg); [..|]; [| | |exact HH|]; try done. by rewrite (cg_sym sp Hcg). }
    split; intros H b Hin; [rewrite <- Hb|rewrite Hb]; auto.
  Qed.

  Lemma bdd_look_congr fuel c s s' : creach sp c s -> creach sp c s' -> ceq c s s' ->
    fst (bdd_look sp fuel c s) = fst (bdd_look sp fuel c s') /\
    ceq (fst (bdd_look sp fuel c s)) (snd (bdd_look sp fuel c s)) (snd (bdd_look sp fuel c s')).
  Proof.
    pose proof (ok_arity sp Hok) as Ha.
    revert c s s'. induction fuel as [|k IH]; intros c s s' R R' E; [done|]. cbn [bdd_look].
    destruct (Z.leb_spec 1 c) as [Hc|Hc]; [|done]. cbn [andb].
    specialize (R ltac:(lia)). specialize (R' ltac:(lia)). specialize (E ltac:(lia)).
    rewrite <- (bdd_redundant_congr c s s' R R' E).
    destruct (bdd_redundant sp s c); [|split; [done|by intros _]]. cbn zeta.
    destruct (child_ceq c s s' 0 R R' Ha E) as [E0 Q0]. rewrite <- E0.
    apply IH; [by apply creach_child|rewrite E0; by apply creach_child|done].
  Qed.

  Lemma zdd_redundant_congr c s s' : reach sp c s -> reach sp c s' -> equal_to sp c s s' = true ->
    zdd_redundant sp s c = zdd_redundant sp s' c.
  Proof.
    intros R R' E. unfold zdd_redundant. apply eq_iff_eq_true. rewrite !forallb_forall.
    split; intros H b Hin; specialize (H b Hin); apply in_seq in Hin;
      destruct (child_ceq c s s' b R R' ltac:(lia) E) as [E1 _]; congruence.
  Qed.

  Lemma zdd_look_congr fuel c s s' : creach sp c s -> creach sp c s' -> ceq c s s' ->
    fst (zdd_look sp fuel c s) = fst (zdd_look sp fuel c s') /\
    ceq (fst (zdd_look sp fuel c s)) (snd (zdd_look sp fuel c s)) (snd (zdd_look sp fuel c s')).
  Proof.
    pose proof (ok_arity sp Hok) as Ha.
    revert c s s'. induction fuel as [|k IH]; intros c s s' R R' E; [done|]. cbn [zdd_look].
    destruct (Z.leb_spec 1 c) as [Hc|Hc]; [|done]. cbn [andb].
    specialize (R ltac:(lia)). specialize (R' ltac:(lia)). specialize (E ltac:(lia)).
    rewrite <- (zdd_redundant_congr c s s' R R' E).
    destruct (zdd_redundant sp s c); [|split; [done|by intros _]]. cbn zeta.
    destruct (child_ceq c s s' 0 R R' Ha E) as [E0 Q0]. rewrite <- E0.
    apply IH; [by apply creach_child|rewrite E0; by apply creach_child|done].
  Qed.

  Lemma bdd_lookahead_congr : spec_congr (bdd_lookahead sp).
  Proof.
    constructor.
    - intros l s R. apply bdd_lookahead_reach in R as [R _]. by apply (cg_refl sp Hcg).
    - intros l s s' R R'. apply bdd_lookahead_reach in R as [R _], R' as [R' _]. by apply (cg_sym sp Hcg).
    - intros l s s' s'' R R' R''. apply bdd_lookahead_reach in R as [R _], R' as [R' _], R'' as [R'' _].
      by apply (cg_trans sp Hcg).
    - intros l s s' b R R' Hb E. apply bdd_lookahead_reach in R as [R _], R' as [R' _].
      destruct (child_ceq l s s' b R R' Hb E) as [E0 Q0].
      cbn [get_child bdd_lookahead St]. unfold bdd_look_at. rewrite <- E0.
      apply bdd_look_congr; [by apply creach_child|rewrite E0; by apply creach_child|done].
  Qed.

  Lemma zdd_lookahead_congr : spec_congr (zdd_lookahead sp).
  Proof.
    constructor.
    - intros l s R. apply zdd_lookahead_reach in R as [R _]. by apply (cg_refl sp Hcg).
    - intros l s s' R R'. apply zdd_lookahead_reach in R as [R _], R' as [R' _]. by apply (cg_sym sp Hcg).
    - intros l s s' s'' R R' R''. apply zdd_lookahead_reach in R as [R _], R' as [R' _], R'' as [R'' _].
      by apply (cg_trans sp Hcg).
    - intros l s s' b R R' Hb E. apply zdd_lookahead_reach in R as [R _], R' as [R' _].
      destruct (child_ceq l s s' b R R' Hb E) as [E0 Q0].
      cbn [get_child zdd_lookahead St]. unfold zdd_look_at. rewrite <- E0.
      apply zdd_look_congr; [by apply creach_child|rewrite E0; by apply creach_child|done].
  Qed.

  Lemma bdd_lookahead_ok : spec_ok (bdd_lookahead sp).
  Proof.
    constructor; [apply (ok_arity sp Hok)| |].
    - intros l s b R Hb. apply bdd_lookahead_reach in R as [R _]. cbn [get_child bdd_lookahead St].
      destruct (look_at_spec (get_child sp s l b)) as (B & _); [by apply creach_child|].
      eapply Z.le_lt_trans; [apply B|]. by apply (ok_level sp Hok).
    - apply congr_same_future, bdd_lookahead_congr.
  Qed.

  Lemma zdd_lookahead_ok : spec_ok (zdd_lookahead sp).
  Proof.
    constructor; [apply (ok_arity sp Hok)| |].
    - intros l s b R Hb. apply zdd_lookahead_reach in R as [R _]. cbn [get_child zdd_lookahead St].
      destruct (zlook_at_spec (get_child sp s l b)) as (B & _); [by apply creach_child|].
      eapply Z.le_lt_trans; [apply B|]. by apply (ok_level sp Hok).
    - apply congr_same_future, zdd_lookahead_congr.
  Qed.
End lookahead.

Section unreduction.
  Context (sp : spec) (Hok : spec_ok sp) (zdd : bool) (nv : Z).
  Notation un := (unreduction sp zdd nv).

  Definition un_top : nat := Z.to_nat (Z.max nv (fst (get_root sp))).

  Definition un_code (i c : Z) : Z := if 0 <? i then i else c.

  Definition un_inv (i : Z) (p : Z * St sp) : Prop :=
    fst p <= i /\ fst p <> 0 /\ creach sp (fst p) (snd p).

  Definition un_mv (p : Z * St sp) (i : Z) (b : nat) : Z * St sp :=
    if fst p =? i then get_child sp (snd p) i b
    else if zdd && negb (b =? 0)%nat then (0, snd p) else p.

  Lemma un_child_eq p i b : unred_child sp zdd p i b =
    if fst p =? i then
      (if fst (un_mv p i b) =? 0 then (0, un_mv p i b) else (un_code (i - 1) (fst (un_mv p i b)), un_mv p i b))
    else if zdd && negb (b =? 0)%nat then (0, p) else (un_code (i - 1) (fst (un_mv p i b)), un_mv p i b).
  Proof.
    unfold unred_child, un_mv. cbn zeta. destruct (fst p =? i); [done|].
    by destruct (zdd && negb (b =? 0)%nat).
  Qed.

  Lemma un_step i p b : 0 < i -> un_inv i p -> (b < ar sp)%nat ->
    let r := unred_child sp zdd p i b in
    (fst r = 0 /\ fst (un_mv p i b) = 0) \/
    (un_inv (i - 1) (snd r) /\ snd r = un_mv p i b /\ fst r = un_code (i - 1) (fst (snd r))).
  Proof.
    intros Hi (Hle & Hne & Hr) Hb. cbn zeta. rewrite un_child_eq.
    destruct (Z.eqb_spec (fst p) i) as [E|NE].
    - assert (un_mv p i b = get_child sp (snd p) i b) as Em by (unfold un_mv; by rewrite E, Z.eqb_refl).
      destruct (Z.eqb_spec (fst (un_mv p i b)) 0) as [E0|N0]; [by left|]. right. cbn [fst snd].
      split_and!; try done. rewrite Em.
      pose proof (Hr ltac:(lia)) as Hr'. rewrite E in Hr'.
      split_and!; [|by rewrite <- Em|by apply creach_child].
      pose proof (ok_level sp Hok i (snd p) b Hr' Hb). lia.
    - assert (un_mv p i b = if zdd && negb (b =? 0)%nat then (0, snd p) else p) as Em.
      { unfold un_mv. by rewrite (proj2 (Z.eqb_neq _ _) NE). }
      destruct (zdd && negb (b =? 0)%nat).
      + left. by rewrite Em.
      + right. cbn [fst snd]. rewrite Em. split_and!; [split_and!; [lia|done|done]|done|done].
  Qed.

  Lemma un_root : let r := unred_root sp nv in
    (fst r = 0 /\ fst (get_root sp) = 0) \/
    (fst (get_root sp) <> 0 /\ snd r = get_root sp /\
     ((0 < un_top)%nat /\ fst r = Z.of_nat un_top /\ un_inv (fst r) (snd r) \/
      (un_top = 0)%nat /\ fst r = -1 /\ fst (get_root sp) < 0)).
  Proof.
    cbn zeta. unfold unred_root, un_top. cbn zeta.
    destruct (Z.eqb_spec (fst (get_root sp)) 0) as [E|NE]; [by left|]. right. cbn [fst snd].
    split_and!; try done.
    assert ((if nv <=? fst (get_root sp) then fst (get_root sp) else nv) = Z.max nv (fst (get_root sp))) as ->
      by (destruct (Z.leb_spec nv (fst (get_root sp))); lia).
    destruct (Z.ltb_spec 0 (Z.max nv (fst (get_root sp)))) as [H|H].
    - left. split_and!; try lia. split_and!; [lia|done|apply creach_root].
    - right. lia.
  Qed.

  Lemma un_reach i p : reach un i p -> 0 < i <= Z.of_nat un_top /\ un_inv i p.
  Proof.
    induction 1 as [H|i p b Hr [Hi IH] Hb Hp].
    - cbn [get_root un St] in *. destruct un_root as [[E _]|(_ & _ & [(Ht & E & I)|(_ & E & _)])]; [lia| |lia].
      split; [|done]. lia.
    - cbn [get_child un St] in *. destruct (un_step i p b (proj1 Hi) IH Hb) as [[E _]|(I & _ & E)]; [lia|].
      rewrite E in *. unfold un_code in *. destruct (Z.ltb_spec 0 (i - 1)).
      + split; [lia|done].
      + destruct I as (I1 & _ & _). lia.
  Qed.

  (** no level is skipped except by arcs to the 0-terminal *)
  Lemma un_noskip i p b : reach un i p -> (b < ar sp)%nat ->
    fst (get_child un p i b) = 0 \/ (1 < i /\ fst (get_child un p i b) = i - 1) \/
    (i = 1 /\ fst (get_child un p i b) < 0).
  Proof.
    intros Hr Hb. apply un_reach in Hr as [Hi I]. cbn [get_child un St].
    destruct (un_step i p b (proj1 Hi) I Hb) as [[E _]|((I1 & I2 & _) & _ & E)]; [by left|].
    right. revert E. unfold un_code. destruct (Z.ltb_spec 0 (i - 1)) as [H|H]; intros E.
    - left. split; [lia|done].
    - right. split; [lia|]. rewrite E. lia.
  Qed.

  Lemma un_run bs : Forall (fun b => (b < ar sp)%nat) bs -> forall i (p q : Z * St sp),
    fst p = fst q -> same_future sp (fst p) (snd p) (snd q) -> run un i p bs = run un i q bs.
  Proof.
    induction 1 as [|b bs Hb HF IH]; intros i p q E F; [done|].
    cbn [run]. destruct (Z.ltb_spec 0 i) as [Hc|]; [|done].
    cbn zeta. f_equal. cbn [get_child un St]. rewrite !un_child_eq, <- E.
    assert (fst (un_mv p i b) = fst (un_mv q i b) /\
            same_future sp (fst (un_mv p i b)) (snd (un_mv p i b)) (snd (un_mv q i b))) as [M G].
    { unfold un_mv. rewrite <- E. destruct (Z.eqb_spec (fst p) i) as [E1|].
      - apply same_future_child; [done|done|]. by rewrite <- E1.
      - destruct (zdd && _); [|done]. split; [done|]. by apply same_future_nonpos. }
    destruct (fst p =? i).
    - rewrite <- M. destruct (fst (un_mv p i b) =? 0); [by rewrite !run_nonpos by (simpl; lia)|].
      cbn [fst snd]. by apply IH.
    - destruct (zdd && _); [by rewrite !run_nonpos by (simpl; lia)|].
      cbn [fst snd]. rewrite <- M. by apply IH.
  Qed.

  Lemma un_ok : spec_ok un.
  Proof.
    constructor; [apply (ok_arity sp Hok)| |].
    - intros i p b Hr Hb. pose proof (un_noskip i p b Hr Hb) as H. apply un_reach in Hr as [Hi _]. lia.
    - intros i p q Hp Hq He bs Hbs.
      apply un_reach in Hp as [_ (_ & _ & Rp)], Hq as [_ (_ & _ & Rq)].
      cbn [equal_to un] in He.
      destruct (Z.eqb_spec (fst p) (fst q)) as [E|]; [|done]. cbn [negb] in He.
      apply un_run; [done|done|].
      destruct (Z.ltb_spec 0 (fst p)) as [H|H]; [|by apply same_future_nonpos].
      cbn [andb] in He. destruct (equal_to sp (fst p) (snd p) (snd q)) eqn:Eq; [|done].
      apply (ok_equal sp Hok); [by apply Rp| |done]. rewrite E. apply Rq. lia.
  Qed.

  (** BDD and ZDD reading of the unreduced specification *)
  Definition src_eval (l : nat) (c : Z) (s : St sp) (v : vec) : bool :=
    if zdd then zdd_eval sp l c s v else bdd_eval sp l c s v.

  Lemma src_eval_0 l s v : src_eval l 0 s v = false.
  Proof. unfold src_eval. destruct zdd; [apply zdd_eval_0|apply bdd_eval_0]. Qed.

  Lemma src_eval_mv l p v : src_eval (S l) (fst p) (snd p) v =
    src_eval l (fst (un_mv p (Z.of_nat (S l)) (v (S l)))) (snd (un_mv p (Z.of_nat (S l)) (v (S l)))) v.
  Proof.
    unfold src_eval, un_mv. destruct zdd; cbn [zdd_eval bdd_eval andb]; cbn zeta.
    - destruct (Z.eqb_spec (fst p) (Z.of_nat (S l))) as [->|]; [done|].
      destruct (v (S l) =? 0)%nat; [done|]. simpl. by rewrite zdd_eval_0.
    - by destruct (Z.eqb_spec (fst p) (Z.of_nat (S l))) as [->|].
  Qed.

  Lemma un_eval l v p : vec_ok (ar sp) v -> un_inv (Z.of_nat l) p ->
    bdd_eval un l (un_code (Z.of_nat l) (fst p)) p v = src_eval l (fst p) (snd p) v /\
    zdd_eval un l (un_code (Z.of_nat l) (fst p)) p v = src_eval l (fst p) (snd p) v.
  Proof.
    intros Hv. revert p. induction l as [|l IH]; intros p Hi.
    - unfold un_code, src_eval. simpl. by destruct zdd.
    - assert (un_code (Z.of_nat (S l)) (fst p) = Z.of_nat (S l)) as -> by
        (unfold un_code; by destruct (Z.ltb_spec 0 (Z.of_nat (S l))); [|lia]).
      rewrite src_eval_mv. cbn [bdd_eval zdd_eval]. cbn zeta. rewrite Z.eqb_refl. cbn [get_child un St].
      destruct (un_step (Z.of_nat (S l)) p (v (S l)) ltac:(lia) Hi (Hv _)) as [[E E1]|(I & E & E1)].
      + rewrite E, E1, bdd_eval_0, zdd_eval_0, src_eval_0. done.
      + replace (Z.of_nat (S l) - 1) with (Z.of_nat l) in * by lia.
        rewrite E1, <- E. by apply IH.
  Qed.

  Lemma un_sem v : vec_ok (ar sp) v ->
    bdd_sem un un_top v = src_eval un_top (fst (get_root sp)) (snd (get_root sp)) v /\
    zdd_sem un un_top v = src_eval un_top (fst (get_root sp)) (snd (get_root sp)) v.
  Proof.
    intros Hv. unfold bdd_sem, zdd_sem. cbn [get_root un St].
    destruct un_root as [[E E1]|(NE & E & [(Ht & E1 & I)|(Ht & E1 & E2)])].
    - rewrite E, E1, bdd_eval_0, zdd_eval_0, src_eval_0. done.
    - rewrite E in *. rewrite E1 in *.
      pose proof (un_eval un_top v (get_root sp) Hv I) as H.
      unfold un_code in H. destruct (Z.ltb_spec 0 (Z.of_nat un_top)); [done|lia].
    - rewrite E1, Ht. unfold src_eval. cbn [bdd_eval zdd_eval].
      apply Z.ltb_lt in E2. rewrite E2. by destruct zdd.
  Qed.
End unreduction.

(** ** The variadic forms *)
Section nary.
  Context (op : spec -> spec -> spec) (good : spec -> Prop).
  Context (sem : spec -> nat -> vec -> bool) (bop : bool -> bool -> bool).
  Context (Hgood : forall s1 s2, good s1 -> good s2 -> good (op s1 s2)).
  Context (Hsem : forall s1 s2 n v, good s1 -> good s2 -> vec_ok 2 v ->
             (max (top_level s1) (top_level s2) <= n)%nat -> sem (op s1 s2) n v = bop (sem s1 n v) (sem s2 n v)).
  Context (Htop : forall s1 s2, good s1 -> good s2 -> (top_level (op s1 s2) <= max (top_level s1) (top_level s2))%nat).

  Lemma nary_ok s ss : good s -> Forall good ss ->
    good (nary op s ss) /\
    forall n v, vec_ok 2 v -> Forall (fun s => top_level s <= n)%nat (s :: ss) ->
      (top_level (nary op s ss) <= n)%nat /\
      sem (nary op s ss) n v =
        match ss with [] => sem s n v | s' :: ss' => bop (sem s n v) (sem (nary op s' ss') n v) end.
  Proof.
    intros Hs Hss. revert s Hs. induction Hss as [|s' ss' Hs' Hss IH]; intros s Hs; cbn [nary].
    - split; [done|]. intros n v _ H. by inversion H.
    - destruct (IH s' Hs') as [Hg HI]. split; [by apply Hgood|].
      intros n v Hv H. inversion H as [|? ? H1 H2]; subst.
      destruct (HI n v Hv H2) as [Ht _]. split.
      + etrans; [by apply Htop|]. lia.
      + apply Hsem; try done. lia.
  Qed.
End nary.

Lemma nary_and s ss n v :
  Forall (fun s => spec_ok s /\ ar s = 2%nat /\ (top_level s <= n)%nat) (s :: ss) -> vec_ok 2 v ->
  spec_ok (nary bdd_and s ss) /\ bdd_sem (nary bdd_and s ss) n v = forallb (fun s => bdd_sem s n v) (s :: ss).
Proof.
  intros H Hv.
  assert (forall s ss, Forall (fun s => spec_ok s /\ ar s = 2%nat /\ (top_level s <= n)%nat) (s :: ss) ->
    (spec_ok (nary bdd_and s ss) /\ ar (nary bdd_and s ss) = 2%nat) /\
    forall n v, vec_ok 2 v -> Forall (fun s => top_level s <= n)%nat (s :: ss) ->
      (top_level (nary bdd_and s ss) <= n)%nat /\
      bdd_sem (nary bdd_and s ss) n v =
        match ss with [] => bdd_sem s n v | s' :: ss' => andb (bdd_sem s n v) (bdd_sem (nary bdd_and s' ss') n v) end) as G.
  { intros s0 ss0 H0.
    apply (nary_ok bdd_and (fun s => spec_ok s /\ ar s = 2%nat) bdd_sem andb) with (s := s0) (ss := ss0).
    - intros s1 s2 [? ?] [? ?]. split; [by apply and_ok|done].
    - intros s1 s2 m w [? ?] [? ?] ? ?. by apply and_sem.
    - intros s1 s2 [? ?] [? ?]. by apply and_top.
    - inversion H0; tauto.
    - inversion H0 as [|? ? _ H1]; subst. eapply Forall_impl; [done|]. simpl. tauto. }
  split; [by apply G|].
  revert s H. induction ss as [|s' ss IH]; intros s H.
  - simpl. by rewrite andb_true_r.
  - destruct (G s (s' :: ss) H) as [_ E]. destruct (E n v Hv) as [_ ->].
    { eapply Forall_impl; [done|]. simpl. tauto. }
    cbn [forallb]. f_equal. apply IH. by inversion H.
Qed.

Lemma nary_or s ss n v :
  Forall (fun s => spec_ok s /\ ar s = 2%nat /\ (top_level s <= n)%nat) (s :: ss) -> vec_ok 2 v ->
  spec_ok (nary bdd_or s ss) /\ bdd_sem (nary bdd_or s ss) n v = existsb (fun s => bdd_sem s n v) (s :: ss).
Proof.
  intros H Hv.
  assert (forall s ss, Forall (fun s => spec_ok s /\ ar s = 2%nat /\ (top_level s <= n)%nat) (s :: ss) ->
    (spec_ok (nary bdd_or s ss) /\ ar (nary bdd_or s ss) = 2%nat) /\
    forall n v, vec_ok 2 v -> Forall (fun s => top_level s <= n)%nat (s :: ss) ->
      (top_level (nary bdd_or s ss) <= n)%nat /\
      bdd_sem (nary bdd_or s ss) n v =
        match ss with [] => bdd_sem s n v | s' :: ss' => orb (bdd_sem s n v) (bdd_sem (nary bdd_or s' ss') n v) end) as G.
  { intros s0 ss0 H0.
    apply (nary_ok bdd_or (fun s => spec_ok s /\ ar s = 2%nat) bdd_sem orb) with (s := s0) (ss := ss0).
    - intros s1 s2 [? ?] [? ?]. split; [by apply or_ok|done].
    - intros s1 s2 m w [? ?] [? ?] ? ?. by apply or_sem.
    - intros s1 s2 [? ?] [? ?]. by apply or_top.
    - inversion H0; tauto.
    - inversion H0 as [|? ? _ H1]; subst. eapply Forall_impl; [done|]. simpl. tauto. }
  split; [by apply G|].
  revert s H. induction ss as [|s' ss IH]; intros s H.
  - simpl. by rewrite orb_false_r.
  - destruct (G s (s' :: ss) H) as [_ E]. destruct (E n v Hv) as [_ ->].
    { eapply Forall_impl; [done|]. simpl. tauto. }
    cbn [existsb]. f_equal. apply IH. by inversion H.
Qed.

Lemma nary_union s ss n v :
  Forall (fun s => spec_ok s /\ ar s = 2%nat /\ (top_level s <= n)%nat) (s :: ss) -> vec_ok 2 v ->
  spec_ok (nary zdd_union s ss) /\ zdd_sem (nary zdd_union s ss) n v = existsb (fun s => zdd_sem s n v) (s :: ss).
Proof.
  intros H Hv.
  assert (forall s ss, Forall (fun s => spec_ok s /\ ar s = 2%nat /\ (top_level s <= n)%nat) (s :: ss) ->
    (spec_ok (nary zdd_union s ss) /\ ar (nary zdd_union s ss) = 2%nat) /\
    forall n v, vec_ok 2 v -> Forall (fun s => top_level s <= n)%nat (s :: ss) ->
      (top_level (nary zdd_union s ss) <= n)%nat /\
      zdd_sem (nary zdd_union s ss) n v =
        match ss with [] => zdd_sem s n v | s' :: ss' => orb (zdd_sem s n v) (zdd_sem (nary zdd_union s' ss') n v) end) as G.
  { intros s0 ss0 H0.
    apply (nary_ok zdd_union (fun s => spec_ok s /\ ar s = 2%nat) zdd_sem orb) with (s := s0) (ss := ss0).
    - intros s1 s2 [? ?] [? ?]. split; [by apply union_ok|done].
    - intros s1 s2 m w [? ?] [? ?] ? ?. by apply union_sem.
    - intros s1 s2 [? ?] [? ?]. by apply union_top.
    - inversion H0; tauto.
    - inversion H0 as [|? ? _ H1]; subst. eapply Forall_impl; [done|]. simpl. tauto. }
  split; [by apply G|].
  revert s H. induction ss as [|s' ss IH]; intros s H.
  - simpl. by rewrite orb_false_r.
  - destruct (G s (s' :: ss) H) as [_ E]. destruct (E n v Hv) as [_ ->].
    { eapply Forall_impl; [done|]. simpl. tauto. }
    cbn [existsb]. f_equal. apply IH. by inversion H.
Qed.

Lemma nary_inter s ss n v :
  Forall (fun s => spec_ok s /\ one_code s /\ ar s = 2%nat /\ (top_level s <= n)%nat) (s :: ss) -> vec_ok 2 v ->
  spec_ok (nary zdd_intersection s ss) /\
  zdd_sem (nary zdd_intersection s ss) n v = forallb (fun s => zdd_sem s n v) (s :: ss).
Proof.
  intros H Hv.
  assert (forall s ss, Forall (fun s => spec_ok s /\ one_code s /\ ar s = 2%nat /\ (top_level s <= n)%nat) (s :: ss) ->
    (spec_ok (nary zdd_intersection s ss) /\ one_code (nary zdd_intersection s ss) /\ ar (nary zdd_intersection s ss) = 2%nat) /\
    forall n v, vec_ok 2 v -> Forall (fun s => top_level s <= n)%nat (s :: ss) ->
      (top_level (nary zdd_intersection s ss) <= n)%nat /\
      zdd_sem (nary zdd_intersection s ss) n v =
        match ss with [] => zdd_sem s n v | s' :: ss' => andb (zdd_sem s n v) (zdd_sem (nary zdd_intersection s' ss') n v) end) as G.
  { intros s0 ss0 H0.
    apply (nary_ok zdd_intersection (fun s => spec_ok s /\ one_code s /\ ar s = 2%nat) zdd_sem andb) with (s := s0) (ss := ss0).
    - intros s1 s2 (? & ? & ?) (? & ? & ?). split_and!; [by apply inter_ok|by apply inter_one_code|done].
    - intros s1 s2 m w (? & ? & ?) (? & ? & ?) ? ?. by apply inter_sem.
    - intros s1 s2 (? & ? & ?) (? & ? & ?). by apply inter_top.
    - inversion H0; tauto.
    - inversion H0 as [|? ? _ H1]; subst. eapply Forall_impl; [done|]. simpl. tauto. }
  split; [by apply G|].
  revert s H. induction ss as [|s' ss IH]; intros s H.
  - simpl. by rewrite andb_true_r.
  - destruct (G s (s' :: ss) H) as [_ E]. destruct (E n v Hv) as [_ ->].
    { eapply Forall_impl; [done|]. simpl. tauto. }
    cbn [forallb]. f_equal. apply IH. by inversion H.
Qed.
