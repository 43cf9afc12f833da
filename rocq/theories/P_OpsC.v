(** The specification operators keep equal_to a congruence and hash_code compatible with it. *)
From Verif Require Import Base Sem M_Table Tree M_Ops P_Ops.
Local Open Scope Z_scope.

Lemma ceq_refl sp c s : spec_congr sp -> creach sp c s -> ceq sp c s s.
Proof. intros H R Hc. apply (cg_refl sp H). auto. Qed.
Lemma ceq_sym sp c s s' : spec_congr sp -> creach sp c s -> creach sp c s' -> ceq sp c s s' -> ceq sp c s' s.
Proof. intros H R R' E Hc. rewrite (cg_sym sp H); auto. Qed.
Lemma ceq_trans sp c s s' s'' : spec_congr sp -> creach sp c s -> creach sp c s' -> creach sp c s'' ->
  ceq sp c s s' -> ceq sp c s' s'' -> ceq sp c s s''.
Proof. intros H R R' R'' E E' Hc. apply (cg_trans sp H c s s' s''); auto. Qed.
Lemma ceq_nonpos sp c s s' : c <= 0 -> ceq sp c s s'.
Proof. intros H Hc. lia. Qed.

Lemma congr_of_iff sp (inv : Z -> St sp -> Prop) (R : Z -> St sp -> St sp -> Prop) :
  (forall l s, reach sp l s -> inv l s) ->
  (forall l s s', inv l s -> inv l s' -> equal_to sp l s s' = true <-> R l s s') ->
  (forall l s, inv l s -> R l s s) ->
  (forall l s s', inv l s -> inv l s' -> R l s s' -> R l s' s) ->
  (forall l s s' s'', inv l s -> inv l s' -> inv l s'' -> R l s s' -> R l s' s'' -> R l s s'') ->
  (forall l s s' b, reach sp l s -> reach sp l s' -> (b < ar sp)%nat -> R l s s' ->
     fst (get_child sp s l b) = fst (get_child sp s' l b) /\
     (0 < fst (get_child sp s l b) ->
      R (fst (get_child sp s l b)) (snd (get_child sp s l b)) (snd (get_child sp s' l b)))) ->
  spec_congr sp.
Proof.
  intros Hi He Hr Hs Ht Hch. constructor.
  - intros l s H. apply He; auto.
  - intros l s s' H H'. apply eq_iff_eq_true. rewrite !He by auto. split; apply Hs; auto.
  - intros l s s' s'' H H' H''. rewrite !He by auto. intros. eapply (Ht l s s'); auto.
  - intros l s s' b H H' Hb E. apply He in E; auto. destruct (Hch l s s' b H H' Hb E) as [E1 E2].
    split; [done|]. intros Hp. apply He; auto; apply Hi; [by apply reach_child|].
    rewrite E1 in *. by apply reach_child.
Qed.

Section binary.
  Context (sp1 sp2 : spec).
  Context (Hok1 : spec_ok sp1) (Hok2 : spec_ok sp2) (Ha1 : ar sp1 = 2%nat) (Ha2 : ar sp2 = 2%nat).
  Context (Hg1 : spec_congr sp1) (Hg2 : spec_congr sp2).

  Definition comp_ceq (p q : bstate sp1 sp2) : Prop :=
    lv1 p = lv1 q /\ lv2 p = lv2 q /\ ceq sp1 (lv1 p) (st1 p) (st1 q) /\ ceq sp2 (lv2 p) (st2 p) (st2 q).

  Lemma bop_equal_iff l p q : bop_equal sp1 sp2 l p q = true <-> comp_ceq p q.
  Proof using.
    clear. unfold bop_equal, comp_ceq, ceq.
    destruct (Z.eqb_spec (lv1 p) (lv1 q)) as [E1|N1]; cbn [negb]; [|split; [done|by intros (? & _)]].
    destruct (Z.eqb_spec (lv2 p) (lv2 q)) as [E2|N2]; cbn [negb]; [|split; [done|by intros (_ & ? & _)]].
    destruct (Z.ltb_spec 0 (lv1 p)) as [P1|P1], (Z.ltb_spec 0 (lv2 p)) as [P2|P2]; cbn [andb];
      destruct (equal_to sp1 (lv1 p) (st1 p) (st1 q)); destruct (equal_to sp2 (lv2 p) (st2 p) (st2 q)); cbn [negb];
      (split; [intros ?; split_and!; try done; lia|]); intros (_ & _ & A & B); try done;
      first [by apply A|by apply B].
  Qed.

  Lemma comp_ceq_refl p : comp_ok sp1 sp2 p -> comp_ceq p p.
  Proof. intros [R1 R2]. split_and!; try done; by apply ceq_refl. Qed.
  Lemma comp_ceq_sym p q : comp_ok sp1 sp2 p -> comp_ok sp1 sp2 q -> comp_ceq p q -> comp_ceq q p.
  Proof.
    intros [R1 R2] [R3 R4] (E1 & E2 & C1 & C2). split_and!; try done.
    - rewrite <- E1 in *. by apply ceq_sym.
    - rewrite <- E2 in *. by apply ceq_sym.
  Qed.
  Lemma comp_ceq_trans p q r : comp_ok sp1 sp2 p -> comp_ok sp1 sp2 q -> comp_ok sp1 sp2 r ->
    comp_ceq p q -> comp_ceq q r -> comp_ceq p r.
  Proof.
    intros [R1 R2] [R3 R4] [R5 R6] (E1 & E2 & C1 & C2) (E3 & E4 & C3 & C4). split_and!; try congruence.
    - rewrite <- E1 in *. rewrite <- E3 in *. by apply (ceq_trans sp1 _ _ (st1 q)).
    - rewrite <- E2 in *. rewrite <- E4 in *. by apply (ceq_trans sp2 _ _ (st2 q)).
  Qed.

  Lemma mv_ceq sp c s s' level b : spec_congr sp -> creach sp c s -> creach sp c s' -> (0 < level) ->
    (b < ar sp)%nat -> ceq sp c s s' ->
    fst (mv sp c s level b) = fst (mv sp c s' level b) /\
    ceq sp (fst (mv sp c s level b)) (snd (mv sp c s level b)) (snd (mv sp c s' level b)).
  Proof.
    intros Hg R R' Hl Hb E. unfold mv. destruct (Z.eqb_spec c level) as [->|]; [|done].
    apply (cg_child sp Hg); auto.
  Qed.

  Lemma zmv_ceq sp c s s' level b : spec_congr sp -> creach sp c s -> creach sp c s' -> (0 < level) ->
    (b < ar sp)%nat -> ceq sp c s s' ->
    fst (zmv sp c s level b) = fst (zmv sp c s' level b) /\
    ceq sp (fst (zmv sp c s level b)) (snd (zmv sp c s level b)) (snd (zmv sp c s' level b)).
  Proof.
    intros Hg R R' Hl Hb E. unfold zmv. destruct (Z.eqb_spec c level) as [->|].
    - apply (cg_child sp Hg); auto.
    - destruct (b =? 0)%nat; [done|]. split; [done|]. by apply ceq_nonpos.
  Qed.

  Lemma and_congr : spec_congr (bdd_and sp1 sp2).
  Proof.
    apply (congr_of_iff (bdd_and sp1 sp2) (fun _ p => comp_ok sp1 sp2 p) (fun _ => comp_ceq)).
    - intros l p R. by apply (and_reach sp1 sp2 Hok1 Hok2 Ha1 Ha2) in R as (_ & _ & _ & ?).
    - intros l p q _ _. apply bop_equal_iff.
    - intros _. apply comp_ceq_refl.
    - intros _. apply comp_ceq_sym.
    - intros _. apply comp_ceq_trans.
    - intros l p q b Rp Rq Hb E. pose proof (reach_pos _ _ _ Rp) as Hl.
      apply (and_reach sp1 sp2 Hok1 Hok2 Ha1 Ha2) in Rp as (_ & _ & _ & Rp1 & Rp2), Rq as (_ & _ & _ & Rq1 & Rq2).
      destruct E as (E1 & E2 & C1 & C2). cbn [get_child bdd_and St ar] in *.
      rewrite !and_child_eq. cbn zeta. rewrite <- E1, <- E2 in *.
      destruct (mv_ceq sp1 (lv1 p) (st1 p) (st1 q) l b) as [M1 G1]; auto; [lia|].
      destruct (mv_ceq sp2 (lv2 p) (st2 p) (st2 q) l b) as [M2 G2]; auto; [lia|].
      rewrite <- M1, <- M2.
      destruct ((lv1 p =? l) && _); [split; [done|cbn [fst]; lia]|].
      destruct ((lv2 p =? l) && _); [split; [done|cbn [fst]; lia]|].
      cbn [fst snd]. split; [done|]. intros _. split_and!; done.
  Qed.

  Lemma or_congr : spec_congr (bdd_or sp1 sp2).
  Proof.
    apply (congr_of_iff (bdd_or sp1 sp2) (fun _ p => comp_ok sp1 sp2 p) (fun _ => comp_ceq)).
    - intros l p R. by apply (or_reach sp1 sp2 Hok1 Hok2 Ha1 Ha2) in R as (_ & _ & _ & ?).
    - intros l p q _ _. apply bop_equal_iff.
    - intros _. apply comp_ceq_refl.
    - intros _. apply comp_ceq_sym.
    - intros _. apply comp_ceq_trans.
    - intros l p q b Rp Rq Hb E. pose proof (reach_pos _ _ _ Rp) as Hl.
      apply (or_reach sp1 sp2 Hok1 Hok2 Ha1 Ha2) in Rp as (_ & _ & _ & Rp1 & Rp2), Rq as (_ & _ & _ & Rq1 & Rq2).
      destruct E as (E1 & E2 & C1 & C2). cbn [get_child bdd_or St ar] in *.
      rewrite !or_child_eq. cbn zeta. rewrite <- E1, <- E2 in *.
      destruct (mv_ceq sp1 (lv1 p) (st1 p) (st1 q) l b) as [M1 G1]; auto; [lia|].
      destruct (mv_ceq sp2 (lv2 p) (st2 p) (st2 q) l b) as [M2 G2]; auto; [lia|].
      rewrite <- M1, <- M2.
      destruct ((lv1 p =? l) && _); [split; [done|cbn [fst]; lia]|].
      destruct ((lv2 p =? l) && _); [split; [done|cbn [fst]; lia]|].
      cbn [fst snd]. split; [done|]. intros _. split_and!; done.
  Qed.

  Lemma union_congr : spec_congr (zdd_union sp1 sp2).
  Proof.
    apply (congr_of_iff (zdd_union sp1 sp2) (fun _ p => comp_ok sp1 sp2 p) (fun _ => comp_ceq)).
    - intros l p R. by apply (union_reach sp1 sp2 Hok1 Hok2 Ha1 Ha2) in R as (_ & ?).
    - intros l p q _ _. apply bop_equal_iff.
    - intros _. apply comp_ceq_refl.
    - intros _. apply comp_ceq_sym.
    - intros _. apply comp_ceq_trans.
    - intros l p q b Rp Rq Hb E. pose proof (reach_pos _ _ _ Rp) as Hl.
      apply (union_reach sp1 sp2 Hok1 Hok2 Ha1 Ha2) in Rp as (_ & Rp1 & Rp2), Rq as (_ & Rq1 & Rq2).
      destruct E as (E1 & E2 & C1 & C2). cbn [get_child zdd_union St ar] in *.
      rewrite !union_child_eq. cbn zeta. rewrite <- E1, <- E2 in *.
      destruct (zmv_ceq sp1 (lv1 p) (st1 p) (st1 q) l b) as [M1 G1]; auto; [lia|].
      destruct (zmv_ceq sp2 (lv2 p) (st2 p) (st2 q) l b) as [M2 G2]; auto; [lia|].
      rewrite <- M1, <- M2. cbn [fst snd]. split; [done|]. intros _. split_and!; done.
  Qed.

  (** hashing *)
  Context (Hh1 : hash_ok sp1) (Hh2 : hash_ok sp2).

  Lemma bop_hash_ceq l p q : comp_ok sp1 sp2 p -> comp_ok sp1 sp2 q -> comp_ceq p q ->
    bop_hash sp1 sp2 l p = bop_hash sp1 sp2 l q.
  Proof.
    intros [R1 R2] [R3 R4] (E1 & E2 & C1 & C2). unfold bop_hash. rewrite <- E1, <- E2 in *.
    f_equal. f_equal; [f_equal|].
    - destruct (Z.ltb_spec 0 (lv1 p)) as [H|H]; [|done]. f_equal. apply Hh1; auto.
    - destruct (Z.ltb_spec 0 (lv2 p)) as [H|H]; [|done]. f_equal. apply Hh2; auto.
  Qed.

  Lemma and_hash : hash_ok (bdd_and sp1 sp2).
  Proof.
    intros l p q Rp Rq E.
    apply (and_reach sp1 sp2 Hok1 Hok2 Ha1 Ha2) in Rp as (_ & _ & _ & Rp), Rq as (_ & _ & _ & Rq).
    apply bop_hash_ceq; try done. by apply (bop_equal_iff l).
  Qed.
  Lemma or_hash : hash_ok (bdd_or sp1 sp2).
  Proof.
    intros l p q Rp Rq E.
    apply (or_reach sp1 sp2 Hok1 Hok2 Ha1 Ha2) in Rp as (_ & _ & _ & Rp), Rq as (_ & _ & _ & Rq).
    apply bop_hash_ceq; try done. by apply (bop_equal_iff l).
  Qed.
  Lemma union_hash : hash_ok (zdd_union sp1 sp2).
  Proof.
    intros l p q Rp Rq E.
    apply (union_reach sp1 sp2 Hok1 Hok2 Ha1 Ha2) in Rp as (_ & Rp), Rq as (_ & Rq).
    apply bop_hash_ceq; try done. by apply (bop_equal_iff l).
  Qed.

  (** ZddIntersection *)
  Context (Hc1 : one_code sp1) (Hc2 : one_code sp2).

  Lemma meet_ceq fuel i1 s1 s1' i2 s2 s2' :
    creach sp1 i1 s1 -> creach sp2 i2 s2 -> creach sp1 i1 s1' -> creach sp2 i2 s2' ->
    code_ok i1 -> code_ok i2 -> ceq sp1 i1 s1 s1' -> ceq sp2 i2 s2 s2' ->
    let r := meet sp1 sp2 fuel i1 s1 i2 s2 in
    let r' := meet sp1 sp2 fuel i1 s1' i2 s2' in
    fst r = fst r' /\ ceq sp1 (fst r) (fst (snd r)) (fst (snd r')) /\
    ceq sp2 (fst r) (snd (snd r)) (snd (snd r')).
  Proof.
    revert i1 s1 s1' i2 s2 s2'. induction fuel as [|k IH]; intros i1 s1 s1' i2 s2 s2' R1 R2 R1' R2' K1 K2 F1 F2;
      cbn zeta; cbn [meet].
    - destruct (Z.eqb_spec i1 i2) as [->|]; [done|]. simpl. split_and!; [done| |]; by apply ceq_nonpos.
    - destruct (Z.eqb_spec i1 i2) as [->|]; [done|].
      unfold code_ok in K1, K2. destruct (Z.ltb_spec i2 i1).
      + destruct (cg_child sp1 Hg1 i1 s1 s1' 0) as [E F]; [apply R1; lia|apply R1'; lia|lia|apply F1; lia|].
        pose proof (creach_child sp1 i1 s1' 0 (R1' ltac:(lia)) ltac:(lia)) as Q. revert Q.
        rewrite <- E. intros Q. pose proof (proj2 Hc1 i1 s1 0%nat (R1 ltac:(lia)) ltac:(lia)).
        destruct (Z.eqb_spec (fst (get_child sp1 s1 i1 0)) 0) as [E0|].
        * simpl. split_and!; [done| |]; by apply ceq_nonpos.
        * apply IH; [apply creach_child; [apply R1; lia|lia]|done|done|done|unfold code_ok; lia|done|done|done].
      + destruct (cg_child sp2 Hg2 i2 s2 s2' 0) as [E F]; [apply R2; lia|apply R2'; lia|lia|apply F2; lia|].
        pose proof (creach_child sp2 i2 s2' 0 (R2' ltac:(lia)) ltac:(lia)) as Q. revert Q.
        rewrite <- E. intros Q. pose proof (proj2 Hc2 i2 s2 0%nat (R2 ltac:(lia)) ltac:(lia)).
        destruct (Z.eqb_spec (fst (get_child sp2 s2 i2 0)) 0) as [E0|].
        * simpl. split_and!; [done| |]; by apply ceq_nonpos.
        * apply IH; [done|apply creach_child; [apply R2; lia|lia]|done|done|done|unfold code_ok; lia|done|done].
  Qed.

  Notation inter := (zdd_intersection sp1 sp2).

  Lemma inter_congr : spec_congr inter.
  Proof.
    apply (congr_of_iff inter (fun l p => reach sp1 l (fst p) /\ reach sp2 l (snd p))
      (fun l p q => equal_to sp1 l (fst p) (fst q) = true /\ equal_to sp2 l (snd p) (snd q) = true)).
    - intros l p R. by apply (inter_reach sp1 sp2 Hok1 Hok2 Ha1 Ha2 Hc1 Hc2) in R.
    - intros l p q _ _. apply andb_true_iff.
    - intros l p [R1 R2]. split; by apply cg_refl.
    - intros l p q [R1 R2] [R3 R4]. by rewrite (cg_sym sp1 Hg1 l (fst p)), (cg_sym sp2 Hg2 l (snd p)) by done.
    - intros l p q r [R1 R2] [R3 R4] [R5 R6] [A B] [C D].
      split; [by apply (cg_trans sp1 Hg1 l _ (fst q))|by apply (cg_trans sp2 Hg2 l _ (snd q))].
    - intros l p q b Rp Rq Hb [E1 E2]. pose proof (reach_pos _ _ _ Rp) as Hl.
      apply (inter_reach sp1 sp2 Hok1 Hok2 Ha1 Ha2 Hc1 Hc2) in Rp as [R1 R2], Rq as [R3 R4].
      cbn [get_child zdd_intersection St ar] in *. unfold inter_child. cbn zeta.
      destruct (cg_child sp1 Hg1 l _ _ b R1 R3 ltac:(lia) E1) as [M1 G1].
      destruct (cg_child sp2 Hg2 l _ _ b R2 R4 ltac:(lia) E2) as [M2 G2].
      pose proof (creach_child sp1 l _ b R3 ltac:(lia)) as Q1.
      pose proof (creach_child sp2 l _ b R4 ltac:(lia)) as Q2. rewrite <- M1 in *. rewrite <- M2 in *.
      pose proof (proj2 Hc1 l _ b R1 ltac:(lia)). pose proof (proj2 Hc2 l _ b R2 ltac:(lia)).
      destruct (Z.eqb_spec (fst (get_child sp1 (fst p) l b)) 0); [by split|].
      destruct (Z.eqb_spec (fst (get_child sp2 (snd p) l b)) 0); [by split|].
      destruct (meet_ceq (meet_fuel (fst (get_child sp1 (fst p) l b)) (fst (get_child sp2 (snd p) l b)))
        (fst (get_child sp1 (fst p) l b)) (snd (get_child sp1 (fst p) l b)) (snd (get_child sp1 (fst q) l b))
        (fst (get_child sp2 (snd p) l b)) (snd (get_child sp2 (snd p) l b)) (snd (get_child sp2 (snd q) l b)))
        as (E & K1 & K2); try done; try (unfold code_ok; lia); try (apply creach_child; [done|lia]).
      split; [done|]. intros Hp. split; [by apply K1|by apply K2].
  Qed.

  Lemma inter_hash : hash_ok inter.
  Proof.
    intros l p q Rp Rq E. cbn [equal_to zdd_intersection] in E. apply andb_true_iff in E as [E1 E2].
    apply (inter_reach sp1 sp2 Hok1 Hok2 Ha1 Ha2 Hc1 Hc2) in Rp as [R1 R2], Rq as [R3 R4].
    cbn [hash_code zdd_intersection]. f_equal. f_equal; f_equal; [by apply Hh1|by apply Hh2].
  Qed.
End binary.

Section unary.
  Context (sp : spec) (Hok : spec_ok sp) (Hh : hash_ok sp).

  Lemma bdd_lookahead_hash : hash_ok (bdd_lookahead sp).
  Proof.
    intros l s s' R R' E. apply (bdd_lookahead_reach sp Hok) in R as [R _], R' as [R' _]. by apply Hh.
  Qed.
  Lemma zdd_lookahead_hash : hash_ok (zdd_lookahead sp).
  Proof.
    intros l s s' R R' E. apply (zdd_lookahead_reach sp Hok) in R as [R _], R' as [R' _]. by apply Hh.
  Qed.

  Context (zdd : bool) (nv : Z).
  Notation un := (unreduction sp zdd nv).
  Definition un_ceq (p q : Z * St sp) : Prop := fst p = fst q /\ ceq sp (fst p) (snd p) (snd q).

  Lemma un_equal_iff l p q : equal_to un l p q = true <-> un_ceq p q.
  Proof.
    unfold un_ceq, ceq. cbn [equal_to unreduction].
    destruct (Z.eqb_spec (fst p) (fst q)) as [E|N]; cbn [negb]; [|split; [done|by intros [? _]]].
    destruct (Z.ltb_spec 0 (fst p)) as [P|P]; cbn [andb]; destruct (equal_to sp _ _ _); cbn [negb];
      (split; [intros ?; split; try done; lia|]); intros [_ A]; try done. by apply A.
  Qed.

  Lemma un_hash : hash_ok un.
  Proof.
    intros l p q Rp Rq E. apply un_equal_iff in E as [E1 E2].
    apply (un_reach sp Hok zdd nv) in Rp as [_ (_ & _ & Rp)], Rq as [_ (_ & _ & Rq)].
    cbn [hash_code unreduction]. rewrite <- E1 in *. f_equal. f_equal.
    destruct (Z.ltb_spec 0 (fst p)) as [H|H]; [|done]. f_equal. apply Hh; auto.
  Qed.

  Context (Hg : spec_congr sp).

  Lemma un_mv_ceq p q i b : un_ceq p q -> creach sp (fst p) (snd p) -> creach sp (fst q) (snd q) -> 0 < i ->
    (b < ar sp)%nat -> un_ceq (un_mv sp zdd p i b) (un_mv sp zdd q i b).
  Proof.
    intros [E1 E2] R R' Hi Hb. unfold un_mv. rewrite <- E1 in *.
    destruct (Z.eqb_spec (fst p) i) as [E|N].
    - rewrite E in *. apply (cg_child sp Hg); auto.
    - destruct (zdd && negb (b =? 0)%nat); [|by split]. split; [done|]. by apply ceq_nonpos.
  Qed.

  Lemma un_congr : spec_congr un.
  Proof.
    apply (congr_of_iff un (fun _ p => creach sp (fst p) (snd p)) (fun _ => un_ceq)).
    - intros l p R. by apply (un_reach sp Hok zdd nv) in R as [_ (_ & _ & ?)].
    - intros l p q _ _. apply un_equal_iff.
    - intros l p R. split; [done|]. by apply ceq_refl.
    - intros l p q R R' [E1 E2]. split; [done|]. rewrite <- E1 in *. by apply ceq_sym.
    - intros l p q r R R' R'' [E1 E2] [E3 E4]. split; [congruence|]. rewrite <- E1 in *. rewrite <- E3 in *.
      by apply (ceq_trans sp _ _ (snd q)).
    - intros l p q b Rp Rq Hb E. pose proof (reach_pos _ _ _ Rp) as Hl.
      apply (un_reach sp Hok zdd nv) in Rp as [_ (_ & _ & Rp)], Rq as [_ (_ & _ & Rq)].
      pose proof (un_mv_ceq p q l b E Rp Rq Hl Hb) as M.
      cbn [get_child unreduction St]. rewrite !un_child_eq. rewrite <- (proj1 E).
      destruct (fst p =? l).
      + rewrite <- (proj1 M). destruct (fst (un_mv sp zdd p l b) =? 0); [by split|]. by split.
      + destruct (zdd && _); [by split|]. rewrite <- (proj1 M). by split.
  Qed.
End unary.

Lemma bop_equal_sym sp1 sp2 l p q : shareable sp1 -> shareable sp2 ->
  bop_equal sp1 sp2 l p q = bop_equal sp1 sp2 l q p.
Proof.
  intros [S1 _] [S2 _]. apply eq_iff_eq_true. rewrite !bop_equal_iff. unfold comp_ceq, ceq.
  split; intros (E1 & E2 & C1 & C2); (split_and!; [done|done|..]); intros H.
  - rewrite S1, <- E1. apply C1. lia.
  - rewrite S2, <- E2. apply C2. lia.
  - rewrite S1, <- E1. apply C1. lia.
  - rewrite S2, <- E2. apply C2. lia.
Qed.

Lemma bop_hash_eq sp1 sp2 l p q : shareable sp1 -> shareable sp2 -> bop_equal sp1 sp2 l p q = true ->
  bop_hash sp1 sp2 l p = bop_hash sp1 sp2 l q.
Proof.
  intros [_ S1] [_ S2] E. apply bop_equal_iff in E as (E1 & E2 & C1 & C2).
  unfold bop_hash. rewrite <- E1, <- E2. f_equal. f_equal; [f_equal|].
  - destruct (Z.ltb_spec 0 (lv1 p)) as [H|H]; [|done]. f_equal. auto.
  - destruct (Z.ltb_spec 0 (lv2 p)) as [H|H]; [|done]. f_equal. auto.
Qed.

Lemma ops_shareable sp1 sp2 : shareable sp1 -> shareable sp2 ->
  shareable (bdd_and sp1 sp2) /\ shareable (bdd_or sp1 sp2) /\ shareable (zdd_union sp1 sp2) /\
  shareable (zdd_intersection sp1 sp2).
Proof.
  intros S1 S2. split_and!; try (split; intros; [by apply bop_equal_sym|by apply (bop_hash_eq sp1 sp2 l)]).
  destruct S1 as [A1 B1], S2 as [A2 B2]. split; intros l p q.
  - cbn [equal_to zdd_intersection]. by rewrite A1, A2.
  - cbn [equal_to hash_code zdd_intersection]. intros [E1 E2]%andb_true_iff.
    by rewrite (B1 _ _ _ E1), (B2 _ _ _ E2).
Qed.

Lemma un_shareable sp zdd nv : shareable sp -> shareable (unreduction sp zdd nv).
Proof.
  intros [A B]. split; intros l p q.
  - apply eq_iff_eq_true. rewrite !un_equal_iff. unfold un_ceq, ceq.
    split; intros [E C]; (split; [done|]); intros H; rewrite A, <- E; apply C; lia.
  - intros E. apply un_equal_iff in E as [E C]. cbn [hash_code unreduction]. rewrite <- E. f_equal. f_equal.
    destruct (Z.ltb_spec 0 (fst p)) as [H|H]; [|done]. f_equal. auto.
Qed.
