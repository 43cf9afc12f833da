(** Every operation on specifications reports the 1-terminal as -1 when its operands do. *)
From Verif Require Import Base Sem Tree M_Table S_Dd M_Ops P_Ops.
Local Open Scope Z_scope.

Definition coded (sp : spec) (c : Z) (s : St sp) : Prop := creach sp c s /\ -1 <= c.
Lemma coded_root sp : one_code sp -> coded sp (fst (get_root sp)) (snd (get_root sp)).
Proof. intros [H _]. split; [apply creach_root|done]. Qed.
Lemma coded_child sp c s b : one_code sp -> coded sp c s -> 0 < c -> (b < ar sp)%nat ->
  coded sp (fst (get_child sp s c b)) (snd (get_child sp s c b)).
Proof. intros [_ H] [Hr _] Hc Hb. split; [by apply creach_child; auto|]. apply H; auto. Qed.
Lemma coded_mv sp c s level b : one_code sp -> coded sp c s -> 0 < level -> (b < ar sp)%nat ->
  coded sp (fst (mv sp c s level b)) (snd (mv sp c s level b)).
Proof. intros Ho Hc Hl Hb. unfold mv. destruct (Z.eqb_spec c level) as [->|]; [by apply coded_child|done]. Qed.

Section binary.
  Context (sp1 sp2 : spec) (Hok1 : spec_ok sp1) (Hok2 : spec_ok sp2).
  Context (Hc1 : one_code sp1) (Hc2 : one_code sp2) (Ha1 : ar sp1 = 2%nat) (Ha2 : ar sp2 = 2%nat).
  Definition both (p : bstate sp1 sp2) : Prop := coded sp1 (lv1 p) (st1 p) /\ coded sp2 (lv2 p) (st2 p).

  Lemma and_coded l p b : both p -> 0 < l -> (b < 2)%nat ->
    let r := and_child sp1 sp2 p l b in -1 <= fst r /\ (0 < fst r -> both (snd r)).
  Proof.
    intros [B1 B2] Hl Hb. cbn zeta. rewrite and_child_eq. cbn zeta.
    pose proof (coded_mv sp1 _ _ l b Hc1 B1 Hl ltac:(lia)) as M1. pose proof (coded_mv sp2 _ _ l b Hc2 B2 Hl ltac:(lia)) as M2.
    destruct ((lv1 p =? l) && _); [simpl; lia|]. destruct ((lv2 p =? l) && _); [simpl; lia|]. cbn [fst snd].
    split; [|by split]. destruct M1, M2. lia.
  Qed.
  Lemma and_reach_coded l p : reach (bdd_and sp1 sp2) l p -> both p.
  Proof.
    induction 1 as [H|l p b Hr IH Hb Hp].
    - cbn [get_root bdd_and] in *. unfold and_root in *. cbn zeta in *. destruct (_ =? 0); [simpl in H; lia|]. destruct (_ =? 0); [simpl in H; lia|].
      split; by apply coded_root.
    - apply (and_coded l p b IH); [by eapply reach_pos|done|done].
  Qed.
  Lemma and_one_code : one_code (bdd_and sp1 sp2).
  Proof.
    split.
    - cbn [get_root bdd_and]. unfold and_root. cbn zeta. destruct (_ =? 0); [simpl; lia|]. destruct (_ =? 0); [simpl; lia|]. cbn [fst].
      destruct (coded_root sp1 Hc1), (coded_root sp2 Hc2). lia.
    - intros l p b Hr Hb. apply (and_coded l p b); [by eapply and_reach_coded|by eapply reach_pos|done].
  Qed.

  Lemma or_coded l p b : both p -> 0 < l -> (b < 2)%nat ->
    let r := or_child sp1 sp2 p l b in -1 <= fst r /\ (0 < fst r -> both (snd r)).
  Proof.
    intros [B1 B2] Hl Hb. cbn zeta. rewrite or_child_eq. cbn zeta.
    pose proof (coded_mv sp1 _ _ l b Hc1 B1 Hl ltac:(lia)) as M1. pose proof (coded_mv sp2 _ _ l b Hc2 B2 Hl ltac:(lia)) as M2.
    destruct ((lv1 p =? l) && _); [simpl; lia|]. destruct ((lv2 p =? l) && _); [simpl; lia|]. cbn [fst snd].
    split; [|by split]. destruct M1, M2. lia.
  Qed.
  Lemma or_reach_coded l p : reach (bdd_or sp1 sp2) l p -> both p.
  Proof.
    induction 1 as [H|l p b Hr IH Hb Hp].
    - cbn [get_root bdd_or] in *. unfold or_root in *. cbn zeta in *. destruct (_ <? 0); [simpl in H; lia|]. destruct (_ <? 0); [simpl in H; lia|].
      split; by apply coded_root.
    - apply (or_coded l p b IH); [by eapply reach_pos|done|done].
  Qed.
  Lemma or_one_code : one_code (bdd_or sp1 sp2).
  Proof.
    split.
    - cbn [get_root bdd_or]. unfold or_root. cbn zeta. destruct (_ <? 0); [simpl; lia|]. destruct (_ <? 0); [simpl; lia|]. cbn [fst].
      destruct (coded_root sp1 Hc1), (coded_root sp2 Hc2). lia.
    - intros l p b Hr Hb. apply (or_coded l p b); [by eapply or_reach_coded|by eapply reach_pos|done].
  Qed.
End binary.
Lemma union_one_code sp1 sp2 : one_code (zdd_union sp1 sp2).
Proof.
  assert (forall i j, -1 <= union_code i j) as H.
  { intros i j. unfold union_code. destruct (Z.eqb_spec i 0), (Z.eqb_spec j 0), (Z.leb_spec i 0), (Z.leb_spec j 0); cbn [andb]; lia. }
  split; [apply H|]. intros l p b _ _. apply H.
Qed.

Section unary.
  Context (sp : spec) (Hok : spec_ok sp) (Hc : one_code sp).
  Lemma bdd_look_coded fuel c s : coded sp c s -> let r := bdd_look sp fuel c s in coded sp (fst r) (snd r).
  Proof.
    revert c s. induction fuel as [|k IH]; intros c s H; cbn zeta; cbn [bdd_look]; [done|].
    destruct (Z.leb_spec 1 c); cbn [andb]; [|done]. destruct (bdd_redundant sp s c); [|done]. apply IH. apply coded_child; [done|done|lia|apply Hok].
  Qed.
  Lemma zdd_look_coded fuel c s : coded sp c s -> let r := zdd_look sp fuel c s in coded sp (fst r) (snd r).
  Proof.
    revert c s. induction fuel as [|k IH]; intros c s H; cbn zeta; cbn [zdd_look]; [done|].
    destruct (Z.leb_spec 1 c); cbn [andb]; [|done]. destruct (zdd_redundant sp s c); [|done]. apply IH. apply coded_child; [done|done|lia|apply Hok].
  Qed.
  Lemma bdd_lookahead_one_code : one_code (bdd_lookahead sp).
  Proof.
    split.
    - apply bdd_look_coded. by apply coded_root.
    - intros l s b Hr Hb. apply (bdd_lookahead_reach sp Hok) in Hr as [Hr _]. apply bdd_look_coded. apply coded_child; [done| |by eapply reach_pos|done].
      split; [by intros _|]. apply reach_pos in Hr. lia.
  Qed.
  Lemma zdd_lookahead_one_code : one_code (zdd_lookahead sp).
  Proof.
    split.
    - apply zdd_look_coded. by apply coded_root.
    - intros l s b Hr Hb. apply (zdd_lookahead_reach sp Hok) in Hr as [Hr _]. apply zdd_look_coded. apply coded_child; [done| |by eapply reach_pos|done].
      split; [by intros _|]. apply reach_pos in Hr. lia.
  Qed.
  Context (zdd : bool) (nv : Z).
  Notation un := (unreduction sp zdd nv).
  Lemma un_coded i p b : coded sp (fst p) (snd p) -> 0 < i -> (b < ar sp)%nat ->
    let r := unred_child sp zdd p i b in -1 <= fst r /\ (0 < fst r -> coded sp (fst (snd r)) (snd (snd r))).
  Proof.
    intros H Hi Hb. cbn zeta. unfold unred_child. cbn zeta. destruct (Z.eqb_spec (fst p) i) as [E|NE].
    - assert (coded sp (fst (get_child sp (snd p) i b)) (snd (get_child sp (snd p) i b))) as Hch.
      { apply coded_child; [done| |done|done]. by rewrite <- E. }
      destruct (_ =? 0); [simpl; lia|]. cbn [fst snd]. split; [|done]. destruct (Z.ltb_spec 0 (i - 1)); [lia|]. apply Hch.
    - destruct (zdd && _); [simpl; lia|]. cbn [fst snd]. split; [|done]. destruct (Z.ltb_spec 0 (i - 1)); [lia|]. apply H.
  Qed.
  Lemma un_reach_coded i p : reach un i p -> coded sp (fst p) (snd p).
  Proof.
    induction 1 as [H|i p b Hr IH Hb Hp].
    - cbn [get_root unreduction] in *. unfold unred_root in *. cbn zeta in *. destruct (_ =? 0); [simpl in H; lia|]. cbn [snd]. by apply coded_root.
    - apply (un_coded i p b IH); [by eapply reach_pos|done|done].
  Qed.
  Lemma un_one_code : one_code un.
  Proof.
    split.
    - cbn [get_root unreduction]. unfold unred_root. cbn zeta. destruct (_ =? 0); [simpl; lia|]. cbn [fst]. destruct (_ <? _) eqn:E; [|lia]. apply Z.ltb_lt in E. lia.
    - intros i p b Hr Hb. apply un_coded; [by eapply un_reach_coded|by eapply reach_pos|done].
  Qed.
End unary.
Lemma dd_one_code d : dd_wf d -> one_code (dd_spec d).
Proof.
  intros Hd. pose proof Hd as (Ha & Hwf & Hv). split; cbn [dd_spec get_root get_child].
  - destruct (neqb _ _); simpl; lia.
  - intros l f b Hr Hb. destruct (dd_reach_valid d Hd l f Hr) as (Hvf & -> & Hpos).
    destruct (child (tab d) f b) as [g|] eqn:Hg; cbn [fst snd]; [|lia].
    unfold child in Hg. destruct (tget (tab d) f) as [p|] eqn:Hp'; [|done]. simpl in Hg.
    unfold tget in Hp'. destruct (tab d !! row f) as [r|] eqn:Hrow; [|done]. simpl in Hp'.
    destruct (wf_child _ _ Hwf _ _ _ _ _ _ Hpos Hrow Hp' Hg) as [_ Hvg].
    unfold id_level. destruct (Nat.ltb_spec 0 (row g)) as [|H0]; [lia|]. unfold valid in Hvg. rewrite (proj2 (Nat.eqb_eq _ _)) in Hvg by lia. lia.
Qed.
