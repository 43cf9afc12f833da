(** Programs over the API: the invariant. *)
From Verif Require Import Base Sem M_Table Tree S_Dd M_Engine M_Builder P_Builder M_Ops P_Ops P_OpsC P_Code M_Conv P_Conv P_Wfb
  M_Reducer P_RMP M_Subset P_Subset P_Red P_RGlobal P_RHash P_AlgR3 P_Run P_RedProps Props_Reduce Props_Conv Props_Ops Props_Subset Props_Builder S_Api.
Local Open Scope nat_scope.

Section programs.
Context (a n : nat) (Ha : 0 < a).

Record sp_good (k : reading) (sp : spec) (P : vec -> bool) : Prop := {
  sg_ok : spec_ok sp; sg_congr : spec_congr sp; sg_code : one_code sp; sg_ar : ar sp = a; sg_top : top_level sp <= n;
  sg_sem : forall v, vec_ok a v -> means k sp n v = P v }.
Record dd_good (k : reading) (d : dd) (P : vec -> bool) : Prop := {
  dg_wf : dd_wf d; dg_ar : d_ar d = a; dg_row : row (rt d) <= n;
  dg_sem : forall v, vec_ok a v -> means k (dd_spec d) n v = P v }.

Lemma row_vars d : dd_wf d -> row (rt d) <= numVars d.
Proof.
  intros (_ & _ & Hv). unfold numVars. unfold valid in Hv. destruct (Nat.eqb_spec (row (rt d)) 0) as [->|Hne]; [lia|].
  destruct Hv as [p Hp]. unfold tget in Hp. apply bind_Some in Hp as (r & Hr & _). apply lookup_lt_Some in Hr. lia.
Qed.

Lemma good_built k sp P d : sp_good k sp P -> built sp d -> dd_good k d P.
Proof.
  intros [H1 H2 H3 H4 H5 H6] HB. constructor.
  - apply HB.
  - rewrite <- H4. apply HB.
  - etrans; [by apply (built_row sp)|done].
  - intros v Hv. rewrite <- H6 by done. destruct (built_sem sp d n v H1 HB) as [E1 E2]; [by rewrite H4|]. by destruct k.
Qed.
Lemma constructed_built sp d : spec_ok sp -> constructed sp d -> built sp d.
Proof.
  intros Hok [E|threads tasks sched H1 H2 H3 E].
  - destruct (construct_built sp Hok) as (x & Ex & HB). by assert (x = d) as -> by congruence.
  - destruct (construct_mp_built sp threads tasks sched Hok H1 H2 H3) as (x & Ex & HB). by assert (x = d) as -> by congruence.
Qed.
Lemma red_row B Z d d' : dd_wf d -> reduction B Z d d' -> B && Z = false -> row (rt d') <= row (rt d).
Proof.
  intros Hd H HBZ. pose proof Hd as (Ha' & Hwf & Hv). destruct (rep_exists _ _ Hwf _ Hv) as [T HT]. pose proof (rep_tok _ _ _ _ Hwf HT) as Hk.
  assert (forall md, reduced md d d' -> row (rt d') <= row (rt d)) as Hred.
  { intros md HR. rewrite <- (rep_lev _ _ _ (rd_rep _ _ _ HR T HT)), <- (rep_lev _ _ _ HT). by eapply red_lev. }
  destruct (B || Z) eqn:E; [eapply Hred; by apply reduction_reduced|]. apply orb_false_iff in E as [-> ->].
  destruct H as [H|H|threads chunks order Ht Hs H].
  - unfold reduce_seq in H. destruct (Nat.eqb_spec (d_ar d) 2) as [E|E].
    + destruct (reduce_R_qdd d Hd E) as (x & Ex & Hx). assert (x = d') as -> by congruence.
      rewrite <- (rep_lev _ _ _ (rq_rep _ _ Hx T HT)), <- (rep_lev _ _ _ HT). by destruct T.
    + destruct (reduce_hash_ok false false d Hd) as (x & Ex & Hx). assert (x = d') as -> by congruence. by eapply Hred.
  - destruct (reduce_hash_ok false false d Hd) as (x & Ex & Hx). assert (x = d') as -> by congruence. by eapply Hred.
  - destruct (reduce_mp_ok threads chunks order false false d Hd Ht Hs) as (x & Ex & Hx). assert (x = d') as -> by congruence. by eapply Hred.
Qed.
Lemma good_reduce k d P d' : dd_good k d P -> reduced_as k d d' -> dd_good k d' P.
Proof.
  intros [H1 H2 H3 H4] HR. destruct k; cbn [reduced_as] in HR.
  - destruct (C04_bdd_reduce_preserves d H1) as [_ H]. destruct (H d' HR) as (W & A & S). constructor; [done|congruence| |].
    + pose proof (red_row _ _ _ _ H1 HR eq_refl). lia.
    + intros v Hv. rewrite <- H4 by done. apply S; [done|by rewrite H2].
  - destruct (C05_zdd_reduce_preserves d H1) as [_ H]. destruct (H d' HR) as (W & A & S). constructor; [done|congruence| |].
    + pose proof (red_row _ _ _ _ H1 HR eq_refl). lia.
    + intros v Hv. rewrite <- H4 by done. apply S; [done|by rewrite H2].
Qed.
Lemma good_qdd k d P d' : dd_good k d P -> reduction false false d d' -> dd_good k d' P.
Proof.
  intros [H1 H2 H3 H4] HR. destruct (C06_qdd_reduce_preserves d H1) as [_ H]. destruct (H d' HR) as (W & A & _ & SB & SZ & _). constructor; [done|congruence| |].
  - pose proof (red_row _ _ _ _ H1 HR eq_refl). lia.
  - intros v Hv. rewrite <- H4 by done. destruct k; [apply SB|apply SZ]; by rewrite H2.
Qed.
Lemma subsetted_built d sp d' : dd_wf d -> spec_ok sp -> one_code sp -> ar sp = d_ar d -> subsetted d sp d' -> sub_built d sp d'.
Proof.
  intros Hd Hok Hone Har [shared E|threads sched shared Ht Hs E].
  - destruct (subset_built d Hd sp Hok Hone Har 1 ltac:(lia)
      (fun i => map (fun g => (g, 0%nat)) (seq 0 (sub_groups (tab d) i)))) with (single := true) (shared := shared) as (x & Ex & HB).
    + intros i. split.
      * rewrite map_map. simpl. by rewrite map_id.
      * apply Forall_forall. intros x Hx. apply elem_of_list_In, in_map_iff in Hx. destruct Hx as (g & <- & _). simpl. lia.
    + unfold zdd_subset in E. by assert (x = d') as -> by congruence.
  - destruct (subset_built d Hd sp Hok Hone Har threads Ht sched Hs) with (single := false) (shared := shared) as (x & Ex & HB).
    unfold zdd_subset_mp in E. by assert (x = d') as -> by congruence.
Qed.
Lemma good_subset d P sp R d' : dd_good AZdd d P -> sp_good AZdd sp R -> subsetted d sp d' -> dd_good AZdd d' (fun v => P v && R v).
Proof.
  intros [H1 H2 H3 H4] [S1 S2 S3 S4 S5 S6] HS. pose proof (subsetted_built d sp d' H1 S1 S3 ltac:(congruence) HS) as HB. constructor.
  - apply HB.
  - rewrite <- S4. apply HB.
  - etrans; [apply row_vars; apply HB|]. assert (numVars d' <= min (row (rt d)) (top_level sp)) by apply HB. lia.
  - intros v Hv. rewrite <- H4, <- S6 by done. cbn [means]. apply sub_built_sem; try done; [congruence|by rewrite S4].
Qed.
Lemma vars_n d : row (rt d) <= n -> vars_used (Z.of_nat n) d = n.
Proof. intros H. unfold vars_used. lia. Qed.
Lemma bdd_look_level d nv : dd_wf d -> top_level (bdd_lookahead (zdd_unreduction (dd_spec d) nv)) <= vars_used nv d.
Proof.
  intros Hd. etrans; [|by apply (un_top_level true nv)]. unfold top_level. cbn [get_root bdd_lookahead].
  destruct (look_at_spec (zdd_unreduction (dd_spec d) nv) (un_ok _ (dd_spec_ok d Hd) true nv) (get_root (zdd_unreduction (dd_spec d) nv)) (creach_root _)) as (B & _).
  apply Z2Nat_mono. exact B.
Qed.
Lemma good_bdd2zdd d P d' : dd_good ABdd d P -> bdd2zdd (Z.of_nat n) d = Some d' -> dd_good AZdd d' P.
Proof.
  intros [H1 H2 H3 H4] E. destruct (conv_spec_ok d (Z.of_nat n) H1) as [Hok _]. destruct (construct_built _ Hok) as (x & Ex & HB).
  unfold bdd2zdd in E. assert (x = d') as -> by congruence. constructor.
  - apply HB.
  - rewrite <- H2. apply HB.
  - etrans; [by apply (built_row _ d' Hok)|]. rewrite <- (vars_n d H3) at 2. by apply zdd_look_level.
  - intros v Hv. rewrite <- H4 by done. cbn [means]. rewrite (proj2 (built_sem _ d' n v Hok HB ltac:(cbn; by rewrite H2))).
    pose proof (proj1 (conv_sem d (Z.of_nat n) v H1 ltac:(by rewrite H2))) as Hc. by rewrite (vars_n d H3) in Hc.
Qed.
Lemma good_zdd2bdd d P d' : dd_good AZdd d P -> zdd2bdd (Z.of_nat n) d = Some d' -> dd_good ABdd d' P.
Proof.
  intros [H1 H2 H3 H4] E. destruct (conv_spec_ok d (Z.of_nat n) H1) as [_ Hok]. destruct (construct_built _ Hok) as (x & Ex & HB).
  unfold zdd2bdd in E. assert (x = d') as -> by congruence. constructor.
  - apply HB.
  - rewrite <- H2. apply HB.
  - etrans; [by apply (built_row _ d' Hok)|]. rewrite <- (vars_n d H3) at 2. by apply bdd_look_level.
  - intros v Hv. rewrite <- H4 by done. cbn [means]. rewrite (proj1 (built_sem _ d' n v Hok HB ltac:(cbn; by rewrite H2))).
    pose proof (proj2 (conv_sem d (Z.of_nat n) v H1 ltac:(by rewrite H2))) as Hc. by rewrite (vars_n d H3) in Hc.
Qed.
Lemma good_dd_spec k d P : dd_good k d P -> sp_good k (dd_spec d) P.
Proof.
  intros [H1 H2 H3 H4]. constructor; [by apply dd_spec_ok|by apply dd_congr|by apply dd_one_code|done| |done].
  unfold top_level. cbn [dd_spec get_root fst]. destruct (neqb _ _); lia.
Qed.
Lemma look_top s : spec_ok s -> top_level (bdd_lookahead s) <= top_level s /\ top_level (zdd_lookahead s) <= top_level s.
Proof.
  intros Hok. unfold top_level. split; apply Z2Nat_mono; cbn [get_root bdd_lookahead zdd_lookahead].
  - apply (look_at_spec s Hok (get_root s) (creach_root s)).
  - apply (zlook_at_spec s Hok (get_root s) (creach_root s)).
Qed.

Theorem api_good : (forall k s P, api_spec a n k s P -> sp_good k s P) /\ (forall k d P, api_dd a n k d P -> dd_good k d P).
Proof.
  apply api_ind.
  - intros k sp H1 H2 H3 H4 H5. by constructor.
  - intros k d P _ H. by apply good_dd_spec.
  - intros s1 s2 P1 P2 H2 _ [A1 A2 A3 A4 A5 A6] _ [B1 B2 B3 B4 B5 B6]. constructor.
    + apply and_ok; try done; congruence.
    + apply and_congr; try done; congruence.
    + apply and_one_code; try done; congruence.
    + done.
    + etrans; [apply and_top; try done; congruence|lia].
    + intros v Hv. cbn [means] in *. rewrite <- A6, <- B6 by done. subst a. by apply C16_bdd_and.
  - intros s1 s2 P1 P2 H2 _ [A1 A2 A3 A4 A5 A6] _ [B1 B2 B3 B4 B5 B6]. constructor.
    + apply or_ok; try done; congruence.
    + apply or_congr; try done; congruence.
    + apply or_one_code; try done; congruence.
    + done.
    + etrans; [apply or_top; try done; congruence|lia].
    + intros v Hv. cbn [means] in *. rewrite <- A6, <- B6 by done. subst a. by apply C17_bdd_or.
  - intros s1 s2 P1 P2 H2 _ [A1 A2 A3 A4 A5 A6] _ [B1 B2 B3 B4 B5 B6]. constructor.
    + apply inter_ok; try done; congruence.
    + apply inter_congr; try done; congruence.
    + apply inter_one_code; try done; congruence.
    + done.
    + etrans; [apply inter_top; try done; congruence|lia].
    + intros v Hv. cbn [means] in *. rewrite <- A6, <- B6 by done. subst a. by apply C18_zdd_intersection.
  - intros s1 s2 P1 P2 H2 _ [A1 A2 A3 A4 A5 A6] _ [B1 B2 B3 B4 B5 B6]. constructor.
    + apply union_ok; try done; congruence.
    + apply union_congr; try done; congruence.
    + apply union_one_code.
    + done.
    + etrans; [apply union_top; try done; congruence|lia].
    + intros v Hv. cbn [means] in *. rewrite <- A6, <- B6 by done. subst a. by apply C19_zdd_union.
  - intros s P _ [A1 A2 A3 A4 A5 A6]. constructor.
    + by apply bdd_lookahead_ok.
    + by apply bdd_lookahead_congr.
    + by apply bdd_lookahead_one_code.
    + done.
    + etrans; [by apply look_top|done].
    + intros v Hv. cbn [means] in *. rewrite <- A6 by done. apply bdd_lookahead_sem; [done|by rewrite A4|done].
  - intros s P _ [A1 A2 A3 A4 A5 A6]. constructor.
    + by apply zdd_lookahead_ok.
    + by apply zdd_lookahead_congr.
    + by apply zdd_lookahead_one_code.
    + done.
    + etrans; [by apply look_top|done].
    + intros v Hv. cbn [means] in *. rewrite <- A6 by done. apply zdd_lookahead_sem; [done|by rewrite A4|done].
  - intros k k' s P _ [A1 A2 A3 A4 A5 A6]. constructor.
    + by apply un_ok.
    + by apply un_congr.
    + by apply un_one_code.
    + done.
    + destruct (C21_unreduction s (is_zdd k) n A1 A5) as (_ & H & _). unfold top_level. destruct k; cbn [is_zdd] in *; unfold zdd_unreduction, bdd_unreduction in H; destruct H as [H|[[_ H]|[_ H]]]; lia.
    + intros v Hv. rewrite <- A6 by done. destruct (C21_unreduction s (is_zdd k) n A1 A5) as (_ & _ & _ & H). destruct (H v ltac:(by rewrite A4)) as [E1 E2].
      destruct k, k'; cbn [is_zdd means] in *; done.
  - intros k. constructor; [apply (C37_default_is_empty a n (fun _ => 0) Ha); by intros ?|done|cbn; lia|].
    intros v Hv. destruct (C37_default_is_empty a n v Ha Hv) as (_ & _ & E1 & E2). by destruct k.
  - intros k d E. destruct (C37_universal a n Ha) as (x & Ex & W & A & Hnv & _ & S & _). assert (x = d) as -> by congruence.
    constructor; [done|done| |].
    + rewrite <- Hnv. by apply row_vars.
    + intros v Hv. destruct (S v Hv). by destruct k.
  - intros k s P d _ H HC. eapply good_built; [done|]. apply constructed_built; [apply H|done].
  - intros k d P d' _ H HR. by eapply good_reduce.
  - intros k d P d' _ H HR. by eapply good_qdd.
  - intros d P s R d' _ H1 _ H2 HS. by eapply good_subset.
  - intros d P d' _ H E. by eapply good_bdd2zdd.
  - intros d P d' _ H E. by eapply good_zdd2bdd.
Qed.
End programs.
