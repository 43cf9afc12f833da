(** count() does not run out of words: short diagrams, and diagrams without level skipping. *)
From Verif Require Import Base Sem P_Size M_Hash P_Hash M_Big S_Big P_Big M_PathCount S_Path P_PathCount.
Local Open Scope N_scope.
Local Notation B := (2 ^ 63).

Lemma wneed_fits v s K : v < B ^ N.of_nat K -> (s <= K)%nat -> (wneed v s <= K)%nat.
Proof.
  intros Hv Hs. unfold wneed. destruct (N.ltb_spec v (B ^ N.of_nat s)); [done|].
  destruct (decide (s = K)) as [->|]; lia.
Qed.
Lemma minimal_fits n s K : minimal n s -> n < B ^ N.of_nat K -> (0 < K)%nat -> (s <= K)%nat.
Proof.
  intros [->|Hm] Hn HK; [lia|]. rewrite <- pow63 in Hm. destruct (decide (s <= K)%nat); [done|].
  assert (B ^ N.of_nat K <= B ^ N.of_nat (s - 1)) by (apply N.pow_le_mono_r; lia). lia.
Qed.
Lemma bok_fits x K : bok x -> bval x < B ^ N.of_nat K -> (0 < K)%nat -> exists s, holds x (bval x) s /\ minimal (bval x) s /\ (s <= K)%nat.
Proof. intros (s & H & Hm) HK H0. exists s. split_and!; try done. by eapply minimal_fits. Qed.
Lemma bn_add_total y x K : bok y -> bok x -> (0 < K <= length y)%nat -> bval y + bval x < B ^ N.of_nat K ->
  exists y' w, big_add y x = Some (y', w) /\ length y' = length y /\ bval y' < B ^ N.of_nat w.
Proof.
  intros Hy Hx HK Hs. destruct (bok_fits y K Hy) as (sy & H1 & M1 & L1); [lia|lia|]. destruct (bok_fits x K Hx) as (sx & H2 & M2 & L2); [lia|lia|].
  destruct (big_add_ok y x _ _ _ _ H1 H2) as (y' & E & H3 & F).
  { etransitivity; [apply (wneed_fits _ _ K); [done|lia]|lia]. }
  exists y', (wneed (bval y + bval x) (max sy sx)). split; [done|]. split; [apply F|].
  rewrite (proj2 (bn_add_ok _ _ _ _ E Hy Hx)). by apply (holds_bound _ _ _ H3).
Qed.
Lemma bn_copy_total slack cap x K : bok x -> (0 < K <= cap + slack)%nat -> bval x < B ^ N.of_nat K ->
  exists x', bn_copy slack cap x = Some x' /\ length x' = (cap + slack)%nat.
Proof.
  intros Hx HK Hs. destruct (bok_fits x K Hx) as (sx & H2 & M2 & L2); [lia|lia|].
  destruct (big_store_ok (replicate (cap + slack) 0) x _ _ H2) as (x' & E & _ & F); [rewrite replicate_length; lia|].
  exists x'. unfold bn_copy. rewrite E. cbn. split; [done|]. destruct F as [F _]. by rewrite F, replicate_length.
Qed.

Section total.
Context (sp : spec) (Hok : spec_ok sp) (Hsh : shareable sp) (slack : nat).
Notation lvs := (list (plevel sp (NT:=list N))).
Notation lok := (levels_ok sp bok).
Definition sum1 (vs : list (St sp * list N)) : N := sumN (fun v => bval (snd v)) vs.

(** ** facts about successful steps, from the general lemmas *)
Definition mk_step_ok (wt : Z -> St sp -> N) := step_ok sp bok bval eq wt.
Lemma branch_eq wt i nw0 s x acc b acc' :
  (forall l s s', reach sp l s -> reach sp l s' -> equal_to sp l s s' = true -> wt l s = wt l s') ->
  (forall s, wt 0%Z s = 0) -> (forall l s, (l < 0)%Z -> wt l s = 1) ->
  (0 < i)%nat -> reach sp (Z.of_nat i) s -> bok x -> (b < ar sp)%nat -> lok i (fst (fst acc)) -> bok (snd acc) ->
  pc_branch sp (bn_copy slack) big_add i nw0 s x acc b = Some acc' ->
  mk_step_ok wt i acc acc' (bval x * wt (fst (get_child sp s (Z.of_nat i) b)) (snd (get_child sp s (Z.of_nat i) b))).
Proof.
  intros. eapply (branch_ok sp Hok Hsh (bn_copy slack) big_add bok bval eq); try done; try (intros; lia); try (intros; congruence).
  - intros ? ? ? E ?. by eapply bn_copy_ok.
  - intros ? ? ? ? E ? ?. by eapply bn_add_ok.
Qed.

Definition wpow (l : Z) (_ : St sp) : N := if (l <? 0)%Z then 1 else if (l =? 0)%Z then 0 else N.of_nat (ar sp) ^ Z.to_N l.
Definition wone (l : Z) (_ : St sp) : N := if (l =? 0)%Z then 0 else 1.
Definition wneg (l : Z) (_ : St sp) : N := if (l <? 0)%Z then 1 else 0.
Notation mass1 := (mass sp bval wone).
Notation massA := (mass sp bval wpow).
Lemma ar_pos : 1 <= N.of_nat (ar sp). Proof. pose proof (ok_arity _ Hok). lia. Qed.
Lemma pow_pos k : 1 <= N.of_nat (ar sp) ^ k.
Proof. pose proof ar_pos. assert (N.of_nat (ar sp) ^ k <> 0) by (apply N.pow_nonzero; lia). lia. Qed.
Lemma mass_neg i lv : mass sp bval wneg i lv = 0.
Proof.
  unfold mass. rewrite (sumN_ext _ (fun _ => 0 * 0)), sumN_mul; [lia|]. intros j _. unfold lmass. destruct (lv !! j) as [[vs u]|]; [|done].
  rewrite (sumN_ext _ (fun _ => 0 * 0)), sumN_mul; [lia|]. intros v _. unfold vmass, wneg. destruct (Z.ltb_spec (Z.of_nat j) 0); lia.
Qed.
Lemma branch_facts i nw0 s x lv nw total b lv' nw' total' :
  (0 < i)%nat -> reach sp (Z.of_nat i) s -> bok x -> (b < ar sp)%nat -> lok i lv -> bok total ->
  pc_branch sp (bn_copy slack) big_add i nw0 s x (lv, nw, total) b = Some (lv', nw', total') ->
  lok i lv' /\ bok total' /\ length lv' = length lv /\ (forall j, (i <= j)%nat -> lv' !! j = lv !! j) /\
  bval total <= bval total' <= bval total + bval x /\ mass1 i lv' <= mass1 i lv + bval x /\
  bval total' + massA i lv' <= bval total + massA i lv + bval x * N.of_nat (ar sp) ^ N.of_nat (i - 1).
Proof.
  intros Hi Hr Hx Hb HL Ht E. pose proof (ok_level _ Hok _ s b Hr Hb) as Hlev.
  destruct (branch_eq wpow i nw0 s x (lv, nw, total) b (lv', nw', total')) as (A1 & A2 & A3 & A4 & A5); try done.
  { intros l ? Hl. unfold wpow. destruct (Z.ltb_spec l 0); [done|lia]. }
  destruct (branch_eq wone i nw0 s x (lv, nw, total) b (lv', nw', total')) as (_ & _ & _ & _ & B5); try done.
  { intros l ? Hl. unfold wone. destruct (Z.eqb_spec l 0); [lia|done]. }
  destruct (branch_eq wneg i nw0 s x (lv, nw, total) b (lv', nw', total')) as (_ & _ & _ & _ & C5); try done.
  { intros l ? Hl. unfold wneg. destruct (Z.ltb_spec l 0); [done|lia]. }
  rewrite !mass_neg in C5. clear E. destruct (get_child sp s (Z.of_nat i) b) as [c s']. cbn [fst snd] in *.
  pose proof (pow_pos (N.of_nat (i - 1))) as Hp.
  assert (wpow c s' <= N.of_nat (ar sp) ^ N.of_nat (i - 1)) as W1.
  { unfold wpow. destruct (Z.ltb_spec c 0); [done|]. destruct (Z.eqb_spec c 0); [lia|]. apply N.pow_le_mono_r; [pose proof ar_pos; lia|lia]. }
  assert (wone c s' <= 1) by (unfold wone; destruct (_ =? _)%Z; lia).
  assert (wneg c s' <= 1) by (unfold wneg; destruct (_ <? _)%Z; lia).
  split_and!; try done; nia.
Qed.

(** ** steps that cannot fail *)
Definition lens (i K : nat) (lv : lvs) : Prop := forall j vs u v, (j < i)%nat -> lv !! j = Some (vs, u) -> v ∈ vs -> (K <= length (snd v))%nat.
Definition fits (i nw : nat) (lv : lvs) : Prop := forall j vs u v, (j < i)%nat -> lv !! j = Some (vs, u) -> v ∈ vs -> bval (snd v) < B ^ N.of_nat nw.
Lemma sumN_ge {A} (f : A -> N) l x : x ∈ l -> f x <= sumN f l.
Proof. induction 1 as [x l|x y l H IH]; cbn [sumN]; lia. Qed.
Lemma level_le_mass i lv ii vs u : (0 < ii < i)%nat -> lv !! ii = Some (vs, u) -> sum1 vs <= mass1 i lv.
Proof.
  intros Hii Hl. transitivity (lmass sp bval wone lv ii).
  - unfold lmass. rewrite Hl. unfold sum1. apply N.eq_le_incl, sumN_ext. intros v _. unfold vmass, wone.
    destruct (Z.eqb_spec (Z.of_nat ii) 0); lia.
  - unfold mass. apply sumN_ge. apply elem_of_seq. lia.
Qed.
Lemma put_total cap i lv nw ii s x K M :
  lok i lv -> (0 < ii < i)%nat -> (i <= length lv)%nat -> bok x -> (0 < K <= cap + slack)%nat -> lens i K lv ->
  mass1 i lv + bval x <= M -> M < B ^ N.of_nat K ->
  exists lv' nw', pc_put sp (bn_copy slack) big_add cap lv nw ii s x = Some (lv', nw') /\ lens i K lv' /\ (nw <= nw')%nat /\
    (bval x < B ^ N.of_nat nw -> fits i nw lv -> fits i nw' lv').
Proof.
  intros HL Hii Hlen Hx HK Hlens HM HMK. unfold pc_put.
  destruct (lv !! ii) as [[vs u]|] eqn:El; [|exfalso; destruct (lookup_lt_is_Some_2 lv ii ltac:(lia)) as [? El']; pose proof (eq_trans (eq_sym El) El'); discriminate]. cbn [mbind option_bind].
  destruct (HL ii vs u ltac:(lia) El) as [Hvs Htab].
  assert (exists u' slot e, pc_add sp ii u (length vs, s) = Some (u', slot) /\ ht_at u' slot = Some e) as (u' & slot & e & Ea & Ee).
  { destruct Htab as [Hg _]. destruct Hsh as [S1 S2].
    destruct (ht_add_strong (hj sp ii) (ej sp ii) ltac:(intros; apply S1) ltac:(intros; by apply S2) u (length vs, s) Hg) as (u1 & i1 & y & E & _ & Hat & _).
    by exists u1, i1, y. }
  rewrite Ea. cbn [mbind option_bind]. rewrite Ee. cbn [mbind option_bind].
  destruct (add_cases sp Hsh _ _ _ _ _ _ _ _ Htab Ea Ee) as [Hg Hcase].
  pose proof (level_le_mass i lv ii vs u Hii El) as Hsum.
  assert (forall nw nw', (nw <= nw')%nat -> B ^ N.of_nat nw <= B ^ N.of_nat nw') as Hmono by (intros; apply N.pow_le_mono_r; lia).
  destruct (Nat.eqb_spec (fst e) (length vs)) as [En|En].
  - destruct (bn_copy_total slack cap x K Hx HK ltac:(lia)) as (x' & Ec & Hlx). rewrite Ec. cbn [mbind option_bind].
    eexists _, _. split; [done|]. split_and!; [|done|].
    + intros j vs1 u1 v Hj. destruct (decide (j = ii)) as [->|Hne]; [|rewrite list_lookup_insert_ne by done; by apply Hlens].
      rewrite list_lookup_insert by (by eapply lookup_lt_Some). intros E. injection E as <- <-. intros Hv.
      apply elem_of_app in Hv as [Hv|Hv]; [by eapply Hlens|]. apply elem_of_list_singleton in Hv as ->. cbn [snd]. lia.
    + intros Hxn Hf j vs1 u1 v Hj. destruct (decide (j = ii)) as [->|Hne]; [|rewrite list_lookup_insert_ne by done; by apply Hf].
      rewrite list_lookup_insert by (by eapply lookup_lt_Some). intros E. injection E as <- <-. intros Hv.
      apply elem_of_app in Hv as [Hv|Hv]; [by eapply Hf|]. apply elem_of_list_singleton in Hv as ->. cbn [snd].
      by rewrite (proj2 (bn_copy_ok _ _ _ _ Ec Hx)).
  - destruct Hcase as [(H1 & Heq & Hp)|(-> & _)]; [|done].
    destruct e as [k s1]. cbn [fst snd] in *. destruct (proj2 Htab _ _ H1) as [y Hy]. rewrite Hy. cbn [mbind option_bind].
    assert (node_ok sp bok ii (s1, y)) as [Hr1 Hy1] by (by eapply Forall_lookup_1). cbn [fst snd] in *.
    assert ((s1, y) ∈ vs) as Hin by (by eapply elem_of_list_lookup_2).
    pose proof (sumN_ge (fun v => bval (snd v)) vs (s1, y) Hin) as Hge. cbn [snd] in Hge. fold (sum1 vs) in Hge.
    pose proof (Hlens ii vs u (s1, y) ltac:(lia) El Hin) as Hly. cbn [snd] in Hly.
    destruct (bn_add_total y x K Hy1 Hx ltac:(lia) ltac:(lia)) as (y' & w & Ead & Hly' & Hyw). rewrite Ead. cbn [mbind option_bind].
    eexists _, _. split; [done|]. split_and!; [|lia|].
    + intros j vs1 u1 v Hj. destruct (decide (j = ii)) as [->|Hne]; [|rewrite list_lookup_insert_ne by done; by apply Hlens].
      rewrite list_lookup_insert by (by eapply lookup_lt_Some). intros E. injection E as <- <-. intros Hv.
      apply elem_of_list_lookup in Hv as [k' Hv]. apply list_lookup_insert_Some in Hv as [(-> & <- & _)|[_ Hv]]; [cbn [snd]; lia|].
      eapply Hlens; [|done|by eapply elem_of_list_lookup_2]. done.
    + intros Hxn Hf j vs1 u1 v Hj. pose proof (Hmono nw (nw `max` w)%nat ltac:(lia)). pose proof (Hmono w (nw `max` w)%nat ltac:(lia)).
      destruct (decide (j = ii)) as [->|Hne].
      2:{ rewrite list_lookup_insert_ne by done. intros E Hv. specialize (Hf _ _ _ _ Hj E Hv). lia. }
      rewrite list_lookup_insert by (by eapply lookup_lt_Some). intros E. injection E as <- <-. intros Hv.
      apply elem_of_list_lookup in Hv as [k' Hv]. apply list_lookup_insert_Some in Hv as [(-> & <- & _)|[_ Hv]]; [cbn [snd]; lia|].
      specialize (Hf ii vs u v ltac:(lia) El ltac:(by eapply elem_of_list_lookup_2)). lia.
Qed.

Section level.
Context (i nw0 K len Lt : nat) (M Mt : N) (Hi : (0 < i)%nat) (Hlen : (i < len)%nat) (HK : (0 < K <= nw0 + 1 + slack)%nat)
  (HM : M < B ^ N.of_nat K) (HLt : (0 < Lt)%nat) (HMt : Mt < B ^ N.of_nat Lt).
Definition tinv (acc : lvs * nat * list N) (R : N) : Prop :=
  let '(lv, nw, total) := acc in
  lok i lv /\ bok total /\ length lv = len /\ length total = Lt /\ lens i K lv /\ mass1 i lv + R <= M /\ bval total + R <= Mt.
(** the side facts of a sequence of steps *)
Definition tnext (big : N) (acc acc' : lvs * nat * list N) : Prop :=
  let '(lv, nw, total) := acc in let '(lv', nw', total') := acc' in
  (nw <= nw')%nat /\ (big < B ^ N.of_nat nw -> fits i nw lv -> fits i nw' lv') /\
  (forall j, (i <= j)%nat -> lv' !! j = lv !! j).
Lemma tnext_refl big acc : tnext big acc acc.
Proof. destruct acc as [[lv nw] t]. unfold tnext. split_and!; done. Qed.
Lemma tnext_trans big a1 a2 a3 : tnext big a1 a2 -> tnext big a2 a3 -> tnext big a1 a3.
Proof.
  destruct a1 as [[l1 n1] t1], a2 as [[l2 n2] t2], a3 as [[l3 n3] t3]. unfold tnext. intros (A1 & A2 & A3) (B1 & B2 & B3).
  split_and!; [lia| |intros j Hj; by rewrite B3, A3]. intros Hb Hf. apply B2; [|by apply A2].
  assert (B ^ N.of_nat n1 <= B ^ N.of_nat n2) by (apply N.pow_le_mono_r; lia). lia.
Qed.
Lemma branch_total s x acc b R big : reach sp (Z.of_nat i) s -> bok x -> bval x <= big -> (b < ar sp)%nat -> tinv acc (R + bval x) ->
  exists acc', pc_branch sp (bn_copy slack) big_add i nw0 s x acc b = Some acc' /\ tinv acc' R /\ tnext big acc acc'.
Proof.
  intros Hr Hx Hbig Hb HI. destruct acc as [[lv nw] total]. destruct HI as (I1 & I2 & I3 & I4 & I5 & I6 & I7).
  pose proof (ok_level _ Hok _ s b Hr Hb) as Hlev.
  assert (exists acc', pc_branch sp (bn_copy slack) big_add i nw0 s x (lv, nw, total) b = Some acc' /\ length (snd acc') = Lt /\ lens i K (fst (fst acc')) /\
    (nw <= snd (fst acc'))%nat /\ (bval x < B ^ N.of_nat nw -> fits i nw lv -> fits i (snd (fst acc')) (fst (fst acc')))) as ([[lv' nw'] total'] & E & H1 & H2 & H3 & H4).
  { unfold pc_branch. destruct (get_child sp s (Z.of_nat i) b) as [c s']. cbn [fst snd] in *.
    destruct (Z.leb_spec c 0).
    - destruct (Z.eqb_spec c 0); [by eexists|].
      destruct (bn_add_total total x Lt I2 Hx ltac:(lia) ltac:(lia)) as (t' & w & Ea & Hl & _). rewrite Ea. cbn [mbind option_bind].
      eexists. split; [done|]. cbn [fst snd]. split_and!; try done. lia.
    - destruct (Nat.ltb_spec (Z.to_nat c) i); [|lia].
      destruct (put_total (nw0 + 1 + (if (Z.to_nat c <? i - 1)%nat then (i - Z.to_nat c) / 63 else 0)) i lv nw (Z.to_nat c) s' x K M) as (lv' & nw' & E & L1 & L2 & L3);
        [done|lia|lia|done|lia|done|lia|done|]. rewrite E. cbn [mbind option_bind]. eexists. split; [done|]. cbn [fst snd]. done. }
  exists (lv', nw', total'). cbn [fst snd] in *. split; [done|].
  destruct (branch_facts i nw0 s x lv nw total b lv' nw' total' Hi Hr Hx Hb I1 I2 E) as (F1 & F2 & F3 & F4 & F5 & F6 & _).
  split; [unfold tinv; split_and!; try done; [congruence|lia|lia]|]. unfold tnext. split_and!; try done. intros Hb'. apply H4. lia.
Qed.
Lemma branches_total s x bs acc R big : reach sp (Z.of_nat i) s -> bok x -> bval x <= big -> Forall (fun b => (b < ar sp)%nat) bs ->
  tinv acc (R + N.of_nat (length bs) * bval x) ->
  exists acc', ofold (pc_branch sp (bn_copy slack) big_add i nw0 s x) bs acc = Some acc' /\ tinv acc' R /\ tnext big acc acc'.
Proof.
  intros Hr Hx Hbig Hbs. revert acc. induction Hbs as [|b bs Hb Hbs IH]; intros acc HI; cbn [ofold length] in *.
  - exists acc. split; [done|]. split; [|apply tnext_refl]. by rewrite N.mul_0_l, N.add_0_r in HI.
  - destruct (branch_total s x acc b (R + N.of_nat (length bs) * bval x) big Hr Hx Hbig Hb) as (a1 & E1 & I1 & N1).
    { replace (R + N.of_nat (length bs) * bval x + bval x) with (R + N.of_nat (S (length bs)) * bval x) by lia. done. }
    rewrite E1. destruct (IH a1 I1) as (a2 & E2 & I2 & N2). exists a2. split; [done|]. split; [done|]. by eapply tnext_trans.
Qed.
Lemma node_total v acc R big : node_ok sp bok i v -> bval (snd v) <= big -> tinv acc (R + N.of_nat (ar sp) * bval (snd v)) ->
  exists acc', pc_node sp (bn_copy slack) big_add bn_isz i nw0 acc v = Some acc' /\ tinv acc' R /\ tnext big acc acc'.
Proof.
  intros [Hr Hx] Hbig HI. unfold pc_node. rewrite bn_isz_some by done. cbn [mbind option_bind]. destruct (N.eqb_spec (bval (snd v)) 0) as [Ez|].
  - exists acc. split; [done|]. split; [|apply tnext_refl]. rewrite Ez, N.mul_0_r, N.add_0_r in HI. done.
  - unfold ofor. apply branches_total; try done.
    + apply Forall_forall. intros b Hb. apply elem_of_seq in Hb. lia.
    + by rewrite seq_length.
Qed.
Lemma nodes_total vs acc R big : Forall (node_ok sp bok i) vs -> Forall (fun v => bval (snd v) <= big) vs -> tinv acc (R + N.of_nat (ar sp) * sum1 vs) ->
  exists acc', ofold (pc_node sp (bn_copy slack) big_add bn_isz i nw0) vs acc = Some acc' /\ tinv acc' R /\ tnext big acc acc'.
Proof.
  revert acc. induction vs as [|v vs IH]; intros acc Hvs Hbs HI; cbn [ofold].
  - exists acc. split; [done|]. split; [|apply tnext_refl]. unfold sum1 in HI. cbn [sumN] in HI. by rewrite N.mul_0_r, N.add_0_r in HI.
  - apply Forall_cons in Hvs as [Hv Hvs], Hbs as [Hb Hbs].
    destruct (node_total v acc (R + N.of_nat (ar sp) * sum1 vs) big Hv Hb) as (a1 & E1 & I1 & N1).
    { unfold sum1 in *. cbn [sumN] in HI. replace (R + N.of_nat (ar sp) * sumN (fun v => bval v.2) vs + N.of_nat (ar sp) * bval (snd v))
        with (R + N.of_nat (ar sp) * (bval v.2 + sumN (fun v => bval v.2) vs)) by lia. done. }
    rewrite E1. destruct (IH a1 Hvs Hbs I1) as (a2 & E2 & I2 & N2). exists a2. split; [done|]. split; [done|]. by eapply tnext_trans.
Qed.
Lemma level_total lv nw total vs u : lok (S i) lv -> lv !! i = Some (vs, u) -> nw = nw0 ->
  tinv (lv, nw, total) (N.of_nat (ar sp) * sum1 vs) ->
  exists lv' nw' total', pc_level sp (bn_copy slack) big_add bn_isz (lv, nw, total) i = Some (lv', nw', total') /\
    length lv' = len /\ length total' = Lt /\ lens i K lv' /\ (nw <= nw')%nat /\
    (fits (S i) nw lv -> fits i nw' lv').
Proof.
  intros HL El -> HI. unfold pc_level. destruct (lv !! i) as [[vs0 u0]|] eqn:El0; [|done]. injection El as -> ->. rename El0 into El.
  cbn [mbind option_bind].
  set (big := B ^ N.of_nat nw0 - 1).
  pose proof (proj1 (HL i vs u ltac:(lia) El)) as Hvs.
  assert (forall big, Forall (fun v => bval (snd v) <= big) vs ->
    exists acc', ofold (pc_node sp (bn_copy slack) big_add bn_isz i nw0) (reverse vs) (lv, nw0, total) = Some acc' /\ tinv acc' 0 /\ tnext big (lv, nw0, total) acc') as HA.
  { intros big' Hb. apply nodes_total.
    - by apply Forall_reverse.
    - by apply Forall_reverse.
    - rewrite N.add_0_l. unfold sum1. by rewrite sumN_reverse. }
  destruct (HA (sum1 vs)) as ([[lv1 nw1] t1] & E1 & I1 & N1).
  { apply Forall_forall. intros v Hv. by apply (sumN_ge (fun v => bval (snd v))). }
  rewrite E1. cbn [mbind option_bind]. destruct I1 as (A1 & A2 & A3 & A4 & A5 & A6 & A7).
  destruct (lv1 !! (i - 1)%nat) as [[vs1 u1]|] eqn:El1.
  2:{ exfalso. destruct (lookup_lt_is_Some_2 lv1 (i - 1)%nat ltac:(lia)) as [? El']. pose proof (eq_trans (eq_sym El1) El'). discriminate. }
  cbn [mbind option_bind]. eexists _, _, _. split; [done|].
  assert (forall j vs2 u2, (j < i)%nat -> <[(i - 1)%nat:=(vs1, ht_empty)]> (<[i:=([], u)]> lv1) !! j = Some (vs2, u2) -> exists u3, lv1 !! j = Some (vs2, u3)) as Hj.
  { intros j vs2 u2 Hj. destruct (decide (j = i - 1)%nat) as [->|Hne].
    - rewrite list_lookup_insert by (rewrite insert_length; by eapply lookup_lt_Some). intros E. injection E as <- <-. by exists u1.
    - rewrite !list_lookup_insert_ne by lia. intros E. by exists u2. }
  split_and!.
  - by rewrite !insert_length.
  - done.
  - intros j vs2 u2 v Hj' E Hv. destruct (Hj j vs2 u2 Hj' E) as [u3 E3]. by eapply A5.
  - apply N1.
  - intros Hf. destruct (HA big) as (acc2 & E2 & _ & N2).
    { apply Forall_forall. intros v Hv. specialize (Hf i vs u v ltac:(lia) El Hv). unfold big. lia. }
    rewrite E1 in E2. injection E2 as <-. destruct N2 as (_ & N2 & _).
    assert (fits i nw1 lv1) as Hf1.
    { apply N2; [unfold big; pose proof (Bpow_pos nw0); lia|]. intros j ? ? ? Hj'. apply Hf. lia. }
    intros j vs2 u2 v Hj' E Hv. destruct (Hj j vs2 u2 Hj' E) as [u3 E3]. by eapply Hf1.
Qed.
End level.

(** ** the weighted bound over a level *)
Definition stepA (i : nat) (acc acc' : lvs * nat * list N) (e : N) : Prop :=
  let '(lv, nw, total) := acc in let '(lv', nw', total') := acc' in
  lok i lv' /\ bok total' /\ bval total' + massA i lv' <= bval total + massA i lv + e.
Lemma foldA {A} (f : lvs * nat * list N -> A -> option (lvs * nat * list N)) (e : A -> N) i l acc acc' :
  lok i (fst (fst acc)) -> bok (snd acc) ->
  (forall a acc acc', a ∈ l -> lok i (fst (fst acc)) -> bok (snd acc) -> f acc a = Some acc' -> stepA i acc acc' (e a)) ->
  ofold f l acc = Some acc' -> stepA i acc acc' (sumN e l).
Proof.
  revert acc. induction l as [|a l IH]; intros acc HL Ht Hf; cbn [ofold sumN].
  - intros E. injection E as <-. destruct acc as [[lv nw] t]. unfold stepA. split_and!; try done. lia.
  - destruct (f acc a) as [acc1|] eqn:E1; [|done]. cbn [mbind option_bind]. intros E.
    pose proof (Hf a acc acc1 ltac:(left) HL Ht E1) as H1.
    destruct acc as [[lv nw] t], acc1 as [[lv1 nw1] t1], acc' as [[lv2 nw2] t2]. unfold stepA in H1. destruct H1 as (G1 & G4 & G5).
    apply IH in E; [|done|done|intros a' ? ? Ha'; apply Hf; by right]. destruct E as (F1 & F4 & F5). unfold stepA. split_and!; try done. lia.
Qed.
Lemma nodeA i nw0 v acc acc' : (0 < i)%nat -> node_ok sp bok i v -> lok i (fst (fst acc)) -> bok (snd acc) ->
  pc_node sp (bn_copy slack) big_add bn_isz i nw0 acc v = Some acc' -> stepA i acc acc' (vmass sp bval wpow i v).
Proof.
  intros Hi [Hr Hx] HL Ht. unfold pc_node. destruct (bn_isz (snd v)) as [[]|] eqn:Ez; [| |done]; cbn [mbind option_bind].
  - intros E. injection E as <-. destruct acc as [[lv nw] t]. unfold stepA. split_and!; try done. lia.
  - intros E. unfold ofor in E. apply (foldA _ (fun _ => bval (snd v) * N.of_nat (ar sp) ^ N.of_nat (i - 1)) i) in E; [|done|done|].
    + destruct acc as [[lv nw] t], acc' as [[lv' nw'] t']. destruct E as (F1 & F4 & F5). unfold stepA. split_and!; try done.
      assert (forall l : list nat, sumN (fun _ => bval (snd v) * N.of_nat (ar sp) ^ N.of_nat (i - 1)) l = N.of_nat (length l) * (bval (snd v) * N.of_nat (ar sp) ^ N.of_nat (i - 1))) as Hs.
      { induction l as [|b l IH]; cbn [sumN length]; [lia|]. rewrite IH. lia. }
      rewrite Hs, seq_length in F5. unfold vmass, wpow. destruct (Z.ltb_spec (Z.of_nat i) 0); [lia|]. destruct (Z.eqb_spec (Z.of_nat i) 0); [lia|].
      replace (Z.to_N (Z.of_nat i)) with (N.succ (N.of_nat (i - 1))) by lia. rewrite N.pow_succ_r'. rewrite N.mul_shuffle3. done.
    + intros b a a' Hb HLa Hta E'. destruct a as [[lv nw] t], a' as [[lv' nw'] t']. apply elem_of_seq in Hb.
      destruct (branch_facts i nw0 (fst v) (snd v) lv nw t b lv' nw' t' Hi Hr Hx ltac:(lia) HLa Hta E') as (F1 & F2 & _ & _ & _ & _ & F7).
      unfold stepA. done.
Qed.
Lemma levelA lv nw total i lv' nw' total' : (0 < i)%nat -> lok (S i) lv -> bok total ->
  pc_level sp (bn_copy slack) big_add bn_isz (lv, nw, total) i = Some (lv', nw', total') ->
  lok i lv' /\ bok total' /\ bval total' + massA i lv' <= bval total + massA (S i) lv.
Proof.
  intros Hi HL Ht. unfold pc_level. destruct (lv !! i) as [[vs u]|] eqn:El; [|done]. cbn [mbind option_bind].
  destruct (ofold _ _ _) as [[[lv1 nw1] t1]|] eqn:Ef; [|done]. cbn [mbind option_bind].
  destruct (lv1 !! (i - 1)%nat) as [[vs' u']|] eqn:El1; [|done]. cbn [mbind option_bind]. intros E. injection E as <- <- <-.
  destruct (HL i vs u ltac:(lia) El) as [Hvs _].
  assert (lok i lv) as HLi by (intros j ? ? Hj; apply HL; lia).
  apply (foldA _ (vmass sp bval wpow i) i) in Ef; [|done|done|].
  2:{ intros v a a' Hv. apply nodeA; [done|]. apply elem_of_reverse in Hv; rewrite reverse_involutive in Hv. exact (proj1 (Forall_forall _ _) Hvs v Hv). }
  destruct Ef as (H1 & H4 & H5). rewrite sumN_reverse in H5.
  assert (forall j, (j < i)%nat -> lmass sp bval wpow (<[(i - 1)%nat:=(vs', ht_empty)]> (<[i:=([], u)]> lv1)) j = lmass sp bval wpow lv1 j) as Hm.
  { intros j Hj. unfold lmass. destruct (decide (j = i - 1)%nat) as [->|Hne].
    - rewrite list_lookup_insert by (rewrite insert_length; by eapply lookup_lt_Some). by rewrite El1.
    - rewrite !list_lookup_insert_ne by lia. done. }
  split_and!.
  - intros j vs1 u1 Hj. destruct (decide (j = i - 1)%nat) as [->|Hne].
    + rewrite list_lookup_insert by (rewrite insert_length; by eapply lookup_lt_Some). intros E. injection E as <- <-.
      split; [by apply (H1 _ _ _ Hj El1)|]. split; [by right|]. intros k s Hk. by apply elem_of_nil in Hk.
    + rewrite !list_lookup_insert_ne by lia. by apply H1.
  - done.
  - unfold mass at 1. rewrite (sumN_ext _ (lmass sp bval wpow lv1)) by (intros j Hj; apply Hm; apply elem_of_seq in Hj; lia). fold (massA i lv1).
    etransitivity; [exact H5|]. apply N.eq_le_incl. unfold mass. rewrite seq_S, sumN_app. cbn [sumN]. rewrite Nat.add_0_l.
    unfold lmass at 3. rewrite El. lia.
Qed.
Lemma sumN_mono {A} (f g : A -> N) l : (forall x, x ∈ l -> f x <= g x) -> sumN f l <= sumN g l.
Proof. induction l as [|x l IH]; intros H; cbn [sumN]; [done|]. pose proof (H x ltac:(left)). specialize (IH ltac:(intros; apply H; by right)). lia. Qed.
Lemma mass1_le i lv : mass1 i lv <= massA i lv.
Proof.
  unfold mass. apply sumN_mono. intros j _. unfold lmass. destruct (lv !! j) as [[vs u]|]; [|done]. apply sumN_mono. intros v _.
  unfold vmass. apply N.mul_le_mono_l. unfold wone, wpow. destruct (Z.eqb_spec (Z.of_nat j) 0) as [->|]; [lia|].
  destruct (Z.ltb_spec (Z.of_nat j) 0); [done|]. apply pow_pos.
Qed.
Lemma level_sum_le i lv vs u : (0 < i)%nat -> lv !! i = Some (vs, u) -> massA i lv + N.of_nat (ar sp) * sum1 vs <= massA (S i) lv.
Proof.
  intros Hi El. unfold mass. rewrite seq_S, sumN_app. cbn [sumN]. rewrite Nat.add_0_l, N.add_0_r. apply N.add_le_mono_l.
  unfold lmass. rewrite El. unfold sum1. rewrite <- sumN_mul. apply sumN_mono. intros v _. unfold vmass, wpow.
  destruct (Z.ltb_spec (Z.of_nat i) 0); [lia|]. destruct (Z.eqb_spec (Z.of_nat i) 0); [lia|].
  rewrite (N.mul_comm (bval _)). apply N.mul_le_mono_r. rewrite <- (N.pow_1_r (N.of_nat (ar sp))) at 1. apply N.pow_le_mono_r; [pose proof ar_pos; lia|lia].
Qed.
Lemma bok_len x : bok x -> (0 < length x)%nat. Proof. intros (s & H & _). apply holds_len in H. lia. Qed.

Notation lv_init n s one := (<[n%nat := ([(s, one)], ht_empty)]> (replicate (S n%nat) ([], ht_empty)) : lvs).
Lemma init_lookup n s one j vs u : (lv_init n s one) !! j = Some (vs, u) -> (j = n /\ vs = [(s, one)] \/ j <> n /\ vs = []) /\ u = ht_empty.
Proof.
  destruct (decide (j = n)) as [->|Hne].
  - rewrite list_lookup_insert by (rewrite replicate_length; lia). intros E. injection E as <- <-. split; [by left|done].
  - rewrite list_lookup_insert_ne by done. intros E. apply lookup_replicate in E as [E _]. injection E as -> ->. split; [by right|done].
Qed.
Lemma init_ok n s one : reach sp (Z.of_nat n) s -> bok one -> lok (S n) (lv_init n s one).
Proof.
  intros Hr Ho j vs u Hj E. apply init_lookup in E as [E ->]. split.
  - destruct E as [(-> & ->)|(_ & ->)]; [by repeat constructor|constructor].
  - split; [by right|]. intros k s' Hk. by apply elem_of_nil in Hk.
Qed.
Lemma init_mass n s one : (0 < n)%nat -> bval one = 1 -> massA (S n) (lv_init n s one) = N.of_nat (ar sp) ^ N.of_nat n.
Proof.
  intros Hn Eo. unfold mass. rewrite seq_S, sumN_app, (sumN_ext _ (fun _ => 0 * 0)), sumN_mul.
  - cbn [sumN]. rewrite Nat.add_0_l. unfold lmass. rewrite list_lookup_insert by (rewrite replicate_length; lia).
    cbn [sumN]. unfold vmass, wpow. cbn [fst snd]. rewrite Eo. destruct (Z.ltb_spec (Z.of_nat n) 0); [lia|]. destruct (Z.eqb_spec (Z.of_nat n) 0); [lia|].
    replace (Z.to_N (Z.of_nat n)) with (N.of_nat n) by lia. lia.
  - intros j Hj. apply elem_of_seq in Hj. unfold lmass. rewrite list_lookup_insert_ne, lookup_replicate_2 by lia. done.
Qed.
(** short diagrams: every number fits in one word *)
Lemma run_short n s one zero : (0 < n)%nat -> reach sp (Z.of_nat n) s -> bok one -> bok zero -> bval one = 1 -> bval zero = 0 ->
  N.of_nat (ar sp) ^ N.of_nat n < B -> exists total, pc_run sp (bn_copy slack) big_add bn_isz n s one zero = Some total.
Proof.
  intros Hn Hr Ho Hz Eo Ez Hsmall. unfold pc_run.
  assert (forall m lv nw t, (m <= n)%nat -> lok (S m) lv -> bok t -> length lv = S n -> bval t + massA (S m) lv <= N.of_nat (ar sp) ^ N.of_nat n ->
    exists r, ofold (pc_level sp (bn_copy slack) big_add bn_isz) (reverse (seq 1 m)) (lv, nw, t) = Some r) as HA.
  { induction m as [|m IH]; intros lv nw t Hm HL Ht Hlen Hle; [by eexists|].
    rewrite seq_S, reverse_app. change (reverse [(1 + m)%nat]) with [S m]. cbn [app ofold].
    destruct (lookup_lt_is_Some_2 lv (S m) ltac:(lia)) as [[vs u] El].
    pose proof (level_sum_le (S m) lv vs u ltac:(lia) El). pose proof (mass1_le (S m) lv).
    destruct (level_total (S m) nw 1 (S n) (length t) (N.of_nat (ar sp) ^ N.of_nat n) (N.of_nat (ar sp) ^ N.of_nat n)) with (lv := lv) (nw := nw) (total := t) (vs := vs) (u := u)
      as (lv' & nw' & t' & E & F1 & F2 & F3 & _); try done; try lia.
    - by apply bok_len.
    - eapply N.lt_le_trans; [exact Hsmall|]. rewrite <- (N.pow_1_r B) at 1. apply N.pow_le_mono_r; [done|]. pose proof (bok_len _ Ht). lia.
    - unfold tinv. split_and!; try done; try lia.
      + intros j ? ? Hj. apply HL. lia.
      + intros j vs1 u1 v Hj E1 Hv. destruct (HL j vs1 u1 ltac:(lia) E1) as [Hvs _]. apply bok_len. by apply (proj1 (Forall_forall _ _) Hvs v Hv).
    - change (1 + m)%nat with (S m). rewrite E. apply levelA in E as (G1 & G2 & G3); [|lia|done|done]. apply IH; [lia|done|done|done|lia]. }
  destruct (HA n (lv_init n s one) 1%nat zero) as [[[? ?] r] E]; [lia|by apply init_ok|done| | |].
  - by rewrite insert_length, replicate_length.
  - rewrite init_mass by done. lia.
  - exists r. exact (f_equal (fun o => '(_, _, total) ← o; Some total) E).
Qed.

(** ** countFast, short diagrams *)
Notation lvf := (list (list (St sp * list N))).
Notation lokF := (levels_okF sp bok).
Notation massFA := (massF sp bval wpow).
Definition pw (k : nat) : N := N.of_nat (ar sp) ^ N.of_nat k.
Definition finv (i n : nat) (acc : lvf * list N) (R : N) : Prop :=
  lokF i (fst acc) /\ bok (snd acc) /\ length (fst acc) = S n /\ bval (snd acc) + massFA i (fst acc) + R <= pw n.
Lemma wpow_le i c s : (0 < i)%nat -> (c < Z.of_nat i)%Z -> wpow c s <= pw (i - 1).
Proof.
  intros Hi Hc. unfold wpow, pw. destruct (Z.ltb_spec c 0); [apply pow_pos|]. destruct (Z.eqb_spec c 0); [lia|]. apply N.pow_le_mono_r; [pose proof ar_pos; lia|lia].
Qed.
Lemma wpow_lev i s : (0 < i)%nat -> wpow (Z.of_nat i) s = pw i.
Proof.
  intros Hi. unfold wpow, pw. destruct (Z.ltb_spec (Z.of_nat i) 0); [lia|]. destruct (Z.eqb_spec (Z.of_nat i) 0); [lia|]. f_equal. lia.
Qed.
Lemma branchF_total i n nw0 s x acc b R : (0 < i <= n)%nat -> pw n < B -> reach sp (Z.of_nat i) s -> bok x -> (b < ar sp)%nat ->
  bval x <= pw n -> finv i n acc (R + bval x * pw (i - 1)) ->
  exists acc', pcf_branch sp (bn_copy slack) big_add i nw0 s x acc b = Some acc' /\ finv i n acc' R.
Proof.
  intros Hi Hs Hr Hx Hb Hxn (I1 & I2 & I3 & I4). destruct acc as [lv total]. cbn [fst snd] in *.
  pose proof (pow_pos (N.of_nat (i - 1))) as Hp1. fold (pw (i - 1)) in Hp1.
  pose proof (ok_level _ Hok _ s b Hr Hb) as Hlev.
  assert (exists acc', pcf_branch sp (bn_copy slack) big_add i nw0 s x (lv, total) b = Some acc' /\ length (fst acc') = S n) as (acc' & E & Hl).
  { unfold pcf_branch. destruct (get_child sp s (Z.of_nat i) b) as [c s']. cbn [fst snd] in *. destruct (Z.leb_spec c 0).
    - destruct (Z.eqb_spec c 0); [by eexists|].
      assert (bval x <= bval x * pw (i - 1)) by nia.
      destruct (bn_add_total total x 1 I2 Hx) as (t' & w & Ea & _); [pose proof (bok_len _ I2); lia|rewrite N.pow_1_r; lia|]. rewrite Ea. by eexists.
    - destruct (Nat.ltb_spec (Z.to_nat c) i); [|lia].
      destruct (lookup_lt_is_Some_2 lv (Z.to_nat c) ltac:(lia)) as [vs El]. rewrite El. cbn [mbind option_bind].
      destruct (bn_copy_total slack (nw0 + 1 + (if (Z.to_nat c <? i - 1)%nat then (i - Z.to_nat c) / 63 else 0)) x 1 Hx) as (x' & Ec & _); [lia|rewrite N.pow_1_r; lia|].
      rewrite Ec. cbn [mbind option_bind]. eexists. split; [done|]. cbn [fst]. by rewrite insert_length. }
  exists acc'. split; [done|].
  apply (branchF_ok sp Hok (bn_copy slack) big_add bok bval eq) with (wt := wpow) in E; try done; try (intros; lia); try (intros; congruence); try lia.
  - destruct acc' as [lv' t']. destruct E as (F1 & F2 & F3). unfold finv. cbn [fst snd] in *. split_and!; try done.
    pose proof (wpow_le i (fst (get_child sp s (Z.of_nat i) b)) (snd (get_child sp s (Z.of_nat i) b)) ltac:(lia) ltac:(lia)) as Hw.
    pose proof (N.mul_le_mono_l _ _ (bval x) Hw). lia.
  - intros ? ? ? E' ?. by eapply bn_copy_ok.
  - intros ? ? ? ? E' ? ?. by eapply bn_add_ok.
  - intros l ? Hl'. unfold wpow. destruct (Z.ltb_spec l 0); [done|lia].
Qed.
Lemma nodeF_total i n nw0 v acc R : (0 < i <= n)%nat -> pw n < B -> node_ok sp bok i v -> bval (snd v) <= pw n ->
  finv i n acc (R + bval (snd v) * pw i) ->
  exists acc', pcf_node sp (bn_copy slack) big_add bn_isz i nw0 acc v = Some acc' /\ finv i n acc' R.
Proof.
  intros Hi Hs [Hr Hx] Hxn HI. unfold pcf_node. rewrite bn_isz_some by done. cbn [mbind option_bind]. destruct (N.eqb_spec (bval (snd v)) 0) as [Ez|].
  - exists acc. split; [done|]. rewrite Ez in HI. by rewrite N.mul_0_l, N.add_0_r in HI.
  - unfold ofor. assert (pw i = N.of_nat (length (seq 0 (ar sp))) * pw (i - 1)) as Ep.
    { rewrite seq_length. unfold pw. replace (N.of_nat i) with (N.succ (N.of_nat (i - 1))) by lia. by rewrite N.pow_succ_r'. }
    rewrite Ep in HI. assert (Forall (fun b => (b < ar sp)%nat) (seq 0 (ar sp))) as Hbs by (apply Forall_forall; intros b Hb; apply elem_of_seq in Hb; lia).
    clear Ep. revert acc HI. induction Hbs as [|b bs Hb Hbs IH]; intros acc HI; cbn [ofold length] in *.
    + exists acc. split; [done|]. by rewrite N.mul_0_l, N.mul_0_r, N.add_0_r in HI.
    + destruct (branchF_total i n nw0 (fst v) (snd v) acc b (R + bval (snd v) * (N.of_nat (length bs) * pw (i - 1))) Hi Hs Hr Hx Hb Hxn) as (a1 & E1 & I1).
      { rewrite Nat2N.inj_succ, N.mul_succ_l, N.mul_add_distr_l, N.add_assoc in HI. done. }
      rewrite E1. by apply IH.
Qed.
Lemma nodesF_total i n nw0 vs acc R : (0 < i <= n)%nat -> pw n < B -> Forall (node_ok sp bok i) vs -> finv i n acc (R + sumN (vmass sp bval wpow i) vs) ->
  exists acc', ofold (pcf_node sp (bn_copy slack) big_add bn_isz i nw0) vs acc = Some acc' /\ finv i n acc' R.
Proof.
  intros Hi Hs Hvs. revert acc. induction Hvs as [|v vs Hv Hvs IH]; intros acc HI; cbn [ofold sumN] in *.
  - exists acc. by rewrite N.add_0_r in HI.
  - unfold vmass at 1 in HI. rewrite wpow_lev in HI by lia.
    assert (bval (snd v) <= bval (snd v) * pw i) by (pose proof (pow_pos (N.of_nat i)); unfold pw; nia).
    destruct (nodeF_total i n nw0 v acc (R + sumN (vmass sp bval wpow i) vs) Hi Hs Hv) as (a1 & E1 & I1).
    + destruct HI as (_ & _ & _ & HI). lia.
    + replace (R + sumN (vmass sp bval wpow i) vs + bval (snd v) * pw i) with (R + (bval (snd v) * pw i + sumN (vmass sp bval wpow i) vs)) by lia. done.
    + rewrite E1. by apply IH.
Qed.
Lemma sum2_le {A} (f : A -> N) l k k' x y : k <> k' -> l !! k = Some x -> l !! k' = Some y -> f x + f y <= sumN f l.
Proof.
  revert k k'. induction l as [|z l IH]; intros [|k] [|k'] Hne Hx Hy; try done; cbn [sumN].
  - injection Hx as ->. cbn in Hy. apply elem_of_list_lookup_2, (sumN_ge f) in Hy. lia.
  - injection Hy as ->. cbn in Hx. apply elem_of_list_lookup_2, (sumN_ge f) in Hx. lia.
  - specialize (IH k k' ltac:(congruence) Hx Hy). lia.
Qed.
Lemma mergeF_total i m vs u nw : Forall (node_ok sp bok i) vs -> tab_ok sp i vs u -> (forall e, e ∈ ht_elems u -> (m <= fst e)%nat) -> (m <= length vs)%nat ->
  sum1 vs < B -> exists r, ofold (pcf_merge sp big_add bn_clear i) (reverse (seq 0 m)) (vs, u, nw) = Some r.
Proof.
  revert vs u nw. induction m as [|m IH]; intros vs u nw Hvs Htab Hk Hm Hsum; [by eexists|].
  rewrite seq_S, reverse_app. change (reverse [(0 + m)%nat]) with [m]. cbn [app ofold]. change (0 + m)%nat with m.
  assert (exists r, pcf_merge sp big_add bn_clear i (vs, u, nw) m = Some r) as [[[vs1 u1] nw1] E1].
  { unfold pcf_merge. destruct (lookup_lt_is_Some_2 vs m ltac:(lia)) as [[s x] El]. rewrite El. cbn [mbind option_bind].
    assert (exists u' slot e, pc_add sp i u (m, s) = Some (u', slot) /\ ht_at u' slot = Some e) as (u' & slot & e & Ea & Ee).
    { destruct Htab as [Hg _]. destruct Hsh as [S1 S2].
      destruct (ht_add_strong (hj sp i) (ej sp i) ltac:(intros; apply S1) ltac:(intros; by apply S2) u (m, s) Hg) as (u1 & i1 & y & E & _ & Hat & _).
      by exists u1, i1, y. }
    rewrite Ea. cbn [mbind option_bind]. rewrite Ee. cbn [mbind option_bind].
    destruct (add_cases sp Hsh _ _ _ _ _ _ _ _ Htab Ea Ee) as [_ Hcase]. destruct (Nat.eqb_spec (fst e) m) as [|En]; [by eexists|].
    destruct Hcase as [(H1 & _)|(-> & _)]; [|done]. destruct e as [k s1]. cbn [fst snd] in *. destruct (proj2 Htab _ _ H1) as [y Hy]. rewrite Hy. cbn [mbind option_bind].
    assert (node_ok sp bok i (s1, y)) as [_ Hy1] by (by eapply Forall_lookup_1). assert (node_ok sp bok i (s, x)) as [_ Hx1] by (by eapply Forall_lookup_1). cbn [fst snd] in *.
    pose proof (sum2_le (fun v => bval (snd v)) vs k m _ _ En Hy El) as Hle. cbn [snd] in Hle. fold (sum1 vs) in Hle.
    destruct (bn_add_total y x 1 Hy1 Hx1) as (y' & w & Ead & _); [pose proof (bok_len _ Hy1); lia|rewrite N.pow_1_r; lia|]. rewrite Ead. cbn [mbind option_bind].
    assert (exists x', bn_clear x = Some x') as [x' Ecl].
    { pose proof (bok_len _ Hx1). destruct x as [|w0 x]; [cbn in *; lia|]. unfold bn_clear, big_store64. cbn. by eexists. }
    rewrite Ecl. by eexists. }
  rewrite E1. apply (merge_step sp Hsh big_add bn_clear bok bval eq) with (wt := fun _ _ => 1) in E1 as (A1 & A2 & A3 & A4 & A5); try done; try (intros; lia); try (intros; congruence).
  - apply IH; try done; [lia|]. replace (sum1 vs1) with (sum1 vs); [done|]. unfold sum1. symmetry.
    rewrite (sumN_ext _ (vmass sp bval (fun _ _ => 1) i)) by (intros v _; unfold vmass; lia). rewrite A5. apply sumN_ext. intros v _. unfold vmass. lia.
  - intros ? ? ? ? E' ? ?. by eapply bn_add_ok.
  - intros ? ? E' ?. by eapply bn_clear_ok.
Qed.
Lemma runF_short n s one zero : (0 < n)%nat -> reach sp (Z.of_nat n) s -> bok one -> bok zero -> bval one = 1 -> bval zero = 0 ->
  N.of_nat (ar sp) ^ N.of_nat n < B -> exists total, pcf_run sp (bn_copy slack) big_add bn_isz bn_clear n s one zero = Some total.
Proof.
  intros Hn Hr Ho Hz Eo Ez Hsmall. unfold pcf_run.
  assert (forall m lv nw t, (m <= n)%nat -> finv (S m) n (lv, t) 0 ->
    exists r, ofold (pcf_level sp (bn_copy slack) big_add bn_isz bn_clear) (reverse (seq 1 m)) (lv, nw, t) = Some r) as HA.
  { induction m as [|m IH]; intros lv nw t Hm (HL & Ht & Hlen & Hle); [by eexists|]. cbn [fst snd] in *.
    rewrite seq_S, reverse_app. change (reverse [(1 + m)%nat]) with [S m]. cbn [app ofold]. change (1 + m)%nat with (S m).
    destruct (lookup_lt_is_Some_2 lv (S m) ltac:(lia)) as [vs El].
    assert (massFA (S (S m)) lv = massFA (S m) lv + sumN (vmass sp bval wpow (S m)) vs) as HM.
    { unfold massF. rewrite (seq_S (S m)), sumN_app. cbn [sumN]. rewrite Nat.add_0_l, N.add_0_r. f_equal. unfold lmassF. by rewrite El. }
    assert (sum1 vs <= sumN (vmass sp bval wpow (S m)) vs) as Hs1.
    { apply sumN_mono. intros v _. unfold vmass. rewrite wpow_lev by lia. pose proof (pow_pos (N.of_nat (S m))). unfold pw. nia. }
    pose proof (HL (S m) vs ltac:(lia) El) as Hvs.
    assert (exists r, pcf_level sp (bn_copy slack) big_add bn_isz bn_clear (lv, nw, t) (S m) = Some r /\ finv (S m) n (fst (fst r), snd r) 0) as ([[lv1 nw1] t1] & E1 & I1).
    { unfold pcf_level. rewrite El. cbn [mbind option_bind].
      assert (tab_ok sp (S m) vs (ht_init (length vs))) as Htab.
      { split; [left; apply ht_init_strong|]. intros k s' Hk. by apply init_elems in Hk. }
      destruct (mergeF_total (S m) (length vs) vs (ht_init (length vs)) nw Hvs Htab) as [[[vs1 u1] nw1] Em].
      - intros e He. by apply init_elems in He.
      - done.
      - unfold pw in Hle. lia.
      - rewrite Em. cbn [mbind option_bind].
        apply (merge_fold sp Hsh big_add bn_clear bok bval eq) with (wt := wpow) in Em as [Hvs1 HE]; try done; try (intros; lia); try (intros; congruence).
        + destruct (nodesF_total (S m) n nw1 (reverse vs1) (lv, t) 0) as ([lv2 t2] & E2 & I2); [lia|done|by apply Forall_reverse| |].
          * rewrite sumN_reverse, HE. unfold finv. cbn [fst snd]. split_and!; try done; [|lia]. intros j ? Hj. apply HL. lia.
          * rewrite E2. cbn [mbind option_bind]. eexists. split; [done|]. cbn [fst snd]. destruct I2 as (J1 & J2 & J3 & J4). cbn [fst snd] in *.
            unfold finv. cbn [fst snd]. split_and!; try done.
            -- intros j vs2 Hj. rewrite list_lookup_insert_ne by lia. by apply J1.
            -- by rewrite insert_length.
            -- unfold massF. rewrite (sumN_ext _ (lmassF sp bval wpow lv2)); [done|]. intros j Hj. apply elem_of_seq in Hj. unfold lmassF. by rewrite list_lookup_insert_ne by lia.
        + intros ? ? ? ? E' ? ?. by eapply bn_add_ok.
        + intros ? ? E' ?. by eapply bn_clear_ok.
        + intros e He. by apply init_elems in He. }
    rewrite E1. apply IH; [lia|done]. }
  destruct (HA n (<[n := [(s, one)]]> (replicate (S n) [])) 1%nat zero) as [[[? ?] r] E]; [lia| |].
  - unfold finv. cbn [fst snd]. split_and!; try done.
    + intros j vs Hj. destruct (decide (j = n)) as [->|Hne].
      * rewrite list_lookup_insert by (rewrite replicate_length; lia). intros E. injection E as <-. by repeat constructor.
      * rewrite list_lookup_insert_ne by done. intros E. apply lookup_replicate in E as [-> _]. constructor.
    + by rewrite insert_length, replicate_length.
    + rewrite Ez. unfold massF. rewrite seq_S, sumN_app, (sumN_ext _ (fun _ => 0 * 0)), sumN_mul.
      * cbn [sumN]. rewrite Nat.add_0_l. unfold lmassF. rewrite list_lookup_insert by (rewrite replicate_length; lia).
        cbn [sumN]. unfold vmass. cbn [fst snd]. rewrite Eo, wpow_lev by lia. lia.
      * intros j Hj. apply elem_of_seq in Hj. unfold lmassF. rewrite list_lookup_insert_ne, lookup_replicate_2 by lia. done.
  - exists r. exact (f_equal (fun o => '(_, _, total) ← o; Some total) E).
Qed.

(** ** diagrams without level skipping *)
Context (Hskip : forall l s b, reach sp l s -> (b < ar sp)%nat -> (0 < fst (get_child sp s l b))%Z -> fst (get_child sp s l b) = (l - 1)%Z).
Definition distinct (l : Z) (ss : list (St sp)) : Prop :=
  forall k k' s s', ss !! k = Some s -> ss !! k' = Some s' -> equal_to sp l s s' = true -> k = k'.
Definition full (vs : list (St sp * list N)) (u : htable (nat * St sp)) : Prop := forall k s x, vs !! k = Some (s, x) -> (k, s) ∈ ht_elems u.
(** in the middle of level i: level i-1 is described by its table, the levels below are empty *)
Definition lowfull (i : nat) (lv : lvs) : Prop := forall j vs u, (j < i)%nat -> lv !! j = Some (vs, u) -> full vs u /\ (S j <> i -> vs = []).
Lemma branch_full i nw0 s x acc b acc' : (0 < i)%nat -> reach sp (Z.of_nat i) s -> (b < ar sp)%nat -> lok i (fst (fst acc)) -> lowfull i (fst (fst acc)) ->
  pc_branch sp (bn_copy slack) big_add i nw0 s x acc b = Some acc' -> lowfull i (fst (fst acc')).
Proof.
  intros Hi Hr Hb HL HF. destruct acc as [[lv nw] total]. cbn [fst snd] in *. unfold pc_branch.
  pose proof (Hskip _ s b Hr Hb) as Hs. destruct (get_child sp s (Z.of_nat i) b) as [c s']. cbn [fst snd] in *.
  destruct (Z.leb_spec c 0).
  - destruct (Z.eqb_spec c 0); [intros E; by injection E as <-|]. destruct (big_add total x) as [[t' w]|]; [|done]. cbn [mbind option_bind].
    intros E. by injection E as <-.
  - specialize (Hs ltac:(lia)). destruct (Nat.ltb_spec (Z.to_nat c) i); [|done].
    destruct (pc_put _ _ _ _ _ _ _ _ _) as [[lv' nw']|] eqn:Ep; [|done]. cbn [mbind option_bind]. intros E. injection E as <-. cbn [fst snd].
    revert Ep. generalize (nw0 + 1 + (if (Z.to_nat c <? i - 1)%nat then (i - Z.to_nat c) / 63 else 0))%nat. intros cap. unfold pc_put.
    destruct (lv !! Z.to_nat c) as [[vs u]|] eqn:El; [|done]. cbn [mbind option_bind].
    destruct (HL (Z.to_nat c) vs u ltac:(lia) El) as [_ Htab]. destruct (HF (Z.to_nat c) vs u ltac:(lia) El) as [Hfull _].
    destruct (pc_add sp (Z.to_nat c) u (length vs, s')) as [[u' slot]|] eqn:Ea; [|done]. cbn [mbind option_bind].
    destruct (ht_at u' slot) as [e|] eqn:Ee; [|done]. cbn [mbind option_bind].
    destruct (add_cases sp Hsh _ _ _ _ _ _ _ _ Htab Ea Ee) as [Hg Hcase].
    assert (forall vs', full vs' u' -> lowfull i (<[Z.to_nat c:=(vs', u')]> lv)) as Hput.
    { intros vs' Hf j vs1 u1 Hj. destruct (decide (j = Z.to_nat c)) as [->|Hne]; [|rewrite list_lookup_insert_ne by done; by apply HF].
      rewrite list_lookup_insert by (by eapply lookup_lt_Some). intros E. injection E as <- <-. split; [done|lia]. }
    destruct (Nat.eqb_spec (fst e) (length vs)) as [En|En].
    + destruct (bn_copy slack cap x) as [x'|]; [|done]. cbn [mbind option_bind]. intros E. injection E as <- <-. apply Hput.
      destruct Hcase as [(H1 & _)|(-> & Hp & _)].
      { destruct e as [k s0]. destruct (proj2 Htab _ _ H1) as [x0 Hx0]. apply lookup_lt_Some in Hx0. cbn in En. lia. }
      intros k s0 x0 Hk. rewrite Hp. apply lookup_app_Some in Hk as [Hk|[Hk Hk']]; [right; by eapply Hfull|].
      destruct (k - length vs)%nat eqn:Ek; [|done]. injection Hk' as <- <-. assert (k = length vs) as -> by lia. left.
    + destruct Hcase as [(H1 & Heq & Hp)|(-> & _)]; [|done]. destruct e as [k s1]. cbn [fst snd] in *.
      destruct (vs !! k) as [[s0 y]|] eqn:Ek; [|done]. cbn [mbind option_bind].
      destruct (big_add y x) as [[y' w]|]; [|done]. cbn [mbind option_bind]. intros E. injection E as <- <-. apply Hput.
      intros k' s2 x2 Hk. rewrite Hp. apply list_lookup_insert_Some in Hk as [(-> & E & _)|[_ Hk]]; [|by eapply Hfull].
      injection E as -> ->. by eapply Hfull.
Qed.
Definition emptylow (i : nat) (lv : lvs) : Prop := forall j vs u, (j < i)%nat -> lv !! j = Some (vs, u) -> vs = [].
Lemma level_full lv nw total i lv' nw' total' : (0 < i)%nat -> lok (S i) lv -> bok total -> emptylow i lv ->
  pc_level sp (bn_copy slack) big_add bn_isz (lv, nw, total) i = Some (lv', nw', total') ->
  emptylow (i - 1) lv' /\ forall vs u, lv' !! (i - 1)%nat = Some (vs, u) -> distinct (Z.of_nat (i - 1)) (fst <$> vs).
Proof.
  intros Hi HL Ht He. unfold pc_level. destruct (lv !! i) as [[vs u]|] eqn:El; [|done]. cbn [mbind option_bind].
  destruct (ofold _ _ _) as [[[lv1 nw1] t1]|] eqn:Ef; [|done]. cbn [mbind option_bind].
  destruct (lv1 !! (i - 1)%nat) as [[vs1 u1]|] eqn:El1; [|done]. cbn [mbind option_bind]. intros E. injection E as <- <- <-.
  destruct (HL i vs u ltac:(lia) El) as [Hvs _].
  assert (lok i lv1 /\ lowfull i lv1) as [HL1 HF1].
  { apply Forall_reverse in Hvs. set (rvs := reverse vs) in *.
    assert (lowfull i lv) as HF. { intros j vs2 u2 Hj E2. rewrite (He j vs2 u2 Hj E2). split; [|done]. by intros k ? ?. }
    assert (lok i lv) as HLi by (intros j ? ? Hj; apply HL; lia). clearbody rvs. clear El HL He u.
    assert (exists nw0, ofold (pc_node sp (bn_copy slack) big_add bn_isz i nw0) rvs (lv, nw, total) = Some (lv1, nw1, t1)) as [nw0 Ef'] by (by exists nw).
    clear Ef. revert lv nw total HLi Ht HF Ef'. induction Hvs as [|v rvs Hv Hvs IH]; intros lv nw total HLi Ht HF; cbn [ofold].
    - intros E. by injection E as <- <- <-.
    - destruct (pc_node _ _ _ _ _ _ _ v) as [[[lv2 nw2] t2]|] eqn:E1; [|done]. cbn [mbind option_bind]. intros E.
      assert (lok i lv2 /\ bok t2 /\ lowfull i lv2) as (K1 & K2 & K3).
      { destruct Hv as [Hr Hx]. revert E1. unfold pc_node. destruct (bn_isz (snd v)) as [[]|] eqn:Ez; [| |done]; cbn [mbind option_bind].
        - intros E1. by injection E1 as <- <- <-.
        - unfold ofor. assert (Forall (fun b => (b < ar sp)%nat) (seq 0 (ar sp))) as Hbs by (apply Forall_forall; intros b Hb; apply elem_of_seq in Hb; lia).
          clear E IH. revert lv nw total HLi Ht HF. induction Hbs as [|b bs Hb Hbs IHb]; intros lv nw total HLi Ht HF; cbn [ofold].
          + intros E1. by injection E1 as <- <- <-.
          + destruct (pc_branch _ _ _ _ _ _ _ _ b) as [[[lv3 nw3] t3]|] eqn:E3; [|done]. cbn [mbind option_bind].
            pose proof (branch_full i nw0 _ _ (lv, nw, total) b (lv3, nw3, t3) Hi Hr Hb HLi HF E3) as HF3.
            apply branch_facts in E3 as (G1 & G2 & _); try done. by apply IHb. }
      by apply (IH lv2 nw2 t2). }
  split.
  - intros j vs2 u2 Hj. rewrite !list_lookup_insert_ne by lia. intros E2. apply (HF1 j vs2 u2 ltac:(lia) E2). lia.
  - intros vs2 u2. rewrite list_lookup_insert by (rewrite insert_length; by eapply lookup_lt_Some). intros E2. injection E2 as <- <-.
    destruct (HL1 (i - 1)%nat vs1 u1 ltac:(lia) El1) as [_ [Hg _]]. destruct (HF1 (i - 1)%nat vs1 u1 ltac:(lia) El1) as [Hfull _].
    intros k k' s s' Hk Hk' Heq. rewrite list_lookup_fmap in Hk, Hk'.
    destruct (vs1 !! k) as [[s0 x]|] eqn:Ek; [|done]. destruct (vs1 !! k') as [[s0' x']|] eqn:Ek'; [|done]. injection Hk as ->. injection Hk' as ->.
    apply Hfull in Ek, Ek'. rename Ek into Hk, Ek' into Hk'. apply elem_of_list_lookup in Hk as [p Hp], Hk' as [p' Hp'].
    pose proof (good_nodup (hj sp (i - 1)) (ej sp (i - 1)) u1 Hg p p' _ _ Hp Hp' Heq) as <-. rewrite Hp in Hp'. by injection Hp'.
Qed.
(** binary, no skipping, and no level has more than 2^62 different states *)
Lemma run_wide n s one zero : ar sp = 2%nat -> (0 < n)%nat -> reach sp (Z.of_nat n) s -> bok one -> bok zero -> bval one = 1 -> bval zero = 0 ->
  (n / 63 + 1 <= length zero)%nat ->
  (forall l ss, Forall (reach sp l) ss -> distinct l ss -> N.of_nat (length ss) <= 2 ^ 62) ->
  exists total, pc_run sp (bn_copy slack) big_add bn_isz n s one zero = Some total.
Proof.
  intros Har Hn Hr Ho Hz Eo Ez Hlz Hw. unfold pc_run.
  assert (2 ^ N.of_nat n < B ^ N.of_nat (length zero)) as Htot.
  { rewrite pow63. apply N.pow_lt_mono_r; [done|]. pose proof (Nat.mod_upper_bound n 63 ltac:(lia)). pose proof (Nat.div_mod n 63 ltac:(lia)). lia. }
  assert (forall m lv nw t, (m <= n)%nat -> lok (S m) lv -> bok t -> length lv = S n -> length t = length zero -> (0 < nw)%nat ->
    bval t + massA (S m) lv <= N.of_nat (ar sp) ^ N.of_nat n -> fits (S m) nw lv -> emptylow m lv ->
    (forall vs u, lv !! m = Some (vs, u) -> distinct (Z.of_nat m) (fst <$> vs)) ->
    exists r, ofold (pc_level sp (bn_copy slack) big_add bn_isz) (reverse (seq 1 m)) (lv, nw, t) = Some r) as HA.
  { induction m as [|m IH]; intros lv nw t Hm HL Ht Hlen Hlt Hnw Hle Hfits Hemp Hdis; [by eexists|].
    rewrite seq_S, reverse_app. change (reverse [(1 + m)%nat]) with [S m]. cbn [app ofold].
    destruct (lookup_lt_is_Some_2 lv (S m) ltac:(lia)) as [[vs u] El].
    pose proof (level_sum_le (S m) lv vs u ltac:(lia) El) as Hsum.
    pose proof (proj1 (HL (S m) vs u ltac:(lia) El)) as Hvs.
    assert (N.of_nat (length vs) <= 2 ^ 62) as Hwid.
    { rewrite <- (fmap_length fst). apply (Hw (Z.of_nat (S m))); [|by apply (Hdis vs u)].
      apply Forall_fmap. eapply Forall_impl; [exact Hvs|]. intros v [Hv _]. done. }
    assert (sum1 vs <= N.of_nat (length vs) * (B ^ N.of_nat nw - 1)) as Hs1.
    { assert (Forall (fun v => bval (snd v) < B ^ N.of_nat nw) vs) as Hf. { apply Forall_forall. intros v Hv. by apply (Hfits (S m) vs u v ltac:(lia) El Hv). }
      clear - Hf. unfold sum1. induction Hf as [|v vs Hv Hf IH]; cbn [sumN length]; [lia|].
      rewrite Nat2N.inj_succ, N.mul_succ_l. lia. }
    assert (mass1 (S m) lv = 0) as Hm0.
    { unfold mass. rewrite (sumN_ext _ (fun _ => 0 * 0)), sumN_mul; [lia|]. intros j Hj. apply elem_of_seq in Hj. unfold lmass.
      destruct (lv !! j) as [[vs1 u1]|] eqn:Ej; [|done]. by rewrite (Hemp j vs1 u1 ltac:(lia) Ej). }
    destruct (level_total (S m) nw (nw + 1) (S n) (length t) (N.of_nat (ar sp) * sum1 vs) (N.of_nat (ar sp) ^ N.of_nat n)) with (lv := lv) (nw := nw) (total := t) (vs := vs) (u := u)
      as (lv' & nw' & t' & E & F1 & F2 & F3 & F4 & F5); try done; try lia.
    - rewrite Har. rewrite Nat.add_1_r, Bpow_S. pose proof (Bpow_pos nw). change B with (2 * 2 ^ 62) at 1. rewrite <- N.mul_assoc.
      apply N.mul_lt_mono_pos_l; [done|]. eapply N.le_lt_trans; [exact Hs1|].
      eapply N.le_lt_trans; [apply N.mul_le_mono_r, Hwid|]. apply N.mul_lt_mono_pos_l; [done|]. lia.
    - by rewrite Hlt, Har.
    - unfold tinv. split_and!; try done; try lia.
      + intros j ? ? Hj. apply HL. lia.
      + intros j vs1 u1 v Hj E1 Hv. rewrite (Hemp j vs1 u1 Hj E1) in Hv. by apply elem_of_nil in Hv.
    - change (1 + m)%nat with (S m). rewrite E. destruct (level_full lv nw t (S m) lv' nw' t' ltac:(lia) HL Ht Hemp E) as [D1 D2].
      apply levelA in E as (G1 & G2 & G3); [|lia|done|done]. rewrite Nat.sub_1_r in D1, D2. cbn [Nat.pred] in D1, D2.
      apply IH; try done; try lia. by apply F5. }
  destruct (HA n (lv_init n s one) 1%nat zero) as [[[? ?] r] E]; try done.
  - by apply init_ok.
  - by rewrite insert_length, replicate_length.
  - lia.
  - rewrite init_mass by done. lia.
  - intros j vs u v Hj El Hv. apply init_lookup in El as [[(-> & ->)|(_ & ->)] _]; [|by apply elem_of_nil in Hv].
    apply elem_of_list_singleton in Hv as ->. cbn [snd]. by rewrite Eo.
  - intros j vs u Hj El. apply init_lookup in El as [[(-> & _)|(_ & ->)] _]; [lia|done].
  - intros vs u El. apply init_lookup in El as [[(_ & ->)|(? & _)] _]; [|done].
    intros [|k] [|k'] ? ? H1 H2; cbn in *; done.
  - exists r. exact (f_equal (fun o => '(_, _, total) ← o; Some total) E).
Qed.
End total.

(** ** count64: every operation succeeds *)
Section u64.
Context (sp : spec) (Hok : spec_ok sp) (Hsh : shareable sp).
Definition c64 : nat -> N -> option N := fun _ x => Some x.
Definition a64 : N -> N -> option (N * nat) := fun y x => Some (u64 (y + x), 1%nat).
Definition z64 : N -> option bool := fun x => Some (x =? 0).
Definition ok64 (x : N) : Prop := x < 2 ^ 64.
Definition eq64 (x y : N) : Prop := x mod 2 ^ 64 = y mod 2 ^ 64.
Lemma u64_mod x : u64 x = x mod 2 ^ 64.
Proof. unfold u64. first [done | apply N.land_ones]. Qed.
Lemma eq64_add x y z : eq64 x y -> eq64 (x + z) (y + z).
Proof. unfold eq64. intros H. rewrite <- (N.add_mod_idemp_l x), <- (N.add_mod_idemp_l y) by done. by rewrite H. Qed.
Lemma eq64_mul x y z : eq64 x y -> eq64 (x * z) (y * z).
Proof. unfold eq64. intros H. rewrite <- (N.mul_mod_idemp_l x), <- (N.mul_mod_idemp_l y) by done. by rewrite H. Qed.
Lemma eq64_cancel x y z : eq64 (x + z) (y + z) -> eq64 x y.
Proof.
  intros H. set (c := 2 ^ 64 - z mod 2 ^ 64).
  assert (forall t, eq64 (t + z + c) t) as Hc.
  { intros t. unfold eq64. pose proof (N.mod_upper_bound z (2 ^ 64) ltac:(done)) as Hb. pose proof (N.div_mod z (2 ^ 64) ltac:(done)) as Hd.
    replace (t + z + c) with (t + (z / 2 ^ 64 + 1) * 2 ^ 64).
    - by rewrite N.mod_add.
    - unfold c. rewrite Hd at 2. revert Hb. generalize (z mod 2 ^ 64) (z / 2 ^ 64). generalize (2 ^ 64). intros m a b Hb. nia. }
  unfold eq64 in *. rewrite <- (Hc x), <- (Hc y). by apply eq64_add.
Qed.
Lemma put64 cap i lv nw ii s x : levels_ok sp ok64 i lv -> (ii < i)%nat -> (i <= length lv)%nat ->
  exists lv' nw', pc_put sp c64 a64 cap lv nw ii s x = Some (lv', nw').
Proof.
  intros HL Hii Hlen. unfold pc_put. destruct (lookup_lt_is_Some_2 lv ii ltac:(lia)) as [[vs u] El].
  destruct (lv !! ii) as [[vs0 u0]|] eqn:El0; [|done]. injection El as -> ->. cbn [mbind option_bind].
  destruct (HL ii vs u Hii El0) as [Hvs Htab].
  assert (exists u' slot e, pc_add sp ii u (length vs, s) = Some (u', slot) /\ ht_at u' slot = Some e) as (u' & slot & e & Ea & Ee).
  { destruct Htab as [Hg _]. destruct Hsh as [S1 S2].
    destruct (ht_add_strong (hj sp ii) (ej sp ii) ltac:(intros; apply S1) ltac:(intros; by apply S2) u (length vs, s) Hg) as (u1 & i1 & y & E & _ & Hat & _).
    by exists u1, i1, y. }
  rewrite Ea. cbn [mbind option_bind]. rewrite Ee. cbn [mbind option_bind].
  destruct (add_cases sp Hsh _ _ _ _ _ _ _ _ Htab Ea Ee) as [_ Hcase].
  destruct (Nat.eqb_spec (fst e) (length vs)) as [En|En]; [by eexists _, _|].
  destruct Hcase as [(H1 & _)|(-> & _)]; [|done]. destruct e as [k s1]. destruct (proj2 Htab _ _ H1) as [y Hy]. cbn [fst]. rewrite Hy. by eexists _, _.
Qed.
Lemma c64_ok cap x x' : c64 cap x = Some x' -> ok64 x -> ok64 x' /\ eq64 x' x.
Proof. intros E. injection E as <-. done. Qed.
Lemma a64_ok y x y' w : a64 y x = Some (y', w) -> ok64 y -> ok64 x -> ok64 y' /\ eq64 y' (y + x).
Proof. intros E _ _. injection E as <- <-. rewrite u64_mod. split; [by apply N.mod_upper_bound|]. unfold eq64. by rewrite N.mod_mod. Qed.
Lemma z64_ok x : z64 x = Some true -> ok64 x -> eq64 x 0.
Proof. unfold z64. intros E _. injection E as E. apply N.eqb_eq in E as ->. done. Qed.
Definition inv64 (i len : nat) (acc : list (plevel sp (NT:=N)) * nat * N) : Prop :=
  levels_ok sp ok64 i (fst (fst acc)) /\ ok64 (snd acc) /\ length (fst (fst acc)) = len.
Definition stp64 := step_ok sp ok64 (fun x => x) eq64 (np sp).
Lemma branch64 i len nw0 s x acc b : (0 < i < len)%nat -> reach sp (Z.of_nat i) s -> ok64 x -> (b < ar sp)%nat -> inv64 i len acc ->
  exists acc', pc_branch sp c64 a64 i nw0 s x acc b = Some acc' /\ inv64 i len acc'.
Proof.
  intros Hi Hr Hx Hb (I1 & I2 & I3). pose proof (ok_level _ Hok _ s b Hr Hb) as Hlev.
  assert (exists acc', pc_branch sp c64 a64 i nw0 s x acc b = Some acc') as [acc' E].
  { destruct acc as [[lv nw] t]. cbn [fst snd] in *. unfold pc_branch. destruct (get_child sp s (Z.of_nat i) b) as [c s']. cbn [fst] in Hlev.
    destruct (Z.leb_spec c 0); [destruct (c =? 0)%Z; by eexists|]. destruct (Nat.ltb_spec (Z.to_nat c) i); [|lia].
    destruct (put64 (nw0 + 1 + (if (Z.to_nat c <? i - 1)%nat then (i - Z.to_nat c) / 63 else 0)) i lv nw (Z.to_nat c) s' x I1 ltac:(lia) ltac:(lia)) as (lv' & nw' & E).
    rewrite E. by eexists. }
  exists acc'. split; [done|].
  pose proof (branch_ok sp Hok Hsh c64 a64 ok64 (fun x => x) eq64 (fun _ => eq_refl) (fun x y z => @eq_trans _ _ _ _) eq64_add eq64_mul eq64_cancel c64_ok a64_ok
    (np sp) (np_equal sp Hok) (np_zero sp) (np_neg sp) i nw0 s x acc b acc' ltac:(lia) Hr Hx Hb I1 I2 E) as HS.
  destruct acc as [[lv nw] t], acc' as [[lv' nw'] t']. destruct HS as (F1 & F2 & _ & F4 & _). unfold inv64. cbn [fst snd] in *. split_and!; try done. congruence.
Qed.
Lemma fold64 {A} (f : list (plevel sp (NT:=N)) * nat * N -> A -> option (list (plevel sp (NT:=N)) * nat * N)) i len l acc :
  (forall a acc, a ∈ l -> inv64 i len acc -> exists acc', f acc a = Some acc' /\ inv64 i len acc') -> inv64 i len acc ->
  exists acc', ofold f l acc = Some acc' /\ inv64 i len acc'.
Proof.
  revert acc. induction l as [|a l IH]; intros acc Hf HI; cbn [ofold]; [by exists acc|].
  destruct (Hf a acc ltac:(left) HI) as (a1 & -> & I1). apply IH; [|done]. intros a' ? Ha'. apply Hf. by right.
Qed.
Lemma run64 n s one zero : (0 < n)%nat -> reach sp (Z.of_nat n) s -> ok64 one -> ok64 zero ->
  exists total, pc_run sp c64 a64 z64 n s one zero = Some total.
Proof.
  intros Hn Hr Ho Hz. unfold pc_run.
  assert (forall m lv nw t, (m <= n)%nat -> inv64 (S m) (S n) (lv, nw, t) ->
    exists r, ofold (pc_level sp c64 a64 z64) (reverse (seq 1 m)) (lv, nw, t) = Some r) as HA.
  { induction m as [|m IH]; intros lv nw t Hm (HL & Ht & Hlen); [by eexists|]. cbn [fst snd] in *.
    rewrite seq_S, reverse_app. change (reverse [(1 + m)%nat]) with [S m]. cbn [app ofold]. change (1 + m)%nat with (S m).
    assert (exists r, pc_level sp c64 a64 z64 (lv, nw, t) (S m) = Some r /\ length (fst (fst r)) = S n) as ([[lv1 nw1] t1] & E1 & Hl1).
    { unfold pc_level. destruct (lookup_lt_is_Some_2 lv (S m) ltac:(lia)) as [[vs u] El].
      destruct (lv !! S m) as [[vs0 u0]|] eqn:El0; [|done]. injection El as -> ->. cbn [mbind option_bind].
      pose proof (proj1 (HL (S m) vs u ltac:(lia) El0)) as Hvs.
      destruct (fold64 (pc_node sp c64 a64 z64 (S m) nw) (S m) (S n) (reverse vs) (lv, nw, t)) as ([[lv2 nw2] t2] & E2 & I2).
      - intros v acc Hv HI. apply elem_of_reverse in Hv; rewrite reverse_involutive in Hv. pose proof (proj1 (Forall_forall _ _) Hvs v Hv) as [Hr' Hx].
        unfold pc_node, z64. cbn [mbind option_bind]. destruct (snd v =? 0); [by exists acc|]. unfold ofor. apply fold64; [|done].
        intros b acc1 Hb. apply elem_of_seq in Hb. apply branch64; [lia|done|done|lia].
      - unfold inv64. cbn [fst snd]. split_and!; try done. intros j ? ? Hj. apply HL. lia.
      - rewrite E2. cbn [mbind option_bind]. destruct I2 as (J1 & J2 & J3). cbn [fst snd] in *.
        destruct (lookup_lt_is_Some_2 lv2 (S m - 1)%nat ltac:(lia)) as [[vs2 u2] El2].
        destruct (lv2 !! (S m - 1)%nat) as [[vs3 u3]|] eqn:El3; [|done]. cbn [mbind option_bind]. eexists. split; [done|]. cbn [fst snd]. by rewrite !insert_length. }
    rewrite E1. apply IH; [lia|].
    pose proof (level_step sp Hok Hsh c64 a64 z64 ok64 (fun x => x) eq64 (fun _ => eq_refl) (fun x y => @eq_sym _ _ _) (fun x y z => @eq_trans _ _ _ _) eq64_add eq64_mul eq64_cancel c64_ok a64_ok z64_ok
      (np sp) (np_equal sp Hok) (np_zero sp) (np_neg sp) (np_step sp Hok) lv nw t (S m) lv1 nw1 t1 ltac:(lia) HL Ht E1) as (G1 & G2 & _).
    unfold inv64. cbn [fst snd] in *. done. }
  destruct (HA n (<[n := ([(s, one)], ht_empty)]> (replicate (S n) ([], ht_empty))) 1%nat zero) as [[[? ?] r] E]; [lia| |].
  - unfold inv64. cbn [fst snd]. split_and!; [|done|by rewrite insert_length, replicate_length].
    intros j vs u Hj El. destruct (decide (j = n)) as [->|Hne].
    + rewrite list_lookup_insert in El by (rewrite replicate_length; lia). injection El as <- <-. split; [by repeat constructor|].
      split; [by right|]. intros k s' Hk. by apply elem_of_nil in Hk.
    + rewrite list_lookup_insert_ne in El by done. apply lookup_replicate in El as [El _]. injection El as -> ->. split; [constructor|].
      split; [by right|]. intros k s' Hk. by apply elem_of_nil in Hk.
  - exists r. exact (f_equal (fun o => '(_, _, total) ← o; Some total) E).
Qed.
End u64.
