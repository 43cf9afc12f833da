(** Algorithm R: a whole level, with the clearing of finished rows. *)
From Verif Require Import Base Sem M_Table Tree M_Hash P_Hash M_Sweeper M_Engine P_Pass P_Red M_Index P_Index P_RLevel M_Reducer P_RHash P_AlgR.

Definition lens (y : list node) : list nat := length <$> y.

Lemma child_lt t f b v : child t f (S b) = Some v -> is_Some (child t f b).
Proof.
  unfold child. destruct (tget t f) as [p|]; [|done]. cbn [mbind option_bind]. intros H.
  apply lookup_lt_is_Some. apply lookup_lt_Some in H. lia.
Qed.
Lemma child_shape t t' f b : shape t = shape t' -> is_Some (child t f b) -> is_Some (child t' f b).
Proof.
  intros Hs [v H]. unfold child in *. destruct (tget t f) as [p|] eqn:E; [|done]. cbn [mbind option_bind] in H.
  destruct (shape_get t t' f p Hs E) as (p' & -> & Hl). cbn [mbind option_bind]. apply lookup_lt_is_Some. rewrite Hl. by eapply lookup_lt_Some.
Qed.

Lemma algR_level_ok B Z i a n lo s x cans L o0 :
  B && Z = false -> 0 < i -> s_in s !! i = Some x -> Forall (fun p => length p = 2) x ->
  Forall2 (fun p p' => mapM (canonR (s_ids s)) p = Some p') x cans ->
  Forall (Forall (fun g => row g < i)) cans ->
  (forall p g, p ∈ cans -> g ∈ p -> is_Some (child (s_in s) g 0) /\ is_Some (child (s_in s) g 1)) ->
  (forall f v, row f < i -> child (s_in s) f 1 = Some v -> row v < i) ->
  lo !! i = Some L -> Forall (fun r => r < i) L -> i < length (s_ids s) ->
  s_out s !! i = Some o0 -> (i = n -> col (s_root s) < length x) ->
  exists newId outrow ids root inp, algR_level B Z a n lo s i = Some (RS inp ids (<[i := outrow]> (s_out s)) root) /\
    lcontract (modeR B Z) i cans newId outrow /\
    clear_rows L (<[i := newId]> (s_ids s)) = Some ids /\ new_root n i newId (s_root s) = Some root /\
    length inp = length (s_in s) /\
    (forall r, i < r -> inp !! r = s_in s !! r) /\
    (forall r y, r <= i -> B = true \/ r ∉ L -> s_in s !! r = Some y -> exists y', inp !! r = Some y' /\ lens y' = lens y) /\
    (forall f v, row f < S i -> child inp f 1 = Some v -> row v < S i).
Proof.
  intros HBZ Hi Hx Hx2 Hc Hrows Hslot Hfresh HL HLi Hids Ho Hroot.
  set (A := fun j => nth 0 (nth j cans []) n0). set (Bc := fun j => nth 1 (nth j cans []) n0).
  set (m := length x). assert (m = length x) as Hm by done. pose proof (Forall2_length _ _ _ Hc) as Hlc.
  assert (forall j, j < m -> exists g0 g1, x !! j = Some [g0; g1] /\ cans !! j = Some [A j; Bc j] /\ canonR (s_ids s) g0 = Some (A j) /\ canonR (s_ids s) g1 = Some (Bc j)) as HC.
  { intros j Hj. destruct (lookup_lt_is_Some_2 x j Hj) as [p Hp]. pose proof (proj1 (Forall_lookup _ _) Hx2 j p Hp) as Hp2.
    destruct (Forall2_lookup_l _ _ _ _ _ Hc Hp) as (p' & Hp' & HM).
    destruct p as [|g0 [|g1 [|]]]; try done. cbn [mapM] in HM.
    destruct (canonR (s_ids s) g0) as [h0|] eqn:E0; [|done]. cbn [mbind option_bind] in HM.
    destruct (canonR (s_ids s) g1) as [h1|] eqn:E1; [|done]. cbn [mbind option_bind] in HM.
    assert (Some [h0; h1] = Some p') as EE by exact HM. assert (p' = [h0; h1]) as -> by congruence.
    assert (A j = h0) as EA. { unfold A. rewrite (nth_lookup_Some _ _ _ _ Hp'). done. }
    assert (Bc j = h1) as EB. { unfold Bc. rewrite (nth_lookup_Some _ _ _ _ Hp'). done. }
    exists g0, g1. rewrite EA, EB. done. }
  assert (forall j, j < m -> [A j; Bc j] ∈ cans) as Hel.
  { intros j Hj. destruct (HC j Hj) as (? & ? & _ & H & _). apply elem_of_list_lookup. by exists j. }
  assert (cans = map (AB A Bc) (seq 0 m)) as Hcans.
  { apply list_eq. intros j. rewrite list_lookup_fmap. destruct (decide (j < m)) as [Hj|Hj].
    - rewrite lookup_seq_lt by done. destruct (HC j Hj) as (? & ? & _ & H & _). by rewrite H.
    - rewrite lookup_seq_ge by lia. rewrite lookup_ge_None_2 by lia. done. }
  assert (forall j, j < m -> row (A j) < i /\ row (Bc j) < i) as Hri.
  { intros j Hj. pose proof (proj1 (Forall_forall _ _) Hrows _ (Hel j Hj)) as H. apply Forall_cons in H as [H1 H2]. apply Forall_cons in H2 as [H2 _]. done. }
  assert (forall j, j < m -> exists g0 g1, x !! j = Some [g0; g1] /\ canonR (s_ids s) g0 = Some (A j) /\ canonR (s_ids s) g1 = Some (Bc j)) as HC'.
  { intros j Hj. destruct (HC j Hj) as (g0 & g1 & ? & _ & ? & ?). by exists g0, g1. }
  assert (forall j, j < m -> slot (s_in s) (A j)) as HsA. { intros j Hj. apply (Hslot _ _ (Hel j Hj)). by left. }
  assert (forall j, j < m -> slot (s_in s) (Bc j)) as HsB. { intros j Hj. apply (Hslot _ _ (Hel j Hj)). right. by left. }
  unfold algR_level. rewrite Hx. cbn [mbind option_bind]. fold m.
  destruct (phase1_ok B Z i m Hi (s_ids s) (s_in s) x Hx Hm A Bc HC' (fun j H => proj1 (Hri j H)) HsA Hfresh) as ([t1 newId1] & -> & HI1).
  cbn [mbind option_bind]. rewrite HL. cbn [mbind option_bind].
  destruct (lookup_lt_is_Some_2 (s_ids s) i Hids) as [? ->]. cbn [mbind option_bind].
  destruct (phase2_ok B Z i m Hi (s_in s) x Hm A Bc (fun j H => proj1 (Hri j H)) (fun j H => proj2 (Hri j H)) HsB (t1, newId1) HI1) as (ls & [[t2 newId2] mm] & -> & HI2).
  cbn [mbind option_bind].
  pose proof (i2_shape _ _ _ _ _ _ _ _ _ _ _ HI2) as Hsh. cbn [fst snd] in Hsh. pose proof (shape_length _ _ Hsh) as Hshl.
  assert (i < length (s_in s)) as Hil by (by eapply lookup_lt_Some).
  assert (i ∉ L) as HiL. { intros H. pose proof (proj1 (Forall_forall _ _) HLi _ H). simpl in *. lia. }
  assert (exists t3, (if B then Some t2 else clear_rows L t2) = Some t3 /\ length t3 = length t2 /\
            (forall r, B = true \/ r ∉ L -> t3 !! r = t2 !! r) /\ (forall r y, t3 !! r = Some y -> t2 !! r = Some y \/ y = [])) as (t3 & E3 & L3 & U3 & F3).
  { destruct B.
    - exists t2. split_and!; try done. intros; by left.
    - destruct (clear_rows_ok L t2) as (t3 & -> & Q1 & Q2 & Q3).
      { eapply Forall_impl; [exact HLi|]. intros r Hr. simpl in *. lia. }
      exists t3. split_and!; try done.
      + intros r [?|?]; [done|]. by apply Q2.
      + intros r y Hy. destruct (decide (r ∈ L)) as [H|H].
        * rewrite (Q3 r H) in Hy. right. congruence.
        * rewrite (Q2 r H) in Hy. by left. }
  rewrite E3. cbn [mbind option_bind]. unfold set_row. rewrite Ho. cbn [mbind option_bind].
  assert (mm = length ls) as -> by apply (i2_mm _ _ _ _ _ _ _ _ _ _ _ HI2).
  assert (forall l, l ∈ ls <-> l < m /\ delR B Z (A l) (Bc l) = false /\ ld B Z m A Bc l = l) as Hin.
  { intros l. rewrite (i2_in _ _ _ _ _ _ _ _ _ _ _ HI2). by rewrite negb_true_iff. }
  destruct (phase3_ok B Z HBZ i m Hi x Hm A Bc (fun j H => proj2 (Hri j H)) ls t3 newId2) with (o0 := s_out s) (w0 := replicate (length ls) (junk_node a))
    as ([newId out] & -> & HI3).
  { intros k b Hk. rewrite <- (i2_row _ _ _ _ _ _ _ _ _ _ _ HI2 k b Hk). cbn [fst]. unfold child, tget. cbn [row col mk]. by rewrite U3 by (by right). }
  { apply (i2_len _ _ _ _ _ _ _ _ _ _ _ HI2). }
  { apply (i2_D _ _ _ _ _ _ _ _ _ _ _ HI2). }
  { apply (i2_ls _ _ _ _ _ _ _ _ _ _ _ HI2). }
  { apply (i2_nd _ _ _ _ _ _ _ _ _ _ _ HI2). }
  { done. }
  { by eapply lookup_lt_Some. }
  { apply replicate_length. }
  cbn [mbind option_bind].
  destruct (phase3_contract B Z HBZ i m Hi x Hm A Bc ls (s_out s) (newId, out)) as (w & Ew & HLC).
  { apply (i2_nd _ _ _ _ _ _ _ _ _ _ _ HI2). }
  { done. }
  { by eapply lookup_lt_Some. }
  { done. }
  cbn [fst snd] in *. subst out. rewrite <- Hcans in HLC.
  destruct (clear_rows_ok L (<[i := newId]> (s_ids s))) as (ids2 & Eids & _).
  { rewrite insert_length. eapply Forall_impl; [exact HLi|]. intros r Hr. simpl in *. lia. }
  rewrite Eids. cbn [mbind option_bind].
  assert (exists root, new_root n i newId (s_root s) = Some root) as (root & Er).
  { unfold new_root. destruct (Nat.eqb_spec i n) as [E|E]; [|by eexists]. apply lookup_lt_is_Some_2.
    rewrite (lc_len _ _ _ _ _ HLC), <- Hlc. by apply Hroot. }
  rewrite Er. cbn [mbind option_bind].
  exists newId, w, ids2, root, t3. split_and!; try done.
  - congruence.
  - intros r Hr. rewrite U3. { apply row_ext; [done|]. intros c b. apply (i2_hi _ _ _ _ _ _ _ _ _ _ _ HI2). done. }
    right. intros H. pose proof (proj1 (Forall_forall _ _) HLi _ H). simpl in *. lia.
  - intros r y Hr HrL Hy. destruct (shape_row (s_in s) t2 r y (eq_sym Hsh) Hy) as (y' & Hy' & El). exists y'. rewrite U3 by done. done.
  - intros f v Hf Hv.
    assert (child t2 f 1 = Some v) as Hv2.
    { unfold child, tget in *. destruct (t3 !! row f) as [y|] eqn:Ey; [|done]. cbn [mbind option_bind] in Hv.
      destruct (F3 _ _ Ey) as [-> | ->]; [done|]. by rewrite lookup_nil in Hv. }
    pose proof (child_shape t2 (s_in s) f 1 Hsh ltac:(by rewrite Hv2)) as [v1 Hv1].
    destruct (decide (row f = i)) as [E|E].
    + assert (col f < m) as Hcol.
      { unfold child, tget in Hv1. rewrite E, Hx in Hv1. cbn [mbind option_bind] in Hv1. destruct (x !! col f) eqn:Ex; [|done]. by eapply lookup_lt_Some. }
      pose proof (i2_row _ _ _ _ _ _ _ _ _ _ _ HI2 (col f) 1 Hcol) as R. cbn [fst] in R.
      rewrite (child_code t2 _ f) in R by (unfold code; cbn [row col mk]; congruence).
      rewrite Hv2 in R. destruct (negb (delR B Z (A (col f)) (Bc (col f))) && negb (ld B Z m A Bc (col f) =? col f)); inversion R as [E2]; rewrite ?E2; cbn [row mk]; [lia|]. destruct (Hri _ Hcol). lia.
    + destruct (i2_lo _ _ _ _ _ _ _ _ _ _ _ HI2 f ltac:(lia)) as (_ & w' & W1 & W2 & _).
      { split; [|by rewrite Hv1]. by eapply child_lt. }
      cbn [fst] in W1. assert (v = w') as -> by congruence. lia.
Qed.
