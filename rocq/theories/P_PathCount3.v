(** countFast() does not run out of words on diagrams without level skipping. *)
From Verif Require Import Base Sem P_Size M_Hash P_Hash M_Big S_Big P_Big M_PathCount S_Path P_PathCount P_PathCount2.
Local Open Scope N_scope.
Local Notation B := (2 ^ 63).

Section wide.
Context (sp : spec) (Hok : spec_ok sp) (Hsh : shareable sp).
Context (Hskip : forall l s b, reach sp l s -> (b < ar sp)%nat -> (0 < fst (get_child sp s l b))%Z -> fst (get_child sp s l b) = (l - 1)%Z).
Notation lvf := (list (list (St sp * list N))).
Notation lokF := (levels_okF sp bok).
Notation wp := (wpow sp).
Notation massFA := (massF sp bval (wpow sp)).
Notation ppow := (pw sp).
Notation tot := (sum1 sp).

Definition roomy (cap nw : nat) (vs : list (St sp * list N)) : Prop :=
  Forall (fun v => (cap <= length (snd v))%nat /\ bval (snd v) < B ^ N.of_nat nw) vs.
Lemma roomy_mono cap nw nw' vs : (nw <= nw')%nat -> roomy cap nw vs -> roomy cap nw' vs.
Proof.
  intros Hn H. eapply Forall_impl; [exact H|]. intros v [H1 H2]. split; [done|]. eapply N.lt_le_trans; [exact H2|]. apply N.pow_le_mono_r; [done|lia].
Qed.
(** merged positions are either in the table or emptied *)
Definition emptied (m : nat) (vs : list (St sp * list N)) (u : htable (nat * St sp)) : Prop :=
  forall k s x, (m <= k)%nat -> vs !! k = Some (s, x) -> bval x = 0 \/ (k, s) ∈ ht_elems u.
Lemma mergeF_wide i m cap vs u nw : Forall (node_ok sp bok i) vs -> tab_ok sp i vs u -> (forall e, e ∈ ht_elems u -> (m <= fst e)%nat) -> (m <= length vs)%nat ->
  (0 < cap)%nat -> tot vs < B ^ N.of_nat cap -> roomy cap nw vs -> emptied m vs u ->
  exists vs' u' nw', ofold (pcf_merge sp big_add bn_clear i) (reverse (seq 0 m)) (vs, u, nw) = Some (vs', u', nw') /\
    (nw <= nw')%nat /\ Forall (node_ok sp bok i) vs' /\ tab_ok sp i vs' u' /\ roomy cap nw' vs' /\ emptied 0 vs' u' /\ tot vs' = tot vs.
Proof.
  revert vs u nw. induction m as [|m IH]; intros vs u nw Hvs Htab Hk Hm Hcap Hsum Hroom Hemp; [exists vs, u, nw; split_and!; try done; lia|].
  rewrite seq_S, reverse_app. change (reverse [(0 + m)%nat]) with [m]. cbn [app ofold]. change (0 + m)%nat with m.
  assert (exists vs1 u1 nw1, pcf_merge sp big_add bn_clear i (vs, u, nw) m = Some (vs1, u1, nw1) /\ (nw <= nw1)%nat /\ roomy cap nw1 vs1 /\ emptied m vs1 u1)
    as (vs1 & u1 & nw1 & E1 & B1 & B2 & B3).
  { unfold pcf_merge. destruct (lookup_lt_is_Some_2 vs m ltac:(lia)) as [[s x] El]. rewrite El. cbn [mbind option_bind].
    assert (exists u' slot e, pc_add sp i u (m, s) = Some (u', slot) /\ ht_at u' slot = Some e) as (u' & slot & e & Ea & Ee).
    { destruct Htab as [Hg _]. destruct Hsh as [S1 S2].
      destruct (ht_add_strong (hj sp i) (ej sp i) ltac:(intros; apply S1) ltac:(intros; by apply S2) u (m, s) Hg) as (u1 & i1 & y & E & _ & Hat & _).
      by exists u1, i1, y. }
    rewrite Ea. cbn [mbind option_bind]. rewrite Ee. cbn [mbind option_bind].
    destruct (add_cases sp Hsh _ _ _ _ _ _ _ _ Htab Ea Ee) as [_ Hcase]. destruct (Nat.eqb_spec (fst e) m) as [En|En].
    - destruct Hcase as [(H1 & _)|(-> & Hp & _)]; [apply Hk in H1; lia|].
      eexists _, _, _. split_and!; try done. intros k s0 x0 Hk0 E0. rewrite Hp. destruct (decide (k = m)) as [->|Hne].
      + rewrite El in E0. injection E0 as <- <-. right. left.
      + destruct (Hemp k s0 x0 ltac:(lia) E0); [by left|]. right. by right.
    - destruct Hcase as [(H1 & _ & Hp)|(-> & _)]; [|done]. destruct e as [k s1]. cbn [fst snd] in *. destruct (proj2 Htab _ _ H1) as [y Hy]. rewrite Hy. cbn [mbind option_bind].
      assert (node_ok sp bok i (s1, y)) as [_ Hy1] by (by eapply Forall_lookup_1). assert (node_ok sp bok i (s, x)) as [_ Hx1] by (by eapply Forall_lookup_1). cbn [fst snd] in *.
      pose proof (sum2_le (fun v => bval (snd v)) vs k m _ _ En Hy El) as Hle. cbn [snd] in Hle. change (sumN _ vs) with (tot vs) in Hle.
      pose proof (Forall_lookup_1 _ _ _ _ Hroom Hy) as [Ly _]. pose proof (Forall_lookup_1 _ _ _ _ Hroom El) as [Lx _]. cbn [snd] in Ly, Lx.
      destruct (bn_add_total y x cap Hy1 Hx1) as (y' & w & Ead & Hly & Hw); [lia|lia|]. rewrite Ead. cbn [mbind option_bind].
      assert (exists x', bn_clear x = Some x' /\ length x' = length x) as (x' & Ecl & Hlx).
      { pose proof (bok_len _ Hx1). destruct x as [|w0 x]; [cbn in *; lia|]. unfold bn_clear, big_store64. cbn. by eexists. }
      rewrite Ecl. cbn [mbind option_bind]. eexists _, _, _. split_and!; [done|lia| |].
      + apply Forall_insert; [apply Forall_insert|]; cbn [snd].
        * apply (roomy_mono _ nw); [lia|done].
        * split; [lia|]. eapply N.lt_le_trans; [exact Hw|]. apply N.pow_le_mono_r; [done|lia].
        * split; [lia|]. destruct (bn_clear_ok _ _ Ecl Hx1) as [_ ->]. pose proof (Bpow_pos (Nat.max nw w)). lia.
      + intros k' s' x2 Hk' E2. rewrite Hp. apply list_lookup_insert_Some in E2 as [(-> & E2 & _)|[Hne E2]].
        * injection E2 as <- <-. left. by destruct (bn_clear_ok _ _ Ecl Hx1) as [_ ->].
        * apply list_lookup_insert_Some in E2 as [(-> & E2 & _)|[Hne' E2]].
          -- injection E2 as <- <-. by right.
          -- apply (Hemp k' s' x2); [lia|done]. }
  rewrite E1. apply (merge_step sp Hsh big_add bn_clear bok bval eq) with (wt := fun _ _ => 1) in E1 as (A1 & A2 & A3 & A4 & A5); try done; try (intros; lia); try (intros; congruence).
  - assert (tot vs1 = tot vs) as Et.
    { unfold sum1. rewrite (sumN_ext _ (vmass sp bval (fun _ _ => 1) i)) by (intros v _; unfold vmass; lia). rewrite A5. apply sumN_ext. intros v _. unfold vmass. lia. }
    destruct (IH vs1 u1 nw1) as (vs' & u' & nw' & E & C1 & C2 & C3 & C4 & C5 & C6); try done; [lia|by rewrite Et|].
    exists vs', u', nw'. split_and!; try done; [lia|congruence].
  - intros ? ? ? ? E' ? ?. by eapply bn_add_ok.
  - intros ? ? E' ?. by eapply bn_clear_ok.
Qed.

(** the sum of the values of a merged level *)
Lemma sum_index {A} (f : A -> N) M vs o (L : list nat) : (forall v, v ∈ vs -> f v <= M) ->
  (forall k v, vs !! k = Some v -> f v = 0 \/ (k + o)%nat ∈ L) -> sumN f vs <= N.of_nat (length L) * M.
Proof.
  revert o L. induction vs as [|v vs IH]; intros o L HM HL; cbn [sumN]; [lia|].
  pose proof (HM v ltac:(left)) as Hv. destruct (HL 0%nat v eq_refl) as [Ez|Hin].
  - rewrite Ez, N.add_0_l. apply (IH (S o)); [intros; apply HM; by right|]. intros k w Hk. destruct (HL (S k) w Hk); [by left|]. right. by replace (k + S o)%nat with (S k + o)%nat by lia.
  - apply elem_of_Permutation in Hin as [L' HP]. rewrite HP. cbn [length]. rewrite Nat2N.inj_succ, N.mul_succ_l.
    enough (sumN f vs <= N.of_nat (length L') * M) by lia.
    apply (IH (S o)); [intros; apply HM; by right|]. intros k w Hk. destruct (HL (S k) w Hk) as [|Hin]; [by left|]. right.
    rewrite HP in Hin. apply elem_of_cons in Hin as [|Hin]; [lia|]. by replace (k + S o)%nat with (S k + o)%nat by lia.
Qed.
Lemma merged_sum i vs u cap nw : Forall (node_ok sp bok i) vs -> tab_ok sp i vs u -> roomy cap nw vs -> emptied 0 vs u ->
  (forall l ss, Forall (reach sp l) ss -> distinct sp l ss -> N.of_nat (length ss) <= 2 ^ 62) -> tot vs <= 2 ^ 62 * (B ^ N.of_nat nw - 1).
Proof.
  intros Hvs [Hg Htab] Hroom Hemp Hw. set (M := B ^ N.of_nat nw - 1).
  assert (N.of_nat (length (ht_elems u)) <= 2 ^ 62) as Hlen.
  { rewrite <- (fmap_length snd). apply (Hw (Z.of_nat i)).
    - apply Forall_fmap, Forall_forall. intros [k s] He. destruct (Htab _ _ He) as [x Hx]. cbn. by destruct (Forall_lookup_1 _ _ _ _ Hvs Hx) as [? _].
    - intros p p' s s' Hp Hp' Heq. rewrite list_lookup_fmap in Hp, Hp'.
      destruct (ht_elems u !! p) as [[k s0]|] eqn:E1; [|done]. destruct (ht_elems u !! p') as [[k' s0']|] eqn:E2; [|done]. injection Hp as ->. injection Hp' as ->.
      exact (good_nodup (hj sp i) (ej sp i) u Hg p p' _ _ E1 E2 Heq). }
  etransitivity; [apply (sum_index _ M vs 0 (fst <$> ht_elems u))|].
  - intros v Hv. pose proof (proj1 (Forall_forall _ _) Hroom v Hv) as [_ H]. unfold M. lia.
  - intros k [s x] Hk. destruct (Hemp k s x ltac:(lia) Hk) as [|Hin]; [by left|]. right. apply elem_of_list_fmap. by exists (k, s).
  - rewrite fmap_length. by apply N.mul_le_mono_r.
Qed.

(** ** the nodes of a level *)
Section level.
Context (i n nw0 Lt : nat) (M : N) (Hi : (0 < i <= n)%nat) (HLt : (0 < Lt)%nat) (Hpw : ppow n < B ^ N.of_nat Lt) (Hnw : (0 < nw0)%nat).
Definition below (j : nat) (lv : lvf) : Prop := forall k vs, (k < j)%nat -> lv !! k = Some vs -> vs = [].
(** [r] more copies will be made *)
Definition winv (acc : lvf * list N) (r : N) : Prop :=
  lokF i (fst acc) /\ bok (snd acc) /\ length (fst acc) = S n /\ length (snd acc) = Lt /\
  bval (snd acc) + massFA i (fst acc) + r * ppow (i - 1) <= ppow n /\ below (i - 1) (fst acc) /\
  forall vs, fst acc !! (i - 1)%nat = Some vs -> roomy (nw0 + 1) nw0 vs /\ tot vs + r <= M.
Lemma branchF_wide s x acc b r : reach sp (Z.of_nat i) s -> bok x -> (b < ar sp)%nat -> bval x < B ^ N.of_nat nw0 -> winv acc (r + bval x) ->
  exists acc', pcf_branch sp (bn_copy 0) big_add i nw0 s x acc b = Some acc' /\ winv acc' r.
Proof.
  intros Hr Hx Hb Hxn (I1 & I2 & I3 & I4 & I5 & I6 & I7). destruct acc as [lv total]. cbn [fst snd] in *.
  pose proof (pow_pos sp Hok (N.of_nat (i - 1))) as Hp1. fold (ppow (i - 1)) in Hp1.
  pose proof (ok_level _ Hok _ s b Hr Hb) as Hlev. pose proof (Hskip _ s b Hr Hb) as Hsk.
  assert (exists acc', pcf_branch sp (bn_copy 0) big_add i nw0 s x (lv, total) b = Some acc' /\ length (fst acc') = S n /\ length (snd acc') = Lt /\ below (i - 1) (fst acc') /\
    forall vs, fst acc' !! (i - 1)%nat = Some vs -> roomy (nw0 + 1) nw0 vs /\ tot vs + r <= M) as (acc' & E & Hl & Hl' & Hbe & Hro).
  { unfold pcf_branch. destruct (get_child sp s (Z.of_nat i) b) as [c s']. cbn [fst snd] in *. destruct (Z.leb_spec c 0).
    - destruct (Z.eqb_spec c 0).
      + eexists. split_and!; try done. intros vs Hvs. destruct (I7 vs Hvs). split; [done|lia].
      + assert (bval x <= bval x * ppow (i - 1)) by nia.
        destruct (bn_add_total total x Lt I2 Hx) as (t' & w & Ea & Hlt & _); [lia|lia|]. rewrite Ea. eexists. split_and!; try done; [by cbn; congruence|].
        intros vs Hvs. destruct (I7 vs Hvs). split; [done|lia].
    - specialize (Hsk ltac:(lia)). assert (Z.to_nat c = (i - 1)%nat) as Ec by lia. rewrite Ec. destruct (Nat.ltb_spec (i - 1) i); [|lia].
      destruct (lookup_lt_is_Some_2 lv (i - 1) ltac:(lia)) as [vs El]. rewrite El. cbn [mbind option_bind].
      rewrite Nat.ltb_irrefl. destruct (bn_copy_total 0 (nw0 + 1 + 0) x nw0 Hx) as (x' & Ecp & Hlx); [lia|done|].
      rewrite Ecp. cbn [mbind option_bind]. eexists. split; [done|]. cbn [fst snd]. split_and!; [by rewrite insert_length|done| |].
      + intros k vs1 Hk. rewrite list_lookup_insert_ne by lia. by apply I6.
      + intros vs1. rewrite list_lookup_insert by (by eapply lookup_lt_Some). intros E. injection E as <-.
        destruct (I7 vs El) as [J1 J2]. destruct (bn_copy_ok _ _ _ _ Ecp Hx) as [_ Ev]. split.
        * apply Forall_app. split; [done|]. repeat constructor; cbn [snd]; [lia|by rewrite Ev].
        * unfold sum1 in *. rewrite sumN_app. cbn [sumN snd]. rewrite Ev. lia. }
  exists acc'. split; [done|].
  apply (branchF_ok sp Hok (bn_copy 0) big_add bok bval eq) with (wt := wp) in E; try done; try (intros; lia); try (intros; congruence); try lia.
  - destruct acc' as [lv' t']. destruct E as (F1 & F2 & F3). unfold winv. cbn [fst snd] in *. split_and!; try done.
    pose proof (wpow_le sp Hok i (fst (get_child sp s (Z.of_nat i) b)) (snd (get_child sp s (Z.of_nat i) b)) ltac:(lia) ltac:(lia)) as Hw.
    pose proof (N.mul_le_mono_l _ _ (bval x) Hw). lia.
  - intros ? ? ? E' ?. by eapply bn_copy_ok.
  - intros ? ? ? ? E' ? ?. by eapply bn_add_ok.
  - intros l ? Hl0. unfold wpow. destruct (Z.ltb_spec l 0); [done|lia].
Qed.
Lemma nodeF_wide v acc r : node_ok sp bok i v -> bval (snd v) < B ^ N.of_nat nw0 -> winv acc (r + N.of_nat (ar sp) * bval (snd v)) ->
  exists acc', pcf_node sp (bn_copy 0) big_add bn_isz i nw0 acc v = Some acc' /\ winv acc' r.
Proof.
  intros [Hr Hx] Hxn HI. unfold pcf_node. rewrite bn_isz_some by done. cbn [mbind option_bind]. destruct (N.eqb_spec (bval (snd v)) 0) as [Ez|].
  - exists acc. split; [done|]. rewrite Ez in HI. by rewrite N.mul_0_r, N.add_0_r in HI.
  - unfold ofor. rewrite <- (seq_length (ar sp) 0) in HI.
    assert (Forall (fun b => (b < ar sp)%nat) (seq 0 (ar sp))) as Hbs by (apply Forall_forall; intros b Hb; apply elem_of_seq in Hb; lia).
    revert acc HI. induction Hbs as [|b bs Hb Hbs IH]; intros acc HI; cbn [ofold length] in *.
    + exists acc. split; [done|]. by rewrite N.mul_0_l, N.add_0_r in HI.
    + destruct (branchF_wide (fst v) (snd v) acc b (r + N.of_nat (length bs) * bval (snd v)) Hr Hx Hb Hxn) as (a1 & E1 & I1).
      { rewrite Nat2N.inj_succ, N.mul_succ_l, N.add_assoc in HI. done. }
      rewrite E1. by apply IH.
Qed.
Lemma nodesF_wide vs acc r : Forall (node_ok sp bok i) vs -> Forall (fun v => bval (snd v) < B ^ N.of_nat nw0) vs -> winv acc (r + N.of_nat (ar sp) * tot vs) ->
  exists acc', ofold (pcf_node sp (bn_copy 0) big_add bn_isz i nw0) vs acc = Some acc' /\ winv acc' r.
Proof.
  intros Hvs. revert acc. induction Hvs as [|v vs Hv Hvs IH]; intros acc Hf HI; unfold sum1 in HI; cbn [ofold sumN] in *.
  - exists acc. by rewrite N.mul_0_r, N.add_0_r in HI.
  - apply Forall_cons in Hf as [Hf1 Hf2].
    destruct (nodeF_wide v acc (r + N.of_nat (ar sp) * tot vs) Hv Hf1) as (a1 & E1 & I1).
    + unfold sum1. by replace (r + N.of_nat (ar sp) * sumN (fun v => bval (snd v)) vs + N.of_nat (ar sp) * bval (snd v)) with (r + N.of_nat (ar sp) * (bval (snd v) + sumN (fun v => bval (snd v)) vs)) by lia.
    + rewrite E1. by apply IH.
Qed.
End level.

Lemma pw_S i : (0 < i)%nat -> ppow i = N.of_nat (ar sp) * ppow (i - 1).
Proof. intros Hi. unfold pw. replace (N.of_nat i) with (N.succ (N.of_nat (i - 1))) by lia. by rewrite N.pow_succ_r'. Qed.
Lemma runF_wide n s one zero : ar sp = 2%nat -> (0 < n)%nat -> reach sp (Z.of_nat n) s -> bok one -> bok zero -> bval one = 1 -> bval zero = 0 ->
  (n / 63 + 1 <= length zero)%nat ->
  (forall l ss, Forall (reach sp l) ss -> distinct sp l ss -> N.of_nat (length ss) <= 2 ^ 62) ->
  exists total, pcf_run sp (bn_copy 0) big_add bn_isz bn_clear n s one zero = Some total.
Proof.
  intros Har Hn Hr Ho Hz Eo Ez Hlz Hw. unfold pcf_run.
  assert (ppow n < B ^ N.of_nat (length zero)) as Htot.
  { unfold pw. rewrite Har, pow63. apply N.pow_lt_mono_r; [done|]. pose proof (Nat.mod_upper_bound n 63 ltac:(lia)). pose proof (Nat.div_mod n 63 ltac:(lia)). lia. }
  assert (forall m lv nw cap t, (m <= n)%nat -> lokF (S m) lv -> bok t -> length lv = S n -> length t = length zero -> (0 < nw)%nat -> (0 < cap)%nat ->
    bval t + massFA (S m) lv <= ppow n -> below m lv -> (forall vs, lv !! m = Some vs -> roomy cap nw vs /\ tot vs < B ^ N.of_nat cap) ->
    exists r, ofold (pcf_level sp (bn_copy 0) big_add bn_isz bn_clear) (reverse (seq 1 m)) (lv, nw, t) = Some r) as HA.
  { induction m as [|m IH]; intros lv nw cap t Hm HL Ht Hlen Hlt Hnw Hcap Hle Hbel Hlev; [by eexists|].
    rewrite seq_S, reverse_app. change (reverse [(1 + m)%nat]) with [S m]. cbn [app ofold]. change (1 + m)%nat with (S m).
    destruct (lookup_lt_is_Some_2 lv (S m) ltac:(lia)) as [vs El]. destruct (Hlev vs El) as [Hroom Hsum].
    assert (massFA (S (S m)) lv = massFA (S m) lv + sumN (vmass sp bval wp (S m)) vs) as HM.
    { unfold massF. rewrite (seq_S (S m)), sumN_app. cbn [sumN]. rewrite Nat.add_0_l, N.add_0_r. f_equal. unfold lmassF. by rewrite El. }
    assert (sumN (vmass sp bval wp (S m)) vs = tot vs * ppow (S m)) as Hs1.
    { unfold sum1. rewrite N.mul_comm, <- sumN_mul. apply sumN_ext. intros v _. unfold vmass. rewrite wpow_lev by lia. lia. }
    pose proof (HL (S m) vs ltac:(lia) El) as Hvs.
    unfold pcf_level at 1. rewrite El. cbn [mbind option_bind].
    assert (tab_ok sp (S m) vs (ht_init (length vs))) as Htab.
    { split; [left; apply ht_init_strong|]. intros k s' Hk. by apply init_elems in Hk. }
    destruct (mergeF_wide (S m) (length vs) cap vs (ht_init (length vs)) nw Hvs Htab) as (vs1 & u1 & nw1 & Em & M1 & M2 & M3 & M4 & M5 & M6); try done.
    { intros e He. by apply init_elems in He. }
    { intros k s' x' Hk E. apply lookup_lt_Some in E. lia. }
    rewrite Em. cbn [mbind option_bind].
    pose proof (merged_sum (S m) vs1 u1 cap nw1 M2 M3 M4 M5 Hw) as Hms.
    destruct (nodesF_wide (S m) n nw1 (length zero) (N.of_nat (ar sp) * tot vs1)) with (vs := reverse vs1) (acc := (lv, t)) (r := 0) as ([lv2 t2] & E2 & I2); try done; try lia.
    { by apply Forall_reverse. }
    { apply Forall_reverse. eapply Forall_impl; [exact M4|]. by intros v [_ ?]. }
    { unfold sum1 at 2. rewrite sumN_reverse. change (sumN _ vs1) with (tot vs1). unfold winv. cbn [fst snd]. rewrite N.add_0_l.
      replace (S m - 1)%nat with m by lia. split_and!; try done.
      - intros j ? Hj. apply HL. lia.
      - rewrite (pw_S (S m)) in Hs1 by lia. replace (S m - 1)%nat with m in Hs1 by lia. rewrite M6. lia.
      - intros k vs2 Hk. apply Hbel. lia.
      - intros vs2 E2. rewrite (Hbel m vs2 ltac:(lia) E2). split; [constructor|]. unfold sum1 at 1. cbn. lia. }
    rewrite E2. cbn [mbind option_bind]. destruct I2 as (J1 & J2 & J3 & J4 & J5 & J6 & J7). cbn [fst snd] in *. replace (S m - 1)%nat with m in * by lia.
    apply (IH _ nw1 (nw1 + 1)%nat); try done; try lia.
    - intros j vs2 Hj. rewrite list_lookup_insert_ne by lia. by apply J1.
    - by rewrite insert_length.
    - unfold massF. rewrite (sumN_ext _ (lmassF sp bval wp lv2)); [unfold massF in J5; lia|]. intros j Hj. apply elem_of_seq in Hj. unfold lmassF. by rewrite list_lookup_insert_ne by lia.
    - intros k vs2 Hk. rewrite list_lookup_insert_ne by lia. by apply J6.
    - intros vs2. rewrite list_lookup_insert_ne by lia. intros E. destruct (J7 vs2 E) as [K1 K2]. split; [done|].
      eapply N.le_lt_trans; [apply (N.le_add_r _ 0)|]. eapply N.le_lt_trans; [exact K2|].
      rewrite Har. rewrite Nat.add_1_r, Bpow_S. pose proof (Bpow_pos nw1). change B with (2 * 2 ^ 62) at 1. rewrite <- N.mul_assoc.
      apply N.mul_lt_mono_pos_l; [done|]. eapply N.le_lt_trans; [exact Hms|]. apply N.mul_lt_mono_pos_l; [done|]. lia. }
  destruct (HA n (<[n := [(s, one)]]> (replicate (S n) [])) 1%nat 1%nat zero) as [[[? ?] r] E]; try done; try lia.
  - intros j vs Hj. destruct (decide (j = n)) as [->|Hne].
    + rewrite list_lookup_insert by (rewrite replicate_length; lia). intros E. injection E as <-. by repeat constructor.
    + rewrite list_lookup_insert_ne by done. intros E. apply lookup_replicate in E as [-> _]. constructor.
  - by rewrite insert_length, replicate_length.
  - rewrite Ez. unfold massF. rewrite seq_S, sumN_app, (sumN_ext _ (fun _ => 0 * 0)), sumN_mul.
    + cbn [sumN]. rewrite Nat.add_0_l. unfold lmassF. rewrite list_lookup_insert by (rewrite replicate_length; lia).
      cbn [sumN]. unfold vmass. cbn [fst snd]. rewrite Eo, wpow_lev by lia. lia.
    + intros j Hj. apply elem_of_seq in Hj. unfold lmassF. rewrite list_lookup_insert_ne, lookup_replicate_2 by lia. done.
  - intros k vs Hk. rewrite list_lookup_insert_ne by lia. intros E. by apply lookup_replicate in E as [-> _].
  - intros vs. rewrite list_lookup_insert by (rewrite replicate_length; lia). intros E. injection E as <-. split.
    + repeat constructor; cbn [snd]; [pose proof (bok_len _ Ho); lia|by rewrite Eo].
    + unfold sum1. cbn [sumN snd]. by rewrite Eo.
  - exists r. exact (f_equal (fun o => '(_, _, total) ← o; Some total) E).
Qed.
End wide.
