(** The invariant of the builder with merge_states over one level and over the whole build. *)
From Verif Require Import Base M_Table Tree M_Hash P_Hash M_Sweeper M_Engine P_Sweep P_Pass P_Pass2 P_Core P_Upd P_Level P_Engine M_Merge P_Merge1 P_Merge2 P_Merge3.
Local Open Scope nat_scope.

Lemma keep_row X X' g g' : keep X X' g g' -> row g' <= row g.
Proof. intros [[-> _]|(_ & _ & ->)]; simpl; lia. Qed.
Lemma sd_row X g T : sd X g T -> row g = 0 /\ col g <= 1.
Proof. intros [[-> _]|[-> _]]; simpl; lia. Qed.

Lemma nth_repT0 b k : nth b (replicate k T0) T0 = T0.
Proof. revert b. induction k as [|k IH]; intros [|b]; simpl; try done. Qed.

Section level.
  Context {S : Type} (a : nat).
  Context (hashf : nat -> S -> N) (eqbf : nat -> S -> S -> bool) (mrg : S -> S -> nat).
  Context (ch : nat -> S -> nat -> Z * S).
  Context (FS : S -> Prop) (G : S -> tree) (R : nat -> S -> Prop) (tr : nat -> S -> tree).
  Context (n : nat) (s0 : S).
  Context (HG0 : forall s s', FS s -> FS s' -> mrg s s' <> 1 -> mrg s s' <> 2 -> G s = G s').
  Context (HG1 : forall s s', FS s -> FS s' -> mrg s s' = 1 -> G s = T0).
  Context (HG2 : forall s s', FS s -> FS s' -> mrg s s' = 2 -> G s' = T0).
  Context (H0 : forall i s s', R i s -> R i s' -> eqbf i s s' = true -> mrg s s' <> 1 -> mrg s s' <> 2 -> tr i s = tr i s').
  Context (H1 : forall i s s', R i s -> R i s' -> eqbf i s s' = true -> mrg s s' = 1 -> tr i s = T0).
  Context (H2 : forall i s s', R i s -> R i s' -> eqbf i s s' = true -> mrg s s' = 2 -> tr i s' = T0).
  Context (Hch : forall i s b, R i s -> b < a -> (fst (ch i s b) < Z.of_nat i)%Z /\
     ((0 < fst (ch i s b))%Z -> R (Z.to_nat (fst (ch i s b))) (snd (ch i s b))) /\
     ((fst (ch i s b) < 0)%Z -> FS (snd (ch i s b)))).
  Definition mctree (i : nat) (s : S) (b : nat) : tree :=
    let '(c, s') := ch i s b in if (c =? 0)%Z then T0 else if (c <? 0)%Z then G s' else tr (Z.to_nat c) s'.
  Context (Htr : forall i s, R i s -> tr i s = nzN i (map (mctree i s) (seq 0 a))).

  Notation mcore X := (core X a 1 (fun _ => 1) (fun _ _ _ => false) (fun _ _ => 0%N) (fun i _ s => R i s) (fun i _ s => tr i s) n 0 s0).
  Notation xof := (xof G).
  Notation OI := (OI FS).
  Notation den X := (den X a (fun i _ s => tr i s)).

  Lemma mlevel_ok i t root w one osrc : 1 <= i <= n -> mcore (xof one) i t root w ->
    OI t (fun r c b => SBr r c b ∉ map p_src w /\ i < r) one osrc ->
    exists ids m t1 root1 r1 t2 w2 low dead jj one' osrc',
      mpass1 hashf eqbf mrg i (mlist i w) 0 (t, root) = Some (ids, m, (t1, root1)) /\ t1 !! i = Some r1 /\
      mpass2 a mrg ch i (mlist i w) ids 0 (<[i := take m r1 ++ replicate (m - length r1) (junk_node a)]> t1)
        (List.filter (fun p => negb (p_lv p =? i)) w) (one, osrc) = Some (t2, w2, low, dead, jj, (one', osrc')) /\
      mcore (xof one') (i - 1) t2 root1 w2 /\
      OI t2 (fun r c b => SBr r c b ∉ map p_src w2 /\ i - 1 < r) one' osrc' /\ low <= i - 1 /\
      (forall p c b, p ∈ w2 -> p_src p = SBr i c b -> low <= p_lv p) /\
      (forall r, t2 !! i = Some r -> dead <= length r) /\
      (forall j r, i < j -> t2 !! j = Some r -> exists r', t !! j = Some r' /\ length r' = length r) /\
      (forall p r c b, p ∈ w2 -> p_src p = SBr r c b -> p_lv p < i /\ (i < r -> p ∈ w)) /\
      (i < n -> root1 = root) /\ (i = n -> root1 <> n0 /\ forall p r c b, p ∈ w2 -> p_src p = SBr r c b -> r <= n).
  Proof using All.
    intros Hi HC HO.
    pose proof (c_len _ _ _ _ _ _ _ _ _ _ _ _ _ _ _ HC) as Hlen.
    pose proof (c_nodup _ _ _ _ _ _ _ _ _ _ _ _ _ _ _ HC) as Hnd.
    pose proof (c_pend _ _ _ _ _ _ _ _ _ _ _ _ _ _ _ HC) as Hpend.
    pose proof (c_ar _ _ _ _ _ _ _ _ _ _ _ _ _ _ _ HC) as Har.
    pose proof (c_empty _ _ _ _ _ _ _ _ _ _ _ _ _ _ _ HC i ltac:(lia)) as Hemp.
    set (ps := mlist i w).
    assert (forall p, p ∈ ps <-> p ∈ w /\ p_lv p = i) as Hps.
    { intros p. unfold ps, mlist. rewrite elem_of_lfilter. split; intros [? E]; (split; [done|]); by apply Nat.eqb_eq. }
    destruct (mpass1_ok hashf eqbf mrg i ltac:(lia) (R i) (tr i) (H0 i) (H1 i) (H2 i) ps 0 t root) as (ids & m & t1 & root1 & E1 & HP).
    { unfold ps, mlist. apply NoDup_map_inj; [apply NoDup_lfilter; by eapply NoDup_map_1|].
      intros x y Hx Hy E. apply elem_of_lfilter in Hx as [Hx _], Hy as [Hy _]. exact (NoDup_map_eq _ _ _ _ Hnd Hx Hy E). }
    { intros p Hp. apply Hps in Hp as [Hp <-]. apply (Hpend p Hp). }
    { intros p Hp. apply Hps in Hp as [Hp El]. destruct (Hpend p Hp) as (_ & _ & _ & _ & Hs). destruct (p_src p) as [|r c b]; [by eexists|].
      destruct Hs as (_ & Hb & q & Hq). simpl. eapply child_is_Some; [done|]. by rewrite (Har _ _ Hq). }
    pose proof (q1_shape _ _ _ _ _ _ _ _ _ _ HP) as Hsh1. pose proof (q1_len _ _ _ _ _ _ _ _ _ _ HP) as Hil.
    pose proof (q1_m _ _ _ _ _ _ _ _ _ _ HP) as Hm. simpl in Hm.
    destruct (shape_row t t1 i [] (eq_sym Hsh1) Hemp) as (r1 & Hr1 & Hr1l).
    assert (r1 = []) as -> by (destruct r1; done). clear Hr1l.
    exists ids, m, t1, root1, []. rewrite take_nil. cbn [app]. replace (m - length []) with m by (simpl; lia).
    set (t1' := <[i := replicate m (junk_node a)]> t1).
    pose proof (shape_length _ _ Hsh1) as Hlt1.
    assert (forall f, row f <> i -> tget t1' f = tget t1 f) as Hg1.
    { intros f Hf. unfold tget, t1'. by rewrite list_lookup_insert_ne. }
    assert (t1' !! i = Some (replicate m (junk_node a))) as Hrow1.
    { unfold t1'. apply list_lookup_insert. rewrite Hlt1, Hlen. lia. }
    assert (forall f, row f = i -> col f < m -> tget t1' f = Some (junk_node a)) as Hg1'.
    { intros f Hf Hc. unfold tget. rewrite Hf, Hrow1. simpl. by apply lookup_replicate_2. }
    set (LL := List.filter livep (zip ps ids)).
    assert (length LL = m) as HLm by (unfold LL; rewrite live_length; [done|done]).
    assert (forall c p f, LL !! c = Some (p, f) -> exists j, ps !! j = Some p /\ ids !! j = Some f /\ neqb f n1 = false /\ colj 0 ids j = c) as HLL.
    { intros c p f H. by apply live_lookup_inv. }
    assert (forall c p f, LL !! c = Some (p, f) -> p ∈ w /\ p_lv p = i /\ R i (p_st p)) as HLp.
    { intros c p f H. destruct (HLL c p f H) as (j & Hj & _). apply elem_of_list_lookup_2, Hps in Hj as [Hp El].
      destruct (Hpend p Hp) as (_ & _ & _ & HR & _). rewrite El in HR. done. }
    set (W := fun c b => match LL !! c with Some (p, f) => if neqb f n0 then (0%Z, p_st p) else ch i (p_st p) b | None => (0%Z, s0) end).
    assert (HW : forall c b, b < a -> (fst (W c b) < Z.of_nat i)%Z /\
      ((0 < fst (W c b))%Z -> R (Z.to_nat (fst (W c b))) (snd (W c b))) /\ ((fst (W c b) < 0)%Z -> FS (snd (W c b)))).
    { intros c b Hb. unfold W. destruct (LL !! c) as [[p f]|] eqn:Ec; [|simpl; lia].
      destruct (HLp c p f Ec) as (_ & _ & HR). destruct (neqb f n0); [simpl; lia|]. by apply Hch. }
    set (w0 := List.filter (fun p => negb (p_lv p =? i)) w).
    assert (forall p, p ∈ w0 <-> p ∈ w /\ p_lv p <> i) as Hw0.
    { intros p. unfold w0. rewrite elem_of_lfilter. destruct (Nat.eqb_spec (p_lv p) i); simpl; split; intros [? ?]; split; done. }
    assert (Hw0i : forall p r c b, p ∈ w0 -> p_src p = SBr r c b -> i < r).
    { intros p r c b Hp Es. apply Hw0 in Hp as [Hp _]. destruct (Hpend p Hp) as (_ & _ & _ & _ & Hs). rewrite Es in Hs. lia. }
    assert (forall x, x ∈ map p_src w -> x ∈ map p_src w0 \/ exists p, p ∈ w /\ p_lv p = i /\ p_src p = x) as Hsplit.
    { intros x Hx. apply elem_of_list_fmap in Hx as (p & -> & Hp). destruct (decide (p_lv p = i)) as [El|El].
      - right. by exists p.
      - left. apply elem_of_list_fmap_1. by apply Hw0. }
    assert (forall x, x ∉ map p_src w -> x ∉ map p_src w0 /\ x ∉ map p_src ps) as Hnsplit.
    { intros x Hx. split; intros Hin; apply Hx; apply elem_of_list_fmap in Hin as (p & -> & Hp); apply elem_of_list_fmap_1.
      - by apply Hw0 in Hp as [Hp _].
      - by apply Hps in Hp as [Hp _]. }
    (* slots outside row i after pass 1 *)
    assert (forall r c b, r <> i -> SBr r c b ∉ map p_src w -> child t1' (mk r c) b = child t (mk r c) b) as Hfr.
    { intros r c b Hr Hn. unfold child. rewrite Hg1 by done. apply (q1_frame _ _ _ _ _ _ _ _ _ _ HP (SBr r c b)). by apply Hnsplit. }
    assert (forall p r c b, p ∈ w -> p_lv p = i -> p_src p = SBr r c b -> child t1' (mk r c) b = child t1 (mk r c) b) as Hfr'.
    { intros p r c b Hp El Es. destruct (Hpend p Hp) as (_ & _ & _ & _ & Hs). rewrite Es in Hs. unfold child. rewrite Hg1; [done|simpl; lia]. }
    (* where the sources of level i point to *)
    assert (forall p, p ∈ w -> p_lv p = i -> (read_src t1 root1 (p_src p) = Some n0 /\ tr i (p_st p) = T0) \/
       exists c q f, LL !! c = Some (q, f) /\ tr i (p_st q) = tr i (p_st p) /\ read_src t1 root1 (p_src p) = Some (mk i c)) as Htgt.
    { intros p Hp El. assert (p ∈ ps) as Hpp by (by apply Hps). apply elem_of_list_lookup in Hpp as [j Hj].
      destruct (q1_tgt _ _ _ _ _ _ _ _ _ _ HP j p Hj) as [?|(k & q & f & Hk & Hf & Hn & ET & Hrd)]; [by left|right].
      exists (colj 0 ids k), q, f. split_and!; try done. by apply live_lookup. }
    assert (HO1 : OI t1' (fun r c b => SBr r c b ∉ map p_src w0 /\ i < r) one osrc).
    { eapply OI_ext; [exact HO| | |].
      - intros r c b [Hn Hr] _. destruct (decide (SBr r c b ∈ map p_src w)) as [Hin|Hnin]; [|by left]. right. intros g Hg Hg'.
        destruct (Hsplit _ Hin) as [?|(p & Hp & El & Es)]; [done|]. rewrite (Hfr' p r c b Hp El Es) in Hg.
        destruct (Htgt p Hp El) as [[Hrd _]|(c' & q & f & _ & _ & Hrd)]; rewrite Es in Hrd; simpl in Hrd; rewrite Hrd in Hg; inversion Hg; subst g.
        + by apply n0_not1.
        + inversion Hg'. lia.
      - intros r c b [Hn Hr] _. split; [by apply Hnsplit|done].
      - intros r c b [Hn Hr] _. apply Hfr; [lia|done]. }
    destruct (mpass2_ok a mrg ch FS G HG0 HG1 HG2 i ltac:(lia) R t1' w0 one Hw0i W HW (zip ps ids) osrc HO1)
      as (t2 & w2 & low & dead & one' & osrc' & news & E2 & Hdead & HP2).
    { intros c p f Hc. fold LL in Hc. assert (c < m) as Hcm by (rewrite <- HLm; by eapply lookup_lt_Some). split_and!.
      - intros b Hb. eapply child_is_Some; [by apply Hg1'|]. unfold junk_node. by rewrite replicate_length.
      - intros En b Hb. unfold W. rewrite Hc, En. done.
      - intros En b Hb. unfold W. rewrite Hc, En. done. }
    fold LL in E2, Hdead, HP2. rewrite HLm in E2, Hdead, HP2.
    pose proof HP2 as [Ew2 Hsh2 HO2 Hold Hzero Hrow Hnew Hnd2 [Hl1 Hl2]].
    exists t2, w2, low, dead, m, one', osrc'. split; [done|]. split; [done|]. split; [exact E2|].
    assert (forall p, p ∈ w2 -> p ∈ news \/ p ∈ w /\ p_lv p <> i) as Hw2.
    { intros p Hp. rewrite Ew2 in Hp. apply elem_of_app in Hp as [Hp|Hp]; [by left|right]. by apply Hw0. }
    assert (forall p, p ∈ w -> p_lv p <> i -> p ∈ w2) as Hw2'.
    { intros p Hp Hl. rewrite Ew2. apply elem_of_app. right. by apply Hw0. }
    assert (forall p, p ∈ news -> exists c b, c < m /\ b < a /\ p_src p = SBr i c b /\ 0 < p_lv p < i /\
       p_gr p < 1 /\ p_th p < 1 /\ R (p_lv p) (p_st p)) as Hnews.
    { intros p Hp. destruct (Hnew p Hp) as (c & b & [Hc _] & Hb & Hcd & ->). exists c, b. simpl.
      destruct (HW c b Hb) as (_ & HR & _). split_and!; try done; try lia. apply HR. lia. }
    assert (forall r c b, r <> i -> SBr r c b ∈ map p_src w2 -> SBr r c b ∈ map p_src w0) as Hin2.
    { intros r c b Hr Hin. apply elem_of_list_fmap in Hin as (p & Ep & Hp). destruct (Hw2 p Hp) as [Hn|[Hn El]].
      - destruct (Hnews p Hn) as (? & ? & _ & _ & Es & _). rewrite Es in Ep. inversion Ep. lia.
      - rewrite Ep. apply elem_of_list_fmap_1. by apply Hw0. }
    assert (forall x, x ∈ map p_src w0 -> x ∈ map p_src w2) as Hin2'.
    { intros x Hx. rewrite Ew2, map_app. apply elem_of_app. by right. }
    assert (length t2 = Datatypes.S n) as Hlt2.
    { rewrite (shape_length _ _ Hsh2). unfold t1'. rewrite insert_length. lia. }
    assert (forall f p, row f <> i -> tget t2 f = Some p -> exists p', tget t f = Some p' /\ length p' = length p) as Hget2.
    { intros f p Hf Hp. destruct (shape_get t2 t1' f p Hsh2 Hp) as (p' & Hp' & El). rewrite Hg1 in Hp' by done.
      destruct (shape_get t1 t f p' Hsh1 Hp') as (p'' & Hp'' & El'). exists p''. split; [done|lia]. }
    assert (forall f p, row f <> i -> tget t f = Some p -> exists p', tget t2 f = Some p' /\ length p' = length p) as Hget2'.
    { intros f p Hf Hp. destruct (shape_get t t1 f p (eq_sym Hsh1) Hp) as (p' & Hp' & El). rewrite <- Hg1 in Hp' by done.
      destruct (shape_get t1' t2 f p' (eq_sym Hsh2) Hp') as (p'' & Hp'' & El'). exists p''. split; [done|lia]. }
    assert (forall f p, row f = i -> tget t2 f = Some p -> col f < m /\ length p = a) as Hgeti.
    { intros f p Hf Hp. destruct (shape_get t2 t1' f p Hsh2 Hp) as (p' & Hp' & El). unfold tget in Hp'.
      rewrite Hf, Hrow1 in Hp'. simpl in Hp'. apply lookup_replicate in Hp' as [-> Hc]. split; [done|].
      unfold junk_node in El. rewrite replicate_length in El. lia. }
    assert (forall f, row f = i -> col f < m -> is_Some (tget t2 f)) as Hgeti'.
    { intros f Hf Hc. eapply (shape_is_Some t1' t2); [done|]. rewrite Hg1' by done. by eexists. }
    assert (forall j r, i < j -> t2 !! j = Some r -> exists r', t !! j = Some r' /\ length r' = length r) as Hrows.
    { intros j r Hj Hr. destruct (shape_row t2 t1' j r Hsh2 Hr) as (r' & Hr' & El). unfold t1' in Hr'.
      rewrite list_lookup_insert_ne in Hr' by lia. destruct (shape_row t1 t j r' Hsh1 Hr') as (r'' & Hr'' & El').
      exists r''. split; [done|]. apply (f_equal length) in El, El'. rewrite !fmap_length in El, El'. lia. }
    assert (forall r, r <> i -> r = 0 \/ t !! r = Some [] -> t2 !! r = t !! r) as Hrow_same.
    { intros r Hri [->|He].
      - transitivity (t1' !! 0).
        + apply row_ext; [done|]. intros c b. apply Hzero.
        + unfold t1'. rewrite list_lookup_insert_ne by lia. apply row_ext; [done|]. intros c b.
          apply (q1_frame _ _ _ _ _ _ _ _ _ _ HP (SBr 0 c b)). intros Hin. apply elem_of_list_fmap in Hin as (p & E & Hp).
          apply Hps in Hp as [Hp _]. destruct (Hpend p Hp) as (_ & _ & _ & _ & Hs). rewrite <- E in Hs. lia.
      - destruct (shape_row t t1 r [] (eq_sym Hsh1) He) as (x & Hx & Hxl).
        assert (t1' !! r = Some x) as Hx' by (unfold t1'; by rewrite list_lookup_insert_ne).
        destruct (shape_row t1' t2 r x (eq_sym Hsh2) Hx') as (x' & Hx2 & Hxl'). rewrite Hx2, He. f_equal.
        destruct x; [|done]. by destruct x'. }
    (* slots above row i after pass 2 *)
    assert (forall r c b g, i < r -> SBr r c b ∉ map p_src w -> child t (mk r c) b = Some g ->
      exists g', child t2 (mk r c) b = Some g' /\ keep (xof one) (xof one') g g') as Hkeep.
    { intros r c b g Hr Hn Hg. apply Hold; [done|by apply Hnsplit|]. rewrite Hfr; [done|lia|done]. }
    assert (forall p r c b, p ∈ w -> p_lv p = i -> p_src p = SBr r c b -> child t2 (mk r c) b = child t1 (mk r c) b) as Hsrc2.
    { intros p r c b Hp El Es. rewrite <- (Hfr' p r c b Hp El Es).
      destruct (Hpend p Hp) as (_ & _ & _ & _ & Hs). rewrite Es in Hs.
      assert (exists g, child t1' (mk r c) b = Some g /\ ~ is1 g) as (g & Hg & Hg').
      { rewrite (Hfr' p r c b Hp El Es). destruct (Htgt p Hp El) as [[Hrd _]|(c' & q & f & _ & _ & Hrd)]; rewrite Es in Hrd; simpl in Hrd.
        - exists n0. split; [done|]. apply n0_not1.
        - exists (mk i c'). split; [done|]. intros E. inversion E. lia. }
      destruct (Hold r c b g) as (g' & Hg2 & HK); [lia| |done|].
      - intros Hin. apply elem_of_list_fmap in Hin as (q & Eq & Hq). apply Hw0 in Hq as [Hq Hne].
        assert (q = p) as -> by (eapply NoDup_map_eq; [exact Hnd|done|done|congruence]). done.
      - rewrite Hg2, Hg. destruct HK as [[-> _]|(? & _ & _)]; done. }
    assert (forall r c b, i < r -> SBr r c b ∉ map p_src w -> SBr r c b ∉ map p_src w2) as Hnin2.
    { intros r c b Hr Hn Hin. apply Hin2 in Hin; [|lia]. by apply (proj1 (Hnsplit _ Hn)). }
    assert (forall p, p ∈ w -> p_lv p = i -> p_src p ∉ map p_src w2) as Hnin2'.
    { intros p Hp El Hin. apply elem_of_list_fmap in Hin as (q & Eq & Hq). destruct (Hw2 q Hq) as [Hn|[Hn Hne]].
      - destruct (Hnews q Hn) as (? & ? & _ & _ & Es & _). destruct (Hpend p Hp) as (_ & _ & _ & _ & Hs). rewrite Eq, Es in Hs. lia.
      - assert (q = p) as -> by (eapply NoDup_map_eq; [exact Hnd|done|done|congruence]). done. }
    assert (forall c b, b < a -> (fst (W c b) <= 0)%Z -> SBr i c b ∉ map p_src w2) as Hnini.
    { intros c b Hb Hle Hin. apply elem_of_list_fmap in Hin as (q & Eq & Hq). destruct (Hw2 q Hq) as [Hn|[Hn Hne]].
      - destruct (Hnew q Hn) as (c' & b' & _ & _ & Hcd & ->). simpl in Eq. inversion Eq; subst. lia.
      - destruct (Hpend q Hn) as (_ & _ & _ & _ & Hs). rewrite <- Eq in Hs. lia. }
    (* new nodes *)
    assert (forall c p f, LL !! c = Some (p, f) -> den (xof one') t2 w2 (mk i c) (tr i (p_st p))) as Hden_new.
    { intros c p f Hc. assert (c < m) as Hcm by (rewrite <- HLm; by eapply lookup_lt_Some). destruct (HLp c p f Hc) as (_ & _ & HR).
      destruct (neqb f n0) eqn:Ef.
      - assert (tr i (p_st p) = nzN i (replicate a T0)) as ->.
        { destruct (HLL c p f Hc) as (j & Hj & Hf & Hn & _).
          destruct (q1_ids _ _ _ _ _ _ _ _ _ _ HP j f Hf Hn) as [->|(-> & p' & Hp' & ET)].
          - unfold neqb in Ef. simpl in Ef. destruct (Nat.eqb_spec i 0); [lia|done].
          - rewrite Hj in Hp'. inversion Hp'; subst p'. rewrite ET. unfold nzN.
            assert (all0 (replicate a T0) = true) as -> by (apply all0_true; intros b; apply nth_repT0). done. }
        apply (den_N _ _ _ _ _ (mk i c) (replicate a T0)); [simpl; lia|by apply Hgeti'|by rewrite replicate_length|].
        intros b Hb. right. simpl. assert (fst (W c b) = 0%Z) as Ez by (unfold W; by rewrite Hc, Ef).
        split; [apply Hnini; [done|lia]|]. exists n0. destruct (Hrow c b ltac:(done)) as [_ [[_ Hn0]|[[? _]|[? _]]]]; try lia.
        split_and!; try done; [simpl; lia|]. rewrite nth_repT0. by apply den_0.
      - rewrite (Htr i _ HR).
        apply (den_N _ _ _ _ _ (mk i c) (map (mctree i (p_st p)) (seq 0 a))); [simpl; lia|by apply Hgeti'|by rewrite map_length, seq_length|].
        intros b Hb. simpl.
        assert (nth b (map (mctree i (p_st p)) (seq 0 a)) T0 = mctree i (p_st p) b) as ->.
        { rewrite (nth_indep _ T0 (mctree i (p_st p) 0)) by (by rewrite map_length, seq_length).
          rewrite map_nth, seq_nth by done. done. }
        assert (W c b = ch i (p_st p) b) as EW by (unfold W; by rewrite Hc, Ef).
        pose proof (Hnini c b Hb) as Hni.
        destruct (Hrow c b ltac:(done)) as [_ HB]. unfold bok in HB. unfold mctree. rewrite EW in HB, Hni. destruct (ch i (p_st p) b) as [cd s'].
        cbn [fst snd] in HB, Hni. destruct HB as [[-> Hn0]|[(Hcd & g & Hg & Hsd)|[Hcd Hpn]]].
        + right. split; [by apply Hni|]. exists n0. split_and!; try done; [simpl; lia|]. by apply den_0.
        + right. split; [apply Hni; lia|]. exists g. destruct (Z.eqb_spec cd 0); [lia|]. destruct (Z.ltb_spec cd 0); [|lia].
          pose proof (sd_row _ _ _ Hsd) as [Hr0 _]. split_and!; try done; [lia|].
          destruct Hsd as [[-> ->]|[-> ->]]; [by apply den_0|by apply den_1].
        + left. eexists. split; [rewrite Ew2; apply elem_of_app; left; exact Hpn|]. simpl. split; [done|].
          destruct (Z.eqb_spec cd 0); [lia|]. by destruct (Z.ltb_spec cd 0); [lia|]. }
    assert (forall f T, row f = 0 \/ i < row f -> (is1 f -> xof one' = xof one) -> den (xof one) t w f T -> den (xof one') t2 w2 f T) as Hden.
    { intros f. remember (row f) as rf eqn:Hrf. revert f Hrf.
      induction rf as [rf IH] using lt_wf_ind. intros f Hrf T Hrw Hf1 HD.
      inversion HD as [? Hd1 Hd2|? Hd1 Hd2|? ts Hp Hg Hlts Hb]; subst; [by apply den_0| |].
      { rewrite <- Hf1; [by apply den_1|]. unfold is1, code. congruence. }
      destruct Hrw as [|Hrw]; [lia|]. destruct Hg as [p Hg].
      destruct (Hget2' f p ltac:(lia) Hg) as (p2 & Hg2 & _). apply den_N; [lia|by eexists|done|].
      intros b Hba. destruct (Hb b Hba) as [(q & Hq & Eq & ET)|(Hnin & g & Hc & Hlt & HD')].
      - destruct (decide (p_lv q = i)) as [El|El].
        + right. rewrite <- Eq. split; [by apply Hnin2'|].
          assert (child t2 f b = read_src t1 root1 (p_src q)) as Hcc.
          { rewrite (child_code t2 f (mk (row f) (col f))) by done. rewrite (Hsrc2 q _ _ _ Hq El Eq). by rewrite Eq. }
          rewrite Hcc, ET, El. destruct (Htgt q Hq El) as [[Hrd HT]|(c & p0 & f0 & Hc & ETr & Hrd)].
          * exists n0. rewrite HT. split_and!; try done. by apply den_0.
          * exists (mk i c). split_and!; try done. rewrite <- ETr. by eapply Hden_new.
        + left. exists q. split_and!; try done. by apply Hw2'.
      - right. split; [by apply Hnin2|]. rewrite (child_code t f (mk (row f) (col f))) in Hc by done.
        destruct (Hkeep _ _ _ _ Hrw Hnin Hc) as (g' & Hg' & HK).
        exists g'. split; [by rewrite (child_code t2 f (mk (row f) (col f)))|]. pose proof (keep_row _ _ _ _ HK). split; [lia|].
        destruct HK as [[-> HX]|(Hgone & HX & ->)].
        + apply (IH (row g) Hlt g eq_refl); [|done|done]. destruct (decide (row g = 0)); [by left|right].
          inversion HD' as [? Hd1 Hd2|? Hd1 Hd2|? ts' Hp' [pg Hgg] Hlts' Hb']; subst; try lia.
          destruct (decide (row g <= i)); [|lia].
          pose proof (c_empty _ _ _ _ _ _ _ _ _ _ _ _ _ _ _ HC (row g) ltac:(lia)) as He.
          unfold tget in Hgg. rewrite He in Hgg. done.
        + inversion Hgone as [[Hr0 Hc0]]. inversion HD' as [? Hd1 Hd2|? Hd1 Hd2|? ts' Hp' Hgg Hlts' Hb'];
            [rewrite Hc0 in Hd2; discriminate| |lia].
          rewrite HX. by apply den_0. }
    (* the root when i = n *)
    assert (i = n -> w = [Pn n 0 0 SRoot s0] /\ m = 1 /\ root1 = mk n 0 /\ den (xof one') t2 w2 root1 (tr n s0)) as Hrootn.
    { intros Ein. pose proof (c_root _ _ _ _ _ _ _ _ _ _ _ _ _ _ _ HC) as Hrt. rewrite Ein, Nat.eqb_refl in Hrt.
      assert (ps = [Pn n 0 0 SRoot s0]) as Eps by (unfold ps, mlist; rewrite Hrt; cbn [List.filter p_lv]; by rewrite Ein, Nat.eqb_refl).
      rewrite Eps in E1. pose proof (mpass1_single _ _ _ _ _ _ _ _ E1) as Eids. cbn [fst] in Eids.
      assert (neqb (mk i 0) n1 = false) as Hmk by (unfold neqb; simpl; destruct (Nat.eqb_spec i 0); [lia|done]).
      pose proof (q1_own _ _ _ _ _ _ _ _ _ _ HP 0 (Pn n 0 0 SRoot s0) (mk i 0) ltac:(by rewrite Eps) ltac:(by rewrite Eids) Hmk) as Hrd.
      simpl in Hrd. inversion Hrd as [Hr]. split; [done|].
      assert (m = 1) as -> by (rewrite Hm, Eids; unfold nlive, live; cbn [List.filter]; by rewrite Hmk).
      split; [done|]. unfold colj. simpl. rewrite <- Ein. split; [done|].
      apply (Hden_new 0 (Pn n 0 0 SRoot s0) (mk i 0)). unfold LL. rewrite Eps, Eids. cbn [zip zip_with List.filter].
      unfold livep at 1. cbn [snd]. by rewrite Hmk. }
    split; [constructor|].
    - done.
    - rewrite (Hrow_same 0) by (first [lia|by left]). apply HC.
    - intros r Hr. pose proof (c_empty _ _ _ _ _ _ _ _ _ _ _ _ _ _ _ HC r ltac:(lia)) as He.
      rewrite (Hrow_same r); [done|lia|by right].
    - intros f p Hp. destruct (decide (row f = i)) as [Hf|Hf]; [by destruct (Hgeti f p Hf Hp)|].
      destruct (Hget2 f p Hf Hp) as (p' & Hp' & El). rewrite <- El. by eapply Har.
    - intros p Hp. destruct (Hw2 p Hp) as [Hn'|[Ho Hne]].
      + destruct (Hnews p Hn') as (c & b & Hc & Hb & Es & Hlv & Hg & Hth & HR). split_and!; try done; try lia.
        rewrite Es. split_and!; try done; [lia|]. by apply Hgeti'.
      + destruct (Hpend p Ho) as (Hlv & Hg & Hth & HR & Hs). split_and!; try done; try lia.
        destruct (p_src p) as [|r c b] eqn:Es.
        * pose proof (c_root _ _ _ _ _ _ _ _ _ _ _ _ _ _ _ HC) as Hrt. rewrite Hs, Nat.eqb_refl in Hrt.
          rewrite Hrt in Ho. apply elem_of_list_singleton in Ho. subst p. simpl in Hne. lia.
        * destruct Hs as (Hr & Hb & q & Hq). split_and!; try done; [lia|].
          destruct (Hget2' (mk r c) q) as (q' & ? & _); [simpl; lia|done|by eexists].
    - rewrite Ew2, map_app. apply NoDup_app. split_and!; try done.
      + intros x Hx Hx'. apply elem_of_list_fmap in Hx as (p & -> & Hp), Hx' as (q & Eq & Hq).
        destruct (Hnews p Hp) as (c & b & _ & _ & Es & _). apply Hw0 in Hq as [Hq _].
        destruct (Hpend q Hq) as (_ & _ & _ & _ & Hs). rewrite <- Eq, Es in Hs. lia.
      + apply NoDup_map_inj; [apply NoDup_lfilter; by eapply NoDup_map_1|].
        intros x y Hx Hy E. apply Hw0 in Hx as [Hx _], Hy as [Hy _]. exact (NoDup_map_eq _ _ _ _ Hnd Hx Hy E).
    - intros f b g Hfp Hc Hnin. unfold child in Hc. destruct (tget t2 f) as [p|] eqn:Hg; [|done].
      assert (child t2 f b = Some g) as Hc' by (unfold child; by rewrite Hg).
      assert (forall g1, row g1 = 0 /\ col g1 <= 1 -> valid t2 g1) as Hvt.
      { intros g1 [Hr Hcc]. unfold valid. rewrite Hr. simpl. lia. }
      destruct (decide (row f = i)) as [Hf|Hf].
      + destruct (Hgeti f p Hf Hg) as [Hcm Hlp]. simpl in Hc.
        assert (b < a) as Hb by (rewrite <- Hlp; eapply lookup_lt_Some; done).
        rewrite (child_code t2 f (mk i (col f))) in Hc' by (unfold code; simpl; congruence).
        destruct (Hrow (col f) b ltac:(done)) as [_ [[_ E0]|[(_ & g1 & Hg1e & Hsd)|[_ Hpn]]]].
        * rewrite E0 in Hc'. inversion Hc'; subst g. split; [simpl; lia|]. apply Hvt. simpl. lia.
        * rewrite Hg1e in Hc'. inversion Hc'; subst g1. pose proof (sd_row _ _ _ Hsd) as [? ?]. split; [lia|]. by apply Hvt.
        * exfalso. apply Hnin. apply elem_of_list_fmap. eexists. split; [|rewrite Ew2; apply elem_of_app; left; exact Hpn].
          simpl. congruence.
      + assert (i < row f) as Hif.
        { destruct (decide (row f <= i)); [|lia]. exfalso. destruct (Hget2 f p Hf Hg) as (p' & Hp' & _).
          pose proof (c_empty _ _ _ _ _ _ _ _ _ _ _ _ _ _ _ HC (row f) ltac:(lia)) as He.
          unfold tget in Hp'. rewrite He in Hp'. done. }
        rewrite (child_code t2 f (mk (row f) (col f))) in Hc' by done.
        destruct (decide (SBr (row f) (col f) b ∈ map p_src w)) as [Hin|Hnin'].
        * apply elem_of_list_fmap in Hin as (q & Eq & Hq). destruct (decide (p_lv q = i)) as [El|El].
          -- rewrite (Hsrc2 q _ _ _ Hq El (eq_sym Eq)) in Hc'.
             destruct (Htgt q Hq El) as [[Hrd _]|(c & p0 & f0 & Hcl & _ & Hrd)]; rewrite <- Eq in Hrd; simpl in Hrd;
               rewrite Hrd in Hc'; inversion Hc'; subst g.
             ++ split; [simpl; lia|]. apply Hvt. simpl. lia.
             ++ split; [done|]. unfold valid. simpl. destruct (Nat.eqb_spec i 0); [lia|]. apply Hgeti'; [done|]. simpl.
                rewrite <- HLm. by eapply lookup_lt_Some.
          -- exfalso. apply Hnin. rewrite Eq. apply elem_of_list_fmap_1. by apply Hw2'.
        * destruct (Hget2 f p Hf Hg) as (p' & Hp' & Elp). 
          destruct (lookup_lt_is_Some_2 p' b) as [g0 Hg0]; [rewrite Elp; simpl in Hc; by eapply lookup_lt_Some|].
          assert (child t (mk (row f) (col f)) b = Some g0) as Hct.
          { rewrite (child_code t (mk (row f) (col f)) f) by done. unfold child. by rewrite Hp'. }
          destruct (Hkeep _ _ _ _ Hif Hnin' Hct) as (g' & Hg' & HK). rewrite Hc' in Hg'. inversion Hg'; subst g'.
          destruct (c_res _ _ _ _ _ _ _ _ _ _ _ _ _ _ _ HC (mk (row f) (col f)) b g0 Hfp Hct Hnin') as [Hlt Hv]. simpl in Hlt.
          destruct HK as [[-> _]|(_ & _ & ->)]; [|split; [simpl; lia|apply Hvt; simpl; lia]]. split; [done|].
          unfold valid in *. destruct (Nat.eqb_spec (row g0) 0); [done|]. destruct Hv as [pg Hpg].
          destruct (Hget2' g0 pg) as (? & ? & _); [|done|by eexists]. intros Eg. unfold tget in Hpg. by rewrite Eg, Hemp in Hpg.
    - destruct (Nat.eqb_spec (i - 1) n) as [?|_]; [lia|]. destruct (decide (i = n)) as [Ei|Ei].
      + destruct (Hrootn Ei) as (_ & Hm1 & Hr & HD). split; [|done]. right. split; [done|].
        destruct (shape_row t1' t2 i _ (eq_sym Hsh2) Hrow1) as (x & Hx & Hxl). rewrite Ei in Hx.
        assert (length x = 1) as Hlx by (apply (f_equal length) in Hxl; rewrite !fmap_length, replicate_length in Hxl; lia).
        destruct x as [|q [|]]; try done. by exists q.
      + pose proof (c_root _ _ _ _ _ _ _ _ _ _ _ _ _ _ _ HC) as Hrt. destruct (Nat.eqb_spec i n) as [?|_]; [lia|].
        destruct Hrt as [Hrt HD].
        assert (root1 = root) as ->.
        { assert (read_src t1 root1 SRoot = read_src t root SRoot) as E.
          { apply (q1_frame _ _ _ _ _ _ _ _ _ _ HP). intros Hin. apply elem_of_list_fmap in Hin as (p & Es & Hp). apply Hps in Hp as [Hp _].
            destruct (Hpend p Hp) as (_ & _ & _ & _ & Hs). rewrite <- Es in Hs. lia. }
          simpl in E. by inversion E. }
        split.
        * destruct Hrt as [[Hr He]|[Hr [q Hq]]].
          -- left. split; [done|]. rewrite (Hrow_same n); [done|lia|by right].
          -- right. split; [done|]. destruct (shape_row t t1 n _ (eq_sym Hsh1) Hq) as (x & Hx & Hxl).
             assert (t1' !! n = Some x) as Hx' by (unfold t1'; by rewrite list_lookup_insert_ne).
             destruct (shape_row t1' t2 n x (eq_sym Hsh2) Hx') as (x' & Hx2 & Hxl').
             apply (f_equal length) in Hxl, Hxl'. rewrite !fmap_length in Hxl, Hxl'. simpl in Hxl.
             destruct x' as [|q' [|]]; simpl in *; try lia. by exists q'.
        * apply Hden; [| |done]; destruct Hrt as [[-> _]|[-> _]]; simpl; [by left|right; lia|intros E; by inversion E|].
          intros E. inversion E.
    - intros f Hf [p Hg]. destruct (decide (row f = i)) as [Hfi|Hfi].
      + destruct (Hgeti f p Hfi Hg) as [Hcm _].
        destruct (lookup_lt_is_Some_2 LL (col f)) as [[q f0] Hc0]; [lia|].
        destruct (HLL _ _ _ Hc0) as (j & Hj & Hidj & Hn1 & Ecol). destruct (HLp _ _ _ Hc0) as (Hq & El & _).
        destruct (Hpend q Hq) as (_ & _ & _ & _ & Hs).
        pose proof (q1_own _ _ _ _ _ _ _ _ _ _ HP j q f0 Hj Hidj Hn1) as Hrd. rewrite Ecol in Hrd.
        destruct (p_src q) as [|r c b] eqn:Es; [lia|]. destruct Hs as (Hr & Hb & _).
        exists (mk r c), b, (mk i (col f)). split_and!.
        * rewrite (Hsrc2 q r c b Hq El Es). done.
        * unfold code. simpl. congruence.
        * simpl. lia.
        * simpl. rewrite <- Es. by apply Hnin2'.
      + destruct (Hget2 f p Hfi Hg) as (p' & Hp' & _).
        destruct (c_par _ _ _ _ _ _ _ _ _ _ _ _ _ _ _ HC f Hf) as (f' & b & g & Hc & Hcg & Hlt & Hnin); [by eexists|].
        assert (i < row f') as Hif.
        { destruct (decide (row f' <= i)); [|lia]. exfalso.
          pose proof (c_empty _ _ _ _ _ _ _ _ _ _ _ _ _ _ _ HC (row f') ltac:(lia)) as He.
          unfold child, tget in Hc. rewrite He in Hc. done. }
        rewrite (child_code t f' (mk (row f') (col f'))) in Hc by done.
        destruct (Hkeep _ _ _ _ Hif Hnin Hc) as (g' & Hg' & HK). exists f', b, g. split_and!; try done.
        * rewrite (child_code t2 f' (mk (row f') (col f'))) by done. rewrite Hg'.
          destruct HK as [[-> _]|(Hg1e & _ & _)]; [done|]. exfalso. unfold is1 in Hg1e. rewrite Hcg in Hg1e. inversion Hg1e. lia.
        * by apply Hnin2.
    - intros r x Hr Hx. destruct (decide (r = i)) as [->|Hri].
      + destruct (shape_row t1' t2 i _ (eq_sym Hsh2) Hrow1) as (x' & Hx' & Hxl). rewrite Hx in Hx'. inversion Hx'; subst x'.
        assert (length x = m) as Hlx by (apply (f_equal length) in Hxl; rewrite !fmap_length, replicate_length in Hxl; lia).
        exists (map (fun y => (0, p_st (fst y))) LL). split_and!.
        * rewrite map_length. lia.
        * apply Forall_forall. intros y Hy. apply elem_of_list_fmap in Hy as ([p f] & -> & Hy). apply elem_of_list_lookup in Hy as [c Hc].
          simpl. split; [lia|]. by apply (HLp c p f).
        * intros _. generalize (map (fun y => (0, p_st (fst y))) LL) as l. induction l; constructor; [|done]. by apply Forall_forall.
      + destruct (Hrows r x ltac:(lia) Hx) as (x' & Hx' & El). rewrite <- El. eapply (c_reps _ _ _ _ _ _ _ _ _ _ _ _ _ _ _ HC); [lia|done].
    - split_and!.
      + eapply OI_ext; [exact HO2| | |done].
        * intros r c b [Hn Hr] _. destruct (decide (i < r)) as [Hir|Hir]; [left; split; [done|by left]|].
          assert (r = i) as -> by lia. destruct (decide (c < m /\ b < a)) as [Hp|Hp]; [left; split; [done|by right]|right].
          intros g Hg. exfalso. apply Hp. unfold child in Hg. destruct (tget t2 (mk i c)) as [p|] eqn:Hgp; [|done].
          destruct (Hgeti (mk i c) p eq_refl Hgp) as [Hc Hl]. split; [done|]. rewrite <- Hl. by eapply lookup_lt_Some.
        * intros r c b [Hn Hr] _. split; [done|]. destruct Hr as [?|[-> _]]; lia.
      + done.
      + intros p c b Hp Es. destruct (Hw2 p Hp) as [Hn'|[Ho _]]; [by apply Hl2|].
        destruct (Hpend p Ho) as (_ & _ & _ & _ & Hs). rewrite Es in Hs. lia.
      + intros r Hr. destruct (shape_row t1' t2 i _ (eq_sym Hsh2) Hrow1) as (x' & Hx' & Hxl). rewrite Hr in Hx'. inversion Hx'; subst x'.
        apply (f_equal length) in Hxl. rewrite !fmap_length, replicate_length in Hxl. lia.
      + done.
      + intros p r c b Hp Es. destruct (Hw2 p Hp) as [Hn'|[Ho Hne]].
        * destruct (Hnews p Hn') as (? & ? & _ & _ & Es' & ? & _). rewrite Es in Es'. inversion Es'. split; [lia|]. lia.
        * destruct (Hpend p Ho) as (? & _). split; [lia|done].
      + intros Hin. assert (read_src t1 root1 SRoot = read_src t root SRoot) as E.
        { apply (q1_frame _ _ _ _ _ _ _ _ _ _ HP). intros Hin'. apply elem_of_list_fmap in Hin' as (p & Es & Hp). apply Hps in Hp as [Hp _].
          destruct (Hpend p Hp) as (_ & _ & _ & _ & Hs). rewrite <- Es in Hs. lia. }
        simpl in E. by inversion E.
      + intros Ein. destruct (Hrootn Ein) as (Ew & _ & -> & _). split; [intros E; inversion E; lia|].
        intros p r c b Hp Es. destruct (Hw2 p Hp) as [Hn'|[Ho _]].
        * destruct (Hnews p Hn') as (? & ? & _ & _ & Es' & _). rewrite Es in Es'. inversion Es'. lia.
        * rewrite Ew in Ho. apply elem_of_list_singleton in Ho. subst p. discriminate Es.
  Qed.
  Definition minv (i : nat) (st : mst) : Prop :=
    mcore (xof (mone st)) i (mout st) (mroot st) (mwork st) /\
    OI (mout st) (fun r c b => SBr r c b ∉ map p_src (mwork st) /\ i < r) (mone st) (mosrc st).

  Lemma mconstruct_ok i st : 1 <= i <= n -> minv i st ->
    (i = n /\ msw st = sw0 \/ i < n /\ swinv n i (msw st) (mout st) (mroot st) (mwork st)) ->
    exists st', mconstruct a hashf eqbf mrg ch i st = Some st' /\ minv (i - 1) st' /\
      (1 <= i - 1 -> swinv n (i - 1) (msw st') (mout st') (mroot st') (mwork st')).
  Proof using All.
    intros Hi [HC HO] Hsw. unfold mconstruct.
    destruct (mlevel_ok i _ _ _ _ _ Hi HC HO)
      as (ids & m & t1 & root1 & r1 & t2 & w2 & low & dead & jj & one' & osrc' & E1 & Hr1 & E2 & HC2 & HO2 & K1 & K2 & K3 & K4 & K5 & K6 & K7).
    rewrite (c_empty _ _ _ _ _ _ _ _ _ _ _ _ _ _ _ HC i) by lia. cbn [mbind option_bind length].
    rewrite E1. cbn [mbind option_bind fst snd]. rewrite Hr1. cbn [mbind option_bind].
    unfold set_row. rewrite Hr1. cbn [mbind option_bind]. rewrite E2. cbn [mbind option_bind].
    destruct (decide (i = 1)) as [->|Hi1].
    { unfold mupdate. simpl. eexists. split; [done|]. simpl. split; [|lia]. split; [exact HC2|exact HO2]. }
    destruct (mupdate_ok _ a 1 _ _ _ _ _ n 0 s0 (i - 1) (msw st) t2 root1 w2 low dead osrc' ltac:(lia) HC2)
      as (sw' & t' & root' & _ & HC' & HS' & Hcase).
    - replace (i - 1 + 1) with i by lia. destruct Hsw as [[-> Hsw]|[Hlt HS]].
      + left. destruct (K7 eq_refl) as [Hr Hw]. done.
      + right. split; [done|]. rewrite (K6 Hlt). destruct HS as [S1 S2 S3 S4 S5 S6 S7 S8 S9]. constructor; try done.
        * intros j Hj. destruct (S3 j Hj) as (v & Hv & Hor & Hp). exists v. split_and!; try done.
          intros p r c b Hpw Es Hlv Hr. apply (Hp p r c b); try done. by apply (K5 p r c b).
        * intros k Hk. destruct (S5 k Hk) as [D1 D2]. split; [|done]. intros j r Hj Hr.
          destruct (K4 j r ltac:(lia) Hr) as (r' & Hr' & El). rewrite <- El. by apply D1.
    - lia.
    - replace (i - 1 + 1) with i by lia. done.
    - replace (i - 1 + 1) with i by lia. done.
    - replace (i - 1 + 1) with i in Hcase by lia. destruct Hcase as [[E ->]|(k & newId & Hk & Hnp & Es & E)].
      + rewrite E. cbn [mbind option_bind]. eexists. split; [done|]. split; [split; done|]. done.
      + destruct (sweep_OI FS k t2 t' newId one' osrc' (fun r c b => SBr r c b ∉ map p_src w2 /\ i - 1 < r)) as (osrc'' & Eo & HO'').
        * lia.
        * rewrite (c_len _ _ _ _ _ _ _ _ _ _ _ _ _ _ _ HC2). lia.
        * eapply sw_sweepable; [exact HC2|lia|lia|lia|exact Hnp].
        * done.
        * intros r c b Hr. split; [|lia]. intros Hin. apply elem_of_list_fmap in Hin as (p & Ep & Hp). 
          pose proof (Hnp p _ _ _ Hp (eq_sym Ep)). lia.
        * done.
        * rewrite (E osrc'' Eo). cbn [mbind option_bind]. eexists. split; [done|]. split; [split; done|]. done.
  Qed.

  Lemma mbuild_core : 1 <= n -> R n s0 ->
    exists t root one osrc, mbuild a hashf eqbf mrg ch n s0 = Some (t, root) /\ mcore (xof one) 0 t root [] /\
      OI t (fun r c b => True) one osrc.
  Proof using All.
    intros Hn HR. unfold mbuild.
    destruct (ofold_inv (fun st i => mconstruct a hashf eqbf mrg ch i st)
      (fun pre st => let i := n - length pre in length pre <= n /\ minv i st /\
         (i = n /\ msw st = sw0 \/ i < n /\ (1 <= i -> swinv n i (msw st) (mout st) (mroot st) (mwork st))))
      (reverse (seq 1 n)) (mstart a n s0)) as (st & E & _ & [HC HO] & _).
    - cbn beta. simpl length. rewrite Nat.sub_0_r. split; [lia|]. split; [|by left]. split; [constructor; simpl|constructor].
      + unfold init_table. simpl. by rewrite replicate_length.
      + done.
      + intros r Hr. destruct r as [|r]; [lia|]. simpl. apply lookup_replicate_2. lia.
      + intros f p Hp. unfold tget in Hp. destruct (init_table a n !! row f) as [x|] eqn:Ex; [|done]. simpl in Hp.
        unfold init_table in Ex. destruct (row f) as [|r]; simpl in Ex.
        * inversion Ex; subst x. destruct (col f) as [|[|c]]; simpl in Hp; inversion Hp; apply replicate_length.
        * apply lookup_replicate in Ex as [-> _]. done.
      + intros p Hp. apply elem_of_list_singleton in Hp. subst p. simpl. split_and!; try done; lia.
      + repeat constructor. apply not_elem_of_nil.
      + intros f b g Hf Hc _. exfalso. unfold child, tget in Hc. destruct (row f) as [|r]; [lia|]. simpl in Hc.
        destruct (replicate n [] !! r) as [x|] eqn:Ex; [|done]. apply lookup_replicate in Ex as [-> _]. done.
      + by rewrite Nat.eqb_refl.
      + intros f Hf [p Hp]. exfalso. unfold tget in Hp. destruct (row f) as [|r]; [lia|]. simpl in Hp.
        destruct (replicate n [] !! r) as [x|] eqn:Ex; [|done]. apply lookup_replicate in Ex as [-> _]. done.
      + intros r x Hr Hx. lia.
      + intros r c b Hx. by apply elem_of_nil in Hx.
      + intros r c b g Hr _ Hg. exfalso. unfold child, tget in Hg. simpl in Hg. destruct r as [|r]; [lia|]. simpl in Hg.
        destruct (replicate n [] !! r) as [x|] eqn:Ex; [|done]. apply lookup_replicate in Ex as [-> _]. done.
      + by left.
      + done.
    - intros pre i post st Hl (Hpre & HC & Hsw).
      assert (length pre < n) as Hlt.
      { apply (f_equal length) in Hl. rewrite reverse_length, seq_length, app_length in Hl. simpl in Hl. lia. }
      assert (i = n - length pre) as Hi.
      { assert (reverse (seq 1 n) !! length pre = Some i) as Hx.
        { rewrite Hl. rewrite lookup_app_r by lia. by rewrite Nat.sub_diag. }
        rewrite reverse_lookup in Hx by (rewrite seq_length; lia).
        rewrite seq_length in Hx. apply lookup_seq in Hx. lia. }
      rewrite <- Hi in *.
      destruct (mconstruct_ok i st) as (st' & E & HC' & HS'); [lia|done| |].
      { destruct Hsw as [?|[? HS]]; [by left|right]. split; [done|]. apply HS. lia. }
      exists st'. split; [done|]. rewrite app_length. simpl. replace (n - (length pre + 1)) with (i - 1) by lia.
      split; [lia|]. split; [done|]. right. split; [lia|done].
    - rewrite reverse_length, seq_length, Nat.sub_diag in HC, HO. rewrite E. cbn [mbind option_bind].
      exists (mout st), (mroot st), (mone st), (mosrc st). split; [done|].
      assert (mwork st = []) as Ew.
      { destruct (mwork st) as [|p w] eqn:Ew; [done|]. destruct (c_pend _ _ _ _ _ _ _ _ _ _ _ _ _ _ _ HC p) as [? _]; [by left|lia]. }
      rewrite Ew in HC, HO. split; [done|]. eapply OI_ext; [exact HO| |done|done].
      intros r c b _ Hr. left. split; [apply not_elem_of_nil|done].
  Qed.

  (** when the 1-terminal stands for T0, so does everything *)
  Lemma den_T0 t f T : den T0 t [] f T -> T = T0.
  Proof.
    remember (row f) as k eqn:Hk. revert f T Hk. induction k as [k IH] using lt_wf_ind. intros f T Hk HD.
    inversion HD as [? Hd1 Hd2|? Hd1 Hd2|? ts Hp Hg Hlts Hb]; subst; [done|done|]. unfold nzN.
    assert (all0 ts = true) as ->; [|done]. apply all0_true. intros b. destruct (decide (b < length ts)) as [Hlt|].
    - destruct (Hb b Hlt) as [(q & Hq & _)|(_ & g & _ & Hr & HD')]; [by apply elem_of_nil in Hq|].
      by apply (IH (row g) Hr g).
    - apply nth_overflow. lia.
  Qed.

  (** the diagram represents the tree of the root, provided that G of a final state is T1 or T0 and
      the tree of the root is not T0 when there is a final state *)
  Lemma mbuild_ok : 0 < a -> 1 <= n -> R n s0 -> (forall s, G s = T0 \/ G s = T1) -> (forall s, FS s -> tr n s0 <> T0) ->
    exists t root, mbuild a hashf eqbf mrg ch n s0 = Some (t, root) /\ dd_wf (Dd a t root) /\
      length t = Datatypes.S n /\ (exists T, rep t root T /\ nz T = tr n s0) /\
      (root = n0 \/ root = mk n 0 /\ (length <$> t !! n) = Some 1).
  Proof using All.
    intros Ha Hn HR HG HF. destruct (mbuild_core Hn HR) as (t & root & one & osrc & E & HC & HO).
    exists t, root. split; [done|].
    assert (exists X, xof one = X /\ (X = T0 \/ X = T1)) as (X & EX & HX).
    { eexists. split; [done|]. unfold P_Merge2.xof. destruct one as [o|]; [apply HG|by right]. }
    rewrite EX in HC.
    pose proof (c_root _ _ _ _ _ _ _ _ _ _ _ _ _ _ _ HC) as Hr. destruct (Nat.eqb_spec 0 n) as [?|_]; [lia|]. destruct Hr as [Hr HD].
    assert (mcore T1 0 t root []) as HC1.
    { destruct HX as [->| ->]; [|done]. exfalso.
      assert (tr n s0 = T0) as HT by (by eapply den_T0).
      destruct one as [o|]; [|discriminate EX]. by apply (HF o (oi_fs _ _ _ _ _ HO o eq_refl)). }
    destruct (core_wf a 1 (fun _ => 1) (fun _ _ _ => false) (fun _ _ => 0%N) (fun i _ s => R i s) (fun i _ s => tr i s) n 0 s0 t root ltac:(lia) HC1)
      as [Hwf Hv].
    pose proof (c_root _ _ _ _ _ _ _ _ _ _ _ _ _ _ _ HC1) as Hr1. destruct (Nat.eqb_spec 0 n) as [?|_]; [lia|]. destruct Hr1 as [_ HD1].
    split_and!; try done.
    - apply HC.
    - destruct (rep_exists a t Hwf root Hv) as [T HT]. exists T. split; [done|]. eapply (den_rep (S := S)); [exact Hwf|exact HD1|exact HT].
    - destruct Hr as [[-> _]|[-> [p Hp]]]; [by left|right]. rewrite Hp. done.
  Qed.
End level.
