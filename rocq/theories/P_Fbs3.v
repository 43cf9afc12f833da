(** FrontierBasedSearch: the step to the next edge (update). *)
From stdpp Require Import strings gmap.
From Verif Require Import Base Sem P_Size M_Graph M_Degree S_Degree P_Degree M_Fbs P_Fbs1 P_Fbs2.
Local Open Scope Z_scope.

Section update.
Context (m v0 W : nat) (Hm : Z.of_nat m <= 32766) (HW : Z.of_nat W <= 32767) (Hv0 : (1 <= v0)%nat).
Notation ix x := (Z.of_nat x - Z.of_nat v0).
Notation inr x := (v0 <= x < v0 + W)%nat.
Notation farr := (farr v0 W).

Lemma farr_hoc' M ms x h : farr M ms -> inr x -> exists ms', set_hoc ms (ix x) h = Some ms' /\ farr (fupd M x (FCell (wrap16 h) (nxt (M x)))) ms'.
Proof. intros HA Hx. unfold set_hoc. rewrite (farr_get v0 W M ms x HA Hx). cbn [mbind option_bind]. by apply farr_set. Qed.
Lemma farr_nxt' M ms x h : farr M ms -> inr x -> exists ms', set_nxt ms (ix x) h = Some ms' /\ farr (fupd M x (FCell (hoc (M x)) (wrap16 h))) ms'.
Proof. intros HA Hx. unfold set_nxt. rewrite (farr_get v0 W M ms x HA Hx). cbn [mbind option_bind]. by apply farr_set. Qed.

(** ** replaceHeadWith *)
Lemma replace_ok (Q : nat -> Prop) M ms x h y : farr M ms -> fhead ms (ix x) = Some (ix h) -> inr h -> inr y -> (h < y)%nat ->
  Q y -> chain v0 W Q M y -> (hoc (M h) < UNCOLORED -> -32768 <= hoc (M h) + (Z.of_nat h - Z.of_nat y)) -> -32768 <= hoc (M h) <= 32767 ->
  exists ms' M', replaceHeadWith ms (ix x) (ix y) = Some ms' /\ farr M' ms' /\
    M' y = FCell (if hoc (M h) <? UNCOLORED then hoc (M h) + (Z.of_nat h - Z.of_nat y) else hoc (M h)) (nxt (M y)) /\
    (forall z, Q z -> (y < z)%nat -> M' z = FCell (Z.of_nat y - Z.of_nat z) (nxt (M z))) /\
    (forall z, ~ (Q z /\ (y <= z)%nat) -> M' z = M z).
Proof.
  intros HA Eh Hh Hy Hlt HQ Hch Hr1 Hr2. unfold replaceHeadWith. rewrite Eh. cbn [mbind option_bind]. rewrite (farr_get v0 W M ms h HA Hh). cbn [mbind option_bind].
  set (w := if hoc (M h) <? UNCOLORED then _ else _).
  destruct (farr_hoc v0 W M ms y w HA Hy) as (ms1 & -> & HA1); [unfold w; destruct (Z.ltb_spec (hoc (M h)) UNCOLORED); unfold UNCOLORED in *; lia|]. cbn [mbind option_bind].
  destruct (rehead_ok v0 W HW Q y (length ms1) (fupd M y (FCell w (nxt (M y)))) ms1 y HA1 HQ) as (ms' & M' & E & HA' & H1 & H2).
  { intros z Hz Hyz. destruct (Hch z Hz Hyz) as [R N]. split; [done|]. unfold fupd. by destruct (Nat.eqb_spec z y) as [->|]. }
  { destruct HA1. lia. } { done. }
  exists ms', M'. split_and!; [done|done| | |].
  - rewrite H2 by lia. rewrite fupd_eq. f_equal. unfold w. destruct (_ <? _); lia.
  - intros z Hz Hyz. rewrite H1 by done. rewrite fupd_ne by lia. f_equal. lia.
  - intros z Hz. rewrite H2 by (intros [? ?]; apply Hz; split; [done|lia]). apply fupd_ne. intros ->. apply Hz. split; [done|lia].
Qed.

Section moved.
Context (f cx : nat -> nat) (ex : nat -> bool) (M : nat -> fcell).
Context (HL : Lab m v0 W f cx ex) (HR : Rep m v0 f cx ex M).
Notation hd_of := (hd_of v0 f).

(** the cells from D on when the lists have left the cells before D *)
Definition moved (D : nat) (M' : nat -> fcell) : Prop :=
  forall z, (D <= z <= m)%nat -> nxt (M' z) = nxt (M z) /\
    forall h, hd_of z h ->
      ((D <= h)%nat -> hoc (M' z) = hoc (M z)) /\
      ((h < D)%nat -> forall h', P_Fbs2.hd_of D f z h' ->
         hoc (M' z) = if decide (z = h') then (if decide (cx z = 0%nat) then hoc (M h) else hoc (M h) + (Z.of_nat h - Z.of_nat z)) else Z.of_nat h' - Z.of_nat z).

Lemma hd_exists D x : (D <= x)%nat -> exists h, P_Fbs2.hd_of D f x h.
Proof.
  intros Hx. assert (forall k, (k <= x - D)%nat -> (exists h, P_Fbs2.hd_of D f x h) \/ forall z, (D <= z < D + k)%nat -> f z <> f x) as H.
  { induction k as [|k IH]; intros Hk; [right; lia|]. destruct IH as [?|IH]; [lia|by left|].
    destruct (decide (f (D + k)%nat = f x)) as [E|E].
    - left. exists (D + k)%nat. split_and!; [lia|lia|done|]. intros z Hz. apply IH. lia.
    - right. intros z Hz. destruct (decide (z = D + k)%nat) as [->|]; [done|]. apply IH. lia. }
  destruct (H (x - D)%nat) as [?|H']; [lia|done|]. exists x. split_and!; [lia|lia|done|]. intros z Hz. apply H'. lia.
Qed.

Lemma moved_rep D M' : (v0 <= D)%nat -> moved D M' -> Rep m D f cx ex M'.
Proof.
  intros HD HM z Hz. destruct (HM z Hz) as [Hn Hho]. destruct (HR z ltac:(lia)) as (Hnx & h & Hh & Hcell).
  destruct (Hho h Hh) as [Ho1 Ho2]. split; [by rewrite Hn|]. pose proof Hh as (Rh & Eh & Nh).
  destruct (decide (D <= h)%nat) as [HDh|HDh].
  - exists h. split; [split_and!; [lia|lia|done|intros y Hy; apply Nh; lia]|]. rewrite Ho1 by done.
    destruct Hcell as [[-> Hv]|[Hl Hv]]; [left|by right]. split; [done|]. destruct Hv as [(Hc & t & (T1 & T2) & Ht & Ew)|Hv]; [left|by right].
    split; [done|]. exists t. split_and!; [split; [lia|done]|done|done].
  - destruct (hd_exists D z) as [h' Hh']; [lia|]. exists h'. split; [done|]. rewrite (Ho2 ltac:(lia) h' Hh'). pose proof Hh' as (Rh' & Eh' & Nh').
    destruct (hval_at m v0 W Hv0 f cx ex M HL HR z h ltac:(lia) Hh) as (Hv & _ & Ec & Ee).
    destruct (decide (z = h')) as [->|Hne]; [left|right; split; [lia|done]]. split; [done|].
    destruct Hv as [(Hc & t & (T1 & T2 & T3) & Ht & Ew)|[Hc Ew]].
    + destruct (decide (cx h' = 0%nat)); [congruence|]. left. split; [congruence|]. rewrite Ec in *.
      assert (h' <= t)%nat by (destruct (decide (h' <= t)%nat); [done|]; destruct (T3 h'); [lia|done]).
      exists t. split_and!; [split_and!; [lia|lia|done|done]|lia|lia].
    + rewrite Ec in Hc. rewrite decide_True by done. right. split; [done|]. by rewrite <- Ee.
Qed.

(** the first loop of update, for the vertices x that leave *)
Lemma loop_step M1 ms1 D x : farr M1 ms1 -> (v0 <= x < D)%nat -> (x <= m)%nat -> inr x -> (D <= S (S x))%nat ->
  (forall z, (v0 <= z)%nat -> f z = f x -> M1 z = M z) ->
  exists ms2 M2, (qq ← fnext ms1 (ix x); if ix D <=? qq then replaceHeadWith ms1 (ix x) qq else Some ms1) = Some ms2 /\ farr M2 ms2 /\
    (forall z, (v0 <= z)%nat -> f z <> f x -> M2 z = M1 z) /\ (forall z, (z < D)%nat \/ (v0 + W <= z)%nat -> M2 z = M1 z) /\
    ((forall z, (x < z < D)%nat -> f z <> f x) -> forall z, (D <= z <= m)%nat -> f z = f x -> nxt (M2 z) = nxt (M z) /\ forall h h', hd_of x h -> P_Fbs2.hd_of D f z h' ->
         hoc (M2 z) = if decide (z = h') then (if decide (cx z = 0%nat) then hoc (M h) else hoc (M h) + (Z.of_nat h - Z.of_nat z)) else Z.of_nat h' - Z.of_nat z) /\
    ((exists z, (x < z < D)%nat /\ f z = f x) -> M2 = M1).
Proof.
  intros HA HxD Hxm Hrx HDx HM1. unfold fnext. rewrite (farr_get v0 W M1 ms1 x HA Hrx). cbn [mbind option_bind]. rewrite (HM1 x) by (done || lia).
  destruct (HR x ltac:(lia)) as (Hnx & _). destruct Hnx as [[Hd Hno]|(y & Hy & HQ & Hno & Hd)].
  { rewrite Hd. rewrite (proj2 (Z.leb_gt _ _)) by lia. exists ms1, M1. split_and!; [done|done|done|done| |done].
    intros _ z Hz E. destruct (Hno z); [lia|done]. }
  rewrite Hd. replace (ix x + (Z.of_nat y - Z.of_nat x)) with (ix y) by lia. destruct (Z.leb_spec (ix D) (ix y)) as [HDy|HDy].
  2:{ exists ms1, M1. split_and!; [done|done|done|done| |done]. intros Hnone. destruct (Hnone y); [lia|done]. }
  assert (Hin : forall z, f z = f x -> z <> x -> (z <= m)%nat /\ (z < v0 + W)%nat) by (intros z E Hne; by apply (lb_in _ _ _ _ _ _ HL z x)).
  destruct (Hin y HQ ltac:(lia)) as [Hym HyW]. destruct (rd_hd_exists m v0 f cx ex M HR x ltac:(lia)) as [h Hh]. pose proof Hh as (Rh & Eh & Nh).
  destruct (hval_at m v0 W Hv0 f cx ex M HL HR x h ltac:(lia) Hh) as (Hv & _ & Ec & Ee).
  assert (EM : M1 h = M h) by (apply HM1; [lia|done]).
  assert (Hr : 0 <= hoc (M h) <= 32767) by (eapply (hval_pos m v0 W Hm Hv0); exact Hv).
  destruct (replace_ok (fun z => f z = f x) M1 ms1 x h y HA) as (ms2 & M2 & E2 & HA2 & H1 & H2 & H3).
  { unfold fhead. rewrite (farr_get v0 W M1 ms1 x HA Hrx). cbn [mbind option_bind]. f_equal. rewrite (HM1 x) by (done || lia). unfold isHead.
    destruct (cell_head m v0 W Hv0 f cx ex M HR x h ltac:(lia) Hh) as [[-> Hv']|[Hl Hho]].
    - by rewrite (proj2 (Z.leb_le _ _)) by (apply Hr).
    - rewrite (proj2 (Z.leb_gt _ _)) by lia. lia. }
  { lia. } { lia. } { lia. } { done. }
  { intros z Hz Hyz. destruct (chain_from m v0 W Hv0 f cx ex M HL HR x y ltac:(lia) Hrx ltac:(lia) z Hz Hyz). split; [done|]. by rewrite (HM1 z) by (done || lia). }
  { rewrite EM. lia. } { rewrite EM. lia. }
  exists ms2, M2. split_and!; [done|done| | | |].
  - intros z _ E. apply H3. by intros [? _].
  - intros z Hz. apply H3. intros [E Hyz]. destruct (Hin z E); lia.
  - intros Hnone z Hz E. assert (Hyz : (y <= z)%nat). { destruct (decide (y <= z)%nat); [done|]. destruct (Hno z); [lia|done]. }
    assert (Hh'y : forall h', P_Fbs2.hd_of D f z h' -> h' = y).
    { intros h' (R' & E' & N'). destruct (lt_eq_lt_dec h' y) as [[?|?]|?]; [|done|].
      - destruct (Hno h'); [lia|congruence].
      - destruct (N' y); [lia|congruence]. }
    destruct (decide (z = y)) as [->|Hne].
    + split; [rewrite H1; cbn [nxt]; by rewrite (HM1 y) by (done || lia)|]. intros h0 h' Hh0 Hh'. rewrite (Hh'y h' Hh'). rewrite decide_True by done.
      rewrite (hd_uniq m v0 W Hv0 f x x h0 h Hh0 Hh eq_refl). rewrite H1. cbn [hoc]. rewrite EM.
      rewrite (lb_c _ _ _ _ _ _ HL y x E). destruct Hv as [(Hc & t & T & Ht & Ew)|[Hc Ew]].
      * rewrite decide_False by congruence. rewrite (proj2 (Z.ltb_lt _ _)); [done|]. unfold UNCOLORED. destruct T. lia.
      * rewrite decide_True by congruence. rewrite (proj2 (Z.ltb_ge _ _)); [done|]. rewrite Ew. by destruct (ex h).
    + rewrite H2 by (done || lia). cbn [nxt hoc]. split; [by rewrite (HM1 z) by (done || lia)|]. intros h0 h' Hh0 Hh'. rewrite (Hh'y h' Hh'). by rewrite decide_False.
  - intros (z & Hz & E). destruct (Hno z); [lia|done].
Qed.
End moved.

(** ** removeFromList *)
Lemma rm0_ok M ms : farr M ms -> inr v0 -> 0 <= hoc (M v0) -> (hoc (M v0) = 0 -> nxt (M v0) = 0) ->
  exists ms' M', removeFromList ms 0 = Some ms' /\ farr M' ms' /\ forall x, x <> v0 -> M' x = M x.
Proof.
  intros HA Hr Hp H0. pose proof (farr_get v0 W M ms v0 HA Hr) as E. replace (ix v0) with 0 in E by lia.
  unfold removeFromList. unfold isColoredTail at 1. rewrite E. cbn [mbind option_bind]. destruct (Z.eqb_spec (hoc (M v0)) 0) as [Eh|Eh].
  - cbn [mbind option_bind]. rewrite H0 by done. cbn [Z.eqb negb]. unfold findColorPredecessor, isColoredTail. rewrite E. cbn [mbind option_bind]. rewrite Eh. cbn [Z.eqb mbind option_bind negb].
    cbn. by exists ms, M.
  - rewrite (proj2 (Z.ltb_ge _ _)) by lia. cbn [mbind option_bind]. change (Z.to_nat (0 + 1)) with 1%nat. destruct (Z.eqb_spec (nxt (M v0)) 0) as [En|En]; cbn [seq ofold mbind option_bind]; cbv zeta; change (Z.of_nat 0) with 0; rewrite E; cbn [mbind option_bind].
    + rewrite (proj2 (Z.eqb_eq _ _)) by lia. destruct (farr_nxt' M ms v0 0 HA Hr) as (ms' & E' & HA'). replace (ix v0) with 0 in E' by lia. rewrite E'. cbn [mbind option_bind].
      eexists _, _. split_and!; [done|exact HA'|]. intros x Hx. by apply fupd_ne.
    + rewrite (proj2 (Z.eqb_neq _ _)) by lia. cbn [mbind option_bind]. by exists ms, M.
Qed.

Lemma rm1_ok M ms : farr M ms -> (2 <= W)%nat -> 0 <= hoc (M v0) -> (hoc (M v0) = 0 -> nxt (M v0) = 0) ->
  (hoc (M v0) = 1 -> nxt (M v0) = 0 \/ nxt (M v0) = 1) ->
  (0 <= hoc (M (S v0)) \/ hoc (M (S v0)) = -1) -> (hoc (M (S v0)) = 0 \/ (hoc (M (S v0)) = -1 /\ hoc (M v0) = 1) -> nxt (M (S v0)) = 0) ->
  exists ms' M', removeFromList ms 1 = Some ms' /\ farr M' ms' /\ (forall x, (S v0 < x)%nat -> M' x = M x) /\
    0 <= hoc (M' v0) /\ (hoc (M' v0) = 0 -> nxt (M' v0) = 0).
Proof.
  intros HA HW2 Hp H0 H1 Hc Hc1. pose proof (farr_get v0 W M ms v0 HA ltac:(lia)) as E. replace (ix v0) with 0 in E by lia.
  pose proof (farr_get v0 W M ms (S v0) HA ltac:(lia)) as E1. replace (ix (S v0)) with 1 in E1 by lia.
  unfold removeFromList.
  assert (exists t, isColoredTail ms 1 = Some t /\ (t = true -> hoc (M (S v0)) = 0 \/ (hoc (M (S v0)) = -1 /\ hoc (M v0) = 1))) as (t & Et & Ht).
  { unfold isColoredTail. rewrite E1. cbn [mbind option_bind]. destruct (Z.eqb_spec (hoc (M (S v0))) 0); [eexists; split; [done|by left]|].
    destruct (Z.ltb_spec (hoc (M (S v0))) 0); [|by eexists]. replace (1 + hoc (M (S v0))) with 0 by lia. rewrite E. cbn [mbind option_bind]. eexists. split; [done|].
    rewrite Z.eqb_eq. lia. }
  rewrite Et. cbn [mbind option_bind]. rewrite E1. cbn [mbind option_bind]. destruct t.
  - rewrite (Hc1 (Ht eq_refl)). cbn [Z.eqb negb]. unfold findColorPredecessor. rewrite Et. cbn [mbind option_bind negb].
    change (Z.to_nat (1 - 0)) with 1%nat. change (1 - 1) with 0. cbn [pred_loop]. unfold color_ptr, fhead. rewrite E. cbn [mbind option_bind]. unfold isHead.
    rewrite (proj2 (Z.leb_le _ _)) by done. rewrite E. cbn [mbind option_bind]. change (0 + hoc (M v0)) with (hoc (M v0)). destruct (Z.eqb_spec (hoc (M v0)) 1) as [Eh|Eh].
    + cbn [mbind option_bind]. change (Z.to_nat (0 + 1)) with 1%nat. cbn [seq ofold mbind option_bind]. cbv zeta. change (Z.of_nat 0) with 0. rewrite E. cbn [mbind option_bind].
      rewrite (proj2 (Z.eqb_eq (0 + hoc (M v0)) 1)) by lia. destruct (farr_hoc' M ms v0 (0 - 0) HA ltac:(lia)) as (ms1 & E2 & HA1). replace (ix v0) with 0 in E2 by lia. rewrite E2. cbn [mbind option_bind].
      pose proof (farr_get v0 W _ ms1 v0 HA1 ltac:(lia)) as E3. replace (ix v0) with 0 in E3 by lia. rewrite E3, fupd_eq. cbn [mbind option_bind nxt].
      destruct (Z.eqb_spec (0 + nxt (M v0)) 1) as [En|En].
      * destruct (farr_nxt' _ ms1 v0 0 HA1 ltac:(lia)) as (ms2 & E4 & HA2). replace (ix v0) with 0 in E4 by lia. rewrite E4. cbn [mbind option_bind].
        eexists _, _. split_and!; [done|exact HA2| | |].
        -- intros x Hx. rewrite !fupd_ne by lia. done.
        -- rewrite !fupd_eq. cbn. done.
        -- rewrite !fupd_eq. cbn. done.
      * cbn [mbind option_bind]. eexists _, _. split_and!; [done|exact HA1| | |].
        -- intros x Hx. rewrite !fupd_ne by lia. done.
        -- rewrite !fupd_eq. cbn. done.
        -- rewrite !fupd_eq. cbn. intros _. destruct (H1 Eh); lia.
    + exists ms, M. done.
  - change (Z.to_nat (1 + 1)) with 2%nat. destruct (Z.eqb_spec (nxt (M (S v0))) 0) as [En|En].
    + cbn [seq ofold mbind option_bind]. cbv zeta. change (Z.of_nat 0) with 0. rewrite E. cbn [mbind option_bind].
      assert (exists ms1 M1, (if 0 + nxt (M v0) =? 1 then set_nxt ms 0 0 else Some ms) = Some ms1 /\ farr M1 ms1 /\ (forall x, x <> v0 -> M1 x = M x) /\ 0 <= hoc (M1 v0) /\ (hoc (M1 v0) = 0 -> nxt (M1 v0) = 0))
        as (ms1 & M1 & -> & HA1 & H2 & H3 & H4).
      { destruct (_ =? _); [|by exists ms, M]. destruct (farr_nxt' M ms v0 0 HA ltac:(lia)) as (ms1 & E2 & HA1). replace (ix v0) with 0 in E2 by lia. rewrite E2.
        eexists _, _. split_and!; [done|exact HA1| | |]; [intros x Hx; by apply fupd_ne|by rewrite fupd_eq|by rewrite fupd_eq]. }
      cbn [mbind option_bind]. pose proof (farr_get v0 W _ ms1 (S v0) HA1 ltac:(lia)) as E3. replace (ix (S v0)) with 1 in E3 by lia. change (Z.of_nat 1) with 1. rewrite E3. cbn [mbind option_bind].
      destruct (_ =? _); cbn [mbind option_bind].
      * destruct (farr_nxt' M1 ms1 (S v0) 0 HA1 ltac:(lia)) as (ms2 & E4 & HA2). replace (ix (S v0)) with 1 in E4 by lia. rewrite E4. cbn [mbind option_bind].
        eexists _, _. split_and!; [done|exact HA2| | |]; [intros x Hx; rewrite fupd_ne by lia; apply H2; lia|by rewrite fupd_ne by lia|by rewrite fupd_ne by lia].
      * exists ms1, M1. split_and!; [done|done| |done|done]. intros x Hx. apply H2. lia.
    + cbn [seq ofold mbind option_bind]. cbv zeta. change (Z.of_nat 0) with 0. rewrite E. cbn [mbind option_bind].
      assert (exists ms1 M1, (if 0 + nxt (M v0) =? 1 then o' ← fget ms 1; set_nxt ms 0 (nxt (M v0) + nxt o') else Some ms) = Some ms1 /\ farr M1 ms1 /\ (forall x, x <> v0 -> M1 x = M x) /\ 0 <= hoc (M1 v0) /\ (hoc (M1 v0) = 0 -> nxt (M1 v0) = 0))
        as (ms1 & M1 & -> & HA1 & H2 & H3 & H4).
      { destruct (Z.eqb_spec (0 + nxt (M v0)) 1) as [En1|]; [|by exists ms, M]. rewrite E1. cbn [mbind option_bind]. destruct (farr_nxt' M ms v0 (nxt (M v0) + nxt (M (S v0))) HA ltac:(lia)) as (ms1 & E2 & HA1). replace (ix v0) with 0 in E2 by lia. rewrite E2.
        eexists _, _. split_and!; [done|exact HA1| | |]; [intros x Hx; by apply fupd_ne|by rewrite fupd_eq|rewrite fupd_eq; cbn; intros Hz; specialize (H0 Hz); lia]. }
      cbn [mbind option_bind]. pose proof (farr_get v0 W _ ms1 (S v0) HA1 ltac:(lia)) as E3. replace (ix (S v0)) with 1 in E3 by lia. change (Z.of_nat 1) with 1. rewrite E3. cbn [mbind option_bind].
      rewrite (H2 (S v0)) by lia. rewrite (proj2 (Z.eqb_neq _ _)) by lia. cbn [mbind option_bind].
      exists ms1, M1. split_and!; [done|done| |done|done]. intros x Hx. apply H2. lia.
Qed.

(** ** the shift *)
Lemma mapM_lookup {A} (l : list A) (F : nat -> A) a s : (forall i, i ∈ s -> l !! (a + i)%nat = Some (F (a + i)%nat)) ->
  mapM (fun i => l !! (a + i)%nat) s = Some (map (fun i => F (a + i)%nat) s).
Proof.
  induction s as [|i s IH]; intros H; [done|]. cbn [mapM map]. rewrite H by set_solver. cbn [mbind option_bind]. rewrite IH by set_solver. done.
Qed.
Lemma init_lookup G j : (j < 1 + vertexSize (fb_graph G) + fb_size G)%nat -> fb_init G !! j = Some (fb_init_at G j).
Proof. intros Hj. unfold fb_init. rewrite list_lookup_fmap, lookup_seq_lt by done. done. Qed.
Lemma shift_ok M ms F k : farr M ms -> (forall x, (v0 + W <= x)%nat -> M x = F x) -> (k <= W)%nat ->
  P_Fbs1.farr (v0 + k) W M (drop k ms ++ map (fun i => F (v0 + k + i)%nat) (seq (W - k) k)).
Proof.
  intros [Hl HA] HF Hk. split; [rewrite app_length, drop_length, map_length, seq_length; lia|]. intros j Hj.
  destruct (decide (j < W - k)%nat) as [Hlt|Hge].
  - rewrite lookup_app_l by (rewrite drop_length; lia). rewrite lookup_drop, HA by lia. do 2 f_equal. lia.
  - rewrite lookup_app_r by (rewrite drop_length; lia). rewrite list_lookup_fmap, drop_length, lookup_seq_lt by lia. cbn. f_equal. rewrite <- HF by lia. f_equal. lia.
Qed.

Lemma update_ok G ms M f cx ex e ee d :
  fb_size G = W -> vertexSize (fb_graph G) = m -> e_v0 e = v0 -> e_v0 ee = (v0 + d)%nat -> (v0 + d <= m)%nat ->
  Lab m v0 W f cx ex -> Rep m v0 f cx ex M -> farr M ms -> (forall x, (v0 + W <= x)%nat -> M x = fb_init_at G x) ->
  (e_v1 e <= m)%nat -> inr (e_v1 e) -> (e_v2 e <= m)%nat -> inr (e_v2 e) ->
  (d = 0%nat /\ e_v1final e = false /\ e_v2final e = false) \/ (d = 1%nat /\ e_v1 e = v0 /\ e_v1final e = true /\ e_v2final e = false) \/
  (d = 2%nat /\ e_v1 e = v0 /\ e_v2 e = S v0 /\ e_v1final e = true /\ e_v2final e = true) ->
  exists ms' M', fb_update G ms e ee = Some ms' /\ P_Fbs1.farr (v0 + d) W M' ms' /\ Rep m (v0 + d) f cx ex M' /\
    forall x, (v0 + d + W <= x)%nat -> M' x = fb_init_at G x.
Proof.
  intros HWG HmG Ev0 Eee Hd HL HR HA HF H1m H1r H2m H2r Hcase. unfold fb_update. rewrite Ev0, Eee.
  replace (Z.of_nat (v0 + d) - Z.of_nat v0) with (Z.of_nat d) by lia. rewrite (proj2 (Z.ltb_ge _ _)) by lia. cbv zeta. unfold fptr. rewrite Ev0. rewrite Nat2Z.id.
  assert (Hfin : forall M3 ms3, farr M3 ms3 -> (forall x, (v0 + d <= x)%nat -> (v0 + W <= x)%nat -> M3 x = M x) -> moved f cx M (v0 + d) M3 -> (0 < d <= W)%nat ->
    exists ms' M', (new ← mapM (fun i => fb_init G !! (v0 + d + i)%nat) (seq (fb_size G - d) d); Some (drop d ms3 ++ new)) = Some ms' /\
      P_Fbs1.farr (v0 + d) W M' ms' /\ Rep m (v0 + d) f cx ex M' /\ forall x, (v0 + d + W <= x)%nat -> M' x = fb_init_at G x).
  { intros M3 ms3 HA3 HM3 Hmv Hd0. rewrite (mapM_lookup (fb_init G) (fb_init_at G) (v0 + d)).
    2:{ intros i Hi. apply elem_of_seq in Hi. apply init_lookup. lia. }
    cbn [mbind option_bind]. exists (drop d ms3 ++ map (fun i => fb_init_at G (v0 + d + i)) (seq (fb_size G - d) d)), M3. split_and!; [done| | |].
    - rewrite HWG. apply shift_ok; [done| |lia]. intros x Hx. rewrite HM3 by lia. by apply HF.
    - by apply (moved_rep f cx ex M HL HR); [lia|].
    - intros x Hx. rewrite HM3 by lia. apply HF. lia. }
  destruct Hcase as [(-> & F1 & F2)|[(-> & E1 & F1 & F2)|(-> & E1 & E2 & F1 & F2)]].
  - rewrite F1, F2. cbn [seq ofold mbind option_bind]. cbn. rewrite Nat.add_0_r. by exists ms, M.
  - rewrite E1 in *. rewrite F1, F2. cbn [seq ofold mbind option_bind]. cbv zeta.
    replace (ix v0 + Z.of_nat 0) with (ix v0) by lia. replace (ix v0 + Z.of_nat 1) with (ix (v0 + 1)) by lia.
    destruct (loop_step f cx ex M HL HR M ms (v0 + 1) v0) as (ms1 & M1 & E & HA1 & H1 & H2 & H3 & H4); [done|lia|done|done|lia|done|].
    rewrite E. cbn [mbind option_bind]. assert (Hhd0 : hd_of v0 f v0 v0) by (split_and!; [lia|lia|done|lia]).
    destruct (hval_at m v0 W Hv0 f cx ex M HL HR v0 v0 ltac:(lia) Hhd0) as (Hv & _).
    destruct (rm0_ok M1 ms1 HA1 H1r) as (ms2 & M2 & E2 & HA2 & H5).
    { rewrite H2 by lia. by eapply (hval_pos m v0 W Hm Hv0 cx ex v0 _ Hv). }
    { rewrite H2 by lia. intros E0. destruct Hv as [(Hc & t & (T1 & T2 & T3) & Ht & Ew)|[Hc Ew]]; [|by rewrite Ew in E0; destruct (ex v0)].
      destruct (rd_nxt m v0 f cx ex M HR v0 ltac:(lia)) as [[? _]|(y & Hy & EQ & _)]; [done|]. exfalso.
      apply (T3 y); [|by apply (lb_c _ _ _ _ _ _ HL)]. pose proof (lb_in _ _ _ _ _ _ HL y v0 EQ ltac:(lia)). lia. }
    replace (ix v0) with 0 by lia. rewrite E2. cbn [mbind option_bind].
    destruct (farr_set v0 W M2 ms2 v0 (FCell 0 0) HA2 H1r) as (ms3 & E3 & HA3). replace (ix v0) with 0 in E3 by lia. rewrite E3. cbn [mbind option_bind].
    change (0 <? Z.of_nat 1) with true. cbv iota. change (0 =? 0) with true. cbn [negb orb]. rewrite (proj2 (Z.ltb_ge _ _)) by lia. change (Z.to_nat (Z.of_nat 1)) with 1%nat.
    apply (Hfin _ ms3 HA3); [intros x Hx1 Hx2; rewrite fupd_ne, H5, H2 by lia; done| |lia].
    intros z Hz. rewrite fupd_ne, H5 by lia. destruct (decide (f z = f v0)) as [Ez|Ez].
    + destruct (H3 ltac:(lia) z ltac:(lia) Ez) as [Hn Hho]. split; [done|]. intros h Hh.
      assert (h = v0) as ->. { apply (hd_uniq m v0 W Hv0 f z v0 h v0 Hh Hhd0 Ez). } split; [lia|]. intros _ h' Hh'. by apply Hho.
    + rewrite H1 by (done || lia). split; [done|]. intros h Hh. split; [done|]. intros Hlt. exfalso. destruct Hh as (R & E' & _). assert (h = v0) as -> by lia. congruence.
  - rewrite E1, E2 in *. rewrite F1, F2. cbn [seq ofold mbind option_bind]. cbv zeta.
    replace (ix v0 + Z.of_nat 0) with (ix v0) by lia. replace (ix v0 + Z.of_nat 1) with (ix (S v0)) by lia. replace (ix v0 + Z.of_nat 2) with (ix (v0 + 2)) by lia.
    destruct (loop_step f cx ex M HL HR M ms (v0 + 2) v0) as (ms1 & M1 & E & HA1 & H1 & H2 & H3 & H4); [done|lia|done|done|lia|done|].
    rewrite E. cbn [mbind option_bind]. assert (Hhd0 : hd_of v0 f v0 v0) by (split_and!; [lia|lia|done|lia]).
    destruct (hval_at m v0 W Hv0 f cx ex M HL HR v0 v0 ltac:(lia) Hhd0) as (Hv & _).
    assert (Hpre : forall z, (v0 <= z)%nat -> f z = f (S v0) -> M1 z = M z).
    { intros z Hz Ez. destruct (decide (f z = f v0)) as [Ez'|Ez']; [|by apply H1]. rewrite H4; [done|]. exists (S v0). split; [lia|congruence]. }
    destruct (loop_step f cx ex M HL HR M1 ms1 (v0 + 2) (S v0)) as (ms2 & M2 & E' & HA2 & H5 & H6 & H7 & H8); [done|lia|done|done|lia|done|].
    rewrite E'. cbn [mbind option_bind].
    assert (Hlow : forall x, (x < v0 + 2)%nat -> M2 x = M x). { intros x Hx. rewrite H6, H2 by lia. done. }
    assert (Hnx0 : forall y, (v0 < y)%nat -> f y = f v0 -> (y <= m)%nat). { intros y Hy EQ. pose proof (lb_in _ _ _ _ _ _ HL y v0 EQ ltac:(lia)). lia. }
    destruct (rm1_ok M2 ms2 HA2) as (ms3 & M3 & E3 & HA3 & H9 & H10 & H11).
    { lia. }
    { rewrite Hlow by lia. by eapply (hval_pos m v0 W Hm Hv0 cx ex v0 _ Hv). }
    { rewrite Hlow by lia. intros E0. destruct Hv as [(Hc & t & (T1 & T2 & T3) & Ht & Ew)|[Hc Ew]]; [|by rewrite Ew in E0; destruct (ex v0)].
      destruct (rd_nxt m v0 f cx ex M HR v0 ltac:(lia)) as [[? _]|(y & Hy & EQ & _)]; [done|]. exfalso.
      apply (T3 y); [|by apply (lb_c _ _ _ _ _ _ HL)]. pose proof (Hnx0 y Hy EQ). lia. }
    { rewrite Hlow by lia. intros E0. destruct Hv as [(Hc & t & (T1 & T2 & T3) & Ht & Ew)|[Hc Ew]]; [|by rewrite Ew in E0; destruct (ex v0)].
      destruct (rd_nxt m v0 f cx ex M HR v0 ltac:(lia)) as [[? _]|(y & Hy & EQ & _ & Ey)]; [by left|]. right.
      destruct (decide (y = S v0)) as [->|]; [lia|]. exfalso. apply (T3 y); [|by apply (lb_c _ _ _ _ _ _ HL)]. pose proof (Hnx0 y Hy EQ). lia. }
    { rewrite Hlow by lia. destruct (HR (S v0) ltac:(lia)) as (_ & h & Hh & [[-> Hv']|[Hl Hho]]); [left; by eapply (hval_pos m v0 W Hm Hv0 cx ex (S v0) _ Hv')|right].
      destruct Hh as (R & _). lia. }
    { rewrite !Hlow by lia. intros Htail. destruct (rd_nxt m v0 f cx ex M HR (S v0) ltac:(lia)) as [[? _]|(y & Hy & EQ & _)]; [done|]. exfalso.
      pose proof (lb_in _ _ _ _ _ _ HL y (S v0) EQ ltac:(lia)) as [Hym _]. pose proof (lb_c _ _ _ _ _ _ HL _ _ EQ) as ECy.
      destruct (HR (S v0) ltac:(lia)) as (_ & h & Hh & [[-> Hv']|[Hl Hho]]).
      - destruct Hv' as [(Hc & t & (T1 & T2 & T3) & Ht & Ew)|[Hc Ew]].
        + destruct Htail as [E0|[? _]]; [|lia]. apply (T3 y); [lia|done].
        + rewrite Ew in Htail. destruct (ex (S v0)); unfold EDGE_COMPONENT, UNCOLORED in Htail; lia.
      - pose proof Hh as (R & EQ0 & _). assert (h = v0) as -> by lia. pose proof (lb_c _ _ _ _ _ _ HL _ _ EQ0) as EC0.
        destruct Hv as [(Hc & t & (T1 & T2 & T3) & Ht & Ew)|[Hc Ew]].
        + apply (T3 y); [lia|]. congruence.
        + rewrite Ew in Htail. destruct (ex v0); unfold EDGE_COMPONENT, UNCOLORED in Htail; lia. }
    replace (ix (S v0)) with 1 by lia. rewrite E3. cbn [mbind option_bind].
    destruct (farr_set v0 W M3 ms3 (S v0) (FCell 0 0) HA3 H2r) as (ms4 & E4 & HA4). replace (ix (S v0)) with 1 in E4 by lia. rewrite E4. cbn [mbind option_bind].
    destruct (rm0_ok _ ms4 HA4 H1r) as (ms5 & M5 & E5 & HA5 & H12); [rewrite fupd_ne by lia; done|rewrite fupd_ne by lia; done|].
    replace (ix v0) with 0 by lia. rewrite E5. cbn [mbind option_bind].
    destruct (farr_set v0 W M5 ms5 v0 (FCell 0 0) HA5 H1r) as (ms6 & E6 & HA6). replace (ix v0) with 0 in E6 by lia. rewrite E6. cbn [mbind option_bind].
    change (0 <? Z.of_nat 2) with true. cbv iota. change (0 =? 0) with true. cbn [negb orb]. rewrite (proj2 (Z.ltb_ge _ _)) by lia. change (Z.to_nat (Z.of_nat 2)) with 2%nat.
    assert (Hhigh : forall x, (v0 + 2 <= x)%nat -> fupd M5 v0 (FCell 0 0) x = M2 x). { intros x Hx. rewrite fupd_ne, H12, fupd_ne, H9 by lia. done. }
    apply (Hfin _ ms6 HA6); [intros x Hx1 Hx2; rewrite Hhigh, H6, H2 by lia; done| |lia].
    assert (Hhd1 : f (S v0) <> f v0 -> hd_of v0 f (S v0) (S v0)). { intros Hne. split_and!; [lia|lia|done|]. intros z Hz. assert (z = v0) as -> by lia. congruence. }
    intros z Hz. rewrite Hhigh by lia. destruct (decide (f z = f (S v0))) as [Ez|Ez].
    + destruct (H7 ltac:(lia) z ltac:(lia) Ez) as [Hn Hho]. split; [done|]. intros h Hh.
      assert (hd_of v0 f (S v0) h) as Hh1.
      { destruct (decide (f (S v0) = f v0)) as [E0|E0].
        - assert (h = v0) as ->. { apply (hd_uniq m v0 W Hv0 f z v0 h v0 Hh Hhd0). congruence. } split_and!; [lia|lia|done|lia].
        - assert (h = S v0) as ->. { apply (hd_uniq m v0 W Hv0 f z (S v0) h (S v0) Hh (Hhd1 E0) Ez). } by apply Hhd1. }
      split; [destruct Hh1; lia|]. intros _ h' Hh'. by apply Hho.
    + rewrite H5 by (done || lia). destruct (decide (f z = f v0)) as [Ez'|Ez'].
      * destruct (H3) with (z := z) as [Hn Hho]; [|lia|done|].
        { intros y Hy. assert (y = S v0) as -> by lia. congruence. }
        split; [done|]. intros h Hh. assert (h = v0) as ->. { apply (hd_uniq m v0 W Hv0 f z v0 h v0 Hh Hhd0 Ez'). } split; [lia|]. intros _ h' Hh'. by apply Hho.
      * rewrite H1 by (done || lia). split; [done|]. intros h Hh. split; [done|]. intros Hlt. exfalso. destruct Hh as (R & EQ & _).
        assert (h = v0 \/ h = S v0) as [->| ->] by lia; congruence.
Qed.
End update.
