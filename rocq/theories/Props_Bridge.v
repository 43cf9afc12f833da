(** C57: families and functions of SAPPOROBDD and diagrams of TdZdd are converted into each other without loss. *)
From stdpp Require Import gmap sets.
From Verif Require Import Base Sem Ex M_Table Tree S_Dd M_Engine M_Builder P_Builder M_Ops M_Conv M_Subset M_Equal M_Eval M_Reducer S_Api Props_Api
  S_Bridge M_Bridge P_Bridge P_Bridge2 P_Bridge3 P_Bridge4.
Local Open Scope Z_scope.

Lemma tbdd_low n T v : (tlev T <= n)%nat -> tbdd n T v = tbdd (tlev T) T v.
Proof. intros H. induction H as [|n H IH]; [done|]. rewrite tbdd_skip by lia. exact IH. Qed.
Lemma tzdd_low n T v : (tlev T <= n)%nat -> tzdd n T v = true -> forall k, (tlev T < k <= n)%nat -> v k = 0%nat.
Proof.
  intros H. induction H as [|n H IH]; intros E k Hk; [lia|]. rewrite tzdd_skip in E by lia. destruct (Nat.eqb_spec (v (S n)) 0); [|done].
  destruct (decide (k = S n)) as [->|]; [done|]. apply IH; [done|lia].
Qed.
Lemma order_var (o : list nat) off n k : 0 <= off -> Z.of_nat n + off <= Z.of_nat (length o) -> (1 <= k <= n)%nat -> exists x, var_of_lev o (Z.of_nat k + off) = Some x.
Proof.
  intros H1 H2 H3. unfold var_of_lev. destruct (Z.leb_spec 1 (Z.of_nat k + off)); [|lia].
  destruct (lookup_lt_is_Some_2 o (Z.to_nat (Z.of_nat k + off) - 1)%nat) as [x Hx]; [lia|]. by exists x.
Qed.
(** the set of variables for which a vector stands *)
Definition set_of (o : order) (off : Z) (n : nat) (v : vec) : gset nat :=
  list_to_set (filter (fun x => off < lev_of_var o x <= Z.of_nat n + off /\ v (Z.to_nat (lev_of_var o x - off)) <> 0%nat) o).
Lemma set_of_spec o off n v x : x ∈ set_of o off n v <-> x ∈ o /\ off < lev_of_var o x <= Z.of_nat n + off /\ v (Z.to_nat (lev_of_var o x - off)) <> 0%nat.
Proof. unfold set_of. rewrite elem_of_list_to_set, elem_of_list_filter. naive_solver. Qed.
Lemma set_of_covered o off n v : order_ok o -> 0 <= off -> covered o off n (set_of o off n v).
Proof.
  intros Ho Hoff x Hx. apply set_of_spec in Hx as (H1 & H2 & _). exists (Z.to_nat (lev_of_var o x - off)). split; [lia|]. apply at_level_lev; [done|]. split; [done|]. lia.
Qed.
Lemma set_of_at o off n v k x : order_ok o -> 0 <= off -> (1 <= k <= n)%nat -> at_level o off k x -> x ∈ set_of o off n v <-> v k <> 0%nat.
Proof.
  intros Ho Hoff Hk Hat. apply at_level_lev in Hat as (H1 & H2 & H3); [|done]. rewrite set_of_spec, H3.
  replace (Z.to_nat (Z.of_nat k + off - off)) with k by lia. split; [tauto|]. intros H. split_and!; try done; lia.
Qed.
Lemma set_of_agrees o off n v : order_ok o -> 0 <= off -> vec_ok 2 v -> agrees_with o off n v (set_of o off n v).
Proof. intros Ho Hoff Hv k x Hk Hat. rewrite (set_of_at o off n v k x); try done. pose proof (Hv k). lia. Qed.
Lemma set_of_stands o off n m v : order_ok o -> 0 <= off -> vec_ok 2 v -> Z.of_nat m + off <= Z.of_nat (length o) -> (forall k, (m < k <= n)%nat -> v k = 0%nat) ->
  stands_for o off n v (set_of o off n v).
Proof.
  intros Ho Hoff Hv Hm Hz k Hk. pose proof (Hv k). destruct (decide (v k = 0%nat)) as [E|E].
  - right. split; [done|]. intros (x & Hx & Hat). by apply (set_of_at o off n v k x) in Hx.
  - left. split; [lia|]. destruct (decide (k <= m)%nat) as [Hkm|]; [|rewrite Hz in E; lia].
    destruct (order_var o off m k) as [x Hx]; [lia|lia|lia|]. apply at_level_vol in Hx. exists x. split; [|done]. by apply (set_of_at o off n v k x).
Qed.

(** ToZBDD: the family consists of the sets of the diagram, with every level replaced by the variable [offset] levels
    higher; members that use a level for which there is no variable are left out. *)
Theorem C57_to_zbdd : forall d o off n, dd_wf d -> d_ar d = 2%nat -> (row (rt d) <= n)%nat -> order_ok o ->
  let o' := enough_vars o (Z.of_nat (row (rt d)) + off) in
  order_ok o' /\ o `prefix_of` o' /\ Z.of_nat (length o') = Z.max (Z.of_nat (row (rt d)) + off) (Z.of_nat (length o)) /\
  exists F, evaluate (to_zbdd off) o d = Some F /\
    forall S, S ∈ F <-> covered o' off n S /\ exists v, vec_ok 2 v /\ stands_for o' off n v S /\ zdd_sem (dd_spec d) n v = true.
Proof.
  intros d o off n W A R Ho o'. destruct (enough_ok o (Z.of_nat (row (rt d)) + off) Ho) as (Ho' & Hl & Hp). fold o' in Ho', Hl, Hp.
  split; [done|]. split; [done|]. split; [lia|]. destruct (to_zbdd_ok d o off W A Ho) as (F & T & E & HT & HF). fold o' in HF.
  exists F. split; [done|]. intros S. assert (tlev T <= n)%nat as HTn by (rewrite (rep_lev _ _ _ HT); done).
  apply (fam_lift_to o' Ho' off (tlev T) n T F (le_n _) HTn) in HF. rewrite (HF S). split; intros [H1 H2]; (split; [done|]).
  - exists (assign o' off S). split; [apply assign_ok|]. split; [by apply stands_assign|]. rewrite (dd_zdd_sem d n _ T); [done..|]. rewrite A. apply assign_ok.
  - destruct H2 as (v & Hv & Hs & Hm). rewrite stands_assign in Hs. rewrite <- (tzdd_ext n T v _ Hs). rewrite <- (dd_zdd_sem d n v T); [done..|]. by rewrite A.
Qed.

Lemma placed_within o off F : order_ok o -> (forall S, S ∈ F -> forall x, x ∈ S -> placed o off x) -> within o off F.
Proof.
  intros Ho H S HS x Hx. destruct (H S HS x Hx) as (i & Hi & Hp). split; [by eapply elem_of_list_lookup_2|].
  rewrite (lev_at o Ho i x Hi). intros Hle. rewrite Hp; lia.
Qed.

(** SapporoZdd: for every family the specification keeps the contract, no call fails, and its members are the sets of
    the family all of whose variables have levels above the offset. *)
Theorem C57_sapporo_zdd : forall o off id F n, order_ok o -> 0 <= off -> (forall S, S ∈ F -> forall x, x ∈ S -> placed o off x) ->
  Z.of_nat (length o) <= Z.of_nat n + off ->
  is_Some (sz_root o off F) /\
  (forall l f b, reach (sz_spec o off id F) l f -> is_Some (sz_child o off f l b)) /\
  api_spec 2 n AZdd (sz_spec o off id F) (means AZdd (sz_spec o off id F) n) /\
  forall v, vec_ok 2 v -> zdd_sem (sz_spec o off id F) n v = true <-> exists S, S ∈ F /\ covered o off n S /\ stands_for o off n v S.
Proof.
  intros o off id F n Ho Hoff Hp Hn. pose proof (placed_within o off F Ho Hp) as Hw.
  destruct (sz_root_ok o Ho off Hoff F Hw) as (res & E & H1 & H2). split_and!.
  - by exists res.
  - intros l f b Hr. destruct (sz_step o Ho off Hoff id F l f (if b then 1 else 0)%nat Hw Hr) as (r & Er & _). exists r. by destruct b.
  - destruct (sz_contract o Ho off Hoff id F Hw) as (C1 & C2 & C3). apply as_user; [done|done|done|done|].
    assert (top_level (sz_spec o off id F) = Z.to_nat (fst res)) as -> by (unfold top_level; cbn [sz_spec get_root]; by rewrite E). lia.
  - intros v Hv. by apply sz_sem.
Qed.

(** ToBDD: the function is true for exactly the sets of variables for which the diagram, read as a BDD, is. *)
Theorem C57_to_bdd : forall d o off n, dd_wf d -> d_ar d = 2%nat -> (row (rt d) <= n)%nat -> order_ok o -> 0 <= off ->
  let o' := enough_vars o (Z.of_nat (row (rt d)) + off) in
  order_ok o' /\ o `prefix_of` o' /\ Z.of_nat (length o') = Z.max (Z.of_nat (row (rt d)) + off) (Z.of_nat (length o)) /\
  exists F, evaluate (to_bdd off) o d = Some F /\
    (forall S, S ∈ F -> forall x, x ∈ S -> x ∈ o') /\
    forall S v, (forall x, x ∈ S -> x ∈ o') -> vec_ok 2 v -> agrees_with o' off n v S -> S ∈ F <-> bdd_sem (dd_spec d) n v = true.
Proof.
  intros d o off n W A R Ho Hoff o'. destruct (enough_ok o (Z.of_nat (row (rt d)) + off) Ho) as (Ho' & Hl & Hp). fold o' in Ho', Hl, Hp.
  split; [done|]. split; [done|]. split; [lia|]. destruct (to_bdd_ok d o off W A Ho Hoff) as (F & T & E & HT & HF1 & HF2). fold o' in HF1, HF2.
  exists F. split; [done|]. split; [intros S HS; by apply elem_of_pw, HF1|]. intros S v HS Hv Hst.
  pose proof (rep_lev _ _ _ HT) as HL. rewrite (HF2 n S); [|by rewrite HL|by apply elem_of_pw].
  rewrite (dd_bdd_sem d n v T); [|done|done|by rewrite A]. rewrite (tbdd_low n T v), (tbdd_low n T (assign o' off S)) by lia. rewrite (tbdd_ext (tlev T) T (assign o' off S) v); [done|]. intros k Hk. unfold assign.
  destruct (order_var o' off (row (rt d)) k) as [x Hx]; [lia|lia|lia|]. rewrite Hx. apply at_level_vol in Hx. pose proof (Hst k x ltac:(lia) Hx). pose proof (Hv k).
  destruct (decide (x ∈ S)); [naive_solver|]. assert (v k <> 1%nat) by naive_solver. lia.
Qed.

Lemma depends_matters o F x : b_depends o F x = true -> matters o F x.
Proof.
  intros Hd. unfold b_depends in Hd. apply bool_decide_eq_true in Hd.
  destruct (decide (set_Exists (fun S => ~ ({[x]} ∪ S ∈ F <-> S ∖ {[x]} ∈ F)) (pw o))) as [(S & HS & Hn)|Hall].
  - exists S. split; [by apply elem_of_pw|done].
  - destruct Hd. apply set_eq. intros S. unfold b_at0, b_at1. rewrite !elem_of_filter.
    assert (S ∈ pw o -> {[x]} ∪ S ∈ F <-> S ∖ {[x]} ∈ F); [|naive_solver]. intros HS.
    destruct (decide ({[x]} ∪ S ∈ F <-> S ∖ {[x]} ∈ F)) as [|Hn]; [done|]. destruct Hall. by exists S.
Qed.
Lemma matters_depends o F x : matters o F x -> b_depends o F x = true.
Proof.
  intros (S & HS & Hn). destruct (b_depends o F x) eqn:E; [done|]. destruct Hn. symmetry. apply (proj1 (dep_false o F x) E). by apply elem_of_pw.
Qed.
Lemma matters_range o off F hi : order_ok o -> (forall x, x ∈ o -> matters o F x -> off < lev_of_var o x <= hi) -> dep_range o off hi F.
Proof. intros Ho H x Hx Hd. apply H; [done|]. by apply depends_matters. Qed.

(** SapporoBdd: the specification keeps the contract, no call throws, and it is the same function. *)
Theorem C57_sapporo_bdd : forall o off id F n, order_ok o -> (forall S, S ∈ F -> forall x, x ∈ S -> x ∈ o) ->
  (forall i x, o !! i = Some x -> matters o F x -> off <= Z.of_nat i) -> Z.of_nat (length o) <= Z.of_nat n + off ->
  is_Some (sb_root o off F) /\
  (forall l f b, reach (sb_spec o off id F) l f -> is_Some (sb_child o off f l b)) /\
  api_spec 2 n ABdd (sb_spec o off id F) (means ABdd (sb_spec o off id F) n) /\
  forall S v, (forall x, x ∈ S -> x ∈ o) -> vec_ok 2 v -> agrees_with o off n v S -> bdd_sem (sb_spec o off id F) n v = true <-> S ∈ F.
Proof.
  intros o off id F n Ho Hin Hm Hn.
  assert (func o F) as Hf by (intros S HS; apply elem_of_pw; by apply Hin).
  assert (dep_range o off (Z.of_nat n + off) F) as Hr.
  { apply matters_range; [done|]. intros x Hx Hmx. pose proof (lev_in o Ho x Hx). split; [|lia].
    apply elem_of_list_lookup in Hx as [i Hi]. rewrite (lev_at o Ho i x Hi). pose proof (Hm i x Hi Hmx). lia. }
  destruct (sb_root_ok o Ho off F _ Hf Hr) as (res & E & H1 & H2). split_and!.
  - by exists res.
  - intros l f b Hre. destruct (sb_step o Ho off id F _ l f (if b then 1 else 0)%nat Hf Hr Hre) as (r & Er & _). exists r. by destruct b.
  - destruct (sb_contract o Ho off id F _ Hf Hr) as (C1 & C2 & C3). apply as_user; [done|done|done|done|].
    assert (top_level (sb_spec o off id F) = Z.to_nat (fst res)) as -> by (unfold top_level; cbn [sb_spec get_root]; by rewrite E). lia.
  - intros S v HS Hv Hst. apply sb_sem; try done. by apply elem_of_pw.
Qed.

(** SapporoBdd throws iff the function depends on a variable up to the offset. *)
Theorem C57_sapporo_bdd_throws : forall o off id F, order_ok o -> (forall S, S ∈ F -> forall x, x ∈ S -> x ∈ o) ->
  (sb_root o off F = None \/ exists l f b, reach (sb_spec o off id F) l f /\ sb_child o off f l b = None) <->
  exists i x, o !! i = Some x /\ matters o F x /\ Z.of_nat i < off.
Proof.
  intros o off id F Ho Hin. assert (func o F) as Hf by (intros S HS; apply elem_of_pw; by apply Hin). split.
  - intros HT. destruct (decide (Exists (fun x => b_depends o F x = true /\ lev_of_var o x <= off) o)) as [He|Hno].
    + apply Exists_exists in He as (x & Hx & Hd & Hl). apply elem_of_list_lookup in Hx as [i Hi]. exists i, x. split; [done|]. split; [by apply depends_matters|].
      rewrite (lev_at o Ho i x Hi) in Hl. lia.
    + exfalso. destruct (C57_sapporo_bdd o off id F (Z.to_nat (Z.of_nat (length o) - off)) Ho Hin) as (H1 & H2 & _); [|lia|].
      * intros i x Hi Hm. destruct (Z.le_gt_cases off (Z.of_nat i)) as [|Hlt]; [done|]. destruct Hno. apply Exists_exists. exists x. split; [by eapply elem_of_list_lookup_2|].
        split; [by apply matters_depends|]. rewrite (lev_at o Ho i x Hi). lia.
      * destruct HT as [E|(l & f & b & Hr & E)]; [rewrite E in H1; by destruct H1|]. destruct (H2 l f b Hr) as [? E']. congruence.
  - intros (i & x & Hi & Hm & Hlt). assert (x ∈ o) as Hx by (by eapply elem_of_list_lookup_2). apply (sb_throws o Ho off id F x Hf Hx); [rewrite (lev_at o Ho i x Hi); lia|]. by apply matters_depends.
Qed.

(** There and back: the family that ToZBDD makes of a diagram, read by SapporoZdd, gives the same diagram again. *)
Theorem C57_roundtrip_zbdd : forall n d P o off id, api_dd 2 n AZdd d P -> order_ok o -> 0 <= off -> Z.of_nat (length o) <= Z.of_nat n + off ->
  let o' := enough_vars o (Z.of_nat (row (rt d)) + off) in
  exists F, evaluate (to_zbdd off) o d = Some F /\ is_Some (construct_dd (sz_spec o' off id F)) /\
  forall d', constructed (sz_spec o' off id F) d' ->
    (forall v, vec_ok 2 v -> zdd_sem (dd_spec d') n v = P v) /\
    forall d1 d2, reduced_as AZdd d d1 -> reduced_as AZdd d' d2 -> dd_eq false d1 d2 = Some true.
Proof.
  intros n d P o off id H Ho Hoff Hlen o'. destruct (C54_meaning 2 n AZdd d P ltac:(lia) H) as (W & A & R & S).
  destruct (C57_to_zbdd d o off n W A R Ho) as (Ho' & Hp & Hl & F & E & HF). fold o' in Ho', Hp, Hl, HF. exists F. split; [done|].
  destruct (C57_sapporo_zdd o' off id F n Ho' Hoff) as (_ & _ & Hs & Hm).
  { intros s Hs x Hx. apply HF in Hs as [Hc _]. destruct (Hc x Hx) as (k & Hk & Hpos & Hat). exists (Z.to_nat (Z.of_nat k + off) - 1)%nat. split; [done|]. lia. }
  { lia. }
  assert (exists T, rep (tab d) (rt d) T) as [T HT] by (destruct W as (_ & Hwf & Hv); apply (rep_exists _ _ Hwf _ Hv)).
  pose proof (rep_lev _ _ _ HT) as HL.
  assert (Hd : forall v, vec_ok 2 v -> zdd_sem (dd_spec d) n v = tzdd n T v) by (intros v Hv; apply dd_zdd_sem; try done; by rewrite A).
  assert (HP : forall v, vec_ok 2 v -> means AZdd (sz_spec o' off id F) n v = P v).
  { intros v Hv. rewrite <- (S v Hv). cbn [means]. apply eq_true_iff_eq. rewrite (Hm v Hv), (Hd v Hv). split.
    - intros (s & Hs1 & Hcov & Hst). apply HF in Hs1 as [_ (v' & Hv' & Hst' & Hsem)]. rewrite stands_assign in Hst, Hst'.
      rewrite (Hd v' Hv') in Hsem. rewrite (tzdd_ext n T v v'); [done|]. intros k Hk. by rewrite (Hst k Hk), (Hst' k Hk).
    - intros Hsem. exists (set_of o' off n v). pose proof (set_of_covered o' off n v Ho' Hoff) as Hc.
      assert (stands_for o' off n v (set_of o' off n v)) as Hst.
      { apply (set_of_stands o' off n (row (rt d))); try done; [lia|]. rewrite <- HL. apply tzdd_low; [lia|done]. }
      split; [|done]. apply HF. split; [done|]. exists v. split; [done|]. split; [done|]. by rewrite (Hd v Hv). }
  destruct (C54_progress 2 n ltac:(lia)) as (Hpr & _). destruct (Hpr _ _ _ Hs) as [Hc _]. split; [done|].
  intros d' Hd'. pose proof (ad_construct 2 n _ _ _ _ Hs Hd') as H'. destruct (C54_meaning 2 n _ _ _ ltac:(lia) H') as (_ & _ & _ & S').
  split; [intros v Hv; rewrite <- (HP v Hv); by apply (S' v)|].
  intros d1 d2 R1 R2. destruct (C54_canonical 2 n AZdd false d d' P _ d1 d2 ltac:(lia) H H' R1 R2 ltac:(done)) as (b & Eb & Hb).
  rewrite Eb. f_equal. apply Hb. intros v Hv. by rewrite HP.
Qed.

(** The same for the function that ToBDD makes of a diagram and SapporoBdd. *)
Theorem C57_roundtrip_bdd : forall n d P o off id, api_dd 2 n ABdd d P -> order_ok o -> 0 <= off -> Z.of_nat (length o) <= Z.of_nat n + off ->
  let o' := enough_vars o (Z.of_nat (row (rt d)) + off) in
  exists F, evaluate (to_bdd off) o d = Some F /\ is_Some (construct_dd (sb_spec o' off id F)) /\
  forall d', constructed (sb_spec o' off id F) d' ->
    (forall v, vec_ok 2 v -> bdd_sem (dd_spec d') n v = P v) /\
    forall d1 d2, reduced_as ABdd d d1 -> reduced_as ABdd d' d2 -> dd_eq false d1 d2 = Some true.
Proof.
  intros n d P o off id H Ho Hoff Hlen o'. destruct (C54_meaning 2 n ABdd d P ltac:(lia) H) as (W & A & R & S).
  destruct (C57_to_bdd d o off n W A R Ho Hoff) as (Ho' & Hp & Hl & F & E & HF1 & HF2). fold o' in Ho', Hp, Hl, HF1, HF2. exists F. split; [done|].
  assert (Hin : forall v x, x ∈ set_of o' off n v -> x ∈ o') by (intros v x Hx; by apply set_of_spec in Hx as [? _]).
  destruct (C57_sapporo_bdd o' off id F n Ho' HF1) as (_ & _ & Hs & Hm).
  { intros i x Hi (s & Hs1 & Hs2). destruct (Z.le_gt_cases off (Z.of_nat i)) as [|Hlt]; [done|]. destruct Hs2.
    assert (Hx : x ∈ o') by (by eapply elem_of_list_lookup_2).
    assert (agree0 : forall t, agrees_with o' off n (assign o' off t) t).
    { intros t k y Hk Hat. apply at_level_vol in Hat. unfold assign. rewrite Hat. destruct (decide (y ∈ t)); naive_solver. }
    rewrite (HF2 ({[x]} ∪ s) (assign o' off s)); [|set_solver|apply assign_ok|].
    - rewrite (HF2 (s ∖ {[x]}) (assign o' off s)); [done|set_solver|apply assign_ok|].
      intros k y Hk Hat. rewrite (agree0 s k y Hk Hat). apply at_level_lev in Hat as (? & ? & Hl'); [|done].
      assert (y <> x); [|set_solver]. intros ->. rewrite (lev_at o' Ho' i x Hi) in Hl'. lia.
    - intros k y Hk Hat. rewrite (agree0 s k y Hk Hat). apply at_level_lev in Hat as (? & ? & Hl'); [|done].
      assert (y <> x); [|set_solver]. intros ->. rewrite (lev_at o' Ho' i x Hi) in Hl'. lia. }
  { lia. }
  assert (HP : forall v, vec_ok 2 v -> means ABdd (sb_spec o' off id F) n v = P v).
  { intros v Hv. rewrite <- (S v Hv). cbn [means]. apply eq_true_iff_eq. pose proof (set_of_agrees o' off n v Ho' Hoff Hv) as Hag.
    rewrite (Hm (set_of o' off n v) v (Hin v) Hv Hag). by apply HF2; [apply Hin| |]. }
  destruct (C54_progress 2 n ltac:(lia)) as (Hpr & _). destruct (Hpr _ _ _ Hs) as [Hc _]. split; [done|].
  intros d' Hd'. pose proof (ad_construct 2 n _ _ _ _ Hs Hd') as H'. destruct (C54_meaning 2 n _ _ _ ltac:(lia) H') as (_ & _ & _ & S').
  split; [intros v Hv; rewrite <- (HP v Hv); by apply (S' v)|].
  intros d1 d2 R1 R2. destruct (C54_canonical 2 n ABdd false d d' P _ d1 d2 ltac:(lia) H H' R1 R2 ltac:(done)) as (b & Eb & Hb).
  rewrite Eb. f_equal. apply Hb. intros v Hv. by rewrite HP.
Qed.

(** Without the condition on the variables up to the offset the loop of SapporoZdd need not end: it looks up the
    variable of the level that has the number of the top variable. *)
Theorem C57_order_refuted : exists o off (F : fam), order_ok o /\ 0 <= off /\ (forall S, S ∈ F -> forall x, x ∈ S -> x ∈ o) /\
  (forall fuel, sz_strip o fuel F = None) /\ sz_root o off F = None.
Proof.
  exists [2; 1]%nat, 2, {[ {[1%nat]} ]}. split_and!.
  - unfold order_ok. cbn. constructor.
  - done.
  - intros S HS x Hx. apply elem_of_singleton in HS as ->. apply elem_of_singleton in Hx as ->. set_solver.
  - assert (lev_of_var [2;1]%nat (z_top [2;1]%nat {[ {[1%nat]} ]}) = 2) as E1 by (vm_compute; reflexivity).
    assert (var_of_lev [2;1]%nat (Z.of_nat (z_top [2;1]%nat {[ {[1%nat]} ]})) = Some 2%nat) as E2 by (vm_compute; reflexivity).
    assert (z_offset 2%nat {[ {[1%nat]} ]} = {[ {[1%nat]} ]}) as E3 by (apply (bool_decide_eq_true_1 _); vm_compute; reflexivity).
    induction fuel as [|fuel IH]; [done|]. cbn [sz_strip]. rewrite E1. cbn [Z.leb Z.compare Pos.compare Pos.compare_cont]. rewrite E2. cbn [mbind option_bind]. rewrite E3. exact IH.
  - vm_compute. reflexivity.
Qed.

(** With a negative offset SapporoZdd takes a constant for a node, and the call for its child fails. *)
Theorem C57_negative_offset_refuted : exists o off (F : fam) l, order_ok o /\ off < 0 /\ (forall S, S ∈ F -> forall x, x ∈ S -> placed o off x) /\
  sz_root o off F = Some (l, F) /\ 0 < l /\ sz_child o off F l true = None /\ sz_child o off F l false = None.
Proof.
  exists [1]%nat, (-1), {[ ∅ ]}, 1. split_and!.
  - unfold order_ok. cbn. constructor. constructor.
  - done.
  - intros S HS x Hx. apply elem_of_singleton in HS. subst S. by apply elem_of_empty in Hx.
  - apply (bool_decide_eq_true_1 _). vm_compute. reflexivity.
  - done.
  - vm_compute. reflexivity.
  - vm_compute. reflexivity.
Qed.

(** A case: the pairs out of 3 levels, three variables in the order 2, 3, 1 (from below) and one more above, offset 1. *)
Example C57_case : let o := [2; 3; 1]%nat in
  order_ok o /\ enough_vars o 4 = [2; 3; 1; 4]%nat /\
  (d ← construct_dd (comb 3 2); evaluate (to_zbdd 1) o d) = Some {[ {[3; 1]}; {[3; 4]}; {[1; 4]} ]}%nat /\
  (forall S, S ∈ ({[ {[3; 1]}; {[3; 4]}; {[1; 4]} ]}%nat : fam) -> forall x, x ∈ S -> placed [2;3;1;4]%nat 1 x) /\
  (d ← construct_dd (sz_spec [2;3;1;4]%nat 1 (fun _ => 0%N) {[ {[3; 1]}; {[3; 4]}; {[1; 4]} ]}%nat); d1 ← reduce_seq false true d;
   e ← construct_dd (comb 3 2); e1 ← reduce_seq false true e; dd_eq false d1 e1) = Some true.
Proof.
  split_and!.
  - unfold order_ok. cbn. apply (Permutation_app_comm [2;3]%nat [1]%nat).
  - vm_compute. reflexivity.
  - apply (bool_decide_eq_true_1 _). vm_compute. reflexivity.
  - intros S HS x Hx. assert (x = 3%nat \/ x = 1%nat \/ x = 4%nat) as [->|[->| ->]].
    { rewrite !elem_of_union, !elem_of_singleton in HS. destruct HS as [[->| ->]| ->]; rewrite elem_of_union, !elem_of_singleton in Hx; destruct Hx; auto. }
    all: [> exists 1%nat|exists 2%nat|exists 3%nat]; (split; [done|lia]).
  - vm_compute. reflexivity.
Qed.

Print Assumptions C57_to_zbdd.
Print Assumptions C57_sapporo_zdd.
Print Assumptions C57_to_bdd.
Print Assumptions C57_sapporo_bdd.
Print Assumptions C57_sapporo_bdd_throws.
Print Assumptions C57_roundtrip_zbdd.
Print Assumptions C57_roundtrip_bdd.
Print Assumptions C57_order_refuted.
Print Assumptions C57_negative_offset_refuted.
