(** C22 bdd2zdd / zdd2bdd, C37 constructors. *)
From Verif Require Import Base Sem Ex M_Table Tree M_Engine M_Ops P_Ops P_OpsC M_Builder P_Builder M_Conv P_Conv P_Wfb.
Local Open Scope nat_scope.

(** numVars less than the top level is raised to it *)
Definition vars_used (nv : Z) (d : dd) : nat := Nat.max (Z.to_nat nv) (row (rt d)).

Lemma un_top_vars nv d : dd_wf d -> un_top (dd_spec d) nv = vars_used nv d.
Proof.
  intros Hd. unfold un_top, vars_used. rewrite root_level_eq by apply Hd. unfold id_level.
  destruct (Nat.ltb_spec 0 (row (rt d))); lia.
Qed.
Lemma un_top_level zdd nv d : dd_wf d -> top_level (unreduction (dd_spec d) zdd nv) <= vars_used nv d.
Proof.
  intros Hd. rewrite <- un_top_vars by done. unfold top_level. cbn [get_root unreduction].
  destruct (un_root (dd_spec d) nv) as [[E E1]|(NE & E & [(Ht & E1 & I)|(Ht & E1 & E2)])].
  - change (Z.to_nat (fst (unred_root (dd_spec d) nv)) <= un_top (dd_spec d) nv). rewrite E. simpl. lia.
  - change (Z.to_nat (fst (unred_root (dd_spec d) nv)) <= un_top (dd_spec d) nv). rewrite E1. lia.
  - change (Z.to_nat (fst (unred_root (dd_spec d) nv)) <= un_top (dd_spec d) nv). rewrite E1. simpl. lia.
Qed.

Lemma conv_spec_ok d nv : dd_wf d ->
  spec_ok (zdd_lookahead (bdd_unreduction (dd_spec d) nv)) /\ spec_ok (bdd_lookahead (zdd_unreduction (dd_spec d) nv)).
Proof.
  intros Hd. split.
  - apply zdd_lookahead_ok; [apply un_ok, dd_spec_ok, Hd|apply un_congr; [by apply dd_spec_ok|by apply dd_congr]].
  - apply bdd_lookahead_ok; [apply un_ok, dd_spec_ok, Hd|apply un_congr; [by apply dd_spec_ok|by apply dd_congr]].
Qed.
Lemma conv_sem d nv v : dd_wf d -> vec_ok (d_ar d) v ->
  zdd_sem (zdd_lookahead (bdd_unreduction (dd_spec d) nv)) (vars_used nv d) v = bdd_sem (dd_spec d) (vars_used nv d) v /\
  bdd_sem (bdd_lookahead (zdd_unreduction (dd_spec d) nv)) (vars_used nv d) v = zdd_sem (dd_spec d) (vars_used nv d) v.
Proof.
  intros Hd Hv. pose proof (dd_spec_ok d Hd) as Hok. split.
  - rewrite zdd_lookahead_sem; [|by apply un_ok|done|by apply un_top_level].
    rewrite <- un_top_vars by done. by apply (un_sem (dd_spec d) Hok false nv v Hv).
  - rewrite bdd_lookahead_sem; [|by apply un_ok|done|by apply un_top_level].
    rewrite <- un_top_vars by done. by apply (un_sem (dd_spec d) Hok true nv v Hv).
Qed.

(** ** C22 *)
(** With n = max(numVars, topLevel) variables: the ZDD contains exactly the satisfying assignments of the BDD. *)
Theorem C22_bdd2zdd : forall (d : dd) (nv : Z), dd_wf d ->
  exists d', bdd2zdd nv d = Some d' /\ dd_wf d' /\ d_ar d' = d_ar d /\
  forall v, vec_ok (d_ar d) v -> zdd_sem (dd_spec d') (vars_used nv d) v = bdd_sem (dd_spec d) (vars_used nv d) v.
Proof.
  intros d nv Hd. destruct (conv_spec_ok d nv Hd) as [H _]. destruct (construct_built _ H) as (d' & E & HB).
  exists d'. split_and!; [done|apply HB|apply HB|]. intros v Hv.
  rewrite (proj2 (built_sem _ d' _ v H HB Hv)). by apply conv_sem.
Qed.
(** The BDD accepts exactly the vectors of the ZDD. *)
Theorem C22_zdd2bdd : forall (d : dd) (nv : Z), dd_wf d ->
  exists d', zdd2bdd nv d = Some d' /\ dd_wf d' /\ d_ar d' = d_ar d /\
  forall v, vec_ok (d_ar d) v -> bdd_sem (dd_spec d') (vars_used nv d) v = zdd_sem (dd_spec d) (vars_used nv d) v.
Proof.
  intros d nv Hd. destruct (conv_spec_ok d nv Hd) as [_ H]. destruct (construct_built _ H) as (d' & E & HB).
  exists d'. split_and!; [done|apply HB|apply HB|]. intros v Hv.
  rewrite (proj1 (built_sem _ d' _ v H HB Hv)). by apply conv_sem.
Qed.
(** The same with multi-threaded construction. *)
Theorem C22_conversions_parallel : forall (d : dd) (nv : Z) (threads tasks : nat) (sched : nat -> list (nat * nat)), dd_wf d ->
  0 < threads -> 0 < tasks -> sched_ok threads (fun _ => tasks) sched ->
  (exists d', bdd2zdd_mp nv threads tasks sched d = Some d' /\ dd_wf d' /\
   forall v, vec_ok (d_ar d) v -> zdd_sem (dd_spec d') (vars_used nv d) v = bdd_sem (dd_spec d) (vars_used nv d) v) /\
  (exists d', zdd2bdd_mp nv threads tasks sched d = Some d' /\ dd_wf d' /\
   forall v, vec_ok (d_ar d) v -> bdd_sem (dd_spec d') (vars_used nv d) v = zdd_sem (dd_spec d) (vars_used nv d) v).
Proof.
  intros d nv threads tasks sched Hd H1 H2 H3. destruct (conv_spec_ok d nv Hd) as [Ha Hb]. split.
  - destruct (construct_mp_built _ threads tasks sched Ha H1 H2 H3) as (d' & E & HB).
    exists d'. split_and!; [done|apply HB|]. intros v Hv.
    rewrite (proj2 (built_sem _ d' _ v Ha HB Hv)). by apply conv_sem.
  - destruct (construct_mp_built _ threads tasks sched Hb H1 H2 H3) as (d' & E & HB).
    exists d'. split_and!; [done|apply HB|]. intros v Hv.
    rewrite (proj1 (built_sem _ d' _ v Hb HB Hv)). by apply conv_sem.
Qed.
(** Converting there and back over n >= topLevel variables loses nothing. *)
Lemma built_row sp d : spec_ok sp -> built sp d -> row (rt d) <= top_level sp.
Proof.
  intros Hok HB. assert (dd_wf d) as Hd by apply HB. destruct (rep_exists (d_ar d) (tab d) ltac:(apply Hd) (rt d) ltac:(apply Hd)) as [T HT].
  assert (numVars d = top_level sp) as E by apply HB. rewrite <- E. unfold numVars.
  assert (valid (tab d) (rt d)) as Hv by apply Hd. unfold valid in Hv. destruct (Nat.eqb_spec (row (rt d)) 0) as [->|Hne]; [lia|].
  destruct Hv as [p Hp]. unfold tget in Hp. apply bind_Some in Hp as (r & Hr & _). apply lookup_lt_Some in Hr. lia.
Qed.
Lemma Z2Nat_mono x y : (x <= y)%Z -> Z.to_nat x <= Z.to_nat y.
Proof. lia. Qed.
Lemma zdd_look_level d nv : dd_wf d -> top_level (zdd_lookahead (bdd_unreduction (dd_spec d) nv)) <= vars_used nv d.
Proof.
  intros Hd. etrans; [|by apply (un_top_level false nv)]. unfold top_level. cbn [get_root zdd_lookahead].
  destruct (zlook_at_spec (bdd_unreduction (dd_spec d) nv) (un_ok _ (dd_spec_ok d Hd) false nv) (get_root (bdd_unreduction (dd_spec d) nv)) (creach_root _)) as (B & _).
  apply Z2Nat_mono. exact B.
Qed.
Theorem C22_round_trip : forall (d : dd) (nv : nat), dd_wf d -> row (rt d) <= nv ->
  exists d1 d2, bdd2zdd (Z.of_nat nv) d = Some d1 /\ zdd2bdd (Z.of_nat nv) d1 = Some d2 /\
  forall v, vec_ok (d_ar d) v -> bdd_sem (dd_spec d2) nv v = bdd_sem (dd_spec d) nv v.
Proof.
  intros d nv Hd Hn. destruct (conv_spec_ok d (Z.of_nat nv) Hd) as [H _].
  destruct (construct_built _ H) as (d1 & E1 & HB). pose proof (built_row _ _ H HB) as Hr.
  assert (vars_used (Z.of_nat nv) d = nv) as V by (unfold vars_used; lia).
  destruct (C22_bdd2zdd d (Z.of_nat nv) Hd) as (d1' & E1' & Hd1 & Ha1 & S1). unfold bdd2zdd in E1'. assert (d1' = d1) as -> by congruence.
  destruct (C22_zdd2bdd d1 (Z.of_nat nv) Hd1) as (d2 & E2 & Hd2 & Ha2 & S2).
  exists d1, d2. split_and!; [done|done|]. intros v Hv. rewrite Ha1 in S2.
  assert (vars_used (Z.of_nat nv) d1 = nv) as V1.
  { pose proof (zdd_look_level d (Z.of_nat nv) Hd). unfold vars_used in *. lia. }
  rewrite V in S1. rewrite V1 in S2. rewrite S2, S1 by done. done.
Qed.

(** levels 4 and 2 of 5 are tested *)
Definition parity : dd := Dd 2 [terminal_row 2; []; [[n0; n1]; [n1; n0]]; []; [[mk 2 0; mk 2 1]]] (mk 4 0).
Example C22_case : dd_wf parity /\ vars_used 5 parity = 5 /\
  exists d1 d2, bdd2zdd 5 parity = Some d1 /\ zdd2bdd 5 d1 = Some d2 /\ table_size (tab d1) = 6 /\ table_size (tab d2) = 3 /\
    zdd_sem (dd_spec d1) 5 (fun l => if l =? 3 then 1 else if l =? 2 then 1 else 0) = true /\
    zdd_sem (dd_spec parity) 5 (fun l => if l =? 3 then 1 else if l =? 2 then 1 else 0) = false.
Proof.
  split; [by apply dd_wfb_ok|]. split; [done|]. do 2 eexists. split_and!; [vm_compute; reflexivity|vm_compute; reflexivity|by vm_compute..].
Qed.

(** ** C37 *)
(** DdStructure(n): n nodes; every vector over the n levels is accepted, and as a ZDD over more levels exactly the
    vectors that are 0 above n. *)
Theorem C37_universal : forall a n : nat, 0 < a ->
  exists d, universal a n = Some d /\ dd_wf d /\ d_ar d = a /\ numVars d = n /\ table_size (tab d) = n /\
  (forall v, vec_ok a v -> bdd_sem (dd_spec d) n v = true /\ zdd_sem (dd_spec d) n v = true) /\
  (forall m v, n <= m -> vec_ok a v ->
     bdd_sem (dd_spec d) m v = true /\ (zdd_sem (dd_spec d) m v = true <-> forall l, n < l <= m -> v l = 0)).
Proof.
  intros a n Ha. rewrite (universal_eq a Ha n). eexists. split; [done|]. pose proof (utab_wf a Ha n) as Hwf. split; [done|].
  split; [done|]. split; [unfold numVars; cbn [tab]; unfold utab; cbn [length]; rewrite map_length, seq_length; lia|].
  assert (rep (utab a n n) (uref n) (utree a n)) as HR by (by apply uref_rep).
  split.
  { unfold table_size. cbn [tab]. unfold utab. cbn [drop]. rewrite drop_0. transitivity (length (seq 0 n)); [|apply seq_length].
    assert (Forall (fun i => i < n) (seq 0 n)) as HF by (apply Forall_forall; intros i Hi; apply elem_of_seq in Hi; lia).
    revert HF. generalize (seq 0 n) as l. induction l as [|i l IH]; [done|]. intros HF. apply Forall_cons in HF as [Hi HF].
    cbn [map sum_list_with length]. rewrite (proj2 (Nat.ltb_lt _ _) Hi), IH by done. done. }
  assert (forall m v, n <= m -> vec_ok a v ->
     bdd_sem (dd_spec (Dd a (utab a n n) (uref n))) m v = true /\ (zdd_sem (dd_spec (Dd a (utab a n n) (uref n))) m v = true <-> forall l, n < l <= m -> v l = 0)) as G.
  { intros m v Hm Hv. split.
    - rewrite (dd_bdd_sem _ m v _ Hwf HR Hv). by apply utree_bdd.
    - rewrite (dd_zdd_sem _ m v _ Hwf HR Hv). rewrite utree_zdd by done. rewrite forallb_forall. split.
      + intros H l Hl. apply Nat.eqb_eq, H. apply in_seq. lia.
      + intros H l Hl. apply in_seq in Hl. apply Nat.eqb_eq, H. lia. }
  split; [|done]. intros v Hv. destruct (G n v (le_n _) Hv) as [G1 G2]. split; [done|]. apply G2. lia.
Qed.
(** DdStructure(): nothing is accepted *)
Theorem C37_default_is_empty : forall a n : nat, forall v, 0 < a -> vec_ok a v ->
  dd_wf (empty_dd a) /\ numVars (empty_dd a) = 0 /\ bdd_sem (dd_spec (empty_dd a)) n v = false /\ zdd_sem (dd_spec (empty_dd a)) n v = false.
Proof.
  intros a n v Ha Hv. assert (dd_wf (empty_dd a)) as Hd by (apply term_dd_wf; [done|cbn; lia]).
  assert (rep (tab (empty_dd a)) (rt (empty_dd a)) T0) as HR by (by constructor).
  split_and!; [done|done|rewrite (dd_bdd_sem _ n v _ Hd HR Hv); apply tbdd_T0|rewrite (dd_zdd_sem _ n v _ Hd HR Hv); apply tzdd_T0].
Qed.
Example C37_case : exists d, universal 3 4 = Some d /\ zdd_sem (dd_spec d) 5 (fun l => l mod 3) = false /\ zdd_sem (dd_spec d) 4 (fun l => l mod 3) = true.
Proof. eexists. split_and!; [vm_compute; reflexivity|by vm_compute..]. Qed.

Print Assumptions C22_bdd2zdd.
Print Assumptions C22_zdd2bdd.
Print Assumptions C22_conversions_parallel.
Print Assumptions C22_round_trip.
Print Assumptions C37_universal.
