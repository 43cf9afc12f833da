(** C23, C42: zddSubset. *)
From Verif Require Import Base Sem M_Table M_Engine M_Builder M_Subset P_Builder P_Subset Ex.
Local Open Scope Z_scope.

(** C23: d.zddSubset(spec) terminates without out-of-range access (whether or not the input table is
    shared with another structure, i.e. whether or not its rows are released on the way), and the new
    diagram is well-formed and represents the vectors that are in both families. *)
Theorem C23_zdd_subset : forall (shared : bool) (d : dd) (sp : spec),
  dd_wf d -> spec_ok sp -> one_code sp -> ar sp = d_ar d ->
  exists d', zdd_subset shared d sp = Some d' /\ d_ar d' = d_ar d /\ dd_wf d' /\
  (forall n v, (row (rt d) <= n)%nat -> (top_level sp <= n)%nat -> vec_ok (d_ar d) v ->
     zdd_sem (dd_spec d') n v = zdd_sem (dd_spec d) n v && zdd_sem sp n v) /\
  (forall f, (0 < row f)%nat -> is_Some (tget (tab d') f) -> code f <> code (rt d') ->
     exists f' b g, child (tab d') f' b = Some g /\ code g = code f /\ (row f < row f')%nat).
Proof.
  intros shared d sp Hd Hok Hone Har.
  destruct (subset_built d Hd sp Hok Hone Har 1 ltac:(lia)
    (fun i => map (fun g => (g, 0%nat)) (seq 0 (sub_groups (tab d) i)))) with (single := true) (shared := shared)
    as (d' & E & HB).
  - intros i. split.
    + rewrite map_map. simpl. by rewrite map_id.
    + apply Forall_forall. intros x Hx. apply elem_of_list_In, in_map_iff in Hx. destruct Hx as (g & <- & _). simpl. lia.
  - exists d'. split; [exact E|]. pose proof HB as (Ha & Hwf & _ & _ & Hpar & _). rewrite <- Har. split_and!; try done.
    intros n v Hn1 Hn2 Hv. by apply sub_built_sem.
Qed.

(** ... and every node of the result stands for a distinct pair (input node, specification state). *)
Theorem C23_zdd_subset_shares : forall (shared : bool) (d : dd) (sp : spec),
  dd_wf d -> spec_ok sp -> one_code sp -> ar sp = d_ar d ->
  (forall i s s', equal_to sp i s s' = equal_to sp i s' s) ->
  (forall i s s', equal_to sp i s s' = true -> hash_code sp i s = hash_code sp i s') ->
  exists d', zdd_subset shared d sp = Some d' /\
  forall i r, (0 < i)%nat -> tab d' !! i = Some r ->
   exists rs : list (nat * St sp), (length r <= length rs)%nat /\
     Forall (fun x => is_Some (tget (tab d) (mk i (fst x))) /\ reach sp (Z.of_nat i) (snd x)) rs /\
     ForallOrdPairs (fun x y => fst x = fst y -> equal_to sp (Z.of_nat i) (snd x) (snd y) = false) rs.
Proof.
  intros shared d sp Hd Hok Hone Har Hsym Hhash.
  destruct (subset_built d Hd sp Hok Hone Har 1 ltac:(lia)
    (fun i => map (fun g => (g, 0%nat)) (seq 0 (sub_groups (tab d) i)))) with (single := true) (shared := shared)
    as (d' & E & HB).
  - intros i. split.
    + rewrite map_map. simpl. by rewrite map_id.
    + apply Forall_forall. intros x Hx. apply elem_of_list_In, in_map_iff in Hx. destruct Hx as (g & <- & _). simpl. lia.
  - exists d'. split; [exact E|]. by apply HB.
Qed.

(** C42: the same with useMP, for every number of threads and every schedule. *)
Theorem C42_mp_zdd_subset : forall (threads : nat) (sched : nat -> list (nat * nat)) (shared : bool) (d : dd) (sp : spec),
  dd_wf d -> spec_ok sp -> one_code sp -> ar sp = d_ar d ->
  (0 < threads)%nat -> sched_ok threads (sub_groups (tab d)) sched ->
  exists d', zdd_subset_mp threads sched shared d sp = Some d' /\ d_ar d' = d_ar d /\ dd_wf d' /\
  (forall n v, (row (rt d) <= n)%nat -> (top_level sp <= n)%nat -> vec_ok (d_ar d) v ->
     zdd_sem (dd_spec d') n v = zdd_sem (dd_spec d) n v && zdd_sem sp n v) /\
  (forall f, (0 < row f)%nat -> is_Some (tget (tab d') f) -> code f <> code (rt d') ->
     exists f' b g, child (tab d') f' b = Some g /\ code g = code f /\ (row f < row f')%nat) /\
  ((forall i s s', equal_to sp i s s' = equal_to sp i s' s) ->
   (forall i s s', equal_to sp i s s' = true -> hash_code sp i s = hash_code sp i s') ->
   forall i r, (0 < i)%nat -> tab d' !! i = Some r ->
   exists rs : list (nat * St sp), (length r <= length rs)%nat /\
     Forall (fun x => is_Some (tget (tab d) (mk i (fst x))) /\ reach sp (Z.of_nat i) (snd x)) rs /\
     ForallOrdPairs (fun x y => fst x = fst y -> equal_to sp (Z.of_nat i) (snd x) (snd y) = false) rs).
Proof.
  intros nt sched shared d sp Hd Hok Hone Har Hnt Hs.
  destruct (subset_built d Hd sp Hok Hone Har nt Hnt sched Hs false shared) as (d' & E & HB).
  exists d'. split; [exact E|]. pose proof HB as (Ha & Hwf & _ & _ & Hpar & Hre). rewrite <- Har. split_and!; try done.
  intros n v Hn1 Hn2 Hv. by apply sub_built_sem.
Qed.

(** a concrete input diagram: the 2-element subsets of 5 items; the hypotheses are instances of C01
    and of the lemmas of Ex.v *)
Definition d52 : dd := default (Dd 2 [] n0) (construct_dd (comb 5 2)).
Lemma d52_wf : dd_wf d52.
Proof.
  destruct (construct_built (comb 5 2) (comb_ok 5 2)) as (d & E & HB). unfold d52. rewrite E. apply HB.
Qed.
Lemma d52_ar : d_ar d52 = 2%nat.
Proof. by vm_compute. Qed.

(** items [i] and [j] exclude each other *)
Definition excl (n i j : Z) : spec := {|
  St := bool; ar := 2; get_root := (n, false);
  get_child := fun s l b =>
    if (l =? j) && s && (b =? 1)%nat then (0, s)
    else (if l <=? 1 then -1 else l - 1, s || ((l =? i) && (b =? 1)%nat));
  equal_to := fun _ => Bool.eqb; hash_code := fun _ s => if s then 1%N else 0%N |}.
Lemma excl_ok n i j : spec_ok (excl n i j).
Proof.
  constructor.
  - simpl; lia.
  - intros l s b Hr _. assert (0 < l) by (by destruct Hr). cbn [excl get_child].
    destruct (_ && _); [simpl; lia|]. destruct (Z.leb_spec l 1); simpl; lia.
  - intros l s s' _ _ H. apply Bool.eqb_prop in H. subst. by intros bs _.
Qed.
Lemma excl_one n i j : -1 <= n -> one_code (excl n i j).
Proof.
  split; [done|]. intros l s b Hr _. assert (0 < l) by (by destruct Hr). cbn [excl get_child].
  destruct (_ && _); [simpl; lia|]. destruct (Z.leb_spec l 1); simpl; lia.
Qed.

Example C23_case :
  let sp := excl 5 5 3 in
  (dd_wf d52 /\ spec_ok sp /\ one_code sp /\ ar sp = d_ar d52) /\
  exists d', zdd_subset false d52 sp = Some d' /\ zdd_subset true d52 sp = Some d' /\
    table_size (tab d52) = 11%nat /\ table_size (tab d') = 16%nat /\
    zdd_sem (dd_spec d') 5 (vec_of [0;1;0;0;1]%nat) = true /\
    zdd_sem (dd_spec d') 5 (vec_of [0;0;1;0;1]%nat) = false /\
    zdd_sem (dd_spec d52) 5 (vec_of [0;0;1;0;1]%nat) = true.
Proof.
  cbv zeta. split; [split_and!; [apply d52_wf|apply excl_ok|by apply excl_one|by rewrite d52_ar]|].
  eexists. split_and!; [vm_compute; reflexivity|vm_compute; reflexivity|by vm_compute..].
Qed.

(** input nodes in descending order, dealt out to three threads *)
Definition rsched (ngr : nat -> nat) (i : nat) : list (nat * nat) :=
  map (fun g => (g, g mod 3)%nat) (reverse (seq 0 (ngr i))).
Lemma rsched_ok ngr : sched_ok 3 ngr (rsched ngr).
Proof.
  intros i. unfold rsched. split.
  - rewrite map_map. cbn [fst]. rewrite map_id. by rewrite reverse_Permutation.
  - apply Forall_forall. intros x Hx. apply elem_of_list_In, in_map_iff in Hx. destruct Hx as (g & <- & _).
    cbn [snd]. apply Nat.mod_upper_bound. lia.
Qed.

Example C42_case :
  let sp := excl 5 5 3 in
  let sched := rsched (sub_groups (tab d52)) in
  (dd_wf d52 /\ spec_ok sp /\ one_code sp /\ ar sp = d_ar d52 /\ sched_ok 3 (sub_groups (tab d52)) sched) /\
  exists d', zdd_subset_mp 3 sched false d52 sp = Some d' /\
    table_size (tab d') = 16%nat /\
    zdd_sem (dd_spec d') 5 (vec_of [0;1;0;0;1]%nat) = true /\
    zdd_sem (dd_spec d') 5 (vec_of [0;0;1;0;1]%nat) = false.
Proof.
  cbv zeta. split; [split_and!; [apply d52_wf|apply excl_ok|by apply excl_one|by rewrite d52_ar|apply rsched_ok]|].
  eexists. split_and!; [vm_compute; reflexivity|by vm_compute..].
Qed.

Print Assumptions C23_zdd_subset.
Print Assumptions C23_zdd_subset_shares.
Print Assumptions C42_mp_zdd_subset.
