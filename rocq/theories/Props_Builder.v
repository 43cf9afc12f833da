(** C01-C03, C41: construction of a diagram from a specification. *)
From Verif Require Import Base Sem M_Table M_Engine M_Builder P_Builder Ex.
Local Open Scope Z_scope.

(** C01: the constructed structure, read again as a specification (getRoot/getChild of DdStructure),
    has the same Boolean function and the same family, over any number n of variables. *)
Theorem C01_construction_represents_spec : forall sp : spec, spec_ok sp ->
  exists d, construct_dd sp = Some d /\ d_ar d = ar sp /\ numVars d = top_level sp /\
  forall n v, vec_ok (ar sp) v ->
    bdd_sem (dd_spec d) n v = bdd_sem sp n v /\ zdd_sem (dd_spec d) n v = zdd_sem sp n v.
Proof.
  intros sp Hok. destruct (construct_built sp Hok) as (d & E & HB). exists d.
  split_and!; [done|apply HB|apply HB|]. intros n v Hv. by apply built_sem.
Qed.

Example C01_case :
  (spec_ok (comb 5 2) /\ spec_ok (forced [7; 4; 2])) /\
  exists d d', construct_dd (comb 5 2) = Some d /\ construct_dd (forced [7; 4; 2]) = Some d' /\
    table_size (tab d) = 11%nat /\ table_size (tab d') = 3%nat /\
    bdd_sem (dd_spec d) 5 (vec_of [0;1;0;1;0]%nat) = true /\ bdd_sem (dd_spec d) 5 (vec_of [0;1;1;1;0]%nat) = false /\
    zdd_sem (dd_spec d') 7 (vec_of [0;1;0;1;0;0;1]%nat) = true /\
    zdd_sem (dd_spec d') 7 (vec_of [0;1;0;1;0;1;1]%nat) = false /\
    bdd_sem (dd_spec d') 7 (vec_of [0;1;0;1;0;1;1]%nat) = true.
Proof.
  split; [split; [apply comb_ok|by apply forced_ok]|]. do 2 eexists.
  split_and!; [vm_compute; reflexivity|vm_compute; reflexivity|by vm_compute..].
Qed.

(** C02: the result exists (no access out of range while building and sweeping), is well-formed,
    and every node is the root or referenced from a higher level. *)
Theorem C02_construction_well_formed : forall sp : spec, spec_ok sp ->
  exists d, construct_dd sp = Some d /\ dd_wf d /\
  (forall f, (0 < row f)%nat -> is_Some (tget (tab d) f) -> code f <> code (rt d) ->
     exists f' b g, child (tab d) f' b = Some g /\ code g = code f /\ (row f < row f')%nat).
Proof. intros sp Hok. destruct (construct_built sp Hok) as (d & E & HB). exists d. split_and!; [done|apply HB..]. Qed.

(** a case in which the sweeper really removes nodes: the state remembers the branches taken after a 1
    at the top level; at level 3 all these states end in 0 *)
Definition doomed (n : nat) : spec := {|
  St := nat; ar := 2; get_root := (Z.of_nat n, 0%nat);
  get_child := fun s l b =>
    if l =? Z.of_nat n then (l - 1, b)
    else if (s =? 0)%nat then (if l <=? 1 then -1 else l - 1, 0%nat)
    else (if l <=? 3 then 0 else l - 1, (2 * s + b)%nat);
  equal_to := fun _ s s' => (s =? s')%nat; hash_code := fun _ s => N.of_nat s |}.
Example C02_case :
  spec_ok (doomed 8) /\
  exists d, construct_dd (doomed 8) = Some d /\
    (* without sweeping, level 3 would hold 1 + 2^4 nodes *)
    map length (tab d) = [2; 1; 1; 1; 1; 1; 1; 1; 1]%nat.
Proof.
  split.
  - constructor.
    + simpl; lia.
    + intros l s b Hr _. assert (0 < l) by (by destruct Hr). cbn [doomed get_child].
      destruct (l =? Z.of_nat 8); [simpl; lia|]. destruct (s =? 0)%nat.
      * destruct (Z.leb_spec l 1); simpl; lia.
      * destruct (Z.leb_spec l 3); simpl; lia.
    + intros l s s' _ _ H. apply Nat.eqb_eq in H. subst. by intros bs _.
  - eexists. split_and!; [vm_compute; reflexivity|by vm_compute..].
Qed.

(** C03: the nodes of a level are at most as many as the members of some set of reachable states of
    that level which equal_to pairwise distinguishes. *)
Theorem C03_construction_shares : forall sp : spec, spec_ok sp ->
  (forall i s s', equal_to sp i s s' = equal_to sp i s' s) ->
  (forall i s s', equal_to sp i s s' = true -> hash_code sp i s = hash_code sp i s') ->
  exists d, construct_dd sp = Some d /\
  forall i r, (0 < i)%nat -> tab d !! i = Some r ->
  exists rs, (length r <= length rs)%nat /\ Forall (reach sp (Z.of_nat i)) rs /\
    ForallOrdPairs (fun s s' => equal_to sp (Z.of_nat i) s s' = false) rs.
Proof.
  intros sp Hok Hsym Hhash. destruct (construct_built sp Hok) as (d & E & HB). exists d. split; [done|].
  by apply HB.
Qed.

Example C03_case :
  let sp := comb 6 3 in
  (spec_ok sp /\ (forall i s s', equal_to sp i s s' = equal_to sp i s' s) /\
   (forall i s s', equal_to sp i s s' = true -> hash_code sp i s = hash_code sp i s')) /\
  exists d, construct_dd sp = Some d /\ (length <$> tab d !! 3%nat) = Some 4%nat.
Proof.
  cbv zeta. split; [split_and!|].
  - apply comb_ok.
  - intros i s s'. simpl. apply Nat.eqb_sym.
  - intros i s s' H. simpl in *. apply Nat.eqb_eq in H. by subst.
  - eexists. split; [vm_compute; reflexivity|by vm_compute].
Qed.

(** C41: the same for the multi-threaded builder, whatever the number of threads and tasks, and
    whatever tasks each thread executes in which order. *)
Theorem C41_mp_construction : forall (sp : spec) (threads tasks : nat) (sched : nat -> list (nat * nat)),
  spec_ok sp -> (0 < threads)%nat -> (0 < tasks)%nat -> sched_ok threads (fun _ => tasks) sched ->
  exists d, construct_mp sp threads tasks sched = Some d /\
  d_ar d = ar sp /\ numVars d = top_level sp /\ dd_wf d /\
  (forall n v, vec_ok (ar sp) v ->
    bdd_sem (dd_spec d) n v = bdd_sem sp n v /\ zdd_sem (dd_spec d) n v = zdd_sem sp n v) /\
  ((forall i s s', equal_to sp i s s' = equal_to sp i s' s) ->
   (forall i s s', equal_to sp i s s' = true -> hash_code sp i s = hash_code sp i s') ->
   forall i r, (0 < i)%nat -> tab d !! i = Some r ->
   exists rs, (length r <= length rs)%nat /\ Forall (reach sp (Z.of_nat i)) rs /\
     ForallOrdPairs (fun s s' => equal_to sp (Z.of_nat i) s s' = false) rs).
Proof.
  intros sp nt tasks sched Hok Hnt Htk Hs.
  destruct (construct_mp_built sp nt tasks sched Hok Hnt Htk Hs) as (d & E & HB). exists d.
  split_and!; [done|apply HB|apply HB|apply HB| |apply HB]. intros n v Hv. by apply built_sem.
Qed.

Example C41_case :
  let sched := fun _ : nat => [(4, 1); (0, 0); (2, 2); (1, 1); (3, 0)]%nat in
  (spec_ok (comb 5 2) /\ sched_ok 3 (fun _ => 5%nat) sched) /\
  exists d, construct_mp (comb 5 2) 3 5 sched = Some d /\ table_size (tab d) = 11%nat /\
    bdd_sem (dd_spec d) 5 (vec_of [0;1;0;1;0]%nat) = true /\ bdd_sem (dd_spec d) 5 (vec_of [0;1;1;1;0]%nat) = false.
Proof.
  cbv zeta. split; [split; [apply comb_ok|]|].
  - intros i. split; [|repeat constructor].
    apply NoDup_Permutation; [apply (bool_decide_eq_true_1 _); by vm_compute|apply NoDup_seq|].
    intros x. rewrite elem_of_seq. simpl. rewrite !elem_of_cons, elem_of_nil. lia.
  - eexists. split_and!; [vm_compute; reflexivity|by vm_compute..].
Qed.

Print Assumptions C01_construction_represents_spec.
Print Assumptions C02_construction_well_formed.
Print Assumptions C03_construction_shares.
Print Assumptions C41_mp_construction.
