(** C49: a specification that defines mergeStates.  S_Merge.v says what its user expects. *)
From Verif Require Import Base Sem Ex M_Table M_Engine M_Builder M_Merge M_MergeMp S_Merge P_Merge5 P_Merge6 P_Merge7 P_Ops Tree.
Local Open Scope Z_scope.

(** The builder succeeds, and the diagram keeps exactly the members whose final states are cheapest, in either reading. *)
Theorem C49_minimum sp mrg cost : merge_ok sp mrg cost ->
  exists d, construct_merge sp mrg = Some d /\ d_ar d = ar sp /\ dd_wf d /\
    forall n v, vec_ok (ar sp) v ->
      (zdd_sem (dd_spec d) n v = true <-> cheapest (zfinal sp n) (ar sp) cost v) /\
      (bdd_sem (dd_spec d) n v = true <-> cheapest (bfinal sp n) (ar sp) cost v).
Proof. apply construct_merge_ok. Qed.

(** Minimum-weight members: for every specification and every weight of decisions (0 for the decision 0), the weighted
    specification with mergeStates comparing the weights yields the members of least total weight. *)
Theorem C49_minimum_weight sp wt : spec_ok sp -> spec_congr sp -> (forall l, wt l 0%nat = 0) ->
  exists d, construct_merge (weighted sp wt) lighter = Some d /\ dd_wf d /\
    forall n v, vec_ok (ar sp) v ->
      (zdd_sem (dd_spec d) n v = true <->
       zdd_sem sp n v = true /\
       forall v', vec_ok (ar sp) v' -> zdd_sem sp n v' = true -> weight wt n v <= weight wt n v').
Proof.
  intros Hok Hc H0. destruct (construct_merge_ok _ _ _ (weighted_merge_ok sp wt Hok Hc)) as (d & E & Ha & Hw & H).
  exists d. split; [done|]. split; [done|]. intros n v Hv. rewrite (proj1 (H n v Hv)). unfold cheapest.
  assert (forall v, zfinal (weighted sp wt) n v =
    match zfinal sp n v with Some s => Some (s, weight wt n v) | None => None end) as Hf.
  { intros v'. unfold zfinal. rewrite weighted_zfinal by done. cbn [weighted get_root fst snd].
    destruct (zfinal_at _ _ _ _ _); [|done]. repeat f_equal. }
  assert (forall v, zdd_sem sp n v = match zfinal sp n v with Some _ => true | None => false end) as Hz
    by (intros v'; apply zdd_eval_final).
  rewrite Hz, Hf. split.
  - intros (s & Es & Hmin). destruct (zfinal sp n v) as [s0|] eqn:Ez; [|done]. split; [done|].
    intros v' Hv'. rewrite Hz. destruct (zfinal sp n v') as [s1|] eqn:Ez'; [|done]. intros _.
    injection Es as <-. specialize (Hmin v' (s1, weight wt n v') Hv'). rewrite Hf, Ez' in Hmin. by apply Hmin.
  - intros [Ez Hmin]. destruct (zfinal sp n v) as [s0|] eqn:E0; [|done]. eexists. split; [done|].
    intros v' s' Hv'. rewrite Hf. destruct (zfinal sp n v') as [s1|] eqn:Ez'; [|done]. intros [= <-]. cbn [snd].
    apply Hmin; [done|]. by rewrite Hz, Ez'.
Qed.

(** With a mergeStates that always returns 0, every accepted vector stays. *)
Theorem C49_keep_all sp : spec_ok sp ->
  exists d, construct_merge sp (fun _ _ => 0%nat) = Some d /\ dd_wf d /\
    forall n v, vec_ok (ar sp) v ->
      zdd_sem (dd_spec d) n v = zdd_sem sp n v /\ bdd_sem (dd_spec d) n v = bdd_sem sp n v.
Proof.
  intros Hok. destruct (merge0_ok sp Hok) as (d & E & Ha & Hw & Enz).
  exists d. split; [done|]. split; [done|]. intros n v Hv.
  assert (vec_ok (ar (dd_spec d)) v) as Hv' by (unfold vec_ok; simpl; by rewrite Ha).
  pose proof (dd_spec_ok _ Hw) as Hdok.
  rewrite (zdd_sem_tree _ Hok), (bdd_sem_tree _ Hok), (zdd_sem_tree _ Hdok), (bdd_sem_tree _ Hdok) by done.
  rewrite <- (tzdd_nz n (root_tree (dd_spec d))), <- (tbdd_nz n (root_tree (dd_spec d))), Enz.
  by rewrite tzdd_nz, tbdd_nz.
Qed.

(** Non-trivial case: the sets of odd size over three levels of weights 2, 2, 5.  The members are {1}, {2}, {3}, {1,2,3};
    the lightest are {1} and {2}. *)
Definition odd3 : spec := Spec bool 2 (3, false)
  (fun s l b => let s' := xorb s (b =? 1)%nat in if l =? 1 then (if s' then -1 else 0, s') else (l - 1, s'))
  (fun _ => Bool.eqb) (fun _ s => if s then 1%N else 0%N).
Definition wt3 (l b : nat) : Z := if (b =? 0)%nat then 0 else if (l =? 3)%nat then 5 else 2.
Definition family3 (sp : spec) : list (list nat) :=
  List.filter (fun bs => zdd_sem sp 3 (vec_of bs))
    [[0; 0; 0]; [1; 0; 0]; [0; 1; 0]; [1; 1; 0]; [0; 0; 1]; [1; 0; 1]; [0; 1; 1]; [1; 1; 1]]%nat.
Example C49_case : spec_ok odd3 /\ spec_congr odd3 /\ (forall l, wt3 l 0 = 0) /\
  merge_ok (weighted odd3 wt3) lighter snd /\
  (exists d, construct_merge (weighted odd3 wt3) lighter = Some d /\ family3 (dd_spec d) = [[1; 0; 0]; [0; 1; 0]]%nat) /\
  family3 odd3 = [[1; 0; 0]; [0; 1; 0]; [0; 0; 1]; [1; 1; 1]]%nat.
Proof.
  assert (spec_congr odd3) as Hc.
  { split.
    - intros l s _. cbn. apply eqb_reflx.
    - intros l s s' _ _. cbn. by destruct s, s'.
    - intros l s s' s'' _ _ _. cbn. by destruct s, s', s''.
    - intros l s s' b _ _ _ E. apply eqb_prop in E as ->. split; [done|]. intros _. cbn. apply eqb_reflx. }
  assert (spec_ok odd3) as Hok.
  { split; [cbn; lia| |].
    - intros l s b _ _. cbn. destruct (Z.eqb_spec l 1) as [->|]; [|cbn; lia]. by destruct (xorb _ _).
    - apply congr_same_future, Hc. }
  split; [done|]. split; [done|]. split; [done|]. split; [by apply weighted_merge_ok|]. split.
  - assert ((d ← construct_merge (weighted odd3 wt3) lighter; Some (family3 (dd_spec d))) = Some [[1; 0; 0]; [0; 1; 0]]%nat) as E
      by (vm_compute; done).
    destruct (construct_merge (weighted odd3 wt3) lighter) as [d|]; [|done]. exists d. split; [done|]. by apply (inj Some).
  - by vm_compute.
Qed.

(** ** The parallel builder (useMP = true) does not have the property *)

(** every vector is a member *)
Definition full (n : Z) (next : Z -> nat -> Z) : spec := Spec unit 2 (n, tt)
  (fun s l b => (if 1 <? l then next l b else -1, s)) (fun _ _ _ => true) (fun _ _ => 0%N).
Lemma full_ok n next : (forall l b, 1 < l -> next l b < l) -> spec_ok (full n next) /\ spec_congr (full n next).
Proof.
  intros Hn. assert (spec_congr (full n next)) as Hc by (split; try done; intros l s s' b; destruct s, s'; done).
  split; [|done]. split; [cbn; lia| |by apply congr_same_future].
  intros l s b Hr _. cbn. destruct (Z.ltb_spec 1 l); [by apply Hn|].
  assert (0 < l); [|lia]. clear -Hr. by destruct Hr.
Qed.

(** It never compares the states of the 1-terminal: a member that is not cheapest stays.  One level, both decisions accepted,
    decision 1 has weight 1; built without OpenMP (one thread, one task). *)
Theorem C49_parallel_terminals_refuted : exists sp wt,
  spec_ok sp /\ spec_congr sp /\ (forall l, wt l 0%nat = 0) /\
  exists d v v', construct_merge_mp (weighted sp wt) lighter 1 1 sched1 = Some d /\
    vec_ok (ar sp) v /\ zdd_sem (dd_spec d) 1 v = true /\
    vec_ok (ar sp) v' /\ zdd_sem sp 1 v' = true /\ weight wt 1 v' < weight wt 1 v.
Proof.
  exists (full 1 (fun _ _ => 0)), (fun _ b => Z.of_nat b).
  destruct (full_ok 1 (fun _ _ => 0)) as [H1 H2]; [intros; lia|].
  split; [done|]. split; [done|]. split; [done|].
  assert ((d ← construct_merge_mp (weighted (full 1 (fun _ _ => 0)) (fun _ b => Z.of_nat b)) lighter 1 1 sched1;
           Some (zdd_sem (dd_spec d) 1 (fun _ => 1%nat))) = Some true) as E by (vm_compute; done).
  destruct (construct_merge_mp _ _ _ _ _) as [d|]; [|done]. exists d, (fun _ => 1%nat), (fun _ => 0%nat).
  split; [done|]. split; [intros l; cbn; lia|]. split; [by apply (inj Some)|]. split; [intros l; cbn; lia|]. done.
Qed.

(** When a cheaper state replaces one that has already absorbed an equal one, the branch of the absorbed state is left at a
    node that is never initialised: following the decisions 0, 0 from the root leads to a node without valid branches. *)
Theorem C49_parallel_uninitialised_refuted : exists sp wt,
  spec_ok sp /\ spec_congr sp /\ (forall l, wt l 0%nat = 0) /\
  exists d f g, construct_merge_mp (weighted sp wt) lighter 1 1 sched1 = Some d /\
    child (tab d) (rt d) 0 = Some f /\ child (tab d) f 0 = Some g /\ row g = 1%nat /\
    child (tab d) g 0 = Some junk /\ ~ valid (tab d) junk.
Proof.
  set (nx := fun l b => if (l =? 3) && (b =? 0)%nat then 2 else 1).
  set (wt := fun l b : nat => if (l =? 3)%nat then - Z.of_nat b else 0).
  exists (full 3 nx), wt.
  destruct (full_ok 3 nx) as [H1 H2].
  { intros l b. unfold nx. destruct (Z.eqb_spec l 3), (Nat.eqb_spec b 0); cbn; lia. }
  split; [done|]. split; [done|].
  split; [intros l; unfold wt; by destruct (l =? 3)%nat|].
  assert ((d ← construct_merge_mp (weighted (full 3 nx) wt) lighter 1 1 sched1;
           f ← child (tab d) (rt d) 0; g ← child (tab d) f 0; h ← child (tab d) g 0; Some (row g, h))
          = Some (1%nat, junk)) as E by (vm_compute; done).
  destruct (construct_merge_mp _ _ _ _ _) as [d|]; [|done]. cbn [mbind option_bind] in E.
  destruct (child (tab d) (rt d) 0) as [f|] eqn:Ef; [|done]. cbn [mbind option_bind] in E.
  destruct (child (tab d) f 0) as [g|] eqn:Eg; [|done]. cbn [mbind option_bind] in E.
  destruct (child (tab d) g 0) as [h|] eqn:Eh; [|done]. cbn [mbind option_bind] in E.
  assert (row g = 1%nat /\ h = junk) as [Hr ->] by (split; congruence).
  exists d, f, g. split_and!; try done. unfold valid. cbn. lia.
Qed.

Print Assumptions C49_minimum.
Print Assumptions C49_minimum_weight.
Print Assumptions C49_keep_all.
Print Assumptions C49_case.
Print Assumptions C49_parallel_terminals_refuted.
Print Assumptions C49_parallel_uninitialised_refuted.
