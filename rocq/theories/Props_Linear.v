(** C28: LinearConstraints. *)
From stdpp Require Import sorting.
From Verif Require Import Base Sem Ex M_Table M_Engine M_Builder P_Builder M_Size M_Linear S_Spec P_Size P_Linear P_Linear2 P_Linear3.
Local Open Scope Z_scope.

Lemma lin_levels L s l b : 0 < l -> -1 <= fst (get_child (lin_spec L) s l b) < l.
Proof.
  intros Hl. cbn [lin_spec get_child]. unfold lin_child. destruct (checklists L !! Z.to_nat l) as [its|]; cbn [mbind option_bind]; [|cbn [default fst]; lia].
  destruct (lin_items its s _) as [[ok s']|]; cbn [mbind option_bind default id fst]; [|lia].
  destruct ok; [|lia]. destruct (Z.leb_spec 1 (Z.of_nat (Z.to_nat l) - 1)); lia.
Qed.

(** What is built from any well-formed list of constraints. *)
Lemma lin_build_ok (n : nat) cs : Forall (lin_wf n) cs ->
  exists L K M, lin_build n cs = Some L /\ lin_n L = n /\
    (if isFalse L then forall v, ~ Forall (lin_sat v) cs else forall v, Forall (lin_sat v) cs <-> Forall (lin_sat v) K) /\
    Forall (fun c => lin_wf n c /\ ce c <> []) K /\
    (forall l, (1 <= l <= n)%nat -> checklists L !! l = Some (map (relab M) (items 0 K l))) /\
    (forall l i, (1 <= l <= n)%nat -> spans K l i -> (M i < arraySize L)%nat) /\
    (forall l i j, (1 <= l <= n)%nat -> spans K l i -> spans K l j -> M i = M j -> i = j) /\
    podSize L = Some (arraySize L).
Proof.
  intros Hwf. unfold lin_build. destruct (lin_adds_ok n cs Hwf) as (L0 & -> & K & HA & HK). cbn [mbind option_bind].
  destruct (update_ok n K L0 HA) as (L & M & E & Hn & HF & _ & Hp & Hl & Hr & Hd).
  exists L, K, M. rewrite HF. split_and!; [done|done|done|apply HA|done..].
Qed.

(** For every list of constraints over the levels 1..n the object can be built, and the specification accepts exactly the
    sets satisfying all of them, in the ZDD and in the BDD reading. *)
Theorem C28_linear_constraints : forall (n : nat) (cs : list (lin_expr * Z * Z)), (1 <= n)%nat -> Forall (lin_wf n) cs ->
  exists L, lin_build n cs = Some L /\
  forall v, (zdd_sem (lin_spec L) n v = true <-> Forall (lin_sat v) cs) /\
            bdd_sem (lin_spec L) n v = zdd_sem (lin_spec L) n v.
Proof.
  intros n cs Hn Hwf. destruct (lin_build_ok n cs Hwf) as (L & K & M & E & HnL & HF & HK & Hl & Hr & Hd & _).
  exists L. split; [done|]. intros v. unfold zdd_sem, bdd_sem. cbn [lin_spec get_root lin_root fst snd]. fold (lin_spec L).
  destruct (isFalse L) eqn:EF.
  - rewrite zdd_eval_zero, bdd_eval_zero. split; [|done]. split; [done|]. intros H. by apply HF in H.
  - rewrite HnL, HF. apply (lin_eval n K L M HK Hl Hr Hd HnL v n); [lia|]. by apply sound_init.
Qed.

(** Every array access is in range, in every state that can occur. *)
Theorem C28_memory_safe : forall (n : nat) (cs : list (lin_expr * Z * Z)) (L : lin), Forall (lin_wf n) cs ->
  lin_build n cs = Some L ->
  forall l s b, reach (lin_spec L) l s -> is_Some (lin_child L s (Z.to_nat l) (negb (b =? 0)%nat)).
Proof.
  intros n cs L Hwf E. destruct (lin_build_ok n cs Hwf) as (L' & K & M & E' & HnL & HF & HK & Hl & Hr & Hd & _).
  assert (L' = L) as -> by congruence. intros l s b Hre. destruct (isFalse L) eqn:EF.
  - exfalso. clear -Hre EF. induction Hre as [H|]; [|done]. cbn [lin_spec get_root lin_root fst] in H. rewrite EF in H. lia.
  - eapply lin_safe; try done.
Qed.

(** It meets the contract of specifications. *)
Theorem C28_contract : forall (n : nat) (cs : list (lin_expr * Z * Z)) (L : lin), lin_build n cs = Some L ->
  let sp := lin_spec L in spec_ok sp /\ spec_congr sp /\ one_code sp /\ shareable sp.
Proof.
  intros n cs L _ sp. split_and!.
  - constructor.
    + simpl; lia.
    + intros l s b Hr _. by apply lin_levels, (reach_pos _ _ _ Hr).
    + intros l s s' _ _ H. apply bool_decide_eq_true in H. subst. by intros bs _.
  - constructor; cbn [sp lin_spec equal_to].
    + intros. by apply bool_decide_eq_true.
    + intros. apply bool_decide_ext. naive_solver.
    + intros l s s' s'' _ _ _ H1 H2. apply bool_decide_eq_true in H1, H2. apply bool_decide_eq_true. congruence.
    + intros l s s' b _ _ _ H. apply bool_decide_eq_true in H. subst. split; [done|]. intros _. by apply bool_decide_eq_true.
  - split.
    + cbn [sp lin_spec get_root lin_root fst]. destruct (isFalse L); lia.
    + intros l s b Hr _. by apply lin_levels, (reach_pos _ _ _ Hr).
  - split; cbn [sp lin_spec equal_to hash_code].
    + intros. apply bool_decide_ext. naive_solver.
    + intros l s s' H. apply bool_decide_eq_true in H. by subst.
Qed.

(** The constructed diagram. *)
Theorem C28_diagram : forall (n : nat) (cs : list (lin_expr * Z * Z)), (1 <= n)%nat -> Forall (lin_wf n) cs ->
  exists L d, lin_build n cs = Some L /\ construct_dd (lin_spec L) = Some d /\
  forall v, vec_ok 2 v -> zdd_sem (dd_spec d) n v = true <-> Forall (lin_sat v) cs.
Proof.
  intros n cs Hn Hwf. destruct (C28_linear_constraints n cs Hn Hwf) as (L & E & HS).
  destruct (C28_contract n cs L E) as (Hok & _). destruct (construct_built _ Hok) as (d & Ed & HB).
  exists L, d. split_and!; [done|done|]. intros v Hv. destruct (built_sem _ d n v Hok HB Hv) as [_ ->]. apply HS.
Qed.

(** x2 + 2 x4 - 3 x5 in [-1,1], x1 - x3 in [0,0], 5 x1 <= 9 (always true, dropped): the two remaining constraints
    use two cells; with a third constraint x6 + x7 >= 1 the cells are reused and still two cells suffice *)
Example C28_case :
  let cs := [([(2%nat, 1); (4%nat, 2); (5%nat, -3)], -1, 1); ([(1%nat, 1); (3%nat, -1)], 0, 0); ([(1%nat, 5)], 0, 9);
             ([(6%nat, 1); (7%nat, 1)], 1, 2)] in
  Forall (lin_wf 7) cs /\
  exists L d, lin_build 7 cs = Some L /\ arraySize L = 2%nat /\ constraintId L = 3%nat /\
    construct_dd (lin_spec L) = Some d /\ map length (tab d) = [2; 2; 2; 1; 2; 1; 2; 1]%nat /\
    zdd_sem (dd_spec d) 7 (vec_of [1;1;1;1;1;0;1]%nat) = true /\
    zdd_sem (dd_spec d) 7 (vec_of [1;1;0;1;1;0;1]%nat) = false /\
    zdd_sem (dd_spec d) 7 (vec_of [1;0;1;0;1;0;1]%nat) = false.
Proof.
  cbn zeta. split.
  { repeat constructor; simpl; lia. }
  do 2 eexists. split_and!; [vm_compute; reflexivity|by vm_compute|by vm_compute|vm_compute; reflexivity|by vm_compute..].
Qed.

Print Assumptions C28_linear_constraints.
Print Assumptions C28_memory_safe.
Print Assumptions C28_contract.
Print Assumptions C28_diagram.
