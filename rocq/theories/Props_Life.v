(** C51, C52: the state objects of a construction live exactly as long as they should.
    In M_Life.v every misuse of state memory (use of an unconstructed or destructed state, a second
    construction, use of released memory, a leak) makes the run fail; S_Life.v is the contract of a
    specification's memory operations. *)
From stdpp Require Import gmap.
From Verif Require Import Base Sem Ex M_Table M_Engine M_Builder M_Merge M_Ops M_Life S_Merge S_Life P_Life P_Life2 P_Merge5 P_Merge6 P_Merge7 Props_Merge.
Local Open Scope Z_scope.

(** ** The builder *)
(** For all specifications whose memory operations keep the contract, with or without mergeStates, and whatever newly
    allocated memory holds: the construction with explicit memory makes no misuse, yields the same diagram as the
    construction over values, and no memory is left. *)
Theorem C51_builder sp L mrg fresh d : life_ok sp L -> (forall k, l_rawb L (fresh k) = true) ->
  construct_merge sp mrg = Some d -> lbuild sp L mrg fresh = Some (d, ∅).
Proof. apply lbuild_ok. Qed.

(** In particular it always succeeds for a specification without mergeStates ... *)
Theorem C51_default sp L fresh : spec_ok sp -> life_ok sp L -> (forall k, l_rawb L (fresh k) = true) ->
  exists d, lbuild sp L (fun _ _ => 0%nat) fresh = Some (d, ∅) /\
    forall n v, vec_ok (ar sp) v ->
      zdd_sem (dd_spec d) n v = zdd_sem sp n v /\ bdd_sem (dd_spec d) n v = bdd_sem sp n v.
Proof.
  intros Hok HL Hf. destruct (C49_keep_all sp Hok) as (d & E & _ & H). exists d. split; [|done]. by apply lbuild_ok.
Qed.
(** ... and for one with a lawful mergeStates. *)
Theorem C51_merging sp L mrg cost fresh : merge_ok sp mrg cost -> life_ok sp L -> (forall k, l_rawb L (fresh k) = true) ->
  exists d, lbuild sp L mrg fresh = Some (d, ∅).
Proof.
  intros Hm HL Hf. destruct (construct_merge_ok _ _ _ Hm) as (d & E & _). exists d. by apply lbuild_ok.
Qed.

(** ** The classes a specification is derived from *)
Theorem C52_base_classes sp :
  life_full sp (ls_state sp) /\ life_full sp (ls_pod sp) /\ life_full sp (ls_hybrid sp true) /\
  forall s0, (forall s : St sp, s = s0) -> life_full sp (ls_stateless sp s0).
Proof. split; [apply state_full|]. split; [apply pod_full|]. split; [apply hybrid_full|]. apply stateless_full. Qed.

Theorem C52_full_is_enough sp L : life_full sp L -> life_ok sp L.
Proof. apply P_Life2.full_ok. Qed.

(** ** The operations on specifications keep the contract, for all specifications with any kind of state *)
Theorem C52_unary sp L : life_full sp L ->
  life_full (bdd_lookahead sp) (ls_bdd_lookahead sp L) /\
  life_full (zdd_lookahead sp) (ls_zdd_lookahead sp L) /\
  forall zdd nv, life_full (unreduction sp zdd nv) (ls_unreduction sp L zdd nv).
Proof.
  intros F. split; [by apply bdd_lookahead_full|]. split; [by apply zdd_lookahead_full|].
  intros zdd nv. by apply unreduction_full.
Qed.

(** the two-state operations, where the first root decides whether getRoot builds both states *)
Theorem C52_binary_partial sp1 sp2 L1 L2 : life_full sp1 L1 -> life_full sp2 L2 ->
  life_ok (zdd_union sp1 sp2) (ls_union sp1 sp2 L1 L2) /\
  (fst (get_root sp1) <> 0 -> life_ok (bdd_and sp1 sp2) (ls_and sp1 sp2 L1 L2)) /\
  (0 <= fst (get_root sp1) -> life_ok (bdd_or sp1 sp2) (ls_or sp1 sp2 L1 L2)) /\
  (fst (get_root sp1) <> 0 -> life_full (zdd_intersection sp1 sp2) (ls_inter sp1 sp2 L1 L2)).
Proof.
  intros F1 F2. split; [by apply P_Life2.union_ok|]. split; [by apply P_Life2.and_ok|]. split; [by apply P_Life2.or_ok|]. by apply P_Life2.inter_full.
Qed.
(** for nested operations: the result can be an operand again *)
Theorem C52_binary_nested sp1 sp2 L1 L2 : life_full sp1 L1 -> life_full sp2 L2 ->
  (0 < fst (get_root sp1) \/ 0 < fst (get_root sp2) -> life_full (zdd_union sp1 sp2) (ls_union sp1 sp2 L1 L2)) /\
  (fst (get_root sp1) <> 0 -> fst (get_root sp2) <> 0 -> life_full (bdd_and sp1 sp2) (ls_and sp1 sp2 L1 L2)) /\
  (0 <= fst (get_root sp1) -> 0 <= fst (get_root sp2) -> life_full (bdd_or sp1 sp2) (ls_or sp1 sp2 L1 L2)).
Proof.
  intros F1 F2. split; [by apply union_full|]. split; [by apply and_full|]. by apply or_full.
Qed.

(** ** Where the property fails *)
(** BddAnd, BddOr and ZddIntersection: when the first root is the terminal that decides the result, getRoot leaves the
    second state unconstructed, and destruct destructs it.  Every construction of such an operation whose second state
    is an object (DdSpec) is undefined. *)
Theorem C52_and_refuted sp1 sp2 L1 mrg fresh : life_full sp1 L1 -> fst (get_root sp1) = 0 ->
  (forall k, l_rawb (ls_and sp1 sp2 L1 (ls_state sp2)) (fresh k) = true) ->
  lbuild (bdd_and sp1 sp2) (ls_and sp1 sp2 L1 (ls_state sp2)) mrg fresh = None.
Proof.
  intros F1 E0 Hf. unfold lbuild. rewrite lookup_insert. cbn [mbind option_bind].
  cbn [ls_and l_root]. unfold land_root.
  destruct (proj1 (andb_true_iff _ _) (Hf 1%nat)) as [R1 R2].
  destruct (lf_root _ _ F1 _ R1) as (t1 & -> & V1). cbn [mbind option_bind]. rewrite E0. rewrite Z.eqb_refl.
  cbn [mbind option_bind]. change (0 <=? 0) with true. cbn [mbind option_bind].
  unfold h_destruct. rewrite lookup_insert. cbn [mbind option_bind ls_and l_destruct]. unfold bm_destruct. cbn [bm_1 bm_2].
  destruct (l_destruct L1 t1); cbn [mbind option_bind]; [|done].
  cbn [ls_state l_destruct]. destruct (fresh 1%nat) as [a b c e]. cbn [bm_2] in *. by destruct e.
Qed.
Theorem C52_or_refuted sp1 sp2 L1 mrg fresh : life_full sp1 L1 -> fst (get_root sp1) < 0 ->
  (forall k, l_rawb (ls_or sp1 sp2 L1 (ls_state sp2)) (fresh k) = true) ->
  lbuild (bdd_or sp1 sp2) (ls_or sp1 sp2 L1 (ls_state sp2)) mrg fresh = None.
Proof.
  intros F1 E0 Hf. unfold lbuild. rewrite lookup_insert. cbn [mbind option_bind].
  cbn [ls_or l_root]. unfold lor_root.
  destruct (proj1 (andb_true_iff _ _) (Hf 1%nat)) as [R1 R2].
  destruct (lf_root _ _ F1 _ R1) as (t1 & -> & V1). cbn [mbind option_bind].
  destruct (Z.ltb_spec (fst (get_root sp1)) 0); [|lia].
  cbn [mbind option_bind]. change (-1 <=? 0) with true. cbn [mbind option_bind].
  unfold h_destruct. rewrite lookup_insert. cbn [mbind option_bind ls_or l_destruct]. unfold bm_destruct. cbn [bm_1 bm_2].
  destruct (l_destruct L1 t1); cbn [mbind option_bind]; [|done].
  cbn [ls_state l_destruct]. destruct (fresh 1%nat) as [a b c e]. cbn [bm_2] in *. by destruct e.
Qed.
Theorem C52_intersection_refuted sp1 sp2 L1 mrg fresh : life_full sp1 L1 -> fst (get_root sp1) = 0 ->
  (forall k, l_rawb (ls_inter sp1 sp2 L1 (ls_state sp2)) (fresh k) = true) ->
  lbuild (zdd_intersection sp1 sp2) (ls_inter sp1 sp2 L1 (ls_state sp2)) mrg fresh = None.
Proof.
  intros F1 E0 Hf. unfold lbuild. rewrite lookup_insert. cbn [mbind option_bind].
  cbn [ls_inter l_root]. unfold lint_root.
  destruct (proj1 (andb_true_iff _ _) (Hf 1%nat)) as [R1 R2].
  destruct (lf_root _ _ F1 _ R1) as (t1 & -> & V1). cbn [mbind option_bind]. rewrite E0. rewrite Z.eqb_refl.
  cbn [mbind option_bind]. change (0 <=? 0) with true. cbn [mbind option_bind].
  unfold h_destruct. rewrite lookup_insert. cbn [mbind option_bind ls_inter l_destruct fst snd].
  destruct (l_destruct L1 t1); cbn [mbind option_bind]; [|done].
  cbn [ls_state l_destruct]. destruct (fresh 1%nat) as [c e]. cbn [snd] in *. by destruct e.
Qed.

(** HybridDdSpec never destructs its scalar: with a scalar type that has a destructor every construction leaks. *)
Theorem C52_hybrid_refuted sp mrg fresh : (forall k, l_rawb (ls_hybrid sp false) (fresh k) = true) ->
  lbuild sp (ls_hybrid sp false) mrg fresh = None.
Proof.
  intros Hf. unfold lbuild. rewrite lookup_insert. cbn [mbind option_bind]. pose proof (Hf 1%nat) as R1.
  cbn [ls_hybrid l_root l_rawb] in *. rewrite R1. cbn [mbind option_bind].
  destruct (_ <=? 0).
  - unfold h_destruct. rewrite lookup_insert. cbn [mbind option_bind ls_hybrid l_destruct].
    unfold h_free. rewrite lookup_insert. cbn [mbind option_bind ls_hybrid l_rawb orb isn]. done.
  - destruct (sn_push _ _ _); cbn [mbind option_bind]; [|done].
    destruct (h_copy _ _ _ _ _) as [H|] eqn:Ec; cbn [mbind option_bind]; [|done].
    unfold h_copy in Ec. rewrite lookup_insert in Ec. cbn [mbind option_bind] in Ec.
    rewrite lookup_insert_ne, lookup_insert in Ec by done. cbn [mbind option_bind] in Ec.
    destruct (l_copy _ _ _) as [m|]; cbn [mbind option_bind] in Ec; [|done]. injection Ec as <-.
    unfold h_destruct. rewrite lookup_insert_ne, lookup_insert_ne, lookup_insert by done. cbn [mbind option_bind ls_hybrid l_destruct].
    unfold h_free. rewrite lookup_insert. cbn [mbind option_bind ls_hybrid l_rawb orb isn]. done.
Qed.

(** ** Cases *)
(** a specification with object states and mergeStates: lightest sets of odd size *)
Example C51_case : life_full (weighted odd3 wt3) (ls_state (weighted odd3 wt3)) /\
  exists d, lbuild (weighted odd3 wt3) (ls_state (weighted odd3 wt3)) lighter (fun _ => None) = Some (d, ∅) /\
    family3 (dd_spec d) = [[1; 0; 0]; [0; 1; 0]]%nat.
Proof.
  split; [apply state_full|]. destruct C49_case as (_ & _ & _ & _ & (d & E & H) & _). exists d. split; [|done].
  apply lbuild_ok; [apply P_Life2.full_ok, state_full|done|done].
Qed.
(** nested operations over three different kinds of states; the operands and the result keep the contract *)
Example C52_nested_case :
  life_full (zdd_lookahead (zdd_intersection odd3 (zdd_union (unreduction odd3 true 3) odd3)))
    (ls_zdd_lookahead _ (ls_inter _ _ (ls_state odd3)
       (ls_union _ _ (ls_unreduction odd3 (ls_pod odd3) true 3) (ls_hybrid odd3 true)))).
Proof.
  apply C52_unary. apply C52_binary_partial; [apply state_full| |done].
  apply C52_binary_nested; [|apply hybrid_full|by left]. apply C52_unary, pod_full.
Qed.
(** the 0-terminal intersected with something: undefined *)
Example C52_refuted_case : construct_merge (zdd_intersection (full 0 (fun l _ => l - 1)) odd3) (fun _ _ => 0%nat) <> None /\
  lbuild (zdd_intersection (full 0 (fun l _ => l - 1)) odd3)
    (ls_inter _ _ (ls_state (full 0 (fun l _ => l - 1))) (ls_state odd3)) (fun _ _ => 0%nat) (fun _ => (None, None)) = None.
Proof.
  split; [by vm_compute|]. apply C52_intersection_refuted; [apply state_full|done|done].
Qed.

Print Assumptions C51_builder.
Print Assumptions C51_default.
Print Assumptions C51_merging.
Print Assumptions C52_base_classes.
Print Assumptions C52_full_is_enough.
Print Assumptions C52_unary.
Print Assumptions C52_binary_partial.
Print Assumptions C52_binary_nested.
Print Assumptions C52_and_refuted.
Print Assumptions C52_or_refuted.
Print Assumptions C52_intersection_refuted.
Print Assumptions C52_hybrid_refuted.
Print Assumptions C51_case.
Print Assumptions C52_nested_case.
Print Assumptions C52_refuted_case.
