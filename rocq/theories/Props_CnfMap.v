(** C64: cnfbdd -n with the map to canonical clauses. *)
From stdpp Require Import gmap sorting.
From Verif Require Import Base Sem Ex M_Table Tree M_Engine M_Builder P_Builder M_Reducer M_Subset M_Eval S_Eval S_Big M_Ops M_Conv M_Iter P_Code P_Conv Props_Conv Props_Eval Props_Iter Props_Builder Props_Reduce M_Equal S_Api P_Api Props_Api M_Cnf S_Cnf P_Cnf1 Props_Cnf
  M_CnfBdd P_CnfBdd Props_CnfBdd M_CnfMap P_CnfMap Sem.
Local Open Scope Z_scope.

(** Clauses with the same canonical number at a level have the same literals at this level and below, whatever order std::sort gives to
    equal clauses. *)
Theorem C64_map : forall (sort : bool) (nv nc : nat) (Cs : list (list Z)) (numbers : list Z) cnf cp i k k' c c',
  dimacs Cs numbers -> cb_load sort nv nc numbers 0 cnf -> relaxed cnf cp -> (i <= nv)%nat -> cnf !! k = Some c -> cnf !! k' = Some c' ->
  clause_map nv cp (Z.of_nat i) (Z.of_nat k + 1) = clause_map nv cp (Z.of_nat i) (Z.of_nat k' + 1) ->
  forall x, (level_of nv (Z.abs x) <= i)%nat -> Z.abs x <= Z.of_nat nv -> x ∈ c <-> x ∈ c'.
Proof.
  intros sort nv nc Cs numbers cnf cp i k k' c c' HD HL HR Hi Hk Hk' E x Hx Hxn. pose proof (cb_canon sort nv nc Cs numbers HD cnf HL) as Hcan. pose proof (clause_map_sound nv cnf Hcan cp HR) as HS.
  destruct (HS (Z.of_nat i) (Z.of_nat k + 1) c ltac:(lia)) as (d & Hd & R1); [apply numbered_elem; exists k; split; [done|lia]|]. destruct (HS (Z.of_nat i) (Z.of_nat k' + 1) c' ltac:(lia)) as (d' & Hd' & R2); [apply numbered_elem; exists k'; split; [done|lia]|].
  rewrite E in Hd. rewrite (number_fun cnf _ d d' Hd Hd') in R1. assert (level_of_lit nv x <= Z.of_nat i) as Hl by (unfold level_of_lit, level_of in *; lia). rewrite (R1 x Hl). symmetry. by apply R2.
Qed.

(** States with the same canonical numbers have the same future: the specification keeps the contract, and it stands for the conjunction of the
    clauses. *)
Theorem C64_specification : forall (sort : bool) (nv nc : nat) (Cs : list (list Z)) (numbers : list Z) cnf cp, dimacs Cs numbers -> Z.of_nat nc <= 65535 ->
  cb_load sort nv nc numbers 0 cnf -> relaxed cnf cp ->
  let sp := cm_spec nv cnf (clause_map nv cp) in
  spec_ok sp /\ one_code sp /\ (top_level sp <= nv)%nat /\ hash_ok sp /\
  forall w, vec_ok 2 w -> bdd_sem sp nv w = true <-> models Cs (values nv w).
Proof.
  intros sort nv nc Cs numbers cnf cp HD Hnc HL HR sp. pose proof (cb_canon sort nv nc Cs numbers HD cnf HL) as Hcan. pose proof (cb_small sort nv nc Cs numbers HD cnf HL Hnc) as Hsm. pose proof (clause_map_sound nv cnf Hcan cp HR) as HS.
  destruct (cm_contract nv cnf Hcan Hsm _ HS) as (H1 & H2 & H3). split; [done|]. split; [done|]. split; [done|]. split.
  - intros l s s' _ _ E. cbn [sp cm_spec equal_to] in E. apply bool_decide_eq_true in E. cbn [sp cm_spec hash_code]. by rewrite E.
  - intros w Hw. unfold sp. rewrite cm_sem. destruct (no_analysis nv cnf) as [N1 N2]. exact (cb_family sort nv nc Cs numbers HD cnf HL Hnc _ ANone w N1 N2 Hw).
Qed.

Lemma relaxing_trans : Transitive (fun a b => relaxing_cmp b a = false).
Proof.
  intros a. induction a as [|x a IH]; intros [|y b] [|z c]; cbn [relaxing_cmp length Nat.ltb Nat.leb]; try done.
  specialize (IH b c). repeat match goal with |- context [Z.eqb ?a ?b] => destruct (Z.eqb_spec a b) | |- context [Z.ltb ?a ?b] => destruct (Z.ltb_spec a b) end; cbn [negb]; try (intros; try discriminate; try reflexivity; lia); auto.
Qed.
Lemma relaxing_total a b : relaxing_cmp b a = false \/ relaxing_cmp a b = false.
Proof.
  revert b. induction a as [|x a IH]; intros [|y b]; cbn [relaxing_cmp length Nat.ltb Nat.leb]; auto.
  specialize (IH b). repeat match goal with |- context [Z.eqb ?a ?b] => destruct (Z.eqb_spec a b) | |- context [Z.ltb ?a ?b] => destruct (Z.ltb_spec a b) end; cbn [negb]; auto; try lia; try (left; reflexivity); try (right; reflexivity).
Qed.
Lemma relaxed_exists cnf : exists cp, relaxed cnf cp.
Proof.
  set (cmp := fun a b : Z * list Z => relaxing_cmp (snd a) (snd b)). exists (std_sort cmp (reversed cnf)). split; [apply std_sort_perm|].
  apply (std_sort_sorted cmp); [intros a b c; apply relaxing_trans|intros a b; apply relaxing_total].
Qed.
Lemma map_good0 sort nv nc Cs numbers cnf cp d0 : dimacs Cs numbers -> Z.of_nat nc <= 65535 -> cb_load sort nv nc numbers 0 cnf -> relaxed cnf cp -> construct_dd (cm_spec nv cnf (clause_map nv cp)) = Some d0 ->
  dd_wf d0 /\ d_ar d0 = 2%nat /\ (row (rt d0) <= nv)%nat /\ forall w, vec_ok 2 w -> bdd_sem (dd_spec d0) nv w = true <-> models Cs (values nv w).
Proof.
  intros HD Hnc HL HR HC. destruct (C64_specification sort nv nc Cs numbers cnf cp HD Hnc HL HR) as (Hok & H1 & Htop & _ & Hsem). set (sp := cm_spec nv cnf (clause_map nv cp)) in *.
  pose proof (constructed_built sp d0 Hok (con_sequential _ _ HC)) as HB. assert (dd_wf d0) as W0 by apply HB. assert (d_ar d0 = 2%nat) as A0 by apply HB. assert (numVars d0 = top_level sp) as N0 by apply HB.
  pose proof (row_vars 2 ltac:(lia) d0 W0) as Hrow. split; [done|]. split; [done|]. split; [lia|]. intros w Hw. rewrite (proj1 (built_sem sp d0 nv w Hok HB Hw)). by apply Hsem.
Qed.
Lemma map_good sort nv nc Cs numbers d : dimacs Cs numbers -> Z.of_nat nc <= 65535 -> cnfbdd_map sort nv nc numbers 0 d ->
  dd_wf d /\ d_ar d = 2%nat /\ (row (rt d) <= nv)%nat /\ forall w, vec_ok 2 w -> bdd_sem (dd_spec d) nv w = true <-> models Cs (values nv w).
Proof.
  intros HD Hnc (cnf & cp & d0 & HL & HR & HC & Hred). destruct (map_good0 sort nv nc Cs numbers cnf cp d0 HD Hnc HL HR HC) as (W0 & A0 & R0 & S0).
  destruct (C04_bdd_reduce_preserves d0 W0) as [_ HP]. destruct (HP d Hred) as (W & A & HS). pose proof (red_row true false d0 d W0 Hred eq_refl) as Hrow'.
  split; [done|]. split; [by rewrite A|]. split; [lia|]. intros w Hw. rewrite HS; [|lia|by rewrite A0]. by apply S0.
Qed.
(** The program returns for every announced input with up to 65535 clauses, and its diagram maps an assignment to true iff it satisfies the
    clauses. *)
Theorem C64_function : forall (sort : bool) (nv nc : nat) (Cs : list (list Z)) (numbers : list Z), dimacs Cs numbers -> announced nv nc Cs -> Z.of_nat nc <= 65535 ->
  (exists d, cnfbdd_map sort nv nc numbers 0 d) /\
  forall d, cnfbdd_map sort nv nc numbers 0 d -> dd_wf d /\ (row (rt d) <= nv)%nat /\
    forall w, vec_ok 2 w -> bdd_sem (dd_spec d) nv w = true <-> models Cs (values nv w).
Proof.
  intros sort nv nc Cs numbers HD HA Hnc. split.
  - apply (cb_load_iff sort nv nc Cs numbers HD) in HA as [cnf HL]. destruct (relaxed_exists cnf) as [cp HR]. destruct (C64_specification sort nv nc Cs numbers cnf cp HD Hnc HL HR) as (Hok & _).
    destruct (C01_construction_represents_spec _ Hok) as (d0 & E0 & _). assert (dd_wf d0) as W0 by apply (constructed_built _ d0 Hok (con_sequential _ _ E0)). destruct (C04_bdd_reduce_preserves d0 W0) as [[[d1 E1] _] _].
    exists d1, cnf, cp, d0. split; [done|]. split; [done|]. split; [done|]. by apply red_sequential.
  - intros d Hd. destruct (map_good sort nv nc Cs numbers d HD Hnc Hd) as (W & _ & R & HM). done.
Qed.
(** The map changes nothing in the result: the diagrams with and without -c are equal for operator==. *)
Theorem C64_same : forall (sort sort' : bool) (nv nc : nat) (Cs : list (list Z)) (numbers : list Z) m d d' same, dimacs Cs numbers -> Z.of_nat nc <= 65535 ->
  cnfbdd_map sort nv nc numbers 0 d -> cnfbdd sort' m nv nc numbers 0 d' -> (same = true -> tab d = tab d') -> dd_eq same d d' = Some true.
Proof.
  intros sort sort' nv nc Cs numbers m d d' same HD Hnc (cnf & cp & d0 & HL & HR & HC & Hred) (cnf' & T & d0' & HL' & HT & Hin & HC' & Hred') Hs.
  destruct (map_good0 sort nv nc Cs numbers cnf cp d0 HD Hnc HL HR HC) as (W0 & A0 & R0 & S0).
  assert (api_dd 2 nv ABdd d0' (means ABdd (cb_spec nv cnf' T) nv)) as HA by (eapply ad_construct; [by eapply cb_api|by apply con_sequential]). destruct (C54_meaning 2 nv ABdd d0' _ ltac:(lia) HA) as (W0' & A0' & R0' & S0'). cbn [means] in S0'.
  destruct (C09_bdd_canonical nv same d0 d0' d d') as (b & E & Hb); try done; [congruence|]. rewrite E. f_equal. apply Hb. intros w Hw. rewrite A0 in Hw. rewrite S0' by done. apply eq_true_iff_eq. rewrite (S0 w Hw). symmetry. by eapply cb_family.
Qed.

(** The number of solutions that is printed, as in C63_solutions. *)
Theorem C64_solutions : forall (sort : bool) (nv nc : nat) (Cs : list (list Z)) (numbers : list Z) d junk, dimacs Cs numbers -> Z.of_nat nc <= 65535 -> cnfbdd_map sort nv nc numbers 0 d ->
  room_for 2 nv (max_words 2 (row (rt d))) \/ row (rt d) = nv ->
  exists ds A, bdd_cardinality nv (max_words 2) junk d = Some ds /\ decimal ds (N.of_nat (length A)) /\ NoDup A /\
    forall l, l ∈ A <-> length l = nv /\ Forall (fun b => (b < 2)%nat) l /\ models Cs (values nv (vec_of_list l)).
Proof.
  intros sort nv nc Cs numbers d junk HD Hnc Hd Hroom. destruct (map_good sort nv nc Cs numbers d HD Hnc Hd) as (W & A & R & HM).
  assert (exists ds N, bdd_cardinality nv (max_words (d_ar d)) junk d = Some ds /\ decimal ds N /\ number_of (d_ar d) nv (bdd_sem (dd_spec d) nv) N) as (ds & N & E & HN & L & H1 & H2 & H3).
  { destruct Hroom as [Hr|<-]; [apply C14_bdd_cardinality_partial; [done|done|by rewrite A]|by apply C14_bdd_cardinality_top]. }
  rewrite A in E, H3. exists ds, L. split; [done|]. rewrite <- H2. split; [done|]. split; [done|]. intros l. rewrite H3.
  split; intros (Q1 & Q2 & Q3); (split; [done|]); (split; [done|]); apply HM; try done; intros i; unfold vec_of_list; (destruct (le_lt_dec (length l) (i - 1)) as [Hi|Hi]; [rewrite nth_overflow by done; lia|]); rewrite Forall_forall in Q2; apply Q2, elem_of_list_In, nth_In; done.
Qed.
(** The lines written to the output file are the satisfying assignments of the clauses, every one once, as in C63_output. *)
Theorem C64_output : forall (sort : bool) (nv nc : nat) (Cs : list (list Z)) (numbers : list Z) d, dimacs Cs numbers -> Z.of_nat nc <= 65535 -> cnfbdd_map sort nv nc numbers 0 d ->
  exists zdd N sets, bdd2zdd (Z.of_nat nv) d = Some zdd /\ (forall m fuel, (N <= m)%nat -> (N <= fuel)%nat -> dd_sets m fuel zdd = Some sets) /\
    NoDup (map (cb_line nv) sets) /\
    forall line, line ∈ map (cb_line nv) sets <-> exists val, line = signed nv val /\ models Cs val.
Proof.
  intros sort nv nc Cs numbers d HD Hnc Hd. destruct (map_good sort nv nc Cs numbers d HD Hnc Hd) as (W & A & R & HM).
  assert (api_spec 2 nv ABdd (dd_spec d) (means ABdd (dd_spec d) nv)) as HU.
  { apply as_user; [by apply dd_spec_ok|by apply dd_congr|by apply dd_one_code|done|]. unfold top_level. cbn [dd_spec get_root fst]. destruct (neqb _ _); lia. }
  destruct (C22_bdd2zdd d (Z.of_nat nv) W) as (zdd & E & _).
  assert (api_dd 2 nv AZdd zdd (means ABdd (dd_spec d) nv)) as HZ by (eapply ad_construct; [apply as_zdd_lookahead; eapply (as_unreduction 2 nv ABdd AZdd); exact HU|by apply con_sequential]).
  destruct (C54_iteration nv zdd _ HZ) as (N & sets & H1 & H2 & H3). exists zdd, N, sets. split; [done|]. split; [done|].
  assert (announced nv nc Cs) as HA. { destruct Hd as (cnf & cp & d0 & HL & _). apply (cb_load_iff sort nv nc Cs numbers HD). by exists cnf. }
  eapply lines_ok; [done| |done|exact H3]. intros w Hw. cbn [means]. by apply HM.
Qed.

(** ** a case *)
(** The clauses 1 3 and 2 3 with a fourth variable.  Below the second variable both are represented by clause 2.  Below the third variable, where both
    are false, they are different again: equal states can have different successors, so equalTo is no congruence. *)
Definition cnf_map : list (list Z) := [[1; 3]; [2; 3]].
Definition cp_map : list (Z * list Z) := [(2, [3; 2; 0]); (1, [3; 1; 0])].
Example C64_case : announced 4 2 cnf_map /\ cb_load false 4 2 (written cnf_map) 0 cnf_map /\ relaxed cnf_map cp_map /\
  clause_map 4 cp_map 2 1 = 2 /\ clause_map 4 cp_map 2 2 = 2 /\ (exists d, cnfbdd_map false 4 2 (written cnf_map) 0 d /\ room_for 2 4 (max_words 2 (row (rt d)))) /\
  let sp := cm_spec 4 cnf_map (clause_map 4 cp_map) in
  reach sp 2 ([1], [2]) /\ reach sp 2 ([2], [2]) /\ get_child sp ([1], [2]) 2 0 = (1, ([1], [1])) /\ get_child sp ([2], [2]) 2 0 = (1, ([2], [2])) /\ ~ spec_congr sp.
Proof.
  assert (announced 4 2 cnf_map) as HA by (apply announced_alt; split; [lia|]; split; [lia|]; split; [unfold in_range; repeat constructor; lia|done]).
  assert (cb_load false 4 2 (written cnf_map) 0 cnf_map) as HL by (exists cnf_map; split; [vm_compute; reflexivity|done]).
  assert (dimacs cnf_map (written cnf_map)) as HD by (split; [repeat constructor; lia|by left]).
  split; [done|]. split; [done|]. split; [split; [apply Permutation_swap|repeat constructor]|]. split; [done|]. split; [done|]. split.
  { destruct (C64_function false 4 2 cnf_map _ HD HA ltac:(lia)) as [[d Hd] _]. exists d. split; [done|]. unfold room_for, max_words. apply N.pow_lt_mono_r; lia. }
  intros sp. assert (forall l s b l' s', reach sp l s -> (b < 2)%nat -> get_child sp s l b = (l', s') -> 0 < l' -> reach sp l' s') as HR.
  { intros l s b l' s' Hr Hb E Hl. pose proof (reach_child sp l s b Hr Hb) as H. rewrite E in H. by apply H. }
  assert (reach sp 4 ([], [])) as R4 by exact (reach_root sp eq_refl).
  assert (reach sp 3 ([1], [1])) as R31 by (apply (HR 4 ([], []) 0%nat); [done|lia|vm_compute; reflexivity|lia]).
  assert (reach sp 3 ([], [])) as R30 by (apply (HR 4 ([], []) 1%nat); [done|lia|vm_compute; reflexivity|lia]).
  assert (reach sp 2 ([1], [2])) as R21 by (apply (HR 3 ([1], [1]) 1%nat); [done|lia|vm_compute; reflexivity|lia]).
  assert (reach sp 2 ([2], [2])) as R22 by (apply (HR 3 ([], []) 0%nat); [done|lia|vm_compute; reflexivity|lia]).
  assert (get_child sp ([1], [2]) 2 0 = (1, ([1], [1]))) as E1 by (vm_compute; reflexivity). assert (get_child sp ([2], [2]) 2 0 = (1, ([2], [2]))) as E2 by (vm_compute; reflexivity).
  split; [done|]. split; [done|]. split; [done|]. split; [done|].
  intros HG. destruct (cg_child sp HG 2 _ _ 0%nat R21 R22 ltac:(cbn; lia)) as [_ H]; [by apply bool_decide_eq_true|]. rewrite E1, E2 in H. cbn [fst] in H. specialize (H ltac:(lia)). unfold sp in H. cbn [cm_spec equal_to snd] in H. apply bool_decide_eq_true in H. discriminate H.
Qed.

Print Assumptions C64_map.
Print Assumptions C64_specification.
Print Assumptions C64_function.
Print Assumptions C64_same.
Print Assumptions C64_solutions.
Print Assumptions C64_output.
Print Assumptions C64_case.
