(** C34: memory pools. *)
From Verif Require Import Base M_Mem P_Mem M_Pool S_Pool P_Pool.
From stdpp Require Import gmap.

Notation pool_run alloc l := (pexec_all BLOCK_UNITS MAX_ELEMENT_UNITS alloc pworld0 l).
Notation pool_spec l := (pv_run BLOCK_UNITS MAX_ELEMENT_UNITS ∅ l).
Lemma sizes_fact : MAX_ELEMENT_UNITS + 1 <= BLOCK_UNITS.
Proof. apply Nat.leb_le. vm_compute. reflexivity. Qed.

(** Whatever addresses the system allocator returns, and for every program that keeps to the rules of [pv_exec]: nothing
    undefined happens and reading through the pointers gives what was written through them, so writing to one allocation
    changes no other, nor the links between the blocks. *)
Theorem C34_contents : forall alloc, (forall h : mem, h !! alloc h = None) -> forall l m, pool_spec l = Some m ->
  exists w, pool_run alloc l = Some w /\ forall x, pview w x = vallocs <$> m !! x.
Proof.
  intros alloc Ha l m E. destruct (exec_all_ok _ _ sizes_fact alloc Ha l _ _ _ (winv0 _) E) as (w & E' & HW). exists w. split; [exact E'|].
  intros x. by eapply winv_view.
Qed.
(** Different allocations, of one pool or of several, do not overlap, and lie in live blocks after the link unit. *)
Theorem C34_disjoint : forall alloc, (forall h : mem, h !! alloc h = None) -> forall l m w, pool_spec l = Some m -> pool_run alloc l = Some w ->
  forall x p hs i q n, pools w !! x = Some (p, hs) -> hs !! i = Some (q, n) -> n <> 0 ->
  exists b o c, q = Some (b, o) /\ 1 <= o /\ pmem w !! b = Some c /\ o + n <= length c /\
    forall x' p' hs' i' o' n', pools w !! x' = Some (p', hs') -> hs' !! i' = Some (Some (b, o'), n') -> n' <> 0 -> (x, i) <> (x', i') ->
      o + n <= o' \/ o' + n' <= o.
Proof.
  intros alloc Ha l m w E Ew x p hs i q n Hx Hi Hn. destruct (exec_all_ok _ _ sizes_fact alloc Ha l _ _ _ (winv0 _) E) as (w' & E' & (blk & W1 & W2 & _)).
  rewrite Ew in E'. injection E' as <-. pose proof (W1 x) as HI. rewrite Hx in HI. destruct (m !! x) as [v|]; [|done].
  destruct (Forall2_lookup_l _ _ _ _ _ (i_hands _ _ _ _ _ _ HI) Hi) as (vs & _ & (A1 & A2 & A3)). cbn [fst snd] in *. destruct A3 as [?|(b & o & c & -> & Hb & Ho & Ec & Hl & _)]; [done|].
  exists b, o, c. split_and!; try done. intros x' p' hs' i' o' n' Hx' Hi' Hn' Hne. destruct (decide (x' = x)) as [->|Hxx].
  - rewrite Hx in Hx'. injection Hx' as <- <-. destruct (i_apart _ _ _ _ _ _ HI i i' b o n o' n') as [?|[?|?]]; try done. congruence.
  - pose proof (W1 x') as HI'. rewrite Hx' in HI'. destruct (m !! x') as [v'|]; [|done].
    destruct (Forall2_lookup_l _ _ _ _ _ (i_hands _ _ _ _ _ _ HI') Hi') as (vs' & _ & Hh). apply hand_live in Hh; [|done]. by destruct (W2 x x' b).
Qed.
(** When every pool has been destructed no block is left: each was freed exactly once. *)
Theorem C34_no_leak : forall alloc, (forall h : mem, h !! alloc h = None) -> forall l m w, pool_spec l = Some m -> pool_run alloc l = Some w ->
  (forall x, pools w !! x = None) -> pmem w = ∅.
Proof.
  intros alloc Ha l m w E Ew Hnone. destruct (exec_all_ok _ _ sizes_fact alloc Ha l _ _ _ (winv0 _) E) as (w' & E' & (blk & W1 & _ & W3)).
  rewrite Ew in E'. injection E' as <-. apply map_eq. intros b. rewrite lookup_empty. destruct (pmem w !! b) as [c|] eqn:Eb; [|done].
  destruct (W3 b c Eb) as [x Hx]. specialize (W1 x). rewrite Hnone in W1. destruct (m !! x); [done|]. rewrite W1 in Hx. by apply elem_of_nil in Hx.
Qed.

(** concrete cases *)
Definition first_free (h : mem) : nat := fresh (dom (D := gset nat) h).
Lemma first_free_ok h : h !! first_free h = None.
Proof. pose proof (is_fresh (dom (D := gset nat) h)) as H. by apply not_elem_of_dom in H. Qed.
Definition data (n k : nat) : list cell := (fun i => Raw (N.of_nat (i + k))) <$> seq 0 n.
Definition big : nat := N.to_nat 5001.
Definition prog : list pop :=
  [PNew 0; PNew 1; PAlloc 0 24 (data 3 7); PAlloc 0 17 (data 3 100); PAlloc 1 0 []; PAlloc 1 (8 * big) (data 3 1);
   PAlloc 0 (8 * big) (data 4 2); PWrite 0 0 (data 3 55); PSplice 0 1; PAlloc 0 5 (data 1 9); PMove 0 2; PClear 1; PReuse 1;
   PAlloc 1 8 (data 1 3); PReuse 1; PAlloc 1 16 (data 2 3); PDestroy 1].
Example C34_case : exists m, pool_spec prog = Some m /\ exists w, pool_run first_free prog = Some w /\ size (pmem w) = 4.
Proof.
  assert (is_Some (pool_spec prog)) as [m E] by (apply is_Some_alt; vm_compute; exact I).
  exists m. split; [exact E|]. destruct (C34_contents first_free first_free_ok prog m E) as (w & Ew & _). exists w. split; [exact Ew|].
  assert (size <$> (pmem <$> pool_run first_free prog) = Some 4) as H by (vm_compute; reflexivity). rewrite Ew in H. by injection H.
Qed.
(** The rule about reuse() is needed: the block it keeps may be shorter than the pool believes. *)
Definition mid : nat := N.to_nat 4900.
Definition reuse_prog (reuse : bool) : list pop :=
  [PNew 0; PAlloc 0 8 (data 1 1); PAlloc 0 (8 * big) (data 1 2)] ++ (if reuse then [PReuse 0] else []) ++
  [PAlloc 0 (8 * mid) []; PAlloc 0 (8 * mid) []; PAlloc 0 8 (data 1 3)].
Theorem C34_reuse_refuted : pool_run first_free (reuse_prog true) = None /\ exists m w, pool_spec (reuse_prog false) = Some m /\ pool_run first_free (reuse_prog false) = Some w.
Proof.
  split; [vm_compute; reflexivity|].
  assert (is_Some (pool_spec (reuse_prog false))) as [m E] by (apply is_Some_alt; vm_compute; exact I).
  destruct (C34_contents first_free first_free_ok _ m E) as (w & Ew & _). exists m, w. split; [exact E|exact Ew].
Qed.
(** Splicing a pool with itself loses its blocks. *)
Theorem C34_self_splice_refuted : exists w, pool_run first_free [PNew 0; PAlloc 0 8 (data 1 1); PSplice 0 0; PDestroy 0] = Some w /\ pools w !! 0 = None /\ pmem w <> ∅.
Proof.
  assert (is_Some (pool_run first_free [PNew 0; PAlloc 0 8 (data 1 1); PSplice 0 0; PDestroy 0])) as [w E] by (apply is_Some_alt; vm_compute; exact I).
  exists w. split; [exact E|].
  assert ((fun w => (bool_decide (pools w !! 0 = None), size (pmem w))) <$> pool_run first_free [PNew 0; PAlloc 0 8 (data 1 1); PSplice 0 0; PDestroy 0] = Some (true, 1)) as H by (vm_compute; reflexivity).
  rewrite E in H. injection H as H1 H2. apply bool_decide_eq_true in H1. split; [done|]. intros E'. rewrite E' in H2. by rewrite map_size_empty in H2.
Qed.
Print Assumptions C34_contents.
Print Assumptions C34_disjoint.
Print Assumptions C34_no_leak.
Print Assumptions C34_case.
Print Assumptions C34_reuse_refuted.
Print Assumptions C34_self_splice_refuted.
