(** C33: MyList and MyListOnPool. *)
From Verif Require Import Base M_Mem P_Mem M_List S_List P_List M_Pool M_PoolList S_PoolList P_PoolList.
From stdpp Require Import gmap.

(** Whatever blocks are already in use and whatever addresses new[] returns, for every block size BLOCK_ELEMENTS >= 1, every
    sequence of alloc_front with entries of any sizes, pop_front, clear and writes to entries in use: nothing undefined happens,
    the list is the stack of what was written (first element first, as the iterator visits them), size() and empty() are right,
    memory not belonging to the list is left alone, and an empty list holds no memory: each block was freed exactly once. *)
Theorem C33_stack : forall (BE : nat) alloc, 1 <= BE -> (forall h : mem, h !! alloc h = None) -> forall h0 l m, lv_run [] l = Some m ->
  exists w, lexec_all BE alloc (lworld0 h0) l = Some w /\ lview w = Some m /\
    l_size (l_list w) = length m /\ (l_front (l_list w) = None <-> m = []) /\
    iterate (length m) (l_mem w) (l_front (l_list w)) = Some (fst <$> l_hands w) /\
    (forall b c, h0 !! b = Some c -> l_mem w !! b = Some c) /\ (m = [] -> l_mem w = h0).
Proof.
  intros BE alloc HB Ha h0 l m E. destruct (lexec_all_ok BE HB alloc Ha h0 l _ [] m (lok0 h0) E) as (w & es & Ew & HW & <-).
  exists w. split; [exact Ew|]. split; [by eapply lok_view|]. destruct HW as ((HR & H0 & H1) & HL & HH). rewrite HL. cbn [l_of l_size l_front]. rewrite fmap_length.
  split; [done|]. split; [by destruct es as [|[[]]]|]. split; [rewrite HH; by eapply iterate_ok|]. split.
  - intros b c Hb. rewrite H1; [done|]. intros Hin. rewrite (H0 b Hin) in Hb. done.
  - intros Hm. apply fmap_nil_inv in Hm as ->. apply map_eq. intros b. apply H1. apply not_elem_of_nil.
Qed.
(** Lists on a pool are independent stacks: for every sequence of operations on any number of lists sharing a pool, each list
    holds exactly what was written to its entries. *)
Theorem C33_on_pool : forall alloc, (forall h : mem, h !! alloc h = None) -> forall l m, qv_run ∅ l = Some m ->
  exists w, qexec_all BLOCK_UNITS MAX_ELEMENT_UNITS alloc (qworld0 BLOCK_UNITS) l = Some w /\ forall x, qview w x = m !! x /\
  forall li hd s, q_lists w !! x = Some (li, hd) -> m !! x = Some s ->
    p_size li = length s /\ (p_front li = None <-> s = []) /\ pl_iterate (p_size li) (q_mem w) (p_front li) = Some (fst <$> hd).
Proof.
  intros alloc Ha l m E. assert (MAX_ELEMENT_UNITS + 1 <= BLOCK_UNITS) as Hs by (apply Nat.leb_le; vm_compute; reflexivity).
  destruct (qexec_all_ok _ _ Hs alloc Ha l _ _ _ (qinv0 _ _ Hs alloc Ha) E) as (w & Ew & HI). exists w. split; [exact Ew|]. exact (qinv_obs _ _ Hs _ _ HI).
Qed.

(** concrete cases: several blocks, entries of different sizes, a block freed by pop_front and the rest by clear *)
Definition first_free (h : mem) : nat := fresh (dom (D := gset nat) h).
Lemma first_free_ok h : h !! first_free h = None.
Proof. pose proof (is_fresh (dom (D := gset nat) h)) as H. by apply not_elem_of_dom in H. Qed.
Definition data (n k : nat) : list cell := (fun i => Raw (N.of_nat (i + k))) <$> seq 0 n.
Definition lprog (rest : bool) : list lop :=
  [LAlloc 8 (data 1 1); LAlloc 20 (data 3 2); LAlloc 3 (data 1 7); LAlloc 16 (data 2 5); LPop; LWrite 1 (data 3 11); LAlloc 0 []] ++
  (if rest then [LPop; LPop; LPop; LAlloc 40 (data 5 3)] else [LClear]).
Example C33_case : exists w, lexec_all 2 first_free (lworld0 ∅) (lprog true) = Some w /\ lview w = Some [data 5 3; data 1 1] /\ size (l_mem w) = 2.
Proof.
  assert (lv_run [] (lprog true) = Some [data 5 3; data 1 1]) as E by reflexivity.
  destruct (C33_stack 2 first_free ltac:(lia) first_free_ok ∅ _ _ E) as (w & Ew & Hv & _). exists w. split; [exact Ew|]. split; [exact Hv|].
  assert (size <$> (l_mem <$> lexec_all 2 first_free (lworld0 ∅) (lprog true)) = Some 2) as H by (vm_compute; reflexivity). rewrite Ew in H. by injection H.
Qed.
Example C33_case_clear : exists w, lexec_all 2 first_free (lworld0 ∅) (lprog false) = Some w /\ l_mem w = ∅.
Proof.
  assert (lv_run [] (lprog false) = Some []) as E by reflexivity.
  destruct (C33_stack 2 first_free ltac:(lia) first_free_ok ∅ _ _ E) as (w & Ew & _ & _ & _ & _ & _ & Hm). exists w. split; [exact Ew|by apply Hm].
Qed.
Definition qprog : list qop :=
  [QNew 0; QNew 1; QAlloc 0 24 (data 3 1); QAlloc 1 5 (data 1 9); QAlloc 0 8 (data 1 4); QWrite 0 1 (data 3 20); QAlloc 1 0 []; QPop 1; QAlloc 1 9 (data 2 2)].
Example C33_case_pool : exists w m, qexec_all BLOCK_UNITS MAX_ELEMENT_UNITS first_free (qworld0 BLOCK_UNITS) qprog = Some w /\ qv_run ∅ qprog = Some m /\
  qview w 0 = Some [data 1 4; data 3 20] /\ qview w 1 = Some [data 2 2; data 1 9].
Proof.
  assert (is_Some (qv_run ∅ qprog)) as [m E] by (apply is_Some_alt; vm_compute; exact I).
  destruct (C33_on_pool first_free first_free_ok _ _ E) as (w & Ew & Hv). exists w, m. split; [exact Ew|]. split; [exact E|].
  destruct (Hv 0) as [-> _], (Hv 1) as [-> _].
  assert ((fun m => (m !! 0, m !! 1)) <$> qv_run ∅ qprog = Some (Some [data 1 4; data 3 20], Some [data 2 2; data 1 9])) as H by (vm_compute; reflexivity).
  rewrite E in H. injection H as H1 H2. split; [exact H1|exact H2].
Qed.
Print Assumptions C33_stack.
Print Assumptions C33_on_pool.
Print Assumptions C33_case.
Print Assumptions C33_case_clear.
Print Assumptions C33_case_pool.
