(** C39: bit sets and small sets. *)
From stdpp Require Import gmap.
From Coq Require Import Sorted NArith.
From Verif Require Import Base M_Set S_Set P_Set P_SmallSet.

(** MyBitSet<N> with a fixed number of words and MyBitSet<0> whose first word says how many follow, made on memory with any
    contents: after every history of add, remove and clear with numbers in range, nothing undefined happens and the set is the
    finite set of numbers the history describes.  The iterator visits its elements in increasing order, each once; includes,
    empty, intersects (also between sets of different widths), == and hash are those of sets. *)
Theorem C39_bit_sets : forall cN n raw x l s, bv_made cN n raw x -> ofold (bv_exec n) l (bv_new cN x) = Some s ->
  exists b0 b, b_new cN raw x = Some b0 /\ ofold bexec l b0 = Some b /\
  (forall i, i < 64 * n -> b_includes b i = Some (bool_decide (i ∈ s))) /\
  b_list b = Some (filter (fun i => i ∈ s) (seq 0 (64 * n))) /\ (forall i, i ∈ s -> i < 64 * n) /\
  b_empty b = Some (bool_decide (s = ∅)) /\
  forall cN' n' raw' x' l' s' c0 c, bv_made cN' n' raw' x' -> ofold (bv_exec n') l' (bv_new cN' x') = Some s' -> b_new cN' raw' x' = Some c0 -> ofold bexec l' c0 = Some c ->
    b_intersects b c = Some (bool_decide (exists i, i ∈ s /\ i ∈ s')) /\ b_eq b c = Some (bool_decide (n = n' /\ s = s')) /\
    (n = n' -> s = s' -> exists h, b_hash b = Some h /\ b_hash c = Some h).
Proof.
  assert (forall cN n raw x l s, bv_made cN n raw x -> ofold (bv_exec n) l (bv_new cN x) = Some s ->
    exists b0 b, b_new cN raw x = Some b0 /\ ofold bexec l b0 = Some b /\ binv b n s) as G.
  { intros cN n raw x l s HM E. destruct (new_ok _ _ _ _ HM) as (b0 & E0 & HI & _). destruct (bexec_all_ok n l _ _ _ HI E) as (b & Eb & HB). by exists b0, b. }
  intros cN n raw x l s HM E. destruct (G _ _ _ _ _ _ HM E) as (b0 & b & E0 & Eb & HB). exists b0, b. split_and!; try done.
  - intros i Hi. by eapply includes_ok.
  - by apply list_ok.
  - intros i Hi. destruct HB as (ws & _ & <- & Hs). apply has_lt. by apply Hs.
  - by eapply empty_ok.
  - intros cN' n' raw' x' l' s' c0 c HM' E' E0' Ec. destruct (G _ _ _ _ _ _ HM' E') as (c0' & c' & X1 & X2 & HC). rewrite E0' in X1. injection X1 as <-. rewrite Ec in X2. injection X2 as <-.
    split; [by eapply intersects_ok|]. split; [by apply eq_ok|]. intros -> ->. by eapply hash_ok.
Qed.
(** MyBitSetOnPool::newInstance(pool, bits) makes an empty set with room for the numbers below bits. *)
Theorem C39_bit_set_on_pool : forall raw bits, length raw = 1 + (bits + 63) / 64 -> exists b,
  b_on_pool raw bits = Some b /\ b_list b = Some [] /\ forall i, i < bits -> b_includes b i = Some false /\ exists b', b_add b i = Some b' /\ b_list b' = Some [i].
Proof.
  intros raw bits Hr. set (n := (bits + 63) / 64) in *. unfold b_on_pool. fold n. rewrite (proj2 (Nat.eqb_eq _ _) Hr).
  destruct (new_ok 0 raw (N.of_nat n) n) as (b & E & HI & _); [by split|]. exists b. split; [done|]. unfold bv_new in HI. cbn [Nat.eqb] in HI. split.
  - rewrite (list_ok _ _ _ HI). f_equal. apply filter_none. set_solver.
  - intros i Hi. assert (i < 64 * n) as Hin. { unfold n. pose proof (Nat.div_mod (bits + 63) 64). pose proof (Nat.mod_upper_bound (bits + 63) 64). lia. } split.
    + rewrite (includes_ok _ _ _ _ HI Hin). by rewrite bool_decide_eq_false_2 by set_solver.
    + destruct (add_ok _ _ _ i HI Hin) as (b' & E' & HI' & _). exists b'. split; [done|]. rewrite (list_ok _ _ _ HI'). f_equal.
      replace (64 * n) with (i + S (64 * n - S i)) by lia. rewrite seq_app, filter_app. cbn [seq Nat.add]. rewrite filter_none by (intros y Hy; apply elem_of_seq in Hy; set_solver by lia).
      rewrite filter_cons_True by set_solver. rewrite filter_none; [done|]. intros y Hy. apply elem_of_seq in Hy. rewrite elem_of_union, elem_of_singleton. intros [->|Hy0]; [lia|set_solver].
Qed.

(** MySmallSet<T,N> with its array of N elements, and MySmallSet<T,0> with room for any number of elements on a pool: after every
    history of add, remove and clear, nothing undefined happens, add throws exactly when the set has N - 1 elements or more, and
    otherwise the set is the finite set the history describes.  Iteration is in increasing order, backwards in decreasing order;
    the other observers, also against other sorted containers, are those of sets. *)
Theorem C39_small_sets : forall cN cap raw l ts s, (cN = 0 \/ cN = cap) -> length raw = cap -> sv_run cN cap ∅ l = Some (ts, s) ->
  exists a, sexec_all (s_new cN raw) l = Some (ts, a) /\ s_size a = size s /\
  (exists xs, s_list a = Some xs /\ s_rlist a = Some (reverse xs) /\ ascending xs /\ (forall e, e ∈ xs <-> e ∈ s) /\ forall i e, xs !! i = Some e -> s_get a i = Some e) /\
  (forall e, s_includes a e = Some (bool_decide (e ∈ s))) /\
  (forall c, ascending c -> s_equals a c = Some (bool_decide (s = list_to_set c)) /\ s_containsAll a c = Some (bool_decide (list_to_set c ⊆ s))) /\
  (forall c, StronglySorted Z.le c -> s_intersects a c = Some (bool_decide (exists e, e ∈ s /\ e ∈ c))) /\
  forall cN' cap' raw' l' ts' s' b, (cN' = 0 \/ cN' = cap') -> length raw' = cap' -> sv_run cN' cap' ∅ l' = Some (ts', s') -> sexec_all (s_new cN' raw') l' = Some (ts', b) ->
    s_eq a b = Some (bool_decide (s = s')) /\ (s = s' -> forall ehash, exists h, s_hash ehash a = Some h /\ s_hash ehash b = Some h).
Proof.
  assert (forall cN cap raw l ts s, (cN = 0 \/ cN = cap) -> length raw = cap -> sv_run cN cap ∅ l = Some (ts, s) -> exists a, sexec_all (s_new cN raw) l = Some (ts, a) /\ sinv a cN cap s) as G.
  { intros cN cap raw l ts s HN Hl E. eapply sexec_all_ok; [by apply snew_ok|done]. }
  intros cN cap raw l ts s HN Hl E. destruct (G _ _ _ _ _ _ HN Hl E) as (a & Ea & HI). exists a. split_and!; try done.
  - destruct HI as (xs & (_ & _ & _ & -> & _ & Ha) & HS). symmetry. by apply sinv_set.
  - destruct HI as (xs & HR & HS). pose proof HR as (_ & _ & _ & _ & _ & Ha). destruct (slist_ok _ _ _ _ HR) as [L1 L2]. exists xs. split_and!; try done. intros i e Ei. by eapply sget_ok.
  - intros e. by eapply sincludes_ok.
  - intros c Hc. split; [by eapply sequals_ok|by eapply scontains_ok].
  - intros c Hc. by eapply sintersects_ok.
  - intros cN' cap' raw' l' ts' s' b HN' Hl' E' Eb. destruct (G _ _ _ _ _ _ HN' Hl' E') as (b' & Eb' & HB). rewrite Eb in Eb'. injection Eb' as <-. split; [by eapply seq_ok|].
    intros -> ehash. by eapply shash_ok.
Qed.
(** MySmallSetOnPool::newInstance(pool, c) makes the set of the elements of c, whatever their order and duplicates. *)
Theorem C39_small_set_copy : forall raw c, length raw = length c -> exists a xs, s_copy raw c = Some a /\ s_list a = Some xs /\ ascending xs /\ forall e, e ∈ xs <-> e ∈ c.
Proof.
  intros raw c Hl. destruct (scopy_ok raw c Hl) as (a & E & xs & HR & HS). exists a, xs. split; [done|]. destruct (slist_ok _ _ _ _ HR) as [L1 _]. split; [done|]. split; [apply HR|].
  intros e. rewrite <- HS. apply elem_of_list_to_set.
Qed.

(** concrete cases *)
Definition bprog : list bop := [BAdd 0; BAdd 63; BAdd 64; BAdd 127; BAdd 70; BRemove 64; BAdd 3; BRemove 5].
Example C39_case_bits : exists b, ofold bexec bprog (BitSet 2 [0; 0]%N) = Some b /\ b_list b = Some [0; 3; 63; 70; 127] /\ b_eq b b = Some true.
Proof.
  assert (is_Some (ofold (bv_exec 2) bprog (bv_new 2 0))) as [s Es] by (apply is_Some_alt; vm_compute; exact I).
  destruct (C39_bit_sets 2 2 [7; 9]%N 0 bprog s) as (b0 & b & E0 & Eb & _ & _ & _ & _ & Ho); [vm_compute; repeat split; reflexivity|exact Es|].
  vm_compute in E0. injection E0 as <-. exists b. split; [exact Eb|].
  assert (ofold bexec bprog (BitSet 2 [0; 0]%N) = Some (BitSet 2 [9223372036854775817; 9223372036854775872]%N)) as E by (vm_compute; reflexivity).
  rewrite E in Eb. injection Eb as <-. split; vm_compute; reflexivity.
Qed.
Definition sprog : list sop := [SAdd 5; SAdd (-2); SAdd 9; SAdd 5; SRemove 9; SAdd 7; SAdd 1; SRemove 3]%Z.
Example C39_case_small : exists ts s, sv_run 4 4 ∅ sprog = Some (ts, s) /\ ts = [false; false; false; true; false; false; true; false] /\
  exists a, sexec_all (s_new 4 (replicate 4 None)) sprog = Some (ts, a) /\ s_list a = Some [-2; 5; 7]%Z /\ s_containsAll a [5; 7]%Z = Some true.
Proof.
  assert (fst <$> sv_run 4 4 ∅ sprog = Some [false; false; false; true; false; false; true; false]) as Et by (vm_compute; reflexivity).
  destruct (sv_run 4 4 ∅ sprog) as [[ts s]|] eqn:E; [|discriminate Et]. injection Et as Et. exists ts, s. split; [reflexivity|]. split; [exact Et|].
  destruct (C39_small_sets 4 4 (replicate 4 None) sprog ts s) as (a & Ea & _); [by right|reflexivity|exact E|]. exists a. split; [exact Ea|].
  assert ((fun r => s_list (snd r)) <$> sexec_all (s_new 4 (replicate 4 None)) sprog = Some (Some [-2; 5; 7]%Z)) as E1 by (vm_compute; reflexivity).
  assert ((fun r => s_containsAll (snd r) [5; 7]%Z) <$> sexec_all (s_new 4 (replicate 4 None)) sprog = Some (Some true)) as E2 by (vm_compute; reflexivity).
  rewrite Ea in E1, E2. split; [exact (Some_inj _ _ E1)|exact (Some_inj _ _ E2)].
Qed.

(** What does not behave as documented: MySmallSet<T,N> never holds more than N - 1 elements, and add throws for an element that is
    already there when N - 1 are; a full set on a pool writes outside its array when an element that is there is added again;
    equals and containsAll are wrong for sorted containers with duplicates. *)
Theorem C39_add_present_refuted : exists a, sexec_all (s_new 3 (replicate 3 None)) [SAdd 1; SAdd 2]%Z = Some ([false; false], a) /\
  s_includes a 1 = Some true /\ s_add a 1 = Some (true, a).
Proof. eexists. split; [vm_compute; reflexivity|]. split; vm_compute; reflexivity. Qed.
Theorem C39_pool_overrun_refuted : exists a, sexec_all (s_new 0 (replicate 2 None)) [SAdd 1; SAdd 2]%Z = Some ([false; false], a) /\
  s_includes a 1 = Some true /\ s_add a 1 = None.
Proof. eexists. split; [vm_compute; reflexivity|]. split; vm_compute; reflexivity. Qed.
Theorem C39_duplicates_refuted : exists a, sexec_all (s_new 3 (replicate 3 None)) [SAdd 1]%Z = Some ([false], a) /\
  StronglySorted Z.le [1; 1]%Z /\ s_equals a [1; 1]%Z = Some false /\ s_containsAll a [1; 1]%Z = Some false.
Proof.
  eexists. split; [vm_compute; reflexivity|]. split; [|split; vm_compute; reflexivity]. repeat constructor; vm_compute; discriminate.
Qed.
(** pullout(i) does not remove the i-th entry and shift those behind it: from {0, 2} it makes {1} by pullout(2), and beyond the first
    word, or at the last bit of a word, it is undefined *)
Theorem C39_pullout_refuted : exists b b', ofold bexec [BAdd 0; BAdd 2] (BitSet 1 [0]%N) = Some b /\ b_pullout b 2 = Some b' /\ b_list b' = Some [1].
Proof. eexists _, _. split; [vm_compute; reflexivity|]. split; vm_compute; reflexivity. Qed.
Theorem C39_pullout_undefined_refuted : forall b n s i, binv b n s -> i < 64 * n -> 64 <= i \/ i mod 64 = 63 -> b_pullout b i = None.
Proof.
  intros b n s i (ws & HB & Hn & Hs) Hi Hor. unfold b_pullout. pose proof (div_lt _ _ Hi) as Hd. rewrite <- Hn in Hd. destruct (lookup_lt_is_Some_2 _ _ Hd) as [w Ew].
  rewrite (word_ok _ _ _ HB), Ew, (numWords_ok _ _ HB). cbn [mbind option_bind]. unfold mask. destruct (Nat.ltb_spec (i mod 64 + 1) 64) as [Hm|Hm]; [|done]. cbn [mbind option_bind].
  assert (1 <= i / 64) as H1 by (apply Nat.div_le_lower_bound; lia).
  assert (length (b_arr b) = length ws + offset b) as Hl.
  { destruct HB as (_ & [[H2 H3]|[H2 [H3 H4]]]); unfold offset; [rewrite H2, H3; cbn; lia|]. rewrite (proj2 (Nat.eqb_neq _ _) H2), H4. lia. }
  match goal with |- context [ofold ?f _ _] => assert (forall d q (a : list N), length a = length ws + offset b -> q <= length a -> length a < q + d -> ofold f (seq q d) a = None) as G end.
  { induction d as [|d IH]; intros q a Ha Hq Hd'; [lia|]. cbn [seq ofold]. destruct (a !! q) as [wq|] eqn:E1; [|done]. cbn [mbind option_bind]. destruct (a !! (q - 1)) as [wp|]; [|done]. cbn [mbind option_bind].
    apply lookup_lt_Some in E1. apply IH; rewrite ?insert_length; lia. }
  rewrite G; [done|rewrite insert_length; lia|rewrite insert_length; lia|rewrite insert_length; lia].
Qed.

Print Assumptions C39_bit_sets.
Print Assumptions C39_bit_set_on_pool.
Print Assumptions C39_small_sets.
Print Assumptions C39_small_set_copy.
Print Assumptions C39_add_present_refuted.
Print Assumptions C39_pool_overrun_refuted.
Print Assumptions C39_duplicates_refuted.
Print Assumptions C39_pullout_refuted.
Print Assumptions C39_pullout_undefined_refuted.
