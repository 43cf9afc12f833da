(** C32: vectors. *)
From stdpp Require Import gmap.
From Verif Require Import Base M_Vector S_Vector P_Vector.

(** For every element type and every sequence of operations on any number of vectors (construction, copies, assignment, swap,
    reserve, init, resize, erasing at either end, clear, push_back, pop_back, writing, destruction), wherever the allocator puts
    the arrays: nothing undefined happens (no raw memory is read, no element is constructed over another or destructed twice, no
    array is released with elements in it), each vector holds exactly the elements of the sequence it stands for, and when every
    vector is gone no memory is left.  Sizes, iteration in both directions, [], back, == and hash are those of the sequences. *)
Theorem C32_sequences : forall (T : Type) (dflt : T) alloc, (forall h : omem T, h !! alloc h = None) -> forall l m, vv_run dflt ∅ l = Some m ->
  exists w, vexec_all dflt alloc vworld0 l = Some w /\
  (forall x, is_Some (vvars w !! x) <-> is_Some (m !! x)) /\
  (forall x v xs, vvars w !! x = Some v -> m !! x = Some xs ->
    v_size v = length xs /\ vec_list (vmem w) v = Some xs /\ vec_rlist (vmem w) v = Some (reverse xs) /\
    (forall i, vec_get (vmem w) v i = xs !! i) /\ vec_back (vmem w) v = last xs /\
    forall y o ys, vvars w !! y = Some o -> m !! y = Some ys ->
      (forall teq, exists r, vec_eq teq (vmem w) v o = Some r /\ (r = true <-> Forall2 (fun a b => teq a b = true) xs ys)) /\
      (forall thash, Forall2 (fun a b => thash a = thash b) xs ys -> exists c, vec_hash thash (vmem w) v = Some c /\ vec_hash thash (vmem w) o = Some c)) /\
  (m = ∅ -> vmem w = ∅).
Proof.
  intros T dflt alloc Ha l m E. destruct (vexec_all_ok dflt alloc Ha l _ _ _ (vinv0) E) as (w & Ew & I1 & I2 & I3). exists w. split; [exact Ew|]. split_and!.
  - intros x. specialize (I1 x). destruct (vvars w !! x), (m !! x); split; intros [? ?]; try done; eauto.
  - intros x v xs Ev Ex. assert (vrep (vmem w) v xs) as HV. { specialize (I1 x). rewrite Ev, Ex in I1. done. }
    pose proof HV as (Hs & _). destruct (list_ok _ _ _ HV) as [L1 L2]. split_and!; try done.
    + intros i. unfold vec_get. rewrite Hs. destruct (Nat.ltb_spec i (length xs)) as [Hi|Hi]; [|by rewrite lookup_ge_None_2].
      destruct (lookup_lt_is_Some_2 _ _ Hi) as [a Ea]. rewrite Ea. by eapply get_ok.
    + unfold vec_back. rewrite Hs, last_lookup. destruct xs as [|a xs']; [done|]. cbn [length Nat.leb]. 
      assert (length xs' < length (a :: xs')) as Hi by (cbn [length]; lia). destruct (lookup_lt_is_Some_2 _ _ Hi) as [b Eb]. cbn [length pred Nat.sub]. rewrite Nat.sub_0_r, Eb. by eapply get_ok.
    + intros y o ys Eo Ey. assert (vrep (vmem w) o ys) as HO. { specialize (I1 y). rewrite Eo, Ey in I1. done. } split.
      * intros teq. by apply eq_ok.
      * intros thash HF. exists (hash_of thash xs). split; [by apply hash_ok|]. rewrite (hash_ok _ _ _ _ HO). f_equal. unfold hash_of. rewrite (Forall2_length _ _ _ HF).
        generalize (N.of_nat (length ys) mod 2 ^ 64)%N. clear -HF. induction HF as [|a b xs ys Hab HF IH]; intros n; cbn [foldl]; [done|]. rewrite Hab. apply IH.
  - intros ->. apply map_empty. intros b. destruct (vmem w !! b) eqn:Eb; [|done]. destruct (I3 b) as (x & v & Ev & _); [eauto|]. specialize (I1 x). rewrite Ev, lookup_empty in I1. done.
Qed.

(** concrete cases *)
Definition first_free (h : omem nat) : nat := fresh (dom (D := gset nat) h).
Lemma first_free_ok h : h !! first_free h = None.
Proof. pose proof (is_fresh (dom (D := gset nat) h)) as H. by apply not_elem_of_dom in H. Qed.
Definition vprog : list (vop nat) :=
  [VNew 0; VPush 0 1; VPush 0 2; VPush 0 3; VPush 0 4; VCopy 1 0; VSet 1 0 9; VErase 0 0 1; VResize 1 6; VNewN 2 2; VSwap 0 2; VPop 2; VAssign 0 1; VErase 0 4 6; VFill 3 2 8; VInit 3 1].
Definition vend : list (vop nat) := [VDestroy 0; VDestroy 1; VDestroy 2; VDestroy 3].
Example C32_case : exists w m, vexec_all 0 first_free vworld0 vprog = Some w /\ vv_run 0 ∅ vprog = Some m /\
  (fun x => m !! x) <$> [0; 1; 2; 3] = [Some [9; 2; 3; 4]; Some [9; 2; 3; 4; 0; 0]; Some [2; 3]; Some [0]] /\
  (fun x => v ← vvars w !! x; vec_list (vmem w) v) <$> [0; 1; 2; 3] = [Some [9; 2; 3; 4]; Some [9; 2; 3; 4; 0; 0]; Some [2; 3]; Some [0]].
Proof.
  assert (is_Some (vv_run 0 ∅ vprog)) as [m E] by (apply is_Some_alt; vm_compute; exact I).
  destruct (C32_sequences nat 0 first_free first_free_ok _ _ E) as (w & Ew & _). exists w, m. split; [exact Ew|]. split; [exact E|].
  assert ((fun m => (fun x => m !! x) <$> [0; 1; 2; 3]) <$> vv_run 0 ∅ vprog = Some [Some [9; 2; 3; 4]; Some [9; 2; 3; 4; 0; 0]; Some [2; 3]; Some [0]]) as H1 by (vm_compute; reflexivity).
  rewrite E in H1. split; [exact (Some_inj _ _ H1)|].
  assert ((fun w => (fun x => v ← vvars w !! x; vec_list (vmem w) v) <$> [0; 1; 2; 3]) <$> vexec_all 0 first_free vworld0 vprog =
    Some [Some [9; 2; 3; 4]; Some [9; 2; 3; 4; 0; 0]; Some [2; 3]; Some [0]]) as H2 by (vm_compute; reflexivity).
  rewrite Ew in H2. exact (Some_inj _ _ H2).
Qed.
Example C32_case_end : exists w, vexec_all 0 first_free vworld0 (vprog ++ vend) = Some w /\ vmem w = ∅.
Proof.
  assert (map_to_list <$> vv_run 0 ∅ (vprog ++ vend) = Some []) as E0 by (vm_compute; reflexivity).
  destruct (vv_run 0 ∅ (vprog ++ vend)) as [m|] eqn:E; [|discriminate E0]. apply (Some_inj _ _), map_to_list_empty_iff in E0 as ->.
  destruct (C32_sequences nat 0 first_free first_free_ok _ _ E) as (w & Ew & _ & _ & Hm). exists w. split; [exact Ew|exact (Hm eq_refl)].
Qed.

(** What does not behave as a sequence.  erase(first, last) of a range that neither starts at the front nor ends at the back reads
    beyond the last element, always. *)
Theorem C32_erase_inside_refuted : forall (T : Type) (dflt : T) alloc, (forall h : omem T, h !! alloc h = None) -> forall l m w x xs i j,
  vv_run dflt ∅ l = Some m -> vexec_all dflt alloc vworld0 l = Some w -> m !! x = Some xs -> 0 < i -> i <= j -> j < length xs ->
  vexec dflt alloc w (VErase x i j) = None.
Proof.
  intros T dflt alloc Ha l m w x xs i j E Ew Ex Hi Hij Hj. destruct (vexec_all_ok dflt alloc Ha l _ _ _ (vinv0) E) as (w' & Ew' & HI).
  rewrite Ew in Ew'. injection Ew' as <-. destruct (vinv_old _ _ _ _ HI Ex) as (v & Ev & HV). cbn [vexec]. unfold bind_old. rewrite Ev. cbn [mbind option_bind].
  destruct HV as (Hs & HV). unfold erase_range. rewrite Hs, (proj2 (Nat.leb_le i j)), (proj2 (Nat.leb_le j _)) by lia. cbn [andb].
  destruct (v_arr v) as [p|] eqn:Ep; [|destruct HV as (_ & ->); cbn in Hj; lia]. destruct HV as (Hp & Hl & Eb).
  set (ns := length xs - (j - i)).
  assert (forall n k (h : omem T) (ys : list T), length ys = length xs -> h !! p = Some (stored ys (v_cap v - length xs)) -> k + n = ns -> 0 < n -> i <= k ->
    ofold (fun h k => a ← o_get h (Some p) (j + k); o_set h (Some p) k a) (seq k n) h = None) as G.
  { induction n as [|n IH]; intros k h ys Hy Eh Hk Hn Hik; [lia|]. cbn [seq ofold]. unfold ns in *.
    destruct (decide (j + k < length xs)) as [Hlt|Hge].
    - rewrite <- Hy in Hlt. destruct (lookup_lt_is_Some_2 _ _ Hlt) as [a Ea]. rewrite (get1 _ _ _ _ _ _ Eh Ea). cbn [mbind option_bind].
      rewrite (set1 _ _ _ _ _ _ Eh) by lia. cbn [mbind option_bind]. apply (IH _ _ (<[k := a]> ys)); [by rewrite insert_length|apply lookup_insert|lia|lia|lia].
    - unfold o_get at 1. cbn [mbind option_bind]. rewrite Eh. cbn [mbind option_bind]. destruct (decide (j + k < v_cap v)) as [Hc|Hc].
      + rewrite stored_raw by lia. done.
      + rewrite lookup_ge_None_2 by (rewrite stored_length; lia). done. }
  rewrite (G (ns - i) i (vmem w) xs); try done; unfold ns; lia.
Qed.
(** Assigning a vector to itself empties it. *)
Theorem C32_self_assignment_refuted : forall (T : Type) (dflt : T) alloc, (forall h : omem T, h !! alloc h = None) -> forall l m w x xs,
  vv_run dflt ∅ l = Some m -> vexec_all dflt alloc vworld0 l = Some w -> m !! x = Some xs ->
  exists w' v', vexec dflt alloc w (VAssign x x) = Some w' /\ vvars w' !! x = Some v' /\ vec_list (vmem w') v' = Some [].
Proof.
  intros T dflt alloc Ha l m w x xs E Ew Ex. destruct (vexec_all_ok dflt alloc Ha l _ _ _ (vinv0) E) as (w' & Ew' & HI).
  rewrite Ew in Ew'. injection Ew' as <-. destruct (vinv_old _ _ _ _ HI Ex) as (v & Ev & HV). cbn [vexec]. rewrite Ev. cbn [mbind option_bind]. unfold bind_old. rewrite Ev. cbn [mbind option_bind].
  rewrite Nat.eqb_refl. unfold vec_assign. destruct (resize_ok dflt alloc Ha _ _ _ 0 HV) as (h1 & v1 & -> & _ & _ & H0). cbn [mbind option_bind]. rewrite (H0 eq_refl). cbn.
  eexists _, _. split; [done|]. cbn [vvars]. split; [apply lookup_insert|]. done.
Qed.
(** erase(pos) does not remove an element, and push_back of one of the vector's own elements is undefined when the array grows. *)
Theorem C32_erase_one_refuted : exists w v, vexec_all 0 first_free vworld0 [VNew 0; VPush 0 1; VPush 0 2; VPush 0 3; VErasePos 0 0] = Some w /\
  vvars w !! 0 = Some v /\ vec_list (vmem w) v = Some [2; 3; 3].
Proof.
  assert (((fun w => v ← vvars w !! 0; vec_list (vmem w) v) <$> vexec_all 0 first_free vworld0 [VNew 0; VPush 0 1; VPush 0 2; VPush 0 3; VErasePos 0 0]) = Some (Some [2; 3; 3])) as H by (vm_compute; reflexivity).
  destruct (vexec_all 0 first_free vworld0 [VNew 0; VPush 0 1; VPush 0 2; VPush 0 3; VErasePos 0 0]) as [w|]; [|discriminate H]. injection H as H.
  destruct (vvars w !! 0) as [v|] eqn:Ev; [|discriminate H]. exists w, v. split; [reflexivity|]. split; [exact Ev|exact H].
Qed.
Theorem C32_push_own_refuted : is_Some (vexec_all 0 first_free vworld0 [VNewN 0 2]) /\ vexec_all 0 first_free vworld0 [VNewN 0 2; VPushOwn 0 0] = None.
Proof. split; [apply is_Some_alt; vm_compute; exact I|vm_compute; reflexivity]. Qed.

Print Assumptions C32_sequences.
Print Assumptions C32_erase_inside_refuted.
Print Assumptions C32_self_assignment_refuted.
Print Assumptions C32_erase_one_refuted.
Print Assumptions C32_push_own_refuted.
