(** C47: array states — comparing and hashing the words of raw memory is comparing the elements. *)
From Verif Require Import Base Sem Ex M_Table M_Engine M_Builder P_Builder M_Storage S_Storage P_Storage P_Storage2.
Local Open Scope nat_scope.

(** A state never leaves the memory that the builders reserve for it (SpecNodes of 8 bytes, [header] of them used by the
    builder). *)
Theorem C47_fits : forall header n, 8 * header + n <= 8 * specNodeSize header n.
Proof. intros header n. unfold specNodeSize. pose proof (ceil8 n). lia. Qed.

(** PodArrayDdSpec: whatever was in memory before, the specification behaves as one whose states are arrays: the same
    levels, the same sets; two states are equal_to exactly if their arrays have the same elements, and then their hash
    codes are equal; nothing outside the blocks is accessed. *)
Theorem C47_array_states : forall (U : pod) mem0 fresh,
  pod_ok U -> 0 < pa_size U -> is_memory (pa_datasize U) mem0 -> (forall s l b, is_memory (pa_datasize U) (fresh s l b)) ->
  let sp := pod_spec U mem0 fresh in let sa := array_spec U in
  (forall n v, vec_ok (pa_ar U) v -> zdd_sem sp n v = zdd_sem sa n v /\ bdd_sem sp n v = bdd_sem sa n v) /\
  exists array : bytes -> list N -> Prop,
    (forall l s, reach sp l s -> exists a, array s a /\ reach sa l a) /\
    (forall l a, reach sa l a -> exists s, array s a /\ reach sp l s) /\
    (forall s a, array s a -> get_array (pa_size U) (pa_n U) s = Some a) /\
    (forall s a l b, array s a -> b < pa_ar U -> exists s' c a', pa_get_copy U (fresh s l b) s = Some s' /\ array s' a /\
       pa_get_child U s' l b = Some (get_child sp s l b) /\ pa_child U a l b = (c, a') /\ fst (get_child sp s l b) = c /\ array (snd (get_child sp s l b)) a') /\
    (forall s a s' a', array s a -> array s' a' ->
       exists e h h', pa_equal_to U s s' = Some e /\ (e = true <-> a = a') /\ pa_hash_code U s = Some h /\ pa_hash_code U s' = Some h' /\ (a = a' -> h = h')).
Proof.
  intros U mem0 fresh HU Hsz Hm Hf sp sa.
  pose proof (pod_sim_root U HU Hsz mem0 Hm fresh Hf) as Hroot. pose proof (fun s a l b => pod_sim_child U HU Hsz mem0 Hm fresh Hf s a l b) as Hchild.
  split; [intros n v Hv; by apply (sim_sem sp sa (prel U mem0))|].
  exists (prel U mem0). split_and!.
  - intros l s Hr. by apply (sim_reach sp sa eq_refl (prel U mem0) Hroot Hchild).
  - intros l a Hr. by apply (sim_reach' sp sa eq_refl (prel U mem0) Hroot Hchild).
  - intros s a [Ha ->]. by apply get_flat'.
  - intros s a l b Ha Hb. exists s. pose proof (pod_copy U HU Hsz mem0 Hm fresh Hf s a l b Ha) as Ec.
    destruct (pod_child U HU Hsz mem0 Hm fresh Hf s a l b Ha Hb) as (c & s' & E & Hc & Hr). subst c. destruct (pa_child U a l b) as [c a'] eqn:Ep.
    exists c, a'. unfold sp. cbn [pod_spec get_child]. rewrite Ec. cbn [mbind option_bind]. rewrite E. cbn [default fst snd]. by split_and!.
  - intros s a s' a' Ha Ha'. destruct (pod_equal U HU Hsz mem0 Hm fresh Hf s a s' a' Ha Ha') as (e & E & He).
    destruct (pod_hash U HU Hsz mem0 Hm fresh Hf s a Ha) as [h Eh]. destruct (pod_hash U HU Hsz mem0 Hm fresh Hf s' a' Ha') as [h' Eh'].
    exists e, h, h'. split_and!; try done. intros ->. destruct Ha as [_ ->], Ha' as [_ ->]. congruence.
Qed.

(** So the diagram constructed from raw memory is the one of the arrays: the same sets, and on each level at most as many
    nodes as there are different arrays. *)
Theorem C47_array_construction : forall (U : pod) mem0 fresh,
  pod_ok U -> 0 < pa_size U -> is_memory (pa_datasize U) mem0 -> (forall s l b, is_memory (pa_datasize U) (fresh s l b)) ->
  spec_ok (array_spec U) ->
  exists d, construct_dd (pod_spec U mem0 fresh) = Some d /\
    (forall n v, vec_ok (pa_ar U) v -> zdd_sem (dd_spec d) n v = zdd_sem (array_spec U) n v /\ bdd_sem (dd_spec d) n v = bdd_sem (array_spec U) n v) /\
    forall i r, 0 < i -> tab d !! i = Some r ->
      exists arrays, length r <= length arrays /\ NoDup arrays /\ forall a, a ∈ arrays -> reach (array_spec U) (Z.of_nat i) a.
Proof.
  intros U mem0 fresh HU Hsz Hm Hf Hok. set (sp := pod_spec U mem0 fresh). set (sa := array_spec U) in *.
  pose proof (pod_sim_root U HU Hsz mem0 Hm fresh Hf) as Hroot. pose proof (fun s a l b => pod_sim_child U HU Hsz mem0 Hm fresh Hf s a l b) as Hchild.
  pose proof (fun s a s' a' l => pod_sim_equal U HU Hsz mem0 Hm fresh Hf s a s' a' l) as Heq.
  assert (Hok' : spec_ok sp) by (apply (sim_spec_ok sp sa eq_refl (prel U mem0)); done).
  destruct (construct_built sp Hok') as (d & E & HB). exists d. split; [done|]. split.
  - intros n v Hv. destruct (built_sem sp d n v Hok' HB Hv) as [-> ->]. destruct (sim_sem sp sa (prel U mem0) Hroot Hchild n v Hv) as [-> ->]. done.
  - intros i r Hi Hr.
    destruct HB as (_ & _ & _ & _ & _ & Hsh). destruct (Hsh) with (i := i) (r := r) as (rs & Hl & HR & HP); [| |done|done|].
    + intros j p q. cbn [sp pod_spec hybrid_spec equal_to hash_code]. unfold pa_equal_to. by rewrite equal_units_sym.
    + intros j p q. cbn [sp pod_spec hybrid_spec equal_to hash_code]. unfold pa_equal_to, pa_hash_code. destruct (equal_units 8 _ p q) as [[]|] eqn:Ee; intros H; [|done|done]. by rewrite (equal_units_hash _ _ _ _ _ Ee).
    + destruct (sim_share sp sa eq_refl (prel U mem0) Hroot Hchild Heq (Z.of_nat i) rs) as (al & Hla & Hnd & Hal & _); [intros a _; by apply bool_decide_eq_true|done|done|].
      exists al. split_and!; [lia|done|done].
Qed.

(** HybridDdSpec: the same for a scalar and an array.  The bytes between the scalar and the array differ from copy to
    copy, but they are not looked at. *)
Theorem C47_hybrid_states : forall (U : hybrid) mem0 fresh,
  hybrid_ok U -> 0 < hy_size U -> is_memory (hy_datasize U) mem0 -> (forall s l b, is_memory (hy_datasize U) (fresh s l b)) ->
  let sp := hybrid_spec U mem0 fresh in let sa := pair_spec U in
  (forall n v, vec_ok (hy_ar U) v -> zdd_sem sp n v = zdd_sem sa n v /\ bdd_sem sp n v = bdd_sem sa n v) /\
  exists value : bytes -> N * list N -> Prop,
    (forall l s, reach sp l s -> exists a, value s a /\ reach sa l a) /\
    (forall l a, reach sa l a -> exists s, value s a /\ reach sp l s) /\
    (forall s a, value s a -> hy_get U s = Some a) /\
    (forall s a l b, value s a -> b < hy_ar U -> exists s' c a', hy_get_copy U (fresh s l b) s = Some s' /\ value s' a /\
       hy_get_child U s' l b = Some (get_child sp s l b) /\ hy_child U (fst a) (snd a) l b = (c, a') /\ fst (get_child sp s l b) = c /\ value (snd (get_child sp s l b)) a') /\
    (forall s a s' a', value s a -> value s' a' ->
       exists e h h', hy_equal_to U s s' = Some e /\ (e = true <-> a = a') /\ hy_hash_code U s = Some h /\ hy_hash_code U s' = Some h' /\ (a = a' -> h = h')).
Proof.
  intros U mem0 fresh HU Hsz Hm Hf sp sa.
  pose proof (hy_sim_root U HU Hsz mem0 Hm fresh Hf) as Hroot. pose proof (fun s a l b => hy_sim_child U HU Hsz mem0 Hm fresh Hf s a l b) as Hchild.
  split; [intros n v Hv; by apply (sim_sem sp sa (hrel U mem0))|].
  exists (hrel U mem0). split_and!.
  - intros l s Hr. by apply (sim_reach sp sa eq_refl (hrel U mem0) Hroot Hchild).
  - intros l a Hr. by apply (sim_reach' sp sa eq_refl (hrel U mem0) Hroot Hchild).
  - intros s a Ha. by apply (hy_get_rel U HU Hsz mem0 Hm fresh Hf).
  - intros s a l b Ha Hb. destruct (hy_copy_ok U HU Hsz mem0 Hm fresh Hf s a l b Ha) as (s1 & Ec & Ha1). exists s1.
    destruct (hy_child_ok U HU Hsz mem0 Hm fresh Hf s1 a l b Ha1 Hb) as (c & s' & E & Hc & Hr). subst c. cbn [pair_spec get_child] in Hr, E |- *.
    destruct (hy_child U (fst a) (snd a) l b) as [c a'] eqn:Ep.
    exists c, a'. unfold sp. cbn [hybrid_spec get_child]. rewrite Ec. cbn [mbind option_bind]. rewrite E. cbn [default fst snd]. by split_and!.
  - intros s a s' a' Ha Ha'. destruct (hy_equal_ok U HU Hsz mem0 Hm fresh Hf s a s' a' Ha Ha') as (e & E & He).
    destruct (hy_hash_eq U HU Hsz mem0 Hm fresh Hf s s a Ha Ha) as [_ [h Eh]]. destruct (hy_hash_eq U HU Hsz mem0 Hm fresh Hf s' s' a' Ha' Ha') as [_ [h' Eh']].
    exists e, h, h'. split_and!; try done. intros ->. destruct (hy_hash_eq U HU Hsz mem0 Hm fresh Hf s s' a' Ha Ha') as [Hh _]. congruence.
Qed.
Theorem C47_hybrid_construction : forall (U : hybrid) mem0 fresh,
  hybrid_ok U -> 0 < hy_size U -> is_memory (hy_datasize U) mem0 -> (forall s l b, is_memory (hy_datasize U) (fresh s l b)) ->
  spec_ok (pair_spec U) ->
  exists d, construct_dd (hybrid_spec U mem0 fresh) = Some d /\
    (forall n v, vec_ok (hy_ar U) v -> zdd_sem (dd_spec d) n v = zdd_sem (pair_spec U) n v /\ bdd_sem (dd_spec d) n v = bdd_sem (pair_spec U) n v) /\
    forall i r, 0 < i -> tab d !! i = Some r ->
      exists values, length r <= length values /\ NoDup values /\ forall a, a ∈ values -> reach (pair_spec U) (Z.of_nat i) a.
Proof.
  intros U mem0 fresh HU Hsz Hm Hf Hok. set (sp := hybrid_spec U mem0 fresh). set (sa := pair_spec U) in *.
  pose proof (hy_sim_root U HU Hsz mem0 Hm fresh Hf) as Hroot. pose proof (fun s a l b => hy_sim_child U HU Hsz mem0 Hm fresh Hf s a l b) as Hchild.
  pose proof (fun s a s' a' l => hy_sim_equal U HU Hsz mem0 Hm fresh Hf s a s' a' l) as Heq.
  assert (Hok' : spec_ok sp) by (apply (sim_spec_ok sp sa eq_refl (hrel U mem0)); done).
  destruct (construct_built sp Hok') as (d & E & HB). exists d. split; [done|]. split.
  - intros n v Hv. destruct (built_sem sp d n v Hok' HB Hv) as [-> ->]. destruct (sim_sem sp sa (hrel U mem0) Hroot Hchild n v Hv) as [-> ->]. done.
  - intros i r Hi Hr. destruct HB as (_ & _ & _ & _ & _ & Hsh). destruct (Hsh) with (i := i) (r := r) as (rs & Hl & HR & HP); [| |done|done|].
    + intros j p q. cbn [sp pod_spec hybrid_spec equal_to hash_code]. unfold hy_equal_to. rewrite (equal_units_sym (raw_unit (hy_ssize U)) _ p q), (equal_units_sym 8 _ p q). done.
    + intros j p q. cbn [sp pod_spec hybrid_spec equal_to hash_code]. unfold hy_equal_to, hy_hash_code. destruct (equal_units (raw_unit _) _ p q) as [[]|] eqn:Ee; cbn [mbind option_bind negb]; intros H; [|done|done].
      rewrite (equal_units_hash _ _ _ _ _ Ee). destruct (hash_units _ _ q 0%N) as [h|]; cbn [mbind option_bind]; [|done].
      destruct (equal_units 8 _ p q) as [[]|] eqn:Ee2; [|done|done]. by rewrite (equal_units_hash _ _ _ _ _ Ee2).
    + destruct (sim_share sp sa eq_refl (hrel U mem0) Hroot Hchild Heq (Z.of_nat i) rs) as (al & Hla & Hnd & Hal & _); [intros a _; by apply bool_decide_eq_true|done|done|].
      exists al. split_and!; [lia|done|done].
Qed.

(** ** Cases: three 16-bit counters in one word (two bytes of padding); the first counts the ones modulo 2, the other two
    the last two values; with a scalar of 2 bytes for the hybrid *)
Definition ex_pod : pod := {|
  pa_ar := 2; pa_size := 2; pa_n := 3;
  pa_root := fun _ => (4%Z, [0; 0; 7]%N);
  pa_child := fun a l b => ((if l =? 1 then if (nth 0 a 0 =? 0)%N then -1 else 0 else l - 1)%Z, [(nth 0 a 0 + N.of_nat b) mod 2; nth 2 a 0 mod 65536; N.of_nat b mod 65536]%N) |}.
Definition ex_hybrid : hybrid := {|
  hy_ar := 2; hy_ssize := 2; hy_size := 2; hy_n := 3; hy_init := 5%N;
  hy_root := fun s _ => (4%Z, (s, [0; 0; 7]%N));
  hy_child := fun s a l b => (fst (pa_child ex_pod a l b), ((s + 1) mod 65536, snd (pa_child ex_pod a l b))%N) |}.
Example C47_case : exists mem0 fresh,
  (pod_ok ex_pod /\ is_memory (pa_datasize ex_pod) mem0 /\ (forall s l b, is_memory (pa_datasize ex_pod) (fresh s l b))) /\
  spec_ok (array_spec ex_pod) /\
  get_root (pod_spec ex_pod mem0 fresh) = (4%Z, [0; 0; 0; 0; 7; 0; 17; 18]%N) /\
  (exists d, construct_dd (pod_spec ex_pod mem0 fresh) = Some d /\ (length <$> tab d !! 1) = Some 8 /\ zdd_sem (dd_spec d) 4 (vec_of [1; 0; 1; 0]) = false /\ zdd_sem (dd_spec d) 4 (vec_of [1; 0; 0; 1]) = false /\ zdd_sem (dd_spec d) 4 (vec_of [0; 0; 1; 1]) = true).
Proof.
  exists [11; 12; 13; 14; 15; 16; 17; 18]%N, (fun s l b => [21; 22; 23; 24; 25; 26; 27; 28]%N). split; [split_and!|split; [|split]].
  - assert (forall x, (x mod 2 < 256 ^ N.of_nat 2)%N) by (intros x; pose proof (N.mod_lt x 2); change (256 ^ N.of_nat 2)%N with 65536%N; lia).
    assert (forall x, (x mod 65536 < 256 ^ N.of_nat 2)%N) by (intros x; change (256 ^ N.of_nat 2)%N with 65536%N; by apply N.mod_lt).
    constructor.
    + intros a _. split; [done|]. by repeat constructor.
    + done.
    + intros a l b _ _. split; [done|]. cbn [ex_pod pa_child snd]. by repeat constructor.
  - split; [done|]. by repeat constructor.
  - intros s l b. split; [done|]. by repeat constructor.
  - constructor; [cbn; lia| |].
    + intros l s b Hr Hb. cbn. assert (0 < l)%Z by (by destruct Hr). destruct (l =? 1)%Z eqn:El; [|lia]. destruct (nth 0 s 0 =? 0)%N; lia.
    + intros l s s' _ _ H%bool_decide_eq_true. by subst.
  - by vm_compute.
  - eexists. split; [vm_compute; reflexivity|]. by vm_compute.
Qed.
Example C47_hybrid_case : exists mem0 fresh,
  (hybrid_ok ex_hybrid /\ is_memory (hy_datasize ex_hybrid) mem0 /\ (forall s l b, is_memory (hy_datasize ex_hybrid) (fresh s l b))) /\
  spec_ok (pair_spec ex_hybrid) /\
  get_root (hybrid_spec ex_hybrid mem0 fresh) = (4%Z, [5; 0; 13; 14; 15; 16; 17; 18; 0; 0; 0; 0; 7; 0; 37; 38]%N) /\
  (exists d, construct_dd (hybrid_spec ex_hybrid mem0 fresh) = Some d /\ (length <$> tab d !! 1) = Some 8).
Proof.
  exists [11; 12; 13; 14; 15; 16; 17; 18; 31; 32; 33; 34; 35; 36; 37; 38]%N, (fun s l b => repeat (N.of_nat b mod 256)%N 16). 
  assert (forall x, (x mod 65536 < 256 ^ N.of_nat 2)%N) as H1 by (intros x; change (256 ^ N.of_nat 2)%N with 65536%N; by apply N.mod_lt).
  assert (forall x, (x mod 2 < 256 ^ N.of_nat 2)%N) as H2 by (intros x; pose proof (N.mod_lt x 2); change (256 ^ N.of_nat 2)%N with 65536%N; lia).
  split; [split_and!|split; [|split]].
  - constructor.
    + by vm_compute.
    + intros a _. split; [by vm_compute|]. split; [done|]. by repeat constructor.
    + done.
    + intros s a l b _ _ _. split; [apply H1|]. split; [done|]. cbn [ex_hybrid hy_child snd ex_pod pa_child]. by repeat constructor.
  - split; [done|]. by repeat constructor.
  - intros s l b. split; [done|]. assert (N.of_nat b mod 256 < 256)%N by (by apply N.mod_lt). by repeat constructor.
  - constructor; [cbn; lia| |].
    + intros l s b Hr Hb. cbn. assert (0 < l)%Z by (by destruct Hr). destruct (l =? 1)%Z eqn:El; [|lia]. destruct (nth 0 (snd s) 0 =? 0)%N; lia.
    + intros l s s' _ _ H%bool_decide_eq_true. by subst.
  - by vm_compute.
  - eexists. split; [vm_compute; reflexivity|]. by vm_compute.
Qed.

Print Assumptions C47_fits.
Print Assumptions C47_array_states.
Print Assumptions C47_array_construction.
Print Assumptions C47_hybrid_states.
Print Assumptions C47_hybrid_construction.
