(** C27: SizeConstraint and IntRange. *)
From Verif Require Import Base Sem Ex M_Table M_Engine M_Builder P_Builder M_Size S_Spec P_Size.
Local Open Scope Z_scope.

(** The specification accepts exactly the sets whose size is in the integer subset (every set when there
    is none), in the ZDD and in the BDD reading. *)
Theorem C27_size_constraint : forall (n : nat) (cons : option int_subset) (v : vec), (1 <= n)%nat ->
  (forall c, cons = Some c -> bounds_sound n c) ->
  let accepted := match cons with Some c => contains c (chosen v n) | None => true end in
  zdd_sem (size_spec (Z.of_nat n) cons) n v = accepted /\ bdd_sem (size_spec (Z.of_nat n) cons) n v = accepted.
Proof. intros n cons v Hn Hc. apply size_sem; [lia|]. destruct cons as [c|]; [by apply Hc|done]. Qed.

(** It meets the contract of specifications, so all theorems about construction apply. *)
Theorem C27_contract : forall (n : nat) (cons : option int_subset),
  let sp := size_spec (Z.of_nat n) cons in spec_ok sp /\ spec_congr sp /\ one_code sp /\ shareable sp.
Proof. intros n cons sp. split_and!; [apply size_ok|apply size_congr|apply size_one_code; lia|apply size_shareable]. Qed.

(** Only counts 0..n-l occur at level l. *)
Lemma size_reach n cons l s : reach (size_spec (Z.of_nat n) cons) l s -> 0 <= s <= Z.of_nat n - l.
Proof.
  induction 1 as [H|l s b Hr IH Hb Hp].
  - cbn [size_spec get_root size_root fst snd] in *. destruct cons as [c|]; [destruct (Z.of_nat n <? lowerBound c)|]; lia.
  - cbn [size_spec get_child] in *. unfold size_child in *. destruct cons as [c|]; cbn [fst snd] in *.
    + destruct (negb _).
      * destruct (upperBound c <=? s); cbn [fst snd] in *; [lia|]. destruct (1 <=? l - 1); [lia|]. destruct (contains c _); lia.
      * destruct (s + l <=? lowerBound c); cbn [fst snd] in *; [lia|]. destruct (1 <=? l - 1); [lia|]. destruct (contains c _); lia.
    + destruct (1 <=? l - 1); lia.
Qed.
Lemma distinct_in_range (rs : list Z) (m : nat) :
  Forall (fun s => 0 <= s < Z.of_nat m) rs -> ForallOrdPairs (fun s s' => (s =? s') = false) rs -> (length rs <= m)%nat.
Proof.
  intros Hr Hd. assert (NoDup (map Z.to_nat rs)) as Hn.
  { induction Hd as [|s rs Hs Hd IH]; cbn [map]; [constructor|]. inversion Hr; subst. constructor; [|by apply IH].
    intros Hin. apply elem_of_list_fmap in Hin as (s' & E & Hin).
    rewrite Forall_forall in Hs. specialize (Hs s' Hin). apply Z.eqb_neq in Hs.
    assert (0 <= s' < Z.of_nat m) by (by eapply (proj1 (Forall_forall _ _)) in H2). lia. }
  rewrite <- (map_length Z.to_nat), <- (seq_length m 0). apply submseteq_length, NoDup_submseteq; [done|].
  intros x Hx. apply elem_of_list_fmap in Hx as (s & -> & Hs). rewrite Forall_forall in Hr.
  apply elem_of_seq. specialize (Hr s Hs). lia.
Qed.

(** The constructed diagram: its family, and no level l has more than n-l+1 nodes. *)
Theorem C27_diagram : forall (n : nat) (c : int_subset), (1 <= n)%nat -> bounds_sound n c ->
  exists d, construct_dd (size_spec (Z.of_nat n) (Some c)) = Some d /\
  (forall v, vec_ok 2 v -> zdd_sem (dd_spec d) n v = contains c (chosen v n)) /\
  forall l r, (0 < l <= n)%nat -> tab d !! l = Some r -> (length r <= n - l + 1)%nat.
Proof.
  intros n c Hn Hc. pose proof (size_ok (Z.of_nat n) (Some c)) as Hok.
  destruct (construct_built _ Hok) as (d & E & HB). exists d. split_and!; [done| |].
  - intros v Hv. destruct (built_sem _ d n v Hok HB Hv) as [_ ->]. apply (size_sem (Some c) n v); [lia|done].
  - destruct (size_shareable (Z.of_nat n) (Some c)) as [S1 S2]. intros l r Hl Hr.
    assert (Hs : exists rs, (length r <= length rs)%nat /\ Forall (reach (size_spec (Z.of_nat n) (Some c)) (Z.of_nat l)) rs /\
      ForallOrdPairs (fun s s' => equal_to (size_spec (Z.of_nat n) (Some c)) (Z.of_nat l) s s' = false) rs)
      by (apply HB; [done|done|lia|done]).
    destruct Hs as (rs & H1 & H2 & H3). cbn [size_spec equal_to St] in H3.
    assert (length rs <= n - l + 1)%nat; [|lia]. apply distinct_in_range; [|done].
    eapply Forall_impl; [exact H2|]. intros s Hs%size_reach. lia.
Qed.

(** IntRange(min, max, step) contains exactly min, min + step, ... up to max, and its bounds are sound. *)
Theorem C27_int_range : forall (mn mx step : Z), 0 < step ->
  (forall x, contains (int_range mn mx step) x = true <-> exists k, 0 <= k /\ x = mn + k * step /\ x <= mx) /\
  forall n, bounds_sound n (int_range mn mx step).
Proof.
  intros mn mx step Hs. split.
  - intros x. rewrite int_range_contains by lia. split.
    + intros [H [k ->]]. exists k. split; [nia|lia].
    + intros (k & Hk & -> & Hx). split; [nia|by exists k].
  - intros n x _ H. apply int_range_contains in H; [cbn [int_range lowerBound upperBound]; lia|lia].
Qed.

(** even sizes between 2 and 4 of subsets of 6 items: 15 + 15 *)
Example C27_case :
  bounds_sound 6 (int_range 2 5 2) /\
  contains (int_range 2 5 2) 4 = true /\ contains (int_range 2 5 2) 5 = false /\
  exists d, construct_dd (size_spec 6 (Some (int_range 2 5 2))) = Some d /\
    map length (tab d) = [2; 5; 5; 4; 3; 2; 1]%nat /\
    zdd_sem (dd_spec d) 6 (vec_of [0;1;1;0;1;1]%nat) = true /\ zdd_sem (dd_spec d) 6 (vec_of [0;1;1;0;1;0]%nat) = false.
Proof.
  split; [by apply C27_int_range|]. split_and!; [done|done|].
  eexists. split_and!; [vm_compute; reflexivity|by vm_compute..].
Qed.

(** Unsound bounds make the claim false: an upper bound below a contained size. *)
Example C27_bounds_needed :
  let c := {| contains := fun x => x =? 2; lowerBound := 0; upperBound := 1 |} in
  zdd_sem (size_spec 2 (Some c)) 2 (fun _ => 1%nat) = false /\ contains c (chosen (fun _ => 1%nat) 2) = true.
Proof. by vm_compute. Qed.

Print Assumptions C27_size_constraint.
Print Assumptions C27_contract.
Print Assumptions C27_diagram.
Print Assumptions C27_int_range.
