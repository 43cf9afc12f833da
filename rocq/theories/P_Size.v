(** SizeConstraint: proofs. *)
From Verif Require Import Base Sem M_Size S_Spec.
Local Open Scope Z_scope.

Lemma size_levels cons c l b : 0 < l -> -1 <= fst (size_child cons c l b) < l.
Proof.
  intros Hl. unfold size_child. destruct cons as [k|].
  - destruct (negb _).
    + destruct (upperBound k <=? c); cbn [fst]; [lia|].
      destruct (Z.leb_spec 1 (l - 1)); [lia|]. destruct (contains k _); lia.
    + destruct (c + l <=? lowerBound k); cbn [fst]; [lia|].
      destruct (Z.leb_spec 1 (l - 1)); [lia|]. destruct (contains k _); lia.
  - cbn [fst]. destruct (Z.leb_spec 1 (l - 1)); lia.
Qed.
Lemma reach_pos sp l s : reach sp l s -> 0 < l.
Proof. by destruct 1. Qed.

Lemma size_congr n cons : spec_congr (size_spec n cons).
Proof.
  constructor; cbn [size_spec equal_to].
  - intros. apply Z.eqb_refl.
  - intros. apply Z.eqb_sym.
  - intros l s s' s'' _ _ _ H1 H2. apply Z.eqb_eq in H1, H2. subst. apply Z.eqb_refl.
  - intros l s s' b _ _ _ H. apply Z.eqb_eq in H. subst. split; [done|]. intros _. apply Z.eqb_refl.
Qed.
Lemma size_ok n cons : spec_ok (size_spec n cons).
Proof.
  constructor.
  - simpl; lia.
  - intros l s b Hr _. by apply size_levels, (reach_pos _ _ _ Hr).
  - intros l s s' _ _ H. apply Z.eqb_eq in H. subst. by intros bs _.
Qed.
Lemma size_one_code n cons : 0 <= n -> one_code (size_spec n cons).
Proof.
  intros Hn. split.
  - cbn [size_spec get_root size_root fst]. destruct cons as [c|]; [|lia]. destruct (n <? lowerBound c); lia.
  - intros l s b Hr _. pose proof (size_levels cons s l b (reach_pos _ _ _ Hr)) as H. apply H.
Qed.
Lemma size_shareable n cons : shareable (size_spec n cons).
Proof.
  split; cbn [size_spec equal_to hash_code].
  - intros. apply Z.eqb_sym.
  - intros l s s' H. apply Z.eqb_eq in H. by subst.
Qed.

Lemma chosen_range v n : 0 <= chosen v n <= Z.of_nat n.
Proof. induction n as [|n IH]; cbn [chosen]; [lia|]. destruct (v (S n) =? 0)%nat; lia. Qed.

(** terminals keep their value below *)
Lemma zdd_eval_zero sp l s v : zdd_eval sp l 0 s v = false.
Proof.
  induction l as [|l IH]; cbn [zdd_eval]; [done|].
  destruct (Z.eqb_spec 0 (Z.of_nat (S l))); [lia|]. by destruct (v (S l) =? 0)%nat.
Qed.
Lemma bdd_eval_zero sp l s v : bdd_eval sp l 0 s v = false.
Proof.
  induction l as [|l IH]; cbn [bdd_eval]; [done|].
  by destruct (Z.eqb_spec 0 (Z.of_nat (S l))); [lia|].
Qed.

(** a specification that visits every level: both readings agree *)
Lemma size_eval cons n v : 
  match cons with Some c => bounds_sound n c | None => True end ->
  forall l count, (0 < l <= n)%nat -> 0 <= count -> count + Z.of_nat l <= Z.of_nat n ->
  let r := match cons with Some c => contains c (count + chosen v l) | None => true end in
  zdd_eval (size_spec (Z.of_nat n) cons) l (Z.of_nat l) count v = r /\
  bdd_eval (size_spec (Z.of_nat n) cons) l (Z.of_nat l) count v = r.
Proof.
  intros Hc. induction l as [|l IH]; intros count Hl H0 Hcl; [lia|]. cbn [zdd_eval bdd_eval].
  rewrite Z.eqb_refl. cbn [size_spec get_child]. fold (size_spec (Z.of_nat n) cons).
  cbn [chosen]. pose proof (chosen_range v l) as Hcr. unfold size_child. destruct cons as [c|]; cbn zeta in *.
  - destruct (Nat.eqb_spec (v (S l)) 0) as [Hv|Hv]; cbn [negb].
    + destruct (Z.leb_spec (count + Z.of_nat (S l)) (lowerBound c)) as [Hb|Hb]; cbn [fst snd].
      { rewrite zdd_eval_zero, bdd_eval_zero.
        destruct (contains c _) eqn:E; [|done]. apply Hc in E; lia. }
      destruct (Z.leb_spec 1 (Z.of_nat (S l) - 1)) as [Hl1|Hl1].
      * replace (Z.of_nat (S l) - 1) with (Z.of_nat l) by lia.
        replace (count + (0 + chosen v l)) with (count + chosen v l) by lia. apply IH; lia.
      * assert (l = 0%nat) as -> by lia. cbn [zdd_eval bdd_eval chosen].
        replace (count + (0 + 0)) with count by lia. by destruct (contains c count).
    + destruct (Z.leb_spec (upperBound c) count) as [Hb|Hb]; cbn [fst snd].
      { rewrite zdd_eval_zero, bdd_eval_zero.
        destruct (contains c _) eqn:E; [|done]. apply Hc in E; lia. }
      destruct (Z.leb_spec 1 (Z.of_nat (S l) - 1)) as [Hl1|Hl1].
      * replace (Z.of_nat (S l) - 1) with (Z.of_nat l) by lia.
        replace (count + (1 + chosen v l)) with ((count + 1) + chosen v l) by lia. apply IH; lia.
      * assert (l = 0%nat) as -> by lia. cbn [zdd_eval bdd_eval chosen].
        replace (count + (1 + 0)) with (count + 1) by lia. by destruct (contains c (count + 1)).
  - cbn [fst snd]. destruct (Z.leb_spec 1 (Z.of_nat (S l) - 1)) as [Hl1|Hl1].
    + replace (Z.of_nat (S l) - 1) with (Z.of_nat l) by lia. apply IH; lia.
    + assert (l = 0%nat) as -> by lia. done.
Qed.

Lemma size_sem cons n v : (0 < n)%nat ->
  match cons with Some c => bounds_sound n c | None => True end ->
  let r := match cons with Some c => contains c (chosen v n) | None => true end in
  zdd_sem (size_spec (Z.of_nat n) cons) n v = r /\ bdd_sem (size_spec (Z.of_nat n) cons) n v = r.
Proof.
  intros Hn Hc r. subst r. unfold zdd_sem, bdd_sem. cbn [size_spec get_root size_root fst snd]. fold (size_spec (Z.of_nat n) cons).
  pose proof (chosen_range v n) as Hr.
  destruct cons as [c|].
  - destruct (Z.ltb_spec (Z.of_nat n) (lowerBound c)) as [Hb|Hb].
    + rewrite zdd_eval_zero, bdd_eval_zero. destruct (contains c _) eqn:E; [|done]. apply Hc in E; lia.
    + pose proof (size_eval (Some c) n v Hc n 0) as H. cbn zeta in H. rewrite Z.add_0_l in H. apply H; lia.
  - apply (size_eval None n v Hc n 0); lia.
Qed.

Lemma int_range_contains mn mx step x : step <> 0 ->
  contains (int_range mn mx step) x = true <-> mn <= x <= mx /\ exists k, x = mn + k * step.
Proof.
  intros Hs. cbn [int_range contains]. destruct (Z.ltb_spec x mn); cbn [orb].
  { split; [done|lia]. }
  destruct (Z.ltb_spec mx x). { split; [done|lia]. }
  rewrite Z.eqb_eq. split.
  - intros E. split; [lia|]. exists ((x - mn) ÷ step).
    pose proof (Z.quot_rem' (x - mn) step). rewrite E in *. lia.
  - intros [_ [k ->]]. replace (mn + k * step - mn) with (k * step) by lia. by apply Z.rem_mul.
Qed.
