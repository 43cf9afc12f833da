(** Proofs about the hash table model. *)
From Verif Require Import Base M_Hash.

(** ** primeSize *)
Lemma primes_sorted : forall i j, i <= j -> j < length primes -> (nth i primes 0 <= nth j primes 0)%N.
Proof.
  assert (forallb (fun i => (nth i primes 0 <=? nth (S i) primes 0)%N) (seq 0 (length primes - 1)) = true)
    as H by (vm_compute; reflexivity).
  rewrite forallb_forall in H.
  intros i j Hij Hj. induction Hij as [|j Hij IH]; [lia|].
  specialize (H j). rewrite in_seq in H. specialize (IH ltac:(lia)).
  apply N.leb_le in H; [lia|]. lia.
Qed.

Lemma prime_search_ok fuel lo hi n :
  lo <= hi -> hi - lo < fuel -> hi < length primes -> (n <= nth hi primes 0)%N ->
  (n <= nth (prime_search fuel lo hi n) primes 0)%N /\ lo <= prime_search fuel lo hi n <= hi.
Proof.
  revert lo hi. induction fuel as [|k IH]; intros lo hi Hle Hf Hhi Hn; [lia|].
  cbn [prime_search]. destruct (Nat.ltb_spec lo hi) as [Hlt|Hge].
  - assert (lo <= (lo + hi) / 2 < hi) as Hi.
    { split; [apply Nat.div_le_lower_bound; lia|apply Nat.div_lt_upper_bound; lia]. }
    destruct (N.leb_spec n (nth ((lo + hi) / 2) primes 0%N)) as [Hc|Hc].
    + destruct (IH lo ((lo + hi) / 2)); try lia.
    + destruct (IH (S ((lo + hi) / 2)) hi); try lia.
  - assert (lo = hi) as -> by lia. split; [done|lia].
Qed.

Lemma primeSize_ge n : (n <= primeSize n)%N.
Proof.
  unfold primeSize. destruct (N.ltb_spec (nth (length primes - 1) primes 0%N) n) as [H|H]; [lia|].
  apply prime_search_ok; try (cbn [length primes]; lia). done.
Qed.

(** ** Counting occupied slots *)
Lemma elems_cons {A} (o : option A) l :
  omap id (o :: l) = match o with Some y => y :: omap id l | None => omap id l end.
Proof. by destruct o. Qed.

Lemma elems_insert_none {A} (l : list (option A)) i x :
  l !! i = Some None -> omap id (<[i := Some x]> l) ≡ₚ x :: omap id l.
Proof.
  revert i. induction l as [|o l IH]; intros i Hi; [done|].
  destruct i as [|i]; simpl in Hi.
  - inversion Hi; subst. done.
  - cbn [insert list_insert]. change (list_insert i (Some x) l) with (<[i := Some x]> l).
    rewrite !elems_cons. destruct o as [y|]; [|by apply IH].
    rewrite (IH _ Hi). apply Permutation_swap.
Qed.

Lemma elems_full {A} (l : list (option A)) :
  (forall i, i < length l -> exists y, l !! i = Some (Some y)) -> length (omap id l) = length l.
Proof.
  induction l as [|o l IH]; intros H; [done|]. rewrite elems_cons.
  destruct (H 0 ltac:(simpl; lia)) as [y Hy]. simpl in Hy. inversion Hy; subst.
  simpl. f_equal. apply IH. intros i Hi. apply (H (S i)). simpl. lia.
Qed.

Lemma elems_lookup {A} (l : list (option A)) y :
  y ∈ omap id l <-> exists i, l !! i = Some (Some y).
Proof.
  rewrite elem_of_list_omap. split.
  - intros (o & Ho & Hid). unfold id in Hid. subst. apply elem_of_list_lookup in Ho. done.
  - intros [i Hi]. exists (Some y). split; [|done]. by eapply elem_of_list_lookup_2.
Qed.

Lemma elems_replicate {A} n : omap id (replicate n (@None A)) = [].
Proof. induction n; simpl; auto. Qed.

Section hash_proofs.
  Context {A : Type} (hash : A -> N) (eqb : A -> A -> bool).

  Notation probe := (ht_probe eqb).

  Lemma probe_spec k (l : list (option A)) i x :
    i < length l ->
    match probe k l i x with
    | Some (inl j) => exists d y, d < k /\ j = (i + d) mod length l /\ l !! j = Some (Some y) /\
        eqb y x = true /\
        forall d', d' < d -> exists y', l !! ((i + d') mod length l) = Some (Some y') /\ eqb y' x = false
    | Some (inr j) => exists d, d < k /\ j = (i + d) mod length l /\ l !! j = Some None /\
        forall d', d' < d -> exists y', l !! ((i + d') mod length l) = Some (Some y') /\ eqb y' x = false
    | None =>
        forall d', d' < k -> exists y', l !! ((i + d') mod length l) = Some (Some y') /\ eqb y' x = false
    end.
  Proof.
    revert i. induction k as [|k IH]; intros i Hi; cbn [ht_probe]; [intros; lia|].
    destruct (lookup_lt_is_Some_2 l i Hi) as [o Ho]. rewrite Ho.
    assert (forall z, (z + 0) mod length l = z mod length l) as Hz by (intros; f_equal; lia).
    destruct o as [y|].
    2:{ exists 0. split_and!; [lia| |done|intros; lia]. rewrite Hz. by rewrite Nat.mod_small. }
    destruct (eqb y x) eqn:He.
    { exists 0, y. split_and!; [lia| |done|done|intros; lia]. rewrite Hz. by rewrite Nat.mod_small. }
    set (i' := if length l <=? S i then 0 else S i).
    assert (Hi'l : i' < length l) by (unfold i'; destruct (Nat.leb_spec (length l) (S i)); lia).
    assert (Hsh : forall d, (i' + d) mod length l = (i + S d) mod length l).
    { intros d. unfold i'. destruct (Nat.leb_spec (length l) (S i)) as [H|H].
      - replace (i + S d) with (d + 1 * length l) by lia. rewrite Nat.mod_add by lia. done.
      - f_equal; lia. }
    assert (Hd0 : forall (Q : nat -> Prop), Q 0 -> (forall d, Q (S d)) -> forall d, Q d).
    { intros Q H0 HS [|d]; auto. }
    specialize (IH i' Hi'l). fold i'. destruct (probe k l i' x) as [[j|j]|].
    - destruct IH as (d & y1 & Hd & -> & Hl & He1 & Hall). exists (S d), y1.
      rewrite Hsh in *. split_and!; [lia|done|done|done|].
      intros [|d'] Hd'. { exists y. rewrite Hz, Nat.mod_small by lia. done. }
      rewrite <- Hsh. apply Hall. lia.
    - destruct IH as (d & Hd & -> & Hl & Hall). exists (S d).
      rewrite Hsh in *. split_and!; [lia|done|done|].
      intros [|d'] Hd'. { exists y. rewrite Hz, Nat.mod_small by lia. done. }
      rewrite <- Hsh. apply Hall. lia.
    - intros [|d'] Hd'. { exists y. rewrite Hz, Nat.mod_small by lia. done. }
      rewrite <- Hsh. apply IH. lia.
  Qed.

  (** storage invariant *)
  Record ht_inv (t : htable A) : Prop := {
    hi_count : length (ht_elems t) = hsize t;
    hi_size : hsize t <= hmax t;
    hi_max : hmax t < length (slots t)
  }.

  Lemma start_lt t x : 0 < length (slots t) -> ht_start hash t x < length (slots t).
  Proof. intros H. unfold ht_start. pose proof (N.mod_lt (hash x) (N.of_nat (length (slots t)))). lia. Qed.

  Lemma all_pos i L j : i < L -> j < L -> exists d, d < L /\ (i + d) mod L = j.
  Proof.
    intros Hi Hj. destruct (decide (i <= j)) as [H|H].
    - exists (j - i). split; [lia|]. rewrite Nat.mod_small; lia.
    - exists (j + L - i). split; [lia|]. replace (i + (j + L - i)) with (j + 1 * L) by lia.
      rewrite Nat.mod_add by lia. by rewrite Nat.mod_small.
  Qed.

  Lemma find_not_none t x : ht_inv t -> ht_find hash eqb t x <> None.
  Proof.
    intros [Hc Hs Hm] Hf. unfold ht_find in Hf.
    pose proof (probe_spec (length (slots t)) (slots t) (ht_start hash t x) x
                  ltac:(apply start_lt; lia)) as H. rewrite Hf in H.
    assert (length (omap id (slots t)) = length (slots t)) as He.
    { apply elems_full. intros j Hj.
      destruct (all_pos (ht_start hash t x) (length (slots t)) j) as (d & Hd & <-);
        [apply start_lt; lia|done|].
      destruct (H d Hd) as (y & Hy & _). by exists y. }
    unfold ht_elems in Hc. lia.
  Qed.

  Lemma ht_init_facts n : n <= hmax (@ht_init A n) /\ n < length (slots (@ht_init A n)) /\
    hmax (@ht_init A n) < length (slots (@ht_init A n)) /\ hsize (@ht_init A n) = 0 /\ ht_elems (@ht_init A n) = [].
  Proof.
    unfold ht_init. cbn [hmax slots hsize]. unfold ht_elems; cbn [slots].
    set (ts := N.to_nat _).
    assert (Hts : N.to_nat (N.of_nat n * 100 / 75 + 1) <= ts).
    { unfold ts. pose proof (primeSize_ge (N.of_nat n * 100 / 75 + 1)). lia. }
    assert (Hn : 4 * n < 3 * ts).
    { pose proof (N.div_mod (N.of_nat n * 100) 75 ltac:(lia)).
      pose proof (N.mod_lt (N.of_nat n * 100) 75 ltac:(lia)). lia. }
    rewrite replicate_length, elems_replicate. split_and!; try done; try lia.
    - apply Nat.div_le_lower_bound; lia.
    - apply Nat.div_lt_upper_bound; lia.
  Qed.

  Lemma ht_init_inv n : ht_inv (@ht_init A n).
  Proof.
    destruct (ht_init_facts n) as (? & ? & ? & Hs & He). constructor.
    - by rewrite He, Hs. - rewrite Hs; lia. - done.
  Qed.

  (** Insertion below the fill limit, no assumption on the hash function. *)
  Lemma ht_add_weak t x :
    ht_inv t -> hsize t < hmax t ->
    exists t' i y, ht_add hash eqb t x = Some (t', i) /\ ht_inv t' /\ ht_at t' i = Some y /\
      hmax t' = hmax t /\
      ((t' = t /\ y ∈ ht_elems t /\ eqb y x = true) \/
       (y = x /\ ht_elems t' ≡ₚ x :: ht_elems t /\ hsize t' = S (hsize t))).
  Proof.
    intros Hinv Hlt. pose proof Hinv as [Hc Hs Hm]. unfold ht_add.
    destruct (Nat.eqb_spec (length (slots t)) 0) as [H0|H0]; [lia|].
    cbn [mbind option_bind].
    pose proof (find_not_none t x Hinv) as Hnn.
    pose proof (probe_spec (length (slots t)) (slots t) (ht_start hash t x) x
                  ltac:(apply start_lt; lia)) as HP.
    unfold ht_find in *. destruct (probe _ _ _ _) as [[j|j]|]; [| |done].
    - destruct HP as (d & y & _ & _ & Hy & He & _).
      exists t, j, y. unfold ht_at. rewrite Hy. split_and!; try done. left. split_and!; try done.
      apply elems_lookup. by exists j.
    - destruct HP as (d & _ & _ & Hy & _).
      destruct (Nat.ltb_spec (hsize t) (hmax t)) as [_|?]; [|lia].
      assert (j < length (slots t)) by (by eapply lookup_lt_Some).
      set (t' := HT _ _ _). exists t', j, x.
      assert (Hp : ht_elems t' ≡ₚ x :: ht_elems t) by (by apply elems_insert_none).
      split_and!; try done.
      + constructor; cbn [slots hsize hmax t'].
        * rewrite Hp. simpl. by rewrite Hc.
        * lia.
        * by rewrite insert_length.
      + unfold ht_at. cbn [slots t']. by rewrite list_lookup_insert.
      + by right.
  Qed.

  (** Full correctness, for an equivalence relation and a compatible hash function. *)
  Context (Hrefl : forall x, eqb x x = true).
  Context (Hsym : forall x y, eqb x y = eqb y x).
  Context (Htrans : forall x y z, eqb x y = true -> eqb y z = true -> eqb x z = true).
  Context (Hhash : forall x y, eqb x y = true -> hash x = hash y).

  Record ht_strong (t : htable A) : Prop := {
    hs_inv : ht_inv t;
    hs_path : forall j y, slots t !! j = Some (Some y) ->
       exists d, d < length (slots t) /\ j = (ht_start hash t y + d) mod length (slots t) /\
       forall d', d' < d -> exists y', slots t !! ((ht_start hash t y + d') mod length (slots t)) = Some (Some y');
    hs_uniq : forall j j' y y', slots t !! j = Some (Some y) -> slots t !! j' = Some (Some y') ->
       eqb y y' = true -> j = j'
  }.

  Lemma ht_init_strong n : ht_strong (ht_init n).
  Proof.
    constructor; [apply ht_init_inv| |].
    - intros j y H. unfold ht_init in H. cbn [slots] in H. apply lookup_replicate in H. by destruct H.
    - intros j j' y y' H. unfold ht_init in H. cbn [slots] in H. apply lookup_replicate in H. by destruct H.
  Qed.

  Lemma start_eq t x y : eqb x y = true -> ht_start hash t x = ht_start hash t y.
  Proof. intros H. unfold ht_start. by rewrite (Hhash _ _ H). Qed.

  Lemma mod_inj L i d d' : i < L -> d < L -> d' < L -> (i + d) mod L = (i + d') mod L -> d = d'.
  Proof.
    intros Hi Hd Hd' H.
    destruct (decide (i + d < L)), (decide (i + d' < L)).
    - rewrite !Nat.mod_small in H; lia.
    - rewrite (Nat.mod_small (i + d)) in H by lia.
      replace (i + d') with ((i + d' - L) + 1 * L) in H by lia.
      rewrite Nat.mod_add, Nat.mod_small in H by lia. lia.
    - rewrite (Nat.mod_small (i + d')) in H by lia.
      replace (i + d) with ((i + d - L) + 1 * L) in H by lia.
      rewrite Nat.mod_add, Nat.mod_small in H by lia. lia.
    - replace (i + d) with ((i + d - L) + 1 * L) in H by lia.
      replace (i + d') with ((i + d' - L) + 1 * L) in H by lia.
      rewrite !Nat.mod_add, !Nat.mod_small in H by lia. lia.
  Qed.

  Lemma find_strong t x : ht_strong t ->
    (exists j y, ht_find hash eqb t x = Some (inl j) /\ slots t !! j = Some (Some y) /\ eqb y x = true) \/
    (exists j, ht_find hash eqb t x = Some (inr j) /\ slots t !! j = Some None /\
       (forall y, y ∈ ht_elems t -> eqb y x = false) /\
       exists d, d < length (slots t) /\ j = (ht_start hash t x + d) mod length (slots t) /\
         forall d', d' < d -> exists y', slots t !! ((ht_start hash t x + d') mod length (slots t)) = Some (Some y')).
  Proof.
    intros [Hinv Hpath Huniq]. pose proof Hinv as [Hc Hs Hm].
    pose proof (find_not_none t x Hinv) as Hnn.
    pose proof (start_lt t x ltac:(lia)) as Hst.
    pose proof (probe_spec (length (slots t)) (slots t) (ht_start hash t x) x Hst) as HP.
    unfold ht_find in *. destruct (probe _ _ _ _) as [[j|j]|]; [| |done].
    - destruct HP as (d & y & _ & _ & Hy & He & _). left. by exists j, y.
    - destruct HP as (d & Hd & Hj & Hy & Hall). right. exists j. split_and!; try done.
      + intros y Hyin. apply elems_lookup in Hyin. destruct Hyin as [j' Hj'].
        destruct (eqb y x) eqn:He; [|done]. exfalso.
        destruct (Hpath j' y Hj') as (d2 & Hd2 & Hj2 & Hall2).
        rewrite (start_eq t y x He) in *.
        destruct (lt_eq_lt_dec d2 d) as [[Hlt|Heq]|Hgt].
        * destruct (Hall d2 Hlt) as (y' & Hy' & Hne). rewrite <- Hj2, Hj' in Hy'. congruence.
        * subst d2. rewrite <- Hj in Hj2. subst j'. congruence.
        * destruct (Hall2 d Hgt) as (y' & Hy'). rewrite <- Hj in Hy'. congruence.
      + exists d. split_and!; try done. intros d' Hd'. destruct (Hall d' Hd') as (y' & Hy' & _). by exists y'.
  Qed.

  Lemma insert_strong t x j :
    ht_strong t -> slots t !! j = Some None -> hsize t < hmax t ->
    (forall y, y ∈ ht_elems t -> eqb y x = false) ->
    (exists d, d < length (slots t) /\ j = (ht_start hash t x + d) mod length (slots t) /\
         forall d', d' < d -> exists y', slots t !! ((ht_start hash t x + d') mod length (slots t)) = Some (Some y')) ->
    ht_strong (HT (<[j := Some x]> (slots t)) (S (hsize t)) (hmax t)).
  Proof.
    intros [Hinv Hpath Huniq] Hj Hlt Hnew (d & Hd & Hjd & Hall). pose proof Hinv as [Hc Hs Hm].
    set (t' := HT _ _ _).
    assert (Hlen : length (slots t') = length (slots t)) by apply insert_length.
    assert (Hstart : forall y, ht_start hash t' y = ht_start hash t y)
      by (intros y; unfold ht_start; by rewrite Hlen).
    assert (Hjl : j < length (slots t)) by (by eapply lookup_lt_Some).
    assert (Hocc : forall k y, slots t !! k = Some (Some y) -> slots t' !! k = Some (Some y)).
    { intros k y Hk. cbn [slots t']. rewrite list_lookup_insert_ne; [done|]. intros ->. congruence. }
    assert (Hback : forall k y, slots t' !! k = Some (Some y) -> (k = j /\ y = x) \/ slots t !! k = Some (Some y)).
    { intros k y Hk. cbn [slots t'] in Hk. destruct (decide (k = j)) as [->|Hne].
      - rewrite list_lookup_insert in Hk by done. left. split; congruence.
      - rewrite list_lookup_insert_ne in Hk by done. by right. }
    constructor.
    - constructor.
      + cbn [hsize t']. unfold ht_elems. cbn [slots t']. rewrite elems_insert_none by done.
        simpl. unfold ht_elems in Hc. lia.
      + cbn [hsize hmax t']. lia.
      + cbn [hmax t']. rewrite Hlen. done.
    - intros k y Hk. rewrite Hlen, Hstart. destruct (Hback k y Hk) as [[-> ->]|Hk'].
      + exists d. split_and!; try done. intros d' Hd'. destruct (Hall d' Hd') as [y' Hy'].
        exists y'. by apply Hocc.
      + destruct (Hpath k y Hk') as (d2 & Hd2 & Hk2 & Hall2). exists d2. split_and!; try done.
        intros d' Hd'. destruct (Hall2 d' Hd') as [y' Hy']. exists y'. by apply Hocc.
    - intros k k' y y' Hk Hk' He.
      destruct (Hback k y Hk) as [[-> ->]|H1], (Hback k' y' Hk') as [[-> ->]|H2]; try done.
      + rewrite Hsym in He. rewrite Hnew in He; [done|]. apply elems_lookup. by exists k'.
      + rewrite Hnew in He; [done|]. apply elems_lookup. by exists k.
      + by eapply Huniq.
  Qed.

  Lemma elems_nodup t : ht_strong t -> forall i i' y y',
    ht_elems t !! i = Some y -> ht_elems t !! i' = Some y' -> eqb y y' = true -> i = i'.
  Proof.
    intros [_ _ Hu]. unfold ht_elems. revert Hu. generalize (slots t). clear t.
    induction l as [|o l IH]; intros Hu i i' y y' Hi Hi' He; [done|].
    rewrite elems_cons in Hi, Hi'.
    assert (Hu' : forall j j' y y', l !! j = Some (Some y) -> l !! j' = Some (Some y') ->
       eqb y y' = true -> j = j').
    { intros j j' z z' H1 H2 H3. specialize (Hu (S j) (S j') z z' H1 H2 H3). lia. }
    destruct o as [z|]; [|by eapply IH].
    destruct i as [|i], i' as [|i']; try done; simpl in Hi, Hi'.
    - inversion Hi; subst. apply elem_of_list_lookup_2, elems_lookup in Hi'. destruct Hi' as [j Hj].
      specialize (Hu 0 (S j) y y' eq_refl Hj He). lia.
    - inversion Hi'; subst. apply elem_of_list_lookup_2, elems_lookup in Hi. destruct Hi as [j Hj].
      specialize (Hu (S j) 0 y y' Hj eq_refl He). lia.
    - f_equal. by eapply IH.
  Qed.

  (** Adding a list of pairwise inequivalent elements to a big enough table. *)
  Lemma add1_fresh t x : ht_strong t -> hsize t < hmax t -> (forall y, y ∈ ht_elems t -> eqb y x = false) ->
    exists t' i, ht_add1 hash eqb t x = Some (t', i) /\ ht_strong t' /\ ht_elems t' ≡ₚ x :: ht_elems t /\
      hmax t' = hmax t /\ length (slots t') = length (slots t) /\ ht_at t' i = Some x.
  Proof.
    intros Hst Hlt Hnew. unfold ht_add1.
    destruct (find_strong t x Hst) as [(j & y & -> & Hy & He)|(j & -> & Hj & _ & Hd)].
    - rewrite Hnew in He; [done|]. apply elems_lookup. by exists j.
    - destruct (Nat.ltb_spec (hsize t) (hmax t)); [|lia].
      eexists _, j. split_and!; [done|by apply insert_strong|by apply elems_insert_none|done|apply insert_length|].
      unfold ht_at. cbn [slots]. rewrite list_lookup_insert; [done|]. by eapply lookup_lt_Some.
  Qed.

  Lemma rehash_fold l t :
    ht_strong t -> hsize t + length l <= hmax t ->
    (forall i i' y y', l !! i = Some y -> l !! i' = Some y' -> eqb y y' = true -> i = i') ->
    (forall x y, x ∈ l -> y ∈ ht_elems t -> eqb y x = false) ->
    exists t', ofold (fun tmp x => fst <$> ht_add1 hash eqb tmp x) l t = Some t' /\ ht_strong t' /\
      ht_elems t' ≡ₚ l ++ ht_elems t /\ hmax t' = hmax t /\ length (slots t') = length (slots t).
  Proof.
    revert t. induction l as [|x l IH]; intros t Hst Hle Hnd Hnew; cbn [ofold].
    - by exists t.
    - simpl in Hle.
      destruct (add1_fresh t x Hst ltac:(lia)) as (t1 & i & Hadd & Hst1 & Hp & Hm1 & Hl1 & _).
      { intros y Hy. apply Hnew; [by left|done]. }
      rewrite Hadd. cbn [fmap option_fmap option_map fst].
      assert (hsize t1 = S (hsize t)) as Hs1.
      { rewrite <- (hi_count _ (hs_inv _ Hst1)), <- (hi_count _ (hs_inv _ Hst)), Hp. done. }
      destruct (IH t1 Hst1) as (t2 & Hf & Hst2 & Hp2 & Hm2 & Hl2).
      + lia.
      + intros k k' y y' Hk Hk' He. specialize (Hnd (S k) (S k') y y' Hk Hk' He). lia.
      + intros z y Hz Hy. rewrite Hp in Hy. apply elem_of_cons in Hy. destruct Hy as [->|Hy].
        * destruct (eqb x z) eqn:He; [|done].
          apply elem_of_list_lookup in Hz. destruct Hz as [k Hk].
          specialize (Hnd 0 (S k) x z eq_refl Hk He). lia.
        * apply Hnew; [by right|done].
      + exists t2. split_and!; try done; try congruence.
        rewrite Hp2, Hp. simpl. apply Permutation_sym, Permutation_middle.
  Qed.

  Lemma rehash_strong t n : ht_strong t \/ slots t = [] ->
    length (ht_elems t) <= max (length (slots t)) n ->
    exists t', ht_rehash hash eqb t n = Some t' /\ ht_strong t' /\ ht_elems t' ≡ₚ ht_elems t /\
      max (length (slots t)) n <= hmax t'.
  Proof.
    intros Hst Hle. unfold ht_rehash.
    destruct (ht_init_facts (max (length (slots t)) n)) as (Hm & _ & _ & Hs & He).
    destruct (rehash_fold (ht_elems t) (ht_init (max (length (slots t)) n))) as (t' & Hf & Hst' & Hp & Hm' & _).
    - apply ht_init_strong.
    - rewrite Hs. lia.
    - destruct Hst as [Hst|Hst].
      + by apply elems_nodup.
      + unfold ht_elems. rewrite Hst. done.
    - rewrite He. intros x y _ Hy. by apply elem_of_nil in Hy.
    - exists t'. rewrite He, app_nil_r in Hp. split_and!; try done. by rewrite Hm'.
  Qed.

  Definition ht_good (t : htable A) : Prop := ht_strong t \/ t = ht_empty.

  Lemma good_nodup t : ht_good t -> forall i i' y y',
    ht_elems t !! i = Some y -> ht_elems t !! i' = Some y' -> eqb y y' = true -> i = i'.
  Proof. intros [H| ->]; [by apply elems_nodup|done]. Qed.

  Lemma good_size t : ht_good t -> hsize t = length (ht_elems t).
  Proof. intros [H| ->]; [|done]. symmetry. by apply hi_count, hs_inv. Qed.

  Lemma ht_add_strong t x : ht_good t ->
    exists t' i y, ht_add hash eqb t x = Some (t', i) /\ ht_strong t' /\ ht_at t' i = Some y /\
      ((y ∈ ht_elems t /\ eqb y x = true /\ ht_elems t' ≡ₚ ht_elems t) \/
       (y = x /\ (forall z, z ∈ ht_elems t -> eqb z x = false) /\ ht_elems t' ≡ₚ x :: ht_elems t)).
  Proof.
    intros Hg. unfold ht_add.
    assert (exists t1, (if length (slots t) =? 0 then ht_rehash hash eqb t 1 else Some t) = Some t1 /\
              ht_strong t1 /\ ht_elems t1 ≡ₚ ht_elems t) as (t1 & -> & Hst & Hp1).
    { destruct Hg as [Hst| ->].
      - pose proof (hi_max _ (hs_inv _ Hst)). destruct (Nat.eqb_spec (length (slots t)) 0); [lia|].
        by exists t.
      - simpl. destruct (rehash_strong ht_empty 1) as (t1 & Hr & Hst & Hp & _); [by right|simpl; lia|].
        by exists t1. }
    cbn [mbind option_bind].
    destruct (find_strong t1 x Hst) as [(j & y & -> & Hy & He)|(j & -> & Hj & Hnew & Hd)].
    - exists t1, j, y. split_and!; try done; [by unfold ht_at; rewrite Hy|].
      left. split_and!; try done. rewrite <- Hp1. apply elems_lookup. by exists j.
    - destruct (Nat.ltb_spec (hsize t1) (hmax t1)) as [Hlt|Hge].
      + eexists _, j, x. split_and!; [done|by apply insert_strong| |].
        { unfold ht_at. cbn [slots]. rewrite list_lookup_insert; [done|]. by eapply lookup_lt_Some. }
        right. split_and!; [done|by intros z; rewrite <- Hp1; apply Hnew|].
        rewrite <- Hp1. by apply elems_insert_none.
      + pose proof (hs_inv _ Hst) as [Hc Hs Hm].
        destruct (rehash_strong t1 (hsize t1 * 2)) as (t2 & -> & Hst2 & Hp2 & Hm2);
          [by left|lia|].
        cbn [mbind option_bind].
        destruct (add1_fresh t2 x Hst2) as (t3 & i & -> & Hst3 & Hp3 & _ & _ & Hat).
        * rewrite <- (hi_count _ (hs_inv _ Hst2)), Hp2. lia.
        * intros y Hy. rewrite Hp2 in Hy. by apply Hnew.
        * exists t3, i, x. split_and!; try done. right. split_and!; try done.
          { intros z Hz. apply Hnew. by rewrite Hp1. }
          by rewrite Hp3, Hp2, Hp1.
  Qed.

  Lemma ht_get_strong t x : ht_good t ->
    (exists i y, ht_get hash eqb t x = Some (Some i) /\ ht_at t i = Some y /\ y ∈ ht_elems t /\ eqb y x = true) \/
    (ht_get hash eqb t x = Some None /\ forall z, z ∈ ht_elems t -> eqb z x = false).
  Proof.
    intros [Hst| ->].
    - unfold ht_get. pose proof (hi_max _ (hs_inv _ Hst)).
      destruct (Nat.ltb_spec 0 (length (slots t))); [|lia].
      destruct (find_strong t x Hst) as [(j & y & -> & Hy & He)|(j & -> & Hj & Hnew & Hd)].
      + left. exists j, y. split_and!; try done; [by unfold ht_at; rewrite Hy|]. apply elems_lookup. by exists j.
      + by right.
    - right. split; [done|]. intros z Hz. by apply elem_of_nil in Hz.
  Qed.

  (** Modification in place of an entry, keeping it equivalent. *)
  Lemma ht_modify_strong t i y f : ht_strong t -> ht_at t i = Some y -> eqb y (f y) = true ->
    exists t' l1 l2, ht_modify t i f = Some t' /\ ht_strong t' /\
      ht_elems t = l1 ++ y :: l2 /\ ht_elems t' = l1 ++ f y :: l2.
  Proof.
    intros [Hinv Hpath Huniq] Hat He. pose proof Hinv as [Hc Hs Hm].
    unfold ht_at in Hat. unfold ht_modify.
    destruct (slots t !! i) as [[z|]|] eqn:Hi; try done. inversion Hat; subst z.
    assert (Hil : i < length (slots t)) by (by eapply lookup_lt_Some).
    set (t' := HT _ _ _).
    assert (exists l1 l2, ht_elems t = l1 ++ y :: l2 /\ ht_elems t' = l1 ++ f y :: l2) as (l1 & l2 & E1 & E2).
    { unfold ht_elems, t'. cbn [slots]. clear -Hi. revert i Hi. generalize (slots t).
      induction l as [|o l IH]; intros i Hi; [done|]. destruct i as [|i]; simpl in Hi.
      - inversion Hi; subst. by exists [], (omap id l).
      - destruct (IH i Hi) as (l1 & l2 & E1 & E2).
        change (<[S i := Some (f y)]> (o :: l)) with (o :: <[i := Some (f y)]> l).
        rewrite !elems_cons, E1, E2. destruct o as [z|]; [by exists (z :: l1), l2|by exists l1, l2]. }
    exists t', l1, l2. split_and!; try done.
    assert (Hlen : length (slots t') = length (slots t)) by apply insert_length.
    assert (Hstart : forall z, ht_start hash t' z = ht_start hash t z)
      by (intros z; unfold ht_start; by rewrite Hlen).
    assert (Hocc : forall k z, slots t !! k = Some (Some z) -> exists z', slots t' !! k = Some (Some z')).
    { intros k z Hk. cbn [slots t']. destruct (decide (i = k)) as [->|Hne].
      - exists (f y). by apply list_lookup_insert.
      - exists z. by rewrite list_lookup_insert_ne. }
    assert (Hback : forall k z, slots t' !! k = Some (Some z) -> exists z', slots t !! k = Some (Some z') /\ eqb z' z = true).
    { intros k z Hk. cbn [slots t'] in Hk. destruct (decide (i = k)) as [->|Hne].
      - rewrite list_lookup_insert in Hk by done. inversion Hk; subst. by exists y.
      - rewrite list_lookup_insert_ne in Hk by done. by exists z. }
    constructor.
    - constructor; cbn [hsize hmax t']; [|done|by rewrite Hlen].
      rewrite E2. rewrite <- Hc, E1. by rewrite !app_length.
    - intros k z Hk. destruct (Hback k z Hk) as (z' & Hk' & Hz). rewrite Hlen, Hstart.
      destruct (Hpath k z' Hk') as (d & Hd & Hkd & Hall). rewrite (start_eq t z' z Hz) in *.
      exists d. split_and!; try done. intros d' Hd'. destruct (Hall d' Hd') as (w & Hw). by eapply Hocc.
    - intros k k' z z' Hk Hk' Hz.
      destruct (Hback k z Hk) as (w & Hw & Hwz), (Hback k' z' Hk') as (w' & Hw' & Hwz').
      eapply Huniq; [done..|]. eapply Htrans; [done|]. eapply Htrans; [done|]. by rewrite Hsym.
  Qed.
End hash_proofs.

From Verif Require Import S_Hash.

Section run_proofs.
  Context {A : Type} (hash : A -> N) (eqb : A -> A -> bool).
  Context (Hrefl : forall x, eqb x x = true).
  Context (Hsym : forall x y, eqb x y = eqb y x).
  Context (Htrans : forall x y z, eqb x y = true -> eqb y z = true -> eqb x z = true).
  Context (Hhash : forall x y, eqb x y = true -> hash x = hash y).

  Definition pairwise (R : list A) : Prop :=
    forall i i' y y', R !! i = Some y -> R !! i' = Some y' -> eqb y y' = true -> i = i'.

  Lemma pairwise_inv R y y' : pairwise R -> y ∈ R -> y' ∈ R -> eqb y y' = true -> y = y'.
  Proof.
    intros Hp Hy Hy' He. apply elem_of_list_lookup in Hy as [i Hi], Hy' as [i' Hi'].
    assert (i = i') as -> by (by eapply Hp). congruence.
  Qed.

  Lemma find_some R x y : ref_find eqb R x = Some y -> y ∈ R /\ eqb y x = true.
  Proof. intros H. apply find_some in H. by rewrite elem_of_list_In. Qed.
  Lemma find_none R x : ref_find eqb R x = None -> forall y, y ∈ R -> eqb y x = false.
  Proof. intros H y Hy. apply elem_of_list_In in Hy. by apply (List.find_none _ _ H). Qed.

  Lemma find_char R x y : pairwise R -> y ∈ R -> eqb y x = true -> ref_find eqb R x = Some y.
  Proof.
    intros Hp Hy He. destruct (ref_find eqb R x) as [z|] eqn:Hf.
    - apply find_some in Hf as [Hz Hzx]. f_equal. apply (pairwise_inv R); [done|done|done|].
      eapply Htrans; [done|]. by rewrite Hsym.
    - by rewrite (find_none _ _ Hf y Hy) in He.
  Qed.

  Lemma pairwise_perm R R' : R ≡ₚ R' -> pairwise R -> pairwise R'.
  Proof.
    assert (forall R, pairwise R <-> ForallOrdPairs (fun y y' => eqb y y' = false) R) as Hch.
    { clear R R'. intros R. split.
      - induction R as [|z R IH]; intros Hp; constructor.
        + apply Forall_forall. intros y Hy. destruct (eqb z y) eqn:He; [|done].
          apply elem_of_list_lookup in Hy as [i Hi].
          specialize (Hp 0 (S i) z y eq_refl Hi He). lia.
        + apply IH. intros i i' y y' Hi Hi' He. specialize (Hp (S i) (S i') y y' Hi Hi' He). lia.
      - induction 1 as [|z R HF HO IH]; intros i i' y y' Hi Hi' He; [done|].
        rewrite Forall_forall in HF.
        destruct i as [|i], i' as [|i']; simpl in Hi, Hi'; try done.
        + inversion Hi; subst. apply elem_of_list_lookup_2 in Hi'. rewrite HF in He; done.
        + inversion Hi'; subst. apply elem_of_list_lookup_2 in Hi. rewrite Hsym, HF in He; done.
        + f_equal. by eapply IH. }
    intros Hperm. rewrite !Hch. clear Hch. induction Hperm; intros H.
    - done.
    - inversion H; subst. constructor; [|by apply IHHperm]. by rewrite <- Hperm.
    - inversion H as [|? ? H1 H2]; subst. inversion H2 as [|? ? H3 H4]; subst.
      inversion H1; subst. constructor; [|constructor; done].
      constructor; [by rewrite Hsym|done].
    - auto.
  Qed.

  Lemma map_upd_perm R l1 l2 x y f :
    pairwise R -> R ≡ₚ l1 ++ y :: l2 -> eqb y x = true ->
    map (fun z => if eqb z x then f z else z) R ≡ₚ l1 ++ f y :: l2.
  Proof.
    intros Hp Hperm Hyx. pose proof (pairwise_perm _ _ Hperm Hp) as Hp'.
    rewrite (Permutation_map _ Hperm). rewrite map_app. cbn [map]. rewrite Hyx.
    assert (forall z, z ∈ l1 \/ z ∈ l2 -> eqb z x = false) as Hne.
    { intros z Hz. destruct (eqb z x) eqn:Hzx; [|done]. exfalso.
      assert (eqb z y = true) as Hzy by (eapply Htrans; [done|by rewrite Hsym]).
      destruct Hz as [Hz|Hz]; apply elem_of_list_lookup in Hz as [i Hi].
      - pose proof (lookup_lt_Some _ _ _ Hi).
        specialize (Hp' i (length l1) z y). rewrite lookup_app_l in Hp' by done.
        rewrite list_lookup_middle in Hp' by done. specialize (Hp' Hi eq_refl Hzy). lia.
      - specialize (Hp' (length l1 + S i) (length l1) z y).
        rewrite lookup_app_r in Hp' by lia. rewrite list_lookup_middle in Hp' by done.
        replace (length l1 + S i - length l1) with (S i) in Hp' by lia.
        specialize (Hp' Hi eq_refl Hzy). lia. }
    rewrite <- (map_id l1) at 2. rewrite <- (map_id l2) at 2.
    erewrite (map_ext_in _ id l1), (map_ext_in _ id l2); [done| |];
      intros z Hz; rewrite Hne; try done; [right|left]; by apply elem_of_list_In.
  Qed.

  Lemma imp_step_ok t R o : op_ok eqb o -> ht_good hash eqb t -> ht_elems t ≡ₚ R ->
    exists t', imp_step hash eqb t o = Some (t', snd (ref_step eqb R o)) /\ ht_good hash eqb t' /\
      ht_elems t' ≡ₚ fst (ref_step eqb R o).
  Proof.
    intros Hop Hg Hp.
    assert (Hpw : pairwise R) by (eapply pairwise_perm; [done|]; exact (good_nodup hash eqb t Hg)).
    destruct o as [x|x|x f|n| |n]; cbn [imp_step ref_step].
    - destruct (ht_add_strong hash eqb Hsym Hhash t x Hg) as (t' & i & y & -> & Hst & Hat & Hc).
      cbn [mbind option_bind fst snd]. rewrite Hat. cbn [mbind option_bind].
      destruct Hc as [(Hin & He & Hp')|(-> & Hnew & Hp')].
      + rewrite Hp in Hin. rewrite (find_char R x y) by done. cbn [fst snd].
        exists t'. split_and!; [done|by left|by rewrite Hp', Hp].
      + destruct (ref_find eqb R x) as [z|] eqn:Hf.
        { apply find_some in Hf as [Hz Hzx]. rewrite <- Hp in Hz. by rewrite Hnew in Hzx. }
        cbn [fst snd]. exists t'. split_and!; [done|by left|]. rewrite Hp', Hp.
        apply Permutation_cons_append.
    - destruct (ht_get_strong hash eqb Hhash t x Hg) as [(i & y & -> & Hat & Hin & He)|[-> Hnew]].
      + cbn [mbind option_bind]. rewrite Hat. cbn [mbind option_bind fst snd].
        rewrite Hp in Hin. rewrite (find_char R x y) by done. by exists t.
      + cbn [mbind option_bind fst snd].
        destruct (ref_find eqb R x) as [z|] eqn:Hf.
        { apply find_some in Hf as [Hz Hzx]. rewrite <- Hp in Hz. by rewrite Hnew in Hzx. }
        by exists t.
    - simpl in Hop.
      destruct (ht_add_strong hash eqb Hsym Hhash t x Hg) as (t' & i & y & -> & Hst & Hat & Hc).
      cbn [mbind option_bind fst snd].
      destruct (ht_modify_strong hash eqb Hrefl Hsym Htrans Hhash t' i y f Hst Hat (Hop y))
        as (t2 & l1 & l2 & Hmod & Hst2 & E1 & E2).
      rewrite Hmod. cbn [mbind option_bind].
      assert (ht_at t2 i = Some (f y)) as ->.
      { unfold ht_modify in Hmod. unfold ht_at in Hat.
        destruct (slots t' !! i) as [[z|]|] eqn:Hi; try done. inversion Hat; subst z.
        inversion Hmod; subst. unfold ht_at. cbn [slots].
        rewrite list_lookup_insert; [done|]. by eapply lookup_lt_Some. }
      cbn [mbind option_bind].
      destruct Hc as [(Hin & He & Hp')|(-> & Hnew & Hp')].
      + rewrite Hp in Hin. rewrite (find_char R x y) by done. cbn [fst snd].
        exists t2. split_and!; [done|by left|]. rewrite E2. symmetry.
        apply map_upd_perm; [done| |done]. by rewrite <- E1, Hp', Hp.
      + destruct (ref_find eqb R x) as [z|] eqn:Hf.
        { apply find_some in Hf as [Hz Hzx]. rewrite <- Hp in Hz. by rewrite Hnew in Hzx. }
        cbn [fst snd]. exists t2. split_and!; [done|by left|]. rewrite E2.
        rewrite <- Permutation_middle, <- Permutation_cons_append. f_equiv.
        rewrite <- Hp. eapply Permutation_cons_inv. rewrite <- Hp', E1. apply Permutation_middle.
    - destruct (rehash_strong hash eqb Hsym Hhash t n) as (t' & -> & Hst & Hp' & _).
      + destruct Hg as [Hg| ->]; [by left|by right].
      + destruct Hg as [Hg| ->]; [|simpl; lia].
        pose proof (hs_inv _ _ _ Hg) as [Hc Hs Hm]. lia.
      + cbn [mbind option_bind fst snd]. exists t'. split_and!; [done|by left|by rewrite Hp'].
    - exists ht_empty. split_and!; [done|by right|done].
    - exists (ht_init n). split_and!; [done|left; by apply ht_init_strong|].
      by destruct (@ht_init_facts A n) as (_ & _ & _ & _ & ->).
  Qed.

  Lemma imp_run_ok ops t R : Forall (op_ok eqb) ops -> ht_good hash eqb t -> ht_elems t ≡ₚ R ->
    exists t', imp_run hash eqb t ops = Some (t', snd (ref_run eqb R ops)) /\
      ht_elems t' ≡ₚ fst (ref_run eqb R ops) /\ hsize t' = length (fst (ref_run eqb R ops)).
  Proof.
    intros Hops. revert t R. induction Hops as [|o ops Ho Hops IH]; intros t R Hg Hp; cbn [imp_run ref_run].
    - exists t. split_and!; [done|done|]. cbn [fst]. by rewrite <- Hp, (good_size hash eqb).
    - destruct (imp_step_ok t R o Ho Hg Hp) as (t1 & -> & Hg1 & Hp1). cbn [mbind option_bind].
      destruct (ref_step eqb R o) as [R1 y]. cbn [fst snd] in *.
      destruct (IH t1 R1 Hg1 Hp1) as (t2 & -> & Hp2 & Hs2). cbn [mbind option_bind].
      destruct (ref_run eqb R1 ops) as [R2 ys]. cbn [fst snd] in *. by exists t2.
  Qed.
End run_proofs.
