(** C35: NodeId. *)
From Verif Require Import Base Sem M_Table M_NodeId.
Local Open Scope N_scope.

(** the number with the given row, attribute and column *)
Definition id_num (r : N) (a : bool) (c : N) : N := r * 2 ^ 44 + (if a then 2 ^ 43 else 0) + c.

Lemma row_of r a c : c < 2 ^ 43 -> id_num r a c / 2 ^ 44 = r.
Proof. intros Hc. unfold id_num. symmetry. apply (N.div_unique _ _ _ ((if a then 2 ^ 43 else 0) + c)); destruct a; lia. Qed.
Lemma rest_of r a c : c < 2 ^ 43 -> id_num r a c mod 2 ^ 43 = c.
Proof. intros Hc. unfold id_num. symmetry. apply (N.mod_unique _ _ (r * 2 + (if a then 1 else 0))); destruct a; lia. Qed.
Lemma mid_of r a c : c < 2 ^ 43 -> id_num r a c / 2 ^ 43 = r * 2 + (if a then 1 else 0).
Proof. intros Hc. unfold id_num. symmetry. apply (N.div_unique _ _ _ c); destruct a; lia. Qed.
Lemma attr_bit r a c : c < 2 ^ 43 -> N.testbit (id_num r a c) 43 = a.
Proof.
  intros Hc. rewrite N.testbit_odd, N.shiftr_div_pow2, mid_of by done. rewrite N.odd_add, N.odd_mul. cbn. rewrite andb_false_r. by destruct a.
Qed.
Lemma num_bits r a c k : c < 2 ^ 43 -> k <> 43 -> N.testbit (id_num r a c) k = N.testbit (id_num r false c) k.
Proof.
  intros Hc Hk. destruct (N.lt_ge_cases k 43) as [H|H].
  - transitivity (N.testbit c k).
    + rewrite <- (rest_of r a c) at 2 by done. by rewrite N.mod_pow2_bits_low.
    + rewrite <- (rest_of r false c) at 1 by done. by rewrite N.mod_pow2_bits_low.
  - replace k with ((k - 44) + 44) by lia. by rewrite <- !N.div_pow2_bits, !row_of by done.
Qed.
Lemma num_lt r a c : r < 2 ^ 20 -> c < 2 ^ 43 -> id_num r a c < 2 ^ 64.
Proof. intros. unfold id_num. destruct a; lia. Qed.

Lemma make_num r c : r < 2 ^ 20 -> c < 2 ^ 43 -> id_make r c = id_num r false c.
Proof.
  intros Hr Hc. unfold id_make, u64. change NODE_ROW_OFFSET with 44. rewrite N.shiftl_mul_pow2, N.mod_small by lia.
  rewrite <- N.lxor_lor, <- N.add_nocarry_lxor; [unfold id_num; lia| |]; apply N.bits_inj_0; intros k; rewrite N.land_spec;
  (destruct (N.lt_ge_cases k 44) as [H|H]; [rewrite N.mul_pow2_bits_low by done; done|]);
  rewrite <- (N.mod_small c (2 ^ 44)) by lia; rewrite (N.mod_pow2_bits_high c 44 k) by done; apply andb_false_r.
Qed.
Lemma mask_pow : NODE_ATTR_MASK = 2 ^ 43. Proof. reflexivity. Qed.
Lemma set_true r a c : c < 2 ^ 43 -> id_setAttr (id_num r a c) true = id_num r true c.
Proof.
  intros Hc. unfold id_setAttr. rewrite mask_pow. apply N.bits_inj. intros k. rewrite N.lor_spec, N.pow2_bits_eqb.
  destruct (N.eqb_spec 43 k) as [<-|Hk]; [by rewrite orb_true_r, attr_bit|]. rewrite orb_false_r, num_bits by (done || lia).
  symmetry. apply num_bits; [done|lia].
Qed.
Lemma not_mask_bits k : k < 64 -> N.testbit (u64_not NODE_ATTR_MASK) k = negb (43 =? k).
Proof.
  intros Hk. unfold u64_not. rewrite mask_pow, N.lxor_spec, N.pow2_bits_eqb. change (2 ^ 64 - 1) with (N.ones 64).
  rewrite N.ones_spec_low by done. by destruct (43 =? k).
Qed.
Lemma small_bits x k : x < 2 ^ 64 -> 64 <= k -> N.testbit x k = false.
Proof. intros Hx Hk. rewrite <- (N.mod_small x (2 ^ 64)) by done. by apply N.mod_pow2_bits_high. Qed.
Lemma clear_num r a c : r < 2 ^ 20 -> c < 2 ^ 43 -> N.land (id_num r a c) (u64_not NODE_ATTR_MASK) = id_num r false c.
Proof.
  intros Hr Hc. apply N.bits_inj. intros k. rewrite N.land_spec. destruct (N.lt_ge_cases k 64) as [H|H].
  - rewrite not_mask_bits by done. destruct (N.eqb_spec 43 k) as [<-|Hk]; cbn [negb].
    + rewrite andb_false_r. by rewrite attr_bit.
    + rewrite andb_true_r. apply num_bits; [done|lia].
  - rewrite !small_bits by (done || by apply num_lt). done.
Qed.
Lemma make3_num r c a : r < 2 ^ 20 -> c < 2 ^ 43 -> id_make3 r c a = id_num r a c.
Proof. intros Hr Hc. unfold id_make3. rewrite make_num by done. destruct a; [by apply set_true|]. unfold id_setAttr. by apply clear_num. Qed.

Lemma getAttr_num r a c : c < 2 ^ 43 -> id_getAttr (id_num r a c) = a.
Proof.
  intros Hc. unfold id_getAttr. rewrite mask_pow. destruct (N.eqb_spec (N.land (id_num r a c) (2 ^ 43)) 0) as [E|E].
  - apply (f_equal (fun x => N.testbit x 43)) in E. rewrite N.land_spec, attr_bit, N.pow2_bits_true, andb_true_r in E by done. by rewrite E.
  - destruct a; [done|]. destruct E. apply N.bits_inj_0. intros k. rewrite N.land_spec, N.pow2_bits_eqb.
    destruct (N.eqb_spec 43 k) as [<-|]; [by rewrite attr_bit|apply andb_false_r].
Qed.

(** Packing and unpacking: row, column and attribute come back, whatever they are within their limits; setAttr changes
    nothing but the attribute; the code is the number without the attribute. *)
Theorem C35_roundtrip : forall (r c : N) (a : bool), r < 2 ^ 20 -> c < 2 ^ 43 ->
  let f := id_make3 r c a in
  f < 2 ^ 64 /\ id_row f = r /\ id_col f = c /\ id_getAttr f = a /\
  id_make r c = id_make3 r c false /\
  (forall a', id_setAttr f a' = id_make3 r c a') /\
  id_withoutAttr f = id_make3 r c false /\ id_code f = id_make3 r c false /\
  id_hasEmpty f = (r =? 0) && (c =? 1) || a.
Proof.
  intros r c a Hr Hc f. unfold f. rewrite !make3_num by done. split_and!.
  - by apply num_lt.
  - unfold id_row. change NODE_ROW_OFFSET with 44. rewrite N.shiftr_div_pow2. by apply row_of.
  - unfold id_col. change NODE_COL_MAX with (N.ones 43). rewrite N.land_ones. by apply rest_of.
  - by apply getAttr_num.
  - by apply make_num.
  - intros a'. rewrite make3_num by done. destruct a'; [by apply set_true|]. by apply clear_num.
  - by apply clear_num.
  - by apply clear_num.
  - unfold id_hasEmpty. rewrite getAttr_num by done. destruct a; [by rewrite !orb_true_r|]. rewrite !orb_false_r. unfold id_num.
    destruct (N.eqb_spec (r * 2 ^ 44 + 0 + c) 1), (N.eqb_spec r 0), (N.eqb_spec c 1); cbn; try done; lia.
Qed.

(** Every 64-bit word is such a triple, and only one. *)
Theorem C35_complete : forall f, f < 2 ^ 64 -> exists r c a, r < 2 ^ 20 /\ c < 2 ^ 43 /\ f = id_make3 r c a /\
  forall r' c' a', r' < 2 ^ 20 -> c' < 2 ^ 43 -> f = id_make3 r' c' a' -> r' = r /\ c' = c /\ a' = a.
Proof.
  intros f Hf. exists (f / 2 ^ 44), (f mod 2 ^ 43), (N.testbit f 43).
  assert (f / 2 ^ 44 < 2 ^ 20) as Hr by (apply N.div_lt_upper_bound; lia).
  assert (f mod 2 ^ 43 < 2 ^ 43) as Hc by (apply N.mod_lt; lia).
  assert (f = id_make3 (f / 2 ^ 44) (f mod 2 ^ 43) (N.testbit f 43)) as E.
  { rewrite make3_num by done. apply N.bits_inj. intros k. destruct (N.eq_dec k 43) as [->|Hk]; [by rewrite attr_bit|].
    destruct (N.lt_ge_cases k 43) as [H|H].
    - rewrite <- (N.mod_pow2_bits_low f 43 k H), <- (N.mod_pow2_bits_low (id_num _ _ _) 43 k H). by rewrite rest_of.
    - replace k with ((k - 44) + 44) by lia. rewrite <- !N.div_pow2_bits. by rewrite row_of. }
  split_and!; [done..|]. intros r' c' a' Hr' Hc' E'.
  pose proof (C35_roundtrip _ _ (N.testbit f 43) Hr Hc) as (_ & H1 & H2 & H3 & _). rewrite <- E in H1, H2, H3.
  pose proof (C35_roundtrip _ _ a' Hr' Hc') as (_ & H1' & H2' & H3' & _). rewrite <- E' in H1', H2', H3'. split_and!; congruence.
Qed.

(** Comparison ignores the attribute and is lexicographic in row and column. *)
Theorem C35_order : forall (r c r' c' : N) (a a' : bool), r < 2 ^ 20 -> c < 2 ^ 43 -> r' < 2 ^ 20 -> c' < 2 ^ 43 ->
  let f := id_make3 r c a in let g := id_make3 r' c' a' in
  (id_eqb f g = true <-> r = r' /\ c = c') /\ id_neb f g = negb (id_eqb f g) /\
  (id_ltb f g = true <-> r < r' \/ r = r' /\ c < c') /\
  (id_leb f g = true <-> r < r' \/ r = r' /\ c <= c') /\
  id_gtb f g = id_ltb g f /\ id_geb f g = id_leb g f /\
  (id_eqb f g = true -> id_hash f = id_hash g).
Proof.
  intros r c r' c' a a' Hr Hc Hr' Hc' f g.
  assert (id_code f = id_num r false c) as Ef by (unfold f; rewrite make3_num by done; by apply clear_num).
  assert (id_code g = id_num r' false c') as Eg by (unfold g; rewrite make3_num by done; by apply clear_num).
  unfold id_eqb, id_neb, id_ltb, id_leb, id_gtb, id_geb, id_hash, id_leb, id_ltb, id_eqb. rewrite Ef, Eg.
  unfold id_num. split_and!; [| done | | | done | done |].
  - rewrite N.eqb_eq. lia.
  - rewrite N.ltb_lt. lia.
  - rewrite negb_true_iff, N.ltb_ge. lia.
  - intros E. apply N.eqb_eq in E. by rewrite E.
Qed.

(** The abstract references used in the rest of the development are faithful: with [enc] the 64-bit word of a
    reference, comparison, attribute operations and hashing on words agree with the abstract ones. *)
Definition enc (f : nid) : N := id_make3 (N.of_nat (row f)) (N.of_nat (col f)) (attr f).
Definition fits (f : nid) : Prop := N.of_nat (row f) < 2 ^ 20 /\ N.of_nat (col f) < 2 ^ 43.
Theorem C35_abstraction : forall (f g : nid), fits f -> fits g ->
  id_eqb (enc f) (enc g) = neqb f g /\
  id_hasEmpty (enc f) = hasEmpty f /\
  (enc f = enc g <-> f = g) /\
  id_hash (enc f) = hash_code (dd_spec (Dd 2 [] n0)) 0%Z f.
Proof.
  intros f g [Hf1 Hf2] [Hg1 Hg2]. unfold enc.
  pose proof (C35_order _ _ _ _ (attr f) (attr g) Hf1 Hf2 Hg1 Hg2) as (He & _).
  pose proof (C35_roundtrip _ _ (attr f) Hf1 Hf2) as (_ & R1 & R2 & R3 & _ & _ & _ & Rc & Rh).
  pose proof (C35_roundtrip _ _ (attr g) Hg1 Hg2) as (_ & S1 & S2 & S3 & _). split_and!.
  - apply eq_true_iff_eq. rewrite He. unfold neqb. rewrite andb_true_iff, !Nat.eqb_eq. lia.
  - rewrite Rh. unfold hasEmpty, neqb, n1, mk. cbn [row col attr].
    destruct (attr f); [by rewrite !orb_true_r|]. rewrite !orb_false_r, andb_true_r.
    destruct (N.eqb_spec (N.of_nat (row f)) 0), (Nat.eqb_spec (row f) 0); try lia; cbn;
    destruct (N.eqb_spec (N.of_nat (col f)) 1), (Nat.eqb_spec (col f) 1); try lia; done.
  - split; [|by intros ->]. intros E. rewrite E in R1, R2, R3. destruct f, g; cbn in *. f_equal; [lia|lia|congruence].
  - cbn [dd_spec hash_code]. unfold id_hash. rewrite Rc, make3_num by done. unfold id_num, u64. rewrite N.add_0_r. done.
Qed.

(** Equal nodes have equal hash codes. *)
Theorem C35_node_hash : forall p q : list N, length p = length q -> node_eqb64 p q = true -> node_hash p = node_hash q.
Proof.
  assert (forall p q h, length p = length q -> node_eqb64 p q = true ->
    foldl (fun h g => u64 (u64 (h * 314159257) + u64 (id_code g * 271828171))) h p =
    foldl (fun h g => u64 (u64 (h * 314159257) + u64 (id_code g * 271828171))) h q) as H.
  { induction p as [|f p IH]; intros [|g q] h Hl He; try done. unfold node_eqb64 in He. cbn [zip zip_with forallb fst snd] in He.
    apply andb_true_iff in He as [Hfg He]. unfold id_neb, id_eqb in Hfg. rewrite negb_involutive in Hfg. apply N.eqb_eq in Hfg.
    cbn [foldl]. rewrite Hfg. apply IH; [by injection Hl|done]. }
  intros [|f p] [|g q] Hl He; try done. unfold node_eqb64 in He. cbn [zip zip_with forallb fst snd] in He.
  apply andb_true_iff in He as [Hfg He]. unfold id_neb, id_eqb in Hfg. rewrite negb_involutive in Hfg. apply N.eqb_eq in Hfg.
  unfold node_hash. rewrite Hfg. apply H; [by injection Hl|done].
Qed.

Example C35_case : let f := id_make3 1048575 8796093022207 true in
  f = 18446744073709551615 /\ id_row f = 1048575 /\ id_col f = 8796093022207 /\ id_getAttr f = true /\
  id_eqb f (id_make 1048575 8796093022207) = true /\ id_ltb (id_make3 3 9 true) (id_make3 4 0 false) = true /\
  id_make 0 1 = 1 /\ id_hasEmpty 1 = true /\ fits (mk 77 7).
Proof. split_and!; by vm_compute. Qed.

Print Assumptions C35_roundtrip.
Print Assumptions C35_complete.
Print Assumptions C35_order.
Print Assumptions C35_abstraction.
Print Assumptions C35_node_hash.
