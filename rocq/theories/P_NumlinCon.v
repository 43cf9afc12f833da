(** What ConstraintZdd accepts. *)
From Verif Require Import Base Sem M_Numlin M_NumlinProg M_NumlinCon S_Numlin S_NumlinCon P_Numlin2 P_Numlin3 P_Numlin4 P_Numlin5 P_Numlin6 Props_NumlinCon.
Local Open Scope nat_scope.

Section con.
Context (b : board) (Hb : board_ok b) (Hn : 2 <= b_cols b).
Notation n := (b_cols b). Notation m := (b_rows b). Notation top := (b_rows b * (b_cols b - 1)).
Section one.
Context (H : nat -> nat -> bool).
Notation vdn := (vdn b H).
Definition dg (i k : nat) : nat := one b i k + b2n (lf H i k) + b2n (rt b H i k) + b2n (up vdn i k).
Lemma vdn_dg i k : vdn i k = (dg i k =? 1).
Proof. by apply vdn_eq. Qed.
Definition info (i k : nat) : vstate := VS (rt b H i k) (vdn i k) (1 <=? dg i k).
Definition prev (i k : nat) : vstate := match i with O => VS false false false | S i' => info i' k end.
Fixpoint bend (i j : nat) : bool :=
  match j with
  | O => false
  | S j' => if negb (v_east (prev i j')) || H i j' then false else if v_south (prev i j') then true else if negb (num b i j' =? 0) then false else bend i j'
  end.
Definition okb (i j : nat) : bool :=
  negb (H i j && (2 <=? b2n (v_south (prev i j)) + b2n (v_east (prev i j)) + b2n (v_south (prev i (S j))))) &&
  negb (H i j && (v_south (prev i j) && negb (v_used (prev i (S j))))) &&
  negb (H i j && (negb (v_used (prev i j)) && v_south (prev i (S j)))) &&
  negb (bend i (S j) && v_south (prev i (S j))) &&
  negb (lf H i j && ((1 <=? j) && vdn i (j - 1)) && vdn i j) &&
  (negb (S j =? n - 1) || negb (H i j && vdn i j && vdn i (S j))).
Definition CInv (i j : nat) (st : cz_state) : Prop :=
  fst st = bend i j /\ length (snd st) = n /\ forall k, k < n -> snd st !! k = Some (if k <? j then info i k else prev i k).
Definition CAt (t : nat) (s : cz_state) : Prop := CInv (t / (n - 1)) (t mod (n - 1)) s.
Lemma CAt_eq t i k s : k < n - 1 -> t = i * (n - 1) + k -> CAt t s <-> CInv i k s.
Proof.
  intros Hk ->. unfold CAt. assert ((i * (n - 1) + k) / (n - 1) = i) as -> by (symmetry; apply (Nat.div_unique _ _ _ k); lia).
  by assert ((i * (n - 1) + k) mod (n - 1) = k) as -> by (symmetry; apply (Nat.mod_unique _ _ i); lia).
Qed.
Lemma prev_up i k : v_south (prev i k) = up vdn i k.
Proof. destruct i as [|i]; [done|]. unfold up. cbn [prev info v_south Nat.leb andb]. by rewrite Nat.sub_succ, Nat.sub_0_r. Qed.
Lemma prev_last i : v_east (prev i (n - 1)) = false.
Proof. destruct i as [|i]; [done|]. cbn [prev info v_east]. unfold rt. by destruct (Nat.ltb_spec (S (n - 1)) n); [lia|]. Qed.
Lemma one_b i k t : b_num b i k = Some t -> i < m -> k < n -> b2n (negb (t =? 0)%Z) = one b i k /\ negb (t =? 0)%Z = negb (num b i k =? 0).
Proof.
  intros Et Hi Hk. destruct (b_num_some b Hb i k Hi Hk) as (t' & Et' & Ht & En). rewrite Et in Et'. injection Et' as <-. unfold one. rewrite En.
  destruct (Z.eqb_spec t 0), (Nat.eqb_spec (Z.to_nat t) 0); try done; lia.
Qed.
Lemma cz_step t s : t < top -> CAt t s -> let i := t / (n - 1) in let j := t mod (n - 1) in
  exists r, cz_child b s (Z.of_nat (top - t)) (H i j) = Some r /\
    if okb i j then fst r = (if (0 <? Z.of_nat (top - t) - 1)%Z then (Z.of_nat (top - t) - 1)%Z else (-1)%Z) /\ CAt (S t) (snd r) else fst r = 0%Z.
Proof.
  intros Ht HI i j. unfold CAt in HI. fold i j in HI.
  assert (Hj : j < n - 1) by (apply Nat.mod_upper_bound; lia). assert (Et : t = i * (n - 1) + j) by (rewrite (Nat.div_mod t (n - 1)) at 1 by lia; unfold i, j; lia).
  assert (Hi : i < m) by nia. destruct s as [s a]. destruct HI as (Es & Hl & Ha). cbn [fst snd] in Es, Hl, Ha.
  unfold cz_child. assert (dz_top b - Z.of_nat (top - t) = Z.of_nat t)%Z as -> by (unfold dz_top; nia).
  replace (Z.of_nat n - 1)%Z with (Z.of_nat (n - 1)) by lia. rewrite <- Nat2Z.inj_div, <- Nat2Z.inj_mod, !Nat2Z.id. fold i j. clearbody i j.
  rewrite (Ha j) by lia. cbn [mbind option_bind]. rewrite (Ha (S j)) by lia. cbn [mbind option_bind]. rewrite Nat.ltb_irrefl. destruct (Nat.ltb_spec (S j) j) as [|_]; [lia|].
  unfold okb. destruct (H i j && (2 <=? _)); [by eexists|]. destruct (H i j && (v_south _ && _)); [by eexists|]. destruct (H i j && (negb _ && _)); [by eexists|]. cbn [negb andb].
  destruct (dz_one_eq b Hb Hn i j) as (x & Ex & _); [done|lia|]. rewrite Ex. cbn [mbind option_bind]. destruct (one_b i j x Ex) as [O1 O2]; [done|lia|]. rewrite O1, O2.
  replace (if negb (v_east (prev i j)) || H i j then false else if v_south (prev i j) then true else if negb (num b i j =? 0) then false else s) with (bend i (S j)) by (rewrite Es; done).
  destruct (bend i (S j) && v_south (prev i (S j))) eqn:Ebend; [by eexists|]. cbn [negb andb].
  set (w := if 1 <=? j then info i (j - 1) else VS false false false).
  assert ((if 1 <=? j then a !! (j - 1) else Some (VS false false false)) = Some w) as ->.
  { unfold w. destruct (Nat.leb_spec 1 j); [|done]. rewrite Ha by lia. by rewrite (proj2 (Nat.ltb_lt (j - 1) j)) by lia. }
  cbn [mbind option_bind]. assert (v_east w = lf H i j) as Ew.
  { unfold w, lf. destruct (Nat.leb_spec 1 j); [|done]. cbn [info v_east andb]. unfold rt. by rewrite (proj2 (Nat.ltb_lt (S (j - 1)) n)) by lia. }
  assert (v_south w = (1 <=? j) && vdn i (j - 1)) as Ew'. { unfold w. by destruct (1 <=? j). }
  assert (one b i j + b2n (v_south (prev i j)) + b2n (H i j) + b2n (v_east w) = dg i j) as ->.
  { unfold dg. rewrite prev_up, Ew. unfold rt. rewrite (proj2 (Nat.ltb_lt (S j) n)) by lia. cbn [andb]. lia. }
  rewrite <- vdn_dg, Ew, Ew'. rewrite putv_ok by lia. cbn [mbind option_bind].
  assert (VS (H i j) (vdn i j) (1 <=? dg i j) = info i j) as ->. { unfold info, rt. by rewrite (proj2 (Nat.ltb_lt (S j) n)) by lia. }
  destruct (lf H i j && _ && _); [by eexists|]. cbn [negb andb].
  destruct (Nat.eqb_spec (S j) (n - 1)) as [El|El].
  - cbn [negb orb]. destruct (dz_one_eq b Hb Hn i (S j)) as (x' & Ex' & _); [done|lia|]. rewrite Ex'. cbn [mbind option_bind]. destruct (one_b i (S j) x' Ex') as [O1' O2']; [done|lia|]. rewrite O1'.
    assert (one b i (S j) + b2n (v_south (prev i (S j))) + b2n (H i j) = dg i (S j)) as ->.
    { unfold dg. rewrite prev_up. unfold rt, lf. destruct (Nat.ltb_spec (S (S j)) n); [lia|]. cbn [andb b2n Nat.leb]. rewrite Nat.sub_succ, Nat.sub_0_r. lia. }
    rewrite putv_ok by (rewrite insert_length; lia). cbn [mbind option_bind]. rewrite <- vdn_dg.
    destruct (H i j && vdn i j && vdn i (S j)); [by eexists|]. cbn [negb]. eexists. split; [done|]. split; [done|]. cbn [snd]. apply (CAt_eq _ (S i) 0); [lia|lia|]. split; [done|]. cbn [snd fst]. rewrite !insert_length. split; [done|].
    intros k Hk. cbn [Nat.ltb Nat.leb prev]. destruct (decide (k = S j)) as [->|Hk1].
    + rewrite list_lookup_insert by (rewrite insert_length; lia). unfold info. rewrite El, prev_last. unfold rt. destruct (Nat.ltb_spec (S (n - 1)) n); [lia|done].
    + rewrite list_lookup_insert_ne by done. destruct (decide (k = j)) as [->|Hk2]; [by rewrite list_lookup_insert by lia|]. rewrite list_lookup_insert_ne by done. rewrite Ha by done. by rewrite (proj2 (Nat.ltb_lt k j)) by lia.
  - cbn [negb orb]. eexists. split; [done|]. split; [done|]. cbn [snd]. apply (CAt_eq _ i (S j)); [lia|lia|]. split; [done|]. cbn [snd fst]. rewrite !insert_length. split; [done|].
    intros k Hk. destruct (decide (k = j)) as [->|Hk2].
    + rewrite list_lookup_insert by lia. by rewrite (proj2 (Nat.ltb_lt j (S j))) by lia.
    + rewrite list_lookup_insert_ne by done. rewrite Ha by done. by destruct (Nat.ltb_spec k j), (Nat.ltb_spec k (S j)); try lia.
Qed.
End one.
Lemma cz_eval_zero v : forall l s, zdd_eval (cz_spec b) l 0%Z s v = false.
Proof. induction l as [|l IH]; intros s; cbn [zdd_eval]; [done|]. destruct (Z.eqb_spec 0 (Z.of_nat (S l))); [lia|]. rewrite IH. by destruct (v (S l) =? 0). Qed.
Lemma cz_eval v : let H := links_of_vec b v in forall r t s, t + r = top -> 0 < r -> CAt H t s ->
  zdd_eval (cz_spec b) r (Z.of_nat r) s v = true <-> forall t', t <= t' < top -> okb H (t' / (n - 1)) (t' mod (n - 1)) = true.
Proof.
  intros H. induction r as [|r IH]; intros t s Htr Hr HI; [lia|]. cbn [zdd_eval]. rewrite Z.eqb_refl.
  destruct (cz_step H t s ltac:(lia) HI) as (r' & Er & Hr').
  assert (top - t = S r) as Et by lia. rewrite Et in *.
  cbn [cz_spec get_child]. assert (negb (v (S r) =? 0) = H (t / (n - 1)) (t mod (n - 1))) as ->.
  { unfold H, links_of_vec. f_equal. f_equal. f_equal. rewrite (Nat.div_mod t (n - 1)) in Htr by lia. nia. }
  rewrite Er. unfold default, id. cbn zeta. destruct r' as [c' s']. cbn [fst snd] in *. destruct (okb H (t / (n - 1)) (t mod (n - 1))) eqn:Eok.
  - destruct Hr' as [-> HI']. assert ((forall t', t <= t' < top -> okb H (t' / (n - 1)) (t' mod (n - 1)) = true) <-> forall t', S t <= t' < top -> okb H (t' / (n - 1)) (t' mod (n - 1)) = true) as ->.
    { split; intros HX t' Ht'; [apply HX; lia|]. destruct (decide (t' = t)) as [->|]; [done|]. apply HX. lia. }
    destruct (Z.ltb_spec 0 (Z.of_nat (S r) - 1)).
    + replace (Z.of_nat (S r) - 1)%Z with (Z.of_nat r) by lia. apply (IH (S t)); [lia|lia|done].
    + assert (r = 0) as -> by lia. cbn [zdd_eval]. split; [|done]. intros _ t' Ht'. lia.
  - subst c'. rewrite cz_eval_zero. split; [done|]. intros HX. rewrite HX in Eok; [done|lia].
Qed.
Lemma cz_sem v : zdd_sem (cz_spec b) top v = true <-> forall i j, i < m -> j < n - 1 -> okb (links_of_vec b v) i j = true.
Proof.
  unfold zdd_sem. cbn [cz_spec get_root]. fold (cz_spec b). unfold cz_root, default, id. cbn [fst snd]. rewrite cz_top by done. assert (0 < top) as Ht by (destruct Hb; nia).
  rewrite (cz_eval v top 0); [|lia|done|].
  - split.
    + intros HX i j Hi Hj. specialize (HX (i * (n - 1) + j)). replace ((i * (n - 1) + j) / (n - 1)) with i in HX by (apply (Nat.div_unique _ _ _ j); lia).
      replace ((i * (n - 1) + j) mod (n - 1)) with j in HX by (apply (Nat.mod_unique _ _ i); lia). apply HX. nia.
    + intros HX t' Ht'. apply HX; [apply Nat.div_lt_upper_bound; lia|apply Nat.mod_upper_bound; lia].
  - apply (CAt_eq _ 0 0 0); [lia|lia|]. split; [done|]. cbn [snd]. rewrite replicate_length. split; [done|]. intros k Hk. by rewrite lookup_replicate_2 by done.
Qed.
Section tidy_sec.
Context (H V : nat -> nat -> bool) (HS : solution b H V).
Notation vdn := (vdn b H).
Lemma V_vdn i k : S i < m -> k < n -> V i k = vdn i k.
Proof. intros. apply vdn_of; try done. by apply sol_degrees. Qed.
Lemma vdn_last k : k < n -> vdn (m - 1) k = false.
Proof.
  intros Hk. assert (degrees_ok b H V) as HD by (by apply sol_degrees). destruct Hb as (Hm & _). destruct (proj1 (degrees_counts b Hb Hn H V) HD (m - 1) k) as [H1 H0]; [lia|done|].
  rewrite vdn_eq by done. unfold cnt4, dn in *. destruct (Nat.ltb_spec (S (m - 1)) m); [lia|]. cbn [andb b2n] in *.
  assert (up V (m - 1) k = up vdn (m - 1) k) as EU. { unfold up. destruct (Nat.leb_spec 1 (m - 1)); [|done]. cbn [andb]. apply V_vdn; lia. }
  rewrite EU in *. apply Nat.eqb_neq. destruct (Nat.eqb_spec (num b (m - 1) k) 0) as [E|E]; [specialize (H0 E)|specialize (H1 E)]; lia.
Qed.
Lemma blank_used i k : i < m -> k < n -> blank b H V (i, k) <-> (1 <=? dg H i k) = false.
Proof.
  intros Hi Hk. assert (blank b H V (i, k) <-> blank b H vdn (i, k)) as ->.
  { unfold blank. apply and_iff_compat_l. split; intros HX d Hd; apply (HX d); [apply (linked_ext b Hn H vdn V)|apply (linked_ext b Hn H V vdn)]; try done; intros; [symmetry|]; by apply V_vdn. }
  rewrite (blank_iff b Hb Hn H (i, k)) by done. unfold blankb, dg, one. rewrite andb_true_iff, !Nat.eqb_eq, Nat.leb_gt. destruct (Nat.eqb_spec (num b i k) 0); lia.
Qed.
Lemma bend_spec i k : S k < n -> bend H (S i) (S k) = true <-> exists j, j <= k /\ vdn i j = true /\ (forall c, j <= c <= k -> H i c = true /\ H (S i) c = false) /\ (forall c, j < c <= k -> num b (S i) c = 0).
Proof.
  assert (forall c, S c < n -> rt b H i c = H i c) as HR by (intros c Hc; unfold rt; by rewrite (proj2 (Nat.ltb_lt _ _) Hc)).
  induction k as [|k IH]; intros Hk; cbn [bend prev info v_east v_south]; rewrite HR by lia.
  - destruct (H i 0) eqn:E1, (H (S i) 0) eqn:E2; cbn [negb orb]; try (split; [done|]; intros (j & Hj & _ & HX & _); specialize (HX 0 ltac:(lia)) as [? ?]; congruence).
    destruct (vdn i 0) eqn:E3.
    + split; [|done]. intros _. exists 0. split; [lia|]. split; [done|]. split; intros c Hc; [replace c with 0 by lia; done|lia].
    + split; [by destruct (negb _)|]. intros (j & Hj & E & _). replace j with 0 in E by lia. congruence.
  - destruct (H i (S k)) eqn:E1, (H (S i) (S k)) eqn:E2; cbn [negb orb]; try (split; [done|]; intros (j & Hj & _ & HX & _); specialize (HX (S k) ltac:(lia)) as [? ?]; congruence).
    destruct (vdn i (S k)) eqn:E3.
    + split; [|done]. intros _. exists (S k). split; [lia|]. split; [done|]. split; intros c Hc; [replace c with (S k) by lia; done|lia].
    + destruct (Nat.eqb_spec (num b (S i) (S k)) 0) as [E4|E4]; cbn [negb].
      * change (bend H (S i) (S k) = true <-> exists j, j <= S k /\ vdn i j = true /\ (forall c, j <= c <= S k -> H i c = true /\ H (S i) c = false) /\ (forall c, j < c <= S k -> num b (S i) c = 0)).
        rewrite IH by lia. split; intros (j & Hj & E & H1 & H2); exists j.
        -- split; [lia|]. split; [done|]. split; intros c Hc; (destruct (decide (c = S k)) as [->|]; [done|]); [apply H1|apply H2]; lia.
        -- assert (j <> S k) by (intros ->; congruence). split; [lia|]. split; [done|]. split; intros c Hc; [apply H1|apply H2]; lia.
      * split; [done|]. intros (j & Hj & E & H1 & H2). destruct (decide (j = S k)) as [->|]; [congruence|]. by rewrite H2 in E4 by lia.
Qed.
Lemma bend_0 k : bend H 0 k = false.
Proof. by destruct k. Qed.
Lemma tidy_iff : (forall i j, i < m -> j < n - 1 -> okb H i j = true) <-> tidy b H V.
Proof.
  assert (forall c i, S c < n -> rt b H i c = H i c) as HR by (intros c i Hc; unfold rt; by rewrite (proj2 (Nat.ltb_lt _ _) Hc)).
  split.
  - intros HX.
    assert (forall i j, i < m -> S j < n -> H i j = true -> vdn i j = true -> vdn i (S j) = true -> False) as HQ.
    { intros i j Hi Hj E1 E2 E3. destruct (decide (S j = n - 1)) as [El|El].
      - specialize (HX i j Hi ltac:(lia)). unfold okb in HX. rewrite !andb_true_iff in HX. destruct HX as [_ HX]. rewrite El, Nat.eqb_refl, E1, E2 in HX. rewrite <- El, E3 in HX. done.
      - specialize (HX i (S j) Hi ltac:(lia)). unfold okb in HX. rewrite !andb_true_iff in HX. destruct HX as [[_ HX] _]. unfold lf in HX. cbn [Nat.leb andb] in HX. rewrite Nat.sub_succ, Nat.sub_0_r in HX. by rewrite E1, E2, E3 in HX. }
    constructor.
    + intros i j Hi Hj. pose proof (HQ i j ltac:(lia) Hj) as HQ'. specialize (HX (S i) j Hi ltac:(lia)). unfold okb in HX. rewrite !andb_true_iff in HX. destruct HX as [[[[[HX _] _] _] _] _].
      cbn [prev info v_south v_east] in HX. rewrite HR in HX by done. rewrite !V_vdn by lia. destruct (H i j), (H (S i) j), (vdn i j), (vdn i (S j)); cbn in *; try done; try lia; by destruct HQ'.
    + intros i j Hi Hj E1 E2 HB. apply blank_used in HB; [|lia..]. rewrite V_vdn in E2 by lia. specialize (HX (S i) j Hi ltac:(lia)). unfold okb in HX. rewrite !andb_true_iff in HX. destruct HX as [[[[[_ HX] _] _] _] _].
      cbn [prev info v_south v_used] in HX. by rewrite E1, E2, HB in HX.
    + intros i j Hi Hj E1 E2 HB. apply blank_used in HB; [|lia..]. rewrite V_vdn in E2 by lia. specialize (HX (S i) j Hi ltac:(lia)). unfold okb in HX. rewrite !andb_true_iff in HX. destruct HX as [[[[_ HX] _] _] _].
      cbn [prev info v_south v_used] in HX. by rewrite E1, E2, HB in HX.
    + intros i j k Hi Hjk Hk E1 E2 HA [HB HC]. rewrite V_vdn in E1, E2 by lia. specialize (HX (S i) k Hi ltac:(lia)). unfold okb in HX. rewrite !andb_true_iff in HX. destruct HX as [[[_ HX] _] _].
      rewrite (proj2 (bend_spec i k Hk)) in HX; [cbn [prev info v_south] in HX; by rewrite E2 in HX|]. exists j. split; [done|]. split; [done|]. split; [intros c Hc; split; auto|]. done.
  - intros [T1 T2 T3 T4] i j Hi Hj.
    assert (forall i j, i < m -> S j < n -> H i j && vdn i j && vdn i (S j) = false) as HQ.
    { intros i' j' Hi' Hj'. destruct (decide (S i' < m)) as [Hl|Hl].
      - specialize (T1 i' j' Hl Hj'). rewrite !V_vdn in T1 by lia. destruct (H i' j'), (H (S i') j'), (vdn i' j'), (vdn i' (S j')); cbn in *; try done; lia.
      - replace i' with (m - 1) by lia. rewrite (vdn_last (S j')) by lia. by rewrite andb_false_r. }
    unfold okb. rewrite HQ by lia. rewrite orb_true_r, andb_true_r.
    assert (lf H i j && ((1 <=? j) && vdn i (j - 1)) && vdn i j = false) as ->.
    { unfold lf. destruct j as [|j]; [done|]. cbn [Nat.leb andb]. rewrite Nat.sub_succ, Nat.sub_0_r. apply HQ; lia. }
    cbn [negb]. rewrite andb_true_r. destruct i as [|i]; [rewrite bend_0; cbn; by destruct (H 0 j)|]. cbn [prev info v_south v_east v_used]. rewrite HR by lia.
    specialize (T1 i j Hi ltac:(lia)). rewrite !V_vdn in T1 by lia. pose proof (T2 i j Hi ltac:(lia)) as T2'. pose proof (T3 i j Hi ltac:(lia)) as T3'. rewrite V_vdn, blank_used in T2', T3' by lia.
    assert (bend H (S i) (S j) && vdn i (S j) = false) as ->.
    { destruct (bend H (S i) (S j)) eqn:EB; [|done]. destruct (vdn i (S j)) eqn:EV; [|done]. exfalso. apply bend_spec in EB as (j0 & Hj0 & E & H1 & H2); [|lia].
      apply (T4 i j0 j Hi Hj0 ltac:(lia)); [by rewrite V_vdn by lia|by rewrite V_vdn by lia|intros c Hc; by apply H1|]. split; [intros c Hc; by apply H1|done]. }
    cbn [negb]. rewrite andb_true_r. destruct (H (S i) j) eqn:E1; [|done]. cbn [andb].
    assert (vdn i j && negb (1 <=? dg H i (S j)) = false) as ->. { destruct (vdn i j); [|done]. destruct (1 <=? dg H i (S j)); [done|]. exfalso. by apply T2'. }
    assert (negb (1 <=? dg H i j) && vdn i (S j) = false) as ->. { destruct (vdn i (S j)); [|by rewrite andb_false_r]. destruct (1 <=? dg H i j); [done|]. exfalso. by apply T3'. }
    destruct (H i j), (vdn i j), (vdn i (S j)); cbn in *; try done; lia.
Qed.
End tidy_sec.
End con.
