(** One level of Algorithm R meets the level contract. *)
From Verif Require Import Base Sem M_Table Tree M_Hash P_Hash M_Sweeper M_Engine P_Pass P_Red M_Index P_Index P_RLevel M_Reducer P_RHash.

(** first index in [J, m) with P, or m *)
Fixpoint ffr (P : nat -> bool) (J n : nat) : nat :=
  match n with O => J | S n' => if P J then J else ffr P (S J) n' end.
Definition ff (P : nat -> bool) (J m : nat) : nat := ffr P J (m - J).

Lemma ff_hit P J m : J < m -> P J = true -> ff P J m = J.
Proof. intros H HP. unfold ff. destruct (m - J) eqn:E; [lia|]. simpl. by rewrite HP. Qed.
Lemma ff_miss P J m : J < m -> P J = false -> ff P J m = ff P (S J) m.
Proof. intros H HP. unfold ff. destruct (m - J) eqn:E; [lia|]. simpl. rewrite HP. by replace (m - S J) with n by lia. Qed.
Lemma ff_end P m : ff P m m = m.
Proof. unfold ff. by rewrite Nat.sub_diag. Qed.
Lemma ff_spec P J m : J <= m -> J <= ff P J m <= m /\ (ff P J m < m -> P (ff P J m) = true) /\
  (forall j, J <= j < ff P J m -> P j = false).
Proof.
  intros H. remember (m - J) as n eqn:E. revert J H E. induction n as [|n IH]; intros J H E.
  - assert (J = m) as -> by lia. rewrite ff_end. split_and!; lia.
  - destruct (P J) eqn:HP.
    + rewrite ff_hit by (done || lia). split_and!; try lia. done.
    + rewrite ff_miss by (done || lia). destruct (IH (S J)) as (H1 & H2 & H3); [lia|lia|].
      split_and!; try lia; [done|]. intros j Hj. destruct (decide (j = J)) as [->|]; [done|]. apply H3. lia.
Qed.
Lemma ff_le P J m j : J <= j < m -> P j = true -> ff P J m <= j.
Proof.
  intros H HP. destruct (ff_spec P J m ltac:(lia)) as (H1 & H2 & H3).
  destruct (decide (ff P J m <= j)); [done|]. rewrite H3 in HP by lia. done.
Qed.
Lemma ff_ext P Q J m : J <= m -> (forall j, J <= j < m -> P j = Q j) -> ff P J m = ff Q J m.
Proof.
  intros H HE. destruct (ff_spec P J m H) as (H1 & H2 & H3). destruct (ff_spec Q J m H) as (K1 & K2 & K3).
  destruct (Nat.lt_trichotomy (ff P J m) (ff Q J m)) as [L|[L|L]]; [|done|].
  - pose proof (H2 ltac:(lia)) as E. rewrite HE, K3 in E by lia. done.
  - pose proof (K2 ltac:(lia)) as E. rewrite <- HE, H3 in E by lia. done.
Qed.

(** equality of rows from equality of children *)
Lemma row_ext t t' r : shape t = shape t' -> (forall c b, child t (mk r c) b = child t' (mk r c) b) -> t !! r = t' !! r.
Proof.
  intros Hs Hc. destruct (t !! r) as [x|] eqn:Hx.
  - destruct (shape_row t t' r x Hs Hx) as (x' & Hx' & El). rewrite Hx'. f_equal.
    assert (length x = length x') as Hl by (apply (f_equal length) in El; by rewrite !fmap_length in El).
    apply list_eq_lk; [done|]. intros c p q Hp Hq.
    assert (length p = length q) as Hpl.
    { apply (f_equal (.!! c)) in El. rewrite !list_lookup_fmap, Hp, Hq in El. simpl in El. congruence. }
    apply list_eq_lk; [done|]. intros b g h Hg Hh. specialize (Hc c b). unfold child, tget in Hc. simpl in Hc.
    rewrite Hx, Hx' in Hc. simpl in Hc. rewrite Hp, Hq in Hc. simpl in Hc. rewrite Hg, Hh in Hc. congruence.
  - destruct (t' !! r) as [x'|] eqn:Hx'; [|done]. destruct (shape_row t' t r x' (eq_sym Hs) Hx') as (? & ? & _). congruence.
Qed.

Lemma child_row t r x c b : t !! r = Some x -> child t (mk r c) b = (p ← x !! c; p !! b).
Proof. intros H. unfold child, tget. cbn [row col mk]. by rewrite H. Qed.

Ltac cdec := repeat first [rewrite bool_decide_eq_true_2 by done | rewrite bool_decide_eq_false_2 by
  (let E := fresh in intros [E ?]; unfold code in E; cbn [row col mk] in E; first [congruence | inversion E; lia | lia])].

Section algR.
  Context (B Z : bool) (HBZ : B && Z = false) (i m : nat) (Hi : 0 < i) (ids : list (list nid)) (t0 : table) (x : list node).
  Context (Hx : t0 !! i = Some x) (Hm : m = length x) (Hx2 : Forall (fun p => length p = 2) x).
  Context (A Bc : nat -> nid).
  Context (Hcan : forall j, j < m -> exists g0 g1, x !! j = Some [g0; g1] /\ canonR ids g0 = Some (A j) /\ canonR ids g1 = Some (Bc j)).
  Context (HAi : forall j, j < m -> row (A j) < i) (HBi : forall j, j < m -> row (Bc j) < i).
  Definition slot (f : nid) : Prop := is_Some (child t0 f 0) /\ is_Some (child t0 f 1).
  Context (HsA : forall j, j < m -> slot (A j)) (HsB : forall j, j < m -> slot (Bc j)).
  Context (Hfresh : forall f v, row f < i -> child t0 f 1 = Some v -> row v < i).

  Notation D j := (delR B Z (A j) (Bc j)).
  Definition Pf (f : nid) (j : nat) : bool := negb (D j) && neqb (A j) f.
  Definition Qf (f g : nid) (j : nat) : bool := negb (D j) && neqb (A j) f && neqb (Bc j) g.
  Definition hd (k : nat) : nat := ff (Pf (A k)) 0 m.
  Definition ld (k : nat) : nat := ff (Qf (A k) (Bc k)) 0 m.
  Definition nx (k : nat) : nat := ff (Pf (A k)) (S k) m.

  Lemma Pf_true f j : Pf f j = true <-> D j = false /\ code (A j) = code f.
  Proof. unfold Pf. rewrite andb_true_iff, negb_true_iff, neqb_true. done. Qed.
  Lemma Qf_true f g j : Qf f g j = true <-> D j = false /\ code (A j) = code f /\ code (Bc j) = code g.
  Proof. unfold Qf. rewrite !andb_true_iff, negb_true_iff, !neqb_true. tauto. Qed.
  Lemma Pf_code f g j : code f = code g -> Pf f j = Pf g j.
  Proof. intros H. apply eq_true_iff_eq. rewrite !Pf_true, H. done. Qed.
  Lemma Qf_code f g f' g' j : code f = code f' -> code g = code g' -> Qf f g j = Qf f' g' j.
  Proof. intros H H'. apply eq_true_iff_eq. rewrite !Qf_true, H, H'. done. Qed.

  Lemma hd_spec k : k < m -> D k = false -> hd k <= k /\ D (hd k) = false /\ code (A (hd k)) = code (A k).
  Proof.
    intros Hk Hd. assert (hd k <= k) as Hle by (apply ff_le; [lia|by apply Pf_true]).
    destruct (ff_spec (Pf (A k)) 0 m ltac:(lia)) as (_ & H2 & _). fold (hd k) in H2.
    specialize (H2 ltac:(lia)). apply Pf_true in H2 as [? ?]. done.
  Qed.
  Lemma hd_code k k' : code (A k) = code (A k') -> hd k = hd k'.
  Proof. intros H. apply ff_ext; [lia|]. intros. by apply Pf_code. Qed.
  Lemma ld_spec k : k < m -> D k = false -> ld k <= k /\ D (ld k) = false /\ code (A (ld k)) = code (A k) /\ code (Bc (ld k)) = code (Bc k).
  Proof.
    intros Hk Hd. assert (ld k <= k) as Hle by (apply ff_le; [lia|by apply Qf_true]).
    destruct (ff_spec (Qf (A k) (Bc k)) 0 m ltac:(lia)) as (_ & H2 & _). fold (ld k) in H2.
    specialize (H2 ltac:(lia)). apply Qf_true in H2 as (? & ? & ?). done.
  Qed.
  Lemma ld_code k k' : code (A k) = code (A k') -> code (Bc k) = code (Bc k') -> ld k = ld k'.
  Proof. intros H H'. apply ff_ext; [lia|]. intros. by apply Qf_code. Qed.
  Lemma ld_min k k' : k' < m -> D k' = false -> code (A k') = code (A k) -> code (Bc k') = code (Bc k) -> ld k <= k'.
  Proof. intros. apply ff_le; [lia|]. by apply Qf_true. Qed.
  Lemma nx_spec k : k < m -> k < nx k <= m /\ (nx k < m -> D (nx k) = false /\ code (A (nx k)) = code (A k)) /\
    forall k', k < k' < nx k -> D k' = false -> code (A k') <> code (A k).
  Proof.
    intros Hk. destruct (ff_spec (Pf (A k)) (S k) m ltac:(lia)) as (H1 & H2 & H3). fold (nx k) in *. split_and!; try lia.
    - intros H. by apply Pf_true, H2.
    - intros k' Hk' Hd He. specialize (H3 k' ltac:(lia)). rewrite (proj2 (Pf_true (A k) k')) in H3; [|done]. done.
  Qed.

  Definition AB (k : nat) : node := [A k; Bc k].

  (** *** phase 1 *)
  Record I1 (J : nat) (s : table * list nid) : Prop := {
    i1_shape : shape (fst s) = shape t0;
    i1_hi : forall f b, i < row f -> child (fst s) f b = child t0 f b;
    i1_row : forall k b, k < m -> child (fst s) (mk i k) b = if J <=? k then AB k !! b else child t0 (mk i k) b;
    i1_lo : forall f, row f < i -> slot f -> is_Some (child (fst s) f 0) /\
      if ff (Pf f) J m <? m then child (fst s) f 1 = Some (mk i m) /\ child (fst s) f 0 = Some (mk (i + 1) (ff (Pf f) J m))
      else exists v, child (fst s) f 1 = Some v /\ row v < i;
    i1_len : length (snd s) = m;
    i1_id : forall k, J <= k < m -> snd s !! k = Some (if D k then A k else mk (i + 1) (nx k))
  }.

  Lemma phase1_init : I1 m (t0, replicate m n0).
  Proof.
    constructor; cbn [fst snd].
    - done.
    - done.
    - intros k b Hk. destruct (Nat.leb_spec m k); [lia|done].
    - intros f Hf [Hs0 [v Hv]]. split; [done|]. rewrite ff_end. destruct (Nat.ltb_spec m m); [lia|]. exists v. split; [done|]. by eapply Hfresh.
    - apply replicate_length.
    - lia.
  Qed.

  Lemma row_child j b : j < m -> child t0 (mk i j) b = (p ← x !! j; p !! b).
  Proof. intros. by apply child_row. Qed.

  Lemma phase1_step j s : j < m -> I1 (S j) s -> exists s', algR1 B Z i m ids s j = Some s' /\ I1 j s'.
  Proof.
    intros Hj HI. destruct s as [t newId]. destruct HI as [I1s I1h I1r I1l I1n I1d]; cbn [fst snd] in *.
    destruct (Hcan j Hj) as (g0 & g1 & Hxj & Hc0 & Hc1). unfold algR1.
    assert (forall b, child t (mk i j) b = [g0; g1] !! b) as Hch.
    { intros b. rewrite I1r by done. destruct (Nat.leb_spec (S j) j); [lia|]. rewrite row_child by done. by rewrite Hxj. }
    rewrite !Hch. cbn [lookup list_lookup mbind option_bind]. rewrite Hc0. cbn [mbind option_bind].
    destruct (tset_child_ok t (mk i j) 0 (A j)) as (t1 & -> & S1 & C1); [by rewrite Hch|]. cbn [mbind option_bind]. rewrite Hc1. cbn [mbind option_bind].
    destruct (tset_child_ok t1 (mk i j) 1 (Bc j)) as (t2 & -> & S2 & C2); [rewrite C1; cdec; by rewrite Hch|]. cbn [mbind option_bind].
    destruct (lookup_lt_is_Some_2 newId j ltac:(lia)) as [nj ->]. cbn [mbind option_bind].
    assert (forall f b, (row f <> i \/ col f <> j) -> child t2 f b = child t f b) as Hoth.
    { intros f b Hf. rewrite C2, C1. rewrite !bool_decide_eq_false_2; [done| |]; intros [E _]; unfold code in E; cbn [row col mk] in E; inversion E; lia. }
    assert (forall b, child t2 (mk i j) b = AB j !! b) as Hme.
    { intros b. rewrite C2, C1. destruct b as [|[|b]]; cdec; [done|done|]. rewrite Hch. done. }
    destruct (D j) eqn:ED.
    { eexists. split; [done|]. constructor; cbn [fst snd].
      - congruence.
      - intros f b Hf. rewrite Hoth by lia. by apply I1h.
      - intros k b Hk. destruct (decide (k = j)) as [->|Hne].
        + rewrite Hme. destruct (Nat.leb_spec j j); [done|lia].
        + rewrite Hoth by (right; done). rewrite I1r by done. destruct (Nat.leb_spec (S j) k), (Nat.leb_spec j k); try lia; done.
      - intros f Hf Hs. rewrite !Hoth by lia. rewrite (ff_miss (Pf f) j m); [by apply I1l|done|].
        apply not_true_iff_false. rewrite Pf_true. intros [? _]. congruence.
      - by rewrite insert_length.
      - intros k Hk. destruct (decide (k = j)) as [->|Hne].
        + rewrite list_lookup_insert by lia. by rewrite ED.
        + rewrite list_lookup_insert_ne by done. apply I1d. lia. }
    destruct (I1l (A j) (HAi j Hj) (HsA j Hj)) as [[f00 Hf00] Hlo]. pose proof (HAi j Hj) as HAj.
    assert (child t2 (A j) 0 = Some f00) as E00 by (rewrite Hoth by lia; done). rewrite E00. cbn [mbind option_bind].
    fold (nx j) in *. unfold nx in *.
    assert (exists f01, child t (A j) 1 = Some f01 /\ (if neqb f01 (mk i m) then ff (Pf (A j)) (S j) m < m /\ f00 = mk (i + 1) (ff (Pf (A j)) (S j) m)
       else ff (Pf (A j)) (S j) m = m)) as (f01 & E01 & Hcase).
    { destruct (Nat.ltb_spec (ff (Pf (A j)) (S j) m) m) as [Hlt|Hge].
      - destruct Hlo as [L1 L2]. exists (mk i m). split; [done|]. rewrite (proj2 (neqb_true _ _)) by done. split; [done|congruence].
      - destruct Hlo as (v & L1 & L2). exists v. split; [done|]. rewrite (proj2 (neqb_false _ _)).
        + destruct (ff_spec (Pf (A j)) (S j) m ltac:(lia)). lia.
        + unfold code. cbn [row col mk]. intros E. inversion E. lia. }
    assert (child t2 (A j) 1 = Some f01) as E01' by (rewrite Hoth by lia; done). rewrite E01'. cbn [mbind option_bind].
    (* the two cases lead to the same table *)
    assert (exists t4, (
      '(t3, nx0) ← (if negb (neqb f01 (mk i m)) then t3 ← tset_child t2 (A j) 1 (mk i m); Some (t3, mk (i + 1) m) else Some (t2, f00));
       t4 ← tset_child t3 (A j) 0 (mk (i + 1) j); Some (t4, <[j := nx0]> newId)) = Some (t4, <[j := mk (i + 1) (ff (Pf (A j)) (S j) m)]> newId) /\
      shape t4 = shape t2 /\ (forall f b, code f <> code (A j) -> child t4 f b = child t2 f b) /\
      (exists v, child t4 (A j) 1 = Some v /\ (v = f01 /\ neqb f01 (mk i m) = true \/ v = mk i m)) /\ child t4 (A j) 0 = Some (mk (i + 1) j)) as (t4 & -> & S4 & C4 & (v4 & V4 & V4') & V40).
    { destruct (neqb f01 (mk i m)) eqn:En; cbn [negb].
      - destruct Hcase as [_ ->]. cbn [mbind option_bind].
        destruct (tset_child_ok t2 (A j) 0 (mk (i + 1) j)) as (t4 & -> & S4 & C4); [by rewrite E00|]. cbn [mbind option_bind].
        exists t4. split_and!; [done|done| | |].
        + intros f b Hf. rewrite C4. rewrite bool_decide_eq_false_2; [done|]. by intros [? _].
        + exists f01. rewrite C4. rewrite bool_decide_eq_false_2 by (by intros [_ ?]). split; [done|by left].
        + rewrite C4. by rewrite bool_decide_eq_true_2.
      - rewrite Hcase. destruct (tset_child_ok t2 (A j) 1 (mk i m)) as (t3 & -> & S3 & C3); [by rewrite E01'|]. cbn [mbind option_bind].
        destruct (tset_child_ok t3 (A j) 0 (mk (i + 1) j)) as (t4 & -> & S4 & C4).
        { rewrite C3. rewrite bool_decide_eq_false_2 by (by intros [_ ?]). by rewrite E00. }
        cbn [mbind option_bind]. exists t4. split_and!; [done|congruence| | |].
        + intros f b Hf. rewrite C4, C3. rewrite !bool_decide_eq_false_2; [done| |]; by intros [? _].
        + exists (mk i m). rewrite C4. rewrite bool_decide_eq_false_2 by (by intros [_ ?]). rewrite C3.
          rewrite bool_decide_eq_true_2 by done. split; [done|by right].
        + rewrite C4. by rewrite bool_decide_eq_true_2. }
    eexists. split; [done|].
    assert (ff (Pf (A j)) j m = j) as Hffj by (apply ff_hit; [done|by apply Pf_true]).
    assert (forall c b, child t4 (mk i c) b = child t2 (mk i c) b) as Hrow4.
    { intros c b. apply C4. unfold code. cbn [row col mk]. intros E. inversion E. lia. }
    constructor; cbn [fst snd].
    - congruence.
    - intros f b Hf. rewrite C4. { rewrite Hoth by lia. by apply I1h. } unfold code. intros E. inversion E. lia.
    - intros k b Hk. rewrite Hrow4. destruct (decide (k = j)) as [->|Hne].
      + rewrite Hme. destruct (Nat.leb_spec j j); [done|lia].
      + rewrite Hoth by (right; done). rewrite I1r by done. destruct (Nat.leb_spec (S j) k), (Nat.leb_spec j k); try lia; done.
    - intros f Hf Hs. destruct (decide (code f = code (A j))) as [Ec|Ec].
      + rewrite !(child_code t4 f (A j)) by done. split; [by rewrite V40|].
        assert (ff (Pf f) j m = j) as ->. { rewrite <- Hffj at 2. apply ff_ext; [lia|]. intros. by apply Pf_code. }
        destruct (Nat.ltb_spec j m); [|lia]. split; [|done].
        rewrite V4. f_equal. destruct V4' as [[-> E]| ->]; [|done].
        destruct (Nat.ltb_spec (ff (Pf (A j)) (S j) m) m) as [Hlt|Hge].
        * destruct Hlo as [L1 _]. congruence.
        * rewrite E in Hcase. lia.
      + rewrite !C4 by done. rewrite !Hoth by lia. rewrite (ff_miss (Pf f) j m); [by apply I1l|done|].
        apply not_true_iff_false. rewrite Pf_true. intros [_ ?]. congruence.
    - by rewrite insert_length.
    - intros k Hk. destruct (decide (k = j)) as [->|Hne].
      + rewrite list_lookup_insert by lia. by rewrite ED.
      + rewrite list_lookup_insert_ne by done. apply I1d. lia.
  Qed.

  Lemma phase1_ok : exists s, ofor_down m (algR1 B Z i m ids) (t0, replicate m n0) = Some s /\ I1 0 s.
  Proof. apply ofor_down_inv; [apply phase1_init|]. intros. by apply phase1_step. Qed.

  (** *** phase 2 *)
  Definition V (j k k' : nat) : bool := negb (D k') && ((hd k' <? j) || ((hd k' =? j) && (k' <? k))).
  Lemma V_true j k k' : V j k k' = true <-> D k' = false /\ (hd k' < j \/ hd k' = j /\ k' < k).
  Proof. unfold V. rewrite andb_true_iff, negb_true_iff, orb_true_iff, andb_true_iff, !Nat.ltb_lt, Nat.eqb_eq. done. Qed.

  Record I2 (W : nat -> bool) (j : nat) (ls : list nat) (s : table * list nid * nat) : Prop := {
    i2_shape : shape (fst (fst s)) = shape t0;
    i2_hi : forall f b, i < row f -> child (fst (fst s)) f b = child t0 f b;
    i2_row : forall k b, k < m -> child (fst (fst s)) (mk i k) b = if W k && negb (ld k =? k) then [mk i (ld k); mk i m] !! b else AB k !! b;
    i2_lo : forall f, row f < i -> slot f -> is_Some (child (fst (fst s)) f 0) /\ exists v, child (fst (fst s)) f 1 = Some v /\ row v <= i /\
      (forall j', j < j' < m -> code v <> (i, j')) /\
      (j < m -> code v = (i, j) -> exists k, k < m /\ W k = true /\ hd k = j /\ code (Bc k) = code f /\ child (fst (fst s)) f 0 = Some (mk i (ld k))) /\
      (forall k, k < m -> W k = true -> hd k = j -> code (Bc k) = code f -> code v = (i, j));
    i2_len : length (snd (fst s)) = m;
    i2_D : forall k, k < m -> D k = true -> snd (fst s) !! k = Some (A k);
    i2_un : forall k, k < m -> D k = false -> W k = false -> snd (fst s) !! k = Some (mk (i + 1) (nx k));
    i2_fw : forall k, k < m -> W k = true -> ld k <> k -> snd (fst s) !! k = Some n0;
    i2_ls : forall q l, ls !! q = Some l -> snd (fst s) !! l = Some (Nid i q (hasEmpty (A l)));
    i2_mm : snd s = length ls;
    i2_nd : NoDup ls;
    i2_in : forall l, l ∈ ls <-> l < m /\ W l = true /\ ld l = l
  }.

  Lemma I2_ext W W' j ls s : (forall k, k < m -> W k = W' k) -> I2 W j ls s -> I2 W' j ls s.
  Proof.
    intros HE [H1 H2 H3 H4 H5 H6 H7 H8 H9 H10 H11 H12]. constructor; try done.
    - intros k b Hk. rewrite <- HE by done. by apply H3.
    - intros f Hf Hs. destruct (H4 f Hf Hs) as (S0 & v & V1 & V2 & V3 & V4 & V5). split; [done|]. exists v. split_and!; try done.
      + intros Hj Hv. destruct (V4 Hj Hv) as (k & K1 & K2 & K3). exists k. rewrite <- HE by done. done.
      + intros k Hk. rewrite <- HE by done. by apply V5.
    - intros k Hk. rewrite <- HE by done. by apply H7.
    - intros k Hk. rewrite <- HE by done. by apply H8.
    - intros l. rewrite H12. split; intros (L1 & L2 & L3); split_and!; try done; [rewrite <- HE by done|rewrite HE by done]; done.
  Qed.

  Lemma phase2_init s : I1 0 s -> I2 (V 0 0) 0 [] (s, 0).
  Proof.
    intros [I1s I1h I1r I1l I1n I1d].
    assert (forall k, V 0 0 k = false) as HV.
    { intros k. apply not_true_iff_false. rewrite V_true. lia. }
    constructor; cbn [fst snd]; try done.
    - intros k b Hk. rewrite HV. simpl. by rewrite I1r.
    - intros f Hf Hs. destruct (I1l f Hf Hs) as [S0 Hlo]. split; [done|].
      destruct (ff (Pf f) 0 m <? m).
      + destruct Hlo as [L1 L2]. exists (mk i m). split_and!; try done.
        * intros j' Hj'. unfold code. cbn [row col mk]. intros E. inversion E. lia.
        * intros Hm0 E. unfold code in E. cbn [row col mk] in E. inversion E. lia.
        * intros k _ Hk. by rewrite HV in Hk.
      + destruct Hlo as (v & L1 & L2). exists v. split_and!; try done; [lia| | |].
        * intros j' Hj'. unfold code. intros E. inversion E. lia.
        * intros Hm0 E. unfold code in E. inversion E. lia.
        * intros k _ Hk. by rewrite HV in Hk.
    - intros k Hk Hd. rewrite I1d by lia. by rewrite Hd.
    - intros k Hk Hd _. rewrite I1d by lia. by rewrite Hd.
    - intros k _ Hk. by rewrite HV in Hk.
    - constructor.
    - intros l. rewrite HV. split; [by intros ?%elem_of_nil|]. by intros (_ & ? & _).
  Qed.

  Lemma chain_ok j fuel : j < m -> forall k ls s, m - k <= fuel -> k <= m -> (k < m -> D k = false /\ hd k = j) ->
    I2 (V j k) j ls s -> exists ls' s', algR_chain fuel i m j k s = Some s' /\ I2 (V j m) j ls' s'.
  Proof.
    intros Hj. induction fuel as [|fuel IH]; intros k ls [[t newId] mm] Hfu Hkm Hk HI.
    { assert (k = m) as -> by lia. simpl. rewrite Nat.ltb_irrefl. by exists ls, (t, newId, mm). }
    cbn [algR_chain]. destruct (Nat.ltb_spec k m) as [Hlt|Hge]; [|assert (k = m) as -> by lia; by exists ls, (t, newId, mm)].
    destruct (Hk Hlt) as [Hd Hh]. destruct HI as [H1 H2 H3 H4 H5 H6 H7 H8 H9 H10 H11 H12]; cbn [fst snd] in *.
    assert (V j k k = false) as HVk. { apply not_true_iff_false. rewrite V_true. lia. }
    assert (forall b, child t (mk i k) b = AB k !! b) as Hch. { intros b. rewrite H3 by done. by rewrite HVk. }
    rewrite !Hch. cbn [AB lookup list_lookup mbind option_bind].
    pose proof (HBi k Hlt) as HBk.
    destruct (H4 (Bc k) HBk (HsB k Hlt)) as ([v0 Hv0] & v & V1 & V2 & V3 & V4 & V5).
    rewrite Hv0, V1. cbn [mbind option_bind]. rewrite (H7 k Hlt Hd HVk). cbn [mbind option_bind]. cbn [col mk].
    destruct (nx_spec k Hlt) as (N1 & N2 & N3).
    assert (nx k < m -> D (nx k) = false /\ hd (nx k) = j) as Hnx.
    { intros Hn. destruct (N2 Hn) as [N4 N5]. split; [done|]. rewrite (hd_code _ k); done. }
    assert (forall k', k' < m -> V j (nx k) k' = (V j k k' || (k' =? k))) as HVn.
    { intros k' Hk'. apply eq_true_iff_eq. rewrite orb_true_iff, !V_true, Nat.eqb_eq. split.
      - intros [E1 [E2|[E2 E3]]]; [left; auto|]. destruct (Nat.lt_trichotomy k' k) as [L|[L|L]]; [left; auto|by right|].
        exfalso. apply (N3 k' ltac:(lia) E1). destruct (hd_spec k' Hk' E1) as (_ & _ & C1). destruct (hd_spec k Hlt Hd) as (_ & _ & C2).
        rewrite <- C1, <- C2. congruence.
      - intros [[E1 [E2|[E2 E3]]]| ->]; [by auto|split; [done|right]; lia|]. split; [done|right; lia]. }
    assert (m - nx k <= fuel) as Hfu' by lia.
    destruct (neqb v (mk i j)) eqn:En; cbn [negb].
    - (* forwarded *)
      apply neqb_true in En. destruct (V4 Hj En) as (k' & K1 & K2 & K3 & K4 & K5).
      assert (code (A k') = code (A k)) as EA.
      { apply V_true in K2 as [Kd _]. destruct (hd_spec k' K1 Kd) as (_ & _ & C1). destruct (hd_spec k Hlt Hd) as (_ & _ & C2).
        rewrite <- C1, <- C2. congruence. }
      assert (ld k' = ld k) as Eld by (by apply ld_code).
      assert (k' < k) as Hk'k. { apply V_true in K2 as [_ [|[_ ?]]]; lia. }
      assert (ld k < k) as Hldk. { rewrite <- Eld. destruct (ld_spec k' K1) as (? & _); [apply V_true in K2 as [? _]; done|]. lia. }
      assert (v0 = mk i (ld k)) as -> by congruence.
      destruct (tset_child_ok t (mk i k) 0 (mk i (ld k))) as (t1 & -> & S1 & C1); [by rewrite Hch|]. cbn [mbind option_bind].
      destruct (tset_child_ok t1 (mk i k) 1 (mk i m)) as (t2 & -> & S2 & C2); [rewrite C1; cdec; by rewrite Hch|]. cbn [mbind option_bind].
      assert (forall f b, (row f <> i \/ col f <> k) -> child t2 f b = child t f b) as Hoth.
      { intros f b Hf. rewrite C2, C1. rewrite !bool_decide_eq_false_2; [done| |]; intros [E _]; unfold code in E; cbn [row col mk] in E; inversion E; lia. }
      assert (forall b, child t2 (mk i k) b = [mk i (ld k); mk i m] !! b) as Hme.
      { intros b. rewrite C2, C1. destruct b as [|[|b]]; cdec; [done|done|]. rewrite Hch. done. }
      apply (IH (nx k) ls); [done|lia|done|].
      apply (I2_ext (fun k' => V j k k' || (k' =? k))). { intros. by rewrite HVn. }
      constructor; cbn [fst snd].
      + congruence.
      + intros f b Hf. rewrite Hoth by lia. by apply H2.
      + intros k1 b Hk1. destruct (decide (k1 = k)) as [->|Hne].
        * rewrite Hme. rewrite Nat.eqb_refl, orb_true_r. destruct (Nat.eqb_spec (ld k) k); [lia|]. done.
        * rewrite Hoth by (right; done). rewrite H3 by done. destruct (Nat.eqb_spec k1 k); [done|]. by rewrite orb_false_r.
      + intros f Hf Hs. rewrite !Hoth by lia. destruct (H4 f Hf Hs) as (S0 & w & W1 & W2 & W3 & W4 & W5). split; [done|].
        exists w. split_and!; try done.
        * intros Hj' Ew. destruct (W4 Hj' Ew) as (k1 & Q1 & Q2 & Q3). exists k1. rewrite Q2. done.
        * intros k1 Q1 Q2 Q3 Q4. apply orb_true_iff in Q2 as [Q2|Q2]; [by eapply W5|]. apply Nat.eqb_eq in Q2 as ->.
          apply (W5 k'); try done. congruence.
      + by rewrite insert_length.
      + intros k1 Hk1 Hd1. rewrite list_lookup_insert_ne by congruence. by apply H6.
      + intros k1 Hk1 Hd1 HW. apply orb_false_iff in HW as [HW E]. apply Nat.eqb_neq in E.
        rewrite list_lookup_insert_ne by congruence. by apply H7.
      + intros k1 Hk1 HW Hl. destruct (decide (k1 = k)) as [->|Hne]; [by rewrite list_lookup_insert by lia|].
        rewrite list_lookup_insert_ne by congruence. apply H8; try done. destruct (Nat.eqb_spec k1 k); [done|]. by rewrite orb_false_r in HW.
      + intros q l Hq. rewrite list_lookup_insert_ne; [by apply H9|]. intros <-.
        apply elem_of_list_lookup_2, H12 in Hq as (_ & _ & ?). lia.
      + done.
      + done.
      + intros l. rewrite H12. split; intros (L1 & L2 & L3); split_and!; try done; [by rewrite L2|].
        apply orb_true_iff in L2 as [L2|L2]; [done|]. apply Nat.eqb_eq in L2 as ->. lia.
    - (* canonical *)
      apply neqb_false in En.
      assert (ld k = k) as Hldk.
      { destruct (ld_spec k Hlt Hd) as (L1 & L2 & L3 & L4). destruct (decide (ld k = k)) as [|Hne]; [done|]. exfalso. apply En.
        apply (V5 (ld k)); [lia| |rewrite (hd_code _ k); done|done]. apply V_true. split; [done|]. right. rewrite (hd_code _ k) by done. lia. }
      destruct (tset_child_ok t (Bc k) 1 (mk i j)) as (t1 & -> & S1 & C1); [by rewrite V1|]. cbn [mbind option_bind].
      destruct (tset_child_ok t1 (Bc k) 0 (mk i k)) as (t2 & -> & S2 & C2).
      { rewrite C1. rewrite bool_decide_eq_false_2 by (by intros [_ ?]). by rewrite Hv0. }
      cbn [mbind option_bind].
      assert (forall f b, code f <> code (Bc k) -> child t2 f b = child t f b) as Hoth.
      { intros f b Hf. rewrite C2, C1. rewrite !bool_decide_eq_false_2; [done| |]; by intros [? _]. }
      assert (forall f, code f = code (Bc k) -> child t2 f 0 = Some (mk i k) /\ child t2 f 1 = Some (mk i j)) as Hme.
      { intros f Hf. rewrite !C2, !C1. split; [by rewrite bool_decide_eq_true_2|].
        rewrite bool_decide_eq_false_2 by (by intros [_ ?]). by rewrite bool_decide_eq_true_2. }
      assert (forall f, i <= row f -> code f <> code (Bc k)) as Hhi. { intros f Hf E. unfold code in E. inversion E. lia. }
      assert (mm = length ls) as Hmm by done. clear H10.
      apply (IH (nx k) (ls ++ [k])); [done|lia|done|].
      apply (I2_ext (fun k' => V j k k' || (k' =? k))). { intros. by rewrite HVn. }
      constructor; cbn [fst snd].
      + congruence.
      + intros f b Hf. rewrite Hoth by (apply Hhi; lia). by apply H2.
      + intros k1 b Hk1. rewrite Hoth by (apply Hhi; cbn [row mk]; lia). rewrite H3 by done.
        destruct (Nat.eqb_spec k1 k) as [->|]; [|by rewrite orb_false_r]. rewrite HVk, Hldk, Nat.eqb_refl. done.
      + intros f Hf Hs. destruct (H4 f Hf Hs) as (S0 & w & W1 & W2 & W3 & W4 & W5). destruct (decide (code f = code (Bc k))) as [Ec|Ec].
        * destruct (Hme f Ec) as [M0 M1]. rewrite M0, M1. split; [done|]. exists (mk i j). split_and!; try done.
          -- intros j' Hj'. unfold code. cbn [row col mk]. intros E. inversion E. lia.
          -- intros _ _. exists k. rewrite Nat.eqb_refl, orb_true_r, Hldk. done.
        * rewrite !Hoth by done. split; [done|]. exists w. split_and!; try done.
          -- intros Hj' Ew. destruct (W4 Hj' Ew) as (k1 & Q1 & Q2 & Q3). exists k1. rewrite Q2. done.
          -- intros k1 Q1 Q2 Q3 Q4. apply orb_true_iff in Q2 as [Q2|Q2]; [by eapply W5|]. apply Nat.eqb_eq in Q2 as ->. congruence.
      + by rewrite insert_length.
      + intros k1 Hk1 Hd1. rewrite list_lookup_insert_ne by congruence. by apply H6.
      + intros k1 Hk1 Hd1 HW. apply orb_false_iff in HW as [HW E]. apply Nat.eqb_neq in E.
        rewrite list_lookup_insert_ne by congruence. by apply H7.
      + intros k1 Hk1 HW Hl. destruct (decide (k1 = k)) as [->|Hne]; [done|].
        rewrite list_lookup_insert_ne by congruence. apply H8; try done. destruct (Nat.eqb_spec k1 k); [done|]. by rewrite orb_false_r in HW.
      + intros q l Hq. apply lookup_app_Some in Hq as [Hq|[Hq1 Hq]].
        * rewrite list_lookup_insert_ne; [by apply H9|]. intros <-. apply elem_of_list_lookup_2, H12 in Hq as (_ & ? & _). congruence.
        * apply list_lookup_singleton_Some in Hq as [Hq2 <-]. rewrite list_lookup_insert by lia. f_equal. f_equal. lia.
      + rewrite app_length. simpl. lia.
      + apply NoDup_app. split_and!; [done| |apply NoDup_singleton]. intros l Hl ->%elem_of_list_singleton. apply H12 in Hl as (_ & ? & _). congruence.
      + intros l. rewrite elem_of_app, H12, elem_of_list_singleton. rewrite orb_true_iff, Nat.eqb_eq. split.
        * intros [(L1 & L2 & L3)| ->]; auto.
        * intros (L1 & [L2|L2] & L3); auto.
  Qed.

  Lemma phase2_ok s : I1 0 s -> exists ls s2, ofor m (algR2 i m) (s, 0) = Some s2 /\ I2 (fun k => negb (D k)) m ls s2.
  Proof.
    intros HI.
    destruct (ofor_inv (algR2 i m) (fun j s => exists ls, I2 (V j 0) j ls s) m (s, 0)) as (s2 & E & ls & HI2).
    - exists []. by apply phase2_init.
    - intros j acc Hj (ls & HI2).
      (* leaving the iteration *)
      assert (forall W ls' acc', I2 W j ls' acc' -> (forall k, k < m -> W k = true -> hd k <= j) -> (forall k, k < m -> W k = V (S j) 0 k) -> I2 (V (S j) 0) (S j) ls' acc') as Hleave.
      { intros W ls' acc' HJ HW HE. apply (I2_ext W); [done|]. destruct HJ as [H1 H2 H3 H4 H5 H6 H7 H8 H9 H10 H11 H12]. constructor; try done.
        intros f Hf Hs. destruct (H4 f Hf Hs) as (S0 & w & W1 & W2 & W3 & W4 & W5). split; [done|]. exists w. split_and!; try done.
        - intros j' Hj'. apply W3. lia.
        - intros Hj' Ew. exfalso. apply (W3 (S j)); [lia|done].
        - intros k Hk Wk Hh. specialize (HW k Hk Wk). lia. }
      assert (forall k k', k < m -> k' < m -> D k = false -> D k' = false -> hd k = k' -> hd k' = k') as Hhd.
      { intros k k' Hk Hk' Hd Hd' E. destruct (hd_spec k Hk Hd) as (_ & _ & C). rewrite E in C. rewrite (hd_code _ _ C). done. }
      unfold algR2. destruct acc as [[t newId] mm]. cbn [fst snd].
      destruct (D j) eqn:Ed.
      + pose proof (i2_D _ _ _ _ HI2 j Hj Ed) as EE. cbn [fst snd] in EE. rewrite EE. cbn [mbind option_bind]. pose proof (HAi j Hj). destruct (Nat.leb_spec (row (A j)) i); [|lia].
        eexists. split; [done|]. exists ls. apply (Hleave (V j 0)); [done| |].
        * intros k Hk HV. apply V_true in HV. lia.
        * intros k Hk. apply eq_true_iff_eq. rewrite !V_true. split; intros [E1 E2]; (split; [done|]); [lia|].
          destruct (decide (hd k = j)) as [Eh|]; [|lia]. destruct (hd_spec k Hk E1) as (_ & C & _). rewrite Eh in C. congruence.
      + destruct (V j 0 j) eqn:HV.
        * assert (exists nj, newId !! j = Some nj /\ row nj <= i) as (nj & -> & Hle).
          { destruct (decide (ld j = j)) as [El|El].
            - assert (j ∈ ls) as Hin by (by apply (i2_in _ _ _ _ HI2)). apply elem_of_list_lookup in Hin as [q Hq].
              eexists. split; [apply (i2_ls _ _ _ _ HI2 _ _ Hq)|done].
            - eexists. split; [by apply (i2_fw _ _ _ _ HI2)|simpl; lia]. }
          cbn [mbind option_bind]. destruct (Nat.leb_spec (row nj) i); [|lia].
          eexists. split; [done|]. exists ls. apply (Hleave (V j 0)); [done| |].
          -- intros k Hk HV'. apply V_true in HV'. lia.
          -- intros k Hk. apply eq_true_iff_eq. rewrite !V_true. split; intros [E1 E2]; (split; [done|]); [lia|].
             destruct (decide (hd k = j)) as [Eh|]; [|lia]. pose proof (Hhd k j Hk Hj E1 Ed Eh). apply V_true in HV. lia.
        * pose proof (i2_un _ _ _ _ HI2 j Hj Ed HV) as EE. cbn [fst snd] in EE. rewrite EE. cbn [mbind option_bind]. cbn [row mk]. destruct (Nat.leb_spec (i + 1) i); [lia|].
          assert (hd j = j) as Eh.
          { destruct (hd_spec j Hj Ed) as (L & _). apply not_true_iff_false in HV. rewrite V_true in HV.
            destruct (decide (hd j = j)); [done|]. exfalso. apply HV. split; [done|]. lia. }
          destruct (chain_ok j m Hj j ls (t, newId, mm)) as (ls' & s' & Es & HI'); [lia|lia|done| |].
          { apply (I2_ext (V j 0)); [|done]. intros k Hk. apply eq_true_iff_eq. rewrite !V_true. split; intros [E1 E2]; (split; [done|]); [lia|].
            destruct (hd_spec k Hk E1). lia. }
          exists s'. split; [done|]. exists ls'. apply (Hleave (V j m)); [done| |].
          -- intros k Hk HV'. apply V_true in HV'. lia.
          -- intros k Hk. apply eq_true_iff_eq. rewrite !V_true. split; intros [E1 E2]; (split; [done|]); lia.
    - exists ls, s2. split; [done|]. apply (I2_ext (V m 0)); [|done]. intros k Hk. apply eq_true_iff_eq. rewrite V_true, negb_true_iff. split; [by intros [? _]|].
      intros E9. split; [done|]. left. destruct (hd_spec k Hk E9). lia.
  Qed.

  (** *** phase 3 *)
  Section phase3.
    Context (ls : list nat) (t3 : table) (newId2 : list nid).
    Context (Hrow : forall k b, k < m -> child t3 (mk i k) b = if negb (D k) && negb (ld k =? k) then [mk i (ld k); mk i m] !! b else AB k !! b).
    Context (Hlen : length newId2 = m) (HD : forall k, k < m -> D k = true -> newId2 !! k = Some (A k)).
    Context (Hls : forall q l, ls !! q = Some l -> newId2 !! l = Some (Nid i q (hasEmpty (A l)))).
    Context (Hnd : NoDup ls) (Hin : forall l, l ∈ ls <-> l < m /\ D l = false /\ ld l = l).

    Record I3 (o0 : table) (J : nat) (s : list nid * table) : Prop := {
      i3_len : length (fst s) = m;
      i3_D : forall k, k < m -> D k = true -> fst s !! k = Some (A k);
      i3_id : forall k, k < m -> D k = false -> k < J \/ ld k = k -> exists q, ls !! q = Some (ld k) /\ fst s !! k = Some (Nid i q (hasEmpty (A (ld k))));
      i3_out : exists w, snd s = <[i := w]> o0 /\ length w = length ls /\ forall q l, ls !! q = Some l -> l < J -> w !! q = Some (AB l)
    }.

    Lemma phase3_ok o0 w0 : i < length o0 -> length w0 = length ls ->
      exists s, ofor m (algR3 B Z i m t3) (newId2, <[i := w0]> o0) = Some s /\ I3 o0 m s.
    Proof.
      intros Hio Hw0. apply ofor_inv.
      - constructor; cbn [fst snd]; try done.
        + intros k Hk Hd [?|El]; [lia|]. assert (k ∈ ls) as H by (by apply Hin). apply elem_of_list_lookup in H as [q Hq].
          exists q. rewrite El. split; [done|]. by apply Hls.
        + exists w0. split_and!; [done|done|]. lia.
      - intros j [newId o] Hj [H1 H2 H3 (w & Eo & Hw & Hwq)]; cbn [fst snd] in *. subst o. unfold algR3.
        assert (exists p, tget t3 (mk i j) = Some p /\ p = (if negb (D j) && negb (ld j =? j) then [mk i (ld j); mk i m] else AB j)) as (p & Ep & Hp).
        { pose proof (Hrow j) as R. unfold child in R. destruct (tget t3 (mk i j)) as [p|] eqn:Ep.
          - exists p. split; [done|]. apply list_eq. intros b. specialize (R b Hj). cbn [mbind option_bind] in R. rewrite R. by destruct (negb (D j) && negb (ld j =? j)).
          - specialize (R 0 Hj). cbn [mbind option_bind] in R. by destruct (negb (D j) && negb (ld j =? j)). }
        rewrite Ep. cbn [mbind option_bind].
        assert (forall f g, p = [f; g] -> p !! 0 = Some f /\ p !! 1 = Some g) as Hpp by (intros ? ? ->; done).
        destruct (lookup_lt_is_Some_2 newId j ltac:(lia)) as [nj Enj].
        destruct (D j) eqn:Ed; [|destruct (Nat.eqb_spec (ld j) j) as [El|El]]; cbn [negb andb] in Hp; destruct (Hpp _ _ Hp) as [-> ->];
          cbn [mbind option_bind]; rewrite Enj; cbn [mbind option_bind].
        + assert (neqb (Bc j) (mk i m) = false) as ->. { apply neqb_false. unfold code. cbn [row col mk]. intros E. inversion E. pose proof (HBi j Hj). lia. }
          rewrite Ed. eexists. split; [done|]. constructor; cbn [fst snd]; try done.
          * intros k Hk Hd [?|?]; [|by apply H3; auto]. apply H3; try done. left. destruct (decide (k = j)) as [->|]; [congruence|lia].
          * exists w. split_and!; [done|done|]. intros q l Hq Hl. apply (Hwq q l Hq). assert (l <> j); [|lia]. intros ->.
            apply elem_of_list_lookup_2, Hin in Hq as (_ & ? & _). congruence.
        + assert (neqb (Bc j) (mk i m) = false) as ->. { apply neqb_false. unfold code. cbn [row col mk]. intros E. inversion E. pose proof (HBi j Hj). lia. }
          rewrite Ed. destruct (H3 j Hj Ed (or_intror El)) as (q & Hq & Eq). assert (nj = Nid i q (hasEmpty (A (ld j)))) as -> by congruence.
          cbn [col]. unfold tset. cbn [row col mk]. rewrite list_lookup_insert by done. cbn [mbind option_bind].
          assert (q < length w) as Hqw by (rewrite Hw; by eapply lookup_lt_Some).
          destruct (lookup_lt_is_Some_2 w q Hqw) as [? ->]. cbn [mbind option_bind]. eexists. split; [done|]. constructor; cbn [fst snd]; try done.
          * intros k Hk Hd [?|?]; [|by apply H3; auto]. destruct (decide (k = j)) as [->|]; [apply H3; auto|]. apply H3; try done. left. lia.
          * exists (<[q := p]> w). rewrite list_insert_insert. split_and!; [done|by rewrite insert_length|].
            intros q' l Hq' Hl. destruct (decide (q' = q)) as [->|Hne].
            -- rewrite list_lookup_insert by done. f_equal. rewrite Hp. f_equal; congruence.
            -- rewrite list_lookup_insert_ne by done. apply (Hwq q' l Hq'). assert (l <> j); [|lia]. intros ->. apply Hne.
               rewrite El in Hq. by eapply NoDup_lookup.
        + rewrite (proj2 (neqb_true _ _)) by done. cbn [col mk].
          destruct (ld_spec j Hj Ed) as (L1 & L2 & L3 & L4).
          destruct (H3 (ld j) ltac:(lia) L2) as (q & Hq & Eq). { left. lia. }
          assert (ld (ld j) = ld j) as Ell by (by apply ld_code). rewrite Ell in Hq, Eq.
          rewrite Eq. cbn [mbind option_bind]. eexists. split; [done|]. constructor; cbn [fst snd].
          * by rewrite insert_length.
          * intros k Hk Hd. rewrite list_lookup_insert_ne by congruence. by apply H2.
          * intros k Hk Hd Hor. destruct (decide (k = j)) as [->|Hne].
            -- exists q. split; [done|]. by rewrite list_lookup_insert by lia.
            -- rewrite list_lookup_insert_ne by done. apply H3; try done. destruct Hor; [left; lia|by right].
          * exists w. split_and!; [done|done|]. intros q' l Hq' Hl. apply (Hwq q' l Hq'). assert (l <> j); [|lia]. intros ->.
            apply elem_of_list_lookup_2, Hin in Hq' as (_ & _ & ?). congruence.
    Qed.
  End phase3.

  Definition modeR : rmode := if B then RB else if Z then RZ else RN.
  Lemma delR_delc j : delc modeR (AB j) = D j.
  Proof. unfold modeR, delR, AB. destruct B, Z; simpl; try done; by rewrite ?andb_true_r, ?orb_false_r. Qed.

  Lemma AB_codes k l : map code (AB k) = map code (AB l) <-> code (A k) = code (A l) /\ code (Bc k) = code (Bc l).
  Proof. unfold AB. cbn [map]. split; [intros E; inversion E; unfold code; split; congruence|]. intros [E1 E2]. by rewrite E1, E2. Qed.

  Lemma phase3_contract ls o0 s : NoDup ls -> (forall l, l ∈ ls <-> l < m /\ D l = false /\ ld l = l) -> i < length o0 -> I3 ls o0 m s ->
    exists w, snd s = <[i := w]> o0 /\ lcontract modeR i (map AB (seq 0 m)) (fst s) w.
  Proof.
    intros Hnd Hin Hio [H1 H2 H3 (w & Eo & Hw & Hwq)]. exists w. split; [done|].
    assert (forall j p, map AB (seq 0 m) !! j = Some p -> j < m /\ p = AB j) as Hlk.
    { intros j p Hp. rewrite list_lookup_fmap in Hp. destruct (seq 0 m !! j) as [j'|] eqn:E; [|done]. apply lookup_seq in E as [-> ?]. simpl in Hp. split; [done|congruence]. }
    assert (forall j, j < m -> map AB (seq 0 m) !! j = Some (AB j)) as Hlk2.
    { intros j Hj. rewrite list_lookup_fmap, lookup_seq_lt by done. done. }
    assert (forall q l, ls !! q = Some l -> w !! q = Some (AB l)) as Hwq'.
    { intros q l Hq. apply Hwq; [done|]. apply elem_of_list_lookup_2, Hin in Hq as (? & _). done. }
    constructor.
    - rewrite H1, map_length, seq_length. done.
    - intros j p Hp. apply Hlk in Hp as [Hj ->]. rewrite delR_delc. destruct (D j) eqn:Ed.
      + exists (A j). split; [by apply H2|done].
      + destruct (H3 j Hj Ed (or_introl Hj)) as (q & Hq & Eq). eexists. split; [done|]. cbn [row col attr].
        destruct (ld_spec j Hj Ed) as (L1 & L2 & L3 & L4).
        split_and!; [done| |].
        * exists (AB (ld j)). split; [by apply Hwq'|]. by apply AB_codes.
        * exists (ld j), (AB (ld j)), (A (ld j)). split_and!; [apply Hlk2; lia|by apply AB_codes|done|done].
    - intros k q Hq. assert (k < length ls) as Hk by (rewrite <- Hw; by eapply lookup_lt_Some).
      destruct (lookup_lt_is_Some_2 ls k Hk) as [l Hl]. pose proof (Hwq' _ _ Hl). assert (q = AB l) as -> by congruence.
      apply elem_of_list_lookup_2, Hin in Hl as (? & ? & _). split; [|by rewrite delR_delc].
      apply elem_of_list_lookup. exists l. by apply Hlk2.
    - intros k k' q q' Hq Hq' Ec.
      assert (k < length ls) as Hk by (rewrite <- Hw; by eapply lookup_lt_Some). destruct (lookup_lt_is_Some_2 ls k Hk) as [l Hl].
      assert (k' < length ls) as Hk' by (rewrite <- Hw; by eapply lookup_lt_Some). destruct (lookup_lt_is_Some_2 ls k' Hk') as [l' Hl'].
      pose proof (Hwq' _ _ Hl). pose proof (Hwq' _ _ Hl'). assert (q = AB l) as -> by congruence. assert (q' = AB l') as -> by congruence.
      apply AB_codes in Ec as [E1 E2]. pose proof (ld_code l l' E1 E2) as E.
      pose proof (proj1 (Hin l) (elem_of_list_lookup_2 _ _ _ Hl)) as (_ & _ & Ll). pose proof (proj1 (Hin l') (elem_of_list_lookup_2 _ _ _ Hl')) as (_ & _ & Ll').
      assert (l = l') as <- by congruence. by eapply NoDup_lookup.
  Qed.
End algR.
