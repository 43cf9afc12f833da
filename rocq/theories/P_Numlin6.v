(** DegreeZdd and makeVerticalLinks. *)
From Verif Require Import Base Sem M_Numlin S_Numlin P_Numlin2 P_Numlin3 P_Numlin4 P_Numlin5.
Local Open Scope nat_scope.

Section deg.
Context (b : board).
Notation m := (b_rows b).
Notation n := (b_cols b).
Context (Hb : board_ok b) (Hn2 : 2 <= n).
Notation top := (m * (n - 1)).
Definition one (i k : nat) : nat := if num b i k =? 0 then 0 else 1.
Lemma dz_one_eq i k : i < m -> k < n -> exists t, b_num b i k = Some t /\ dz_one t = one i k /\ (if (t =? 0)%Z then 0 else 1) = one i k.
Proof.
  intros Hi Hk. destruct (b_num_some b Hb i k Hi Hk) as (t & Et & Ht & En). exists t. split; [done|]. unfold dz_one, one. rewrite En.
  destruct (Z.ltb_spec 0 t), (Z.eqb_spec t 0), (Nat.eqb_spec (Z.to_nat t) 0); split; lia || done.
Qed.
Lemma one_le i k : one i k <= 1.
Proof. unfold one. destruct (_ =? _); lia. Qed.
Lemma b2n_le x : b2n x <= 1.
Proof. destruct x; cbn; lia. Qed.

Section one.
Context (H : nat -> nat -> bool).
Notation vdn := (vdn b H).
Definition tot (i k : nat) : nat := one i k + b2n (lf H i k) + b2n (rt b H i k) + b2n (up vdn i k).
Lemma vdn_tot i k : vdn i k = (tot i k =? 1).
Proof. apply vdn_eq. done. Qed.
Definition cell_good (i k : nat) : Prop := tot i k <= 2 /\ (S i = m -> tot i k <> 1).
Definition dgood : Prop := forall i k, i < m -> k < n -> cell_good i k.
Lemma dgood_iff : dgood <-> exists V, degrees_ok b H V.
Proof.
  assert (degrees_ok b H vdn <-> dgood) as HD.
  { rewrite degrees_counts by done. unfold dgood, cell_good. split; intros HA i k Hi Hk; specialize (HA i k Hi Hk); pose proof (vdn_tot i k) as EV; unfold cnt4, dn in *; unfold tot, one in *.
    - destruct HA as [H1 H0]. destruct (Nat.ltb_spec (S i) m), (Nat.eqb_spec (num b i k) 0) as [E|E]; cbn [andb b2n] in *;
        [specialize (H0 E)|specialize (H1 E)|specialize (H0 E)|specialize (H1 E)]; rewrite ?EV in *; destruct (lf H i k), (rt b H i k), (up vdn i k); cbn in *; lia.
    - destruct HA as [H1 H2]. rewrite EV. destruct (Nat.ltb_spec (S i) m), (Nat.eqb_spec (num b i k) 0) as [E|E]; cbn [andb b2n] in *;
        (split; intros ?; [try lia|try lia]); destruct (lf H i k), (rt b H i k), (up vdn i k); cbn in *; lia. }
  rewrite <- HD. split; [by exists vdn|]. intros (V & HV). rewrite degrees_counts in * by done. intros a c Ha Hc.
  assert (cnt4 b H vdn a c = cnt4 b H V a c) as ->; [|by apply HV]. rewrite <- degrees_counts in HV by done.
  pose proof (vdn_of b Hb Hn2 H V HV) as EV. unfold cnt4. f_equal; [f_equal|].
  - unfold up. destruct (Nat.leb_spec 1 a); [|done]. cbn [andb]. rewrite EV; [done|lia|done].
  - unfold dn. destruct (Nat.ltb_spec (S a) m); [|done]. cbn [andb]. by rewrite EV.
Qed.

(** the value kept for column c *)
Definition lf' (h i c : nat) : bool := (1 <=? c) && (c - 1 <? h) && H i (c - 1).
Definition rt' (h i c : nat) : bool := (c <? h) && (S c <? n) && H i c.
Definition val (i h k c : nat) : nat :=
  if c <? k then (if S i <? m then one (S i) c + b2n (vdn i c) else 2) else one i c + b2n (lf' h i c) + b2n (rt' h i c) + b2n (up vdn i c).
Record DInv (i h k : nat) (d : list nat) : Prop := {
  di_len : length d = n;
  di_val : forall c, c < n -> d !! c = Some (val i h k c) /\ val i h k c <= 2;
  di_old : forall a c, a < m -> c < n -> bef i k a c -> cell_good a c
}.
Lemma val_tot i k : k < n -> val i (S k) k k = tot i k.
Proof.
  intros Hk. unfold val, tot, lf', rt', lf, rt. rewrite Nat.ltb_irrefl, (proj2 (Nat.ltb_lt k (S k))) by lia. cbn [andb]. destruct (Nat.leb_spec 1 k); [|done].
  by rewrite (proj2 (Nat.ltb_lt (k - 1) (S k))) by lia.
Qed.

Lemma dskip i k d : H i k = false \/ n <= S k -> DInv i k k d -> DInv i (S k) k d.
Proof.
  intros Hh [D1 D2 D3]. constructor; [done| |done]. intros c Hc. assert (val i (S k) k c = val i k k c) as ->; [|by apply D2].
  unfold val. destruct (Nat.ltb_spec c k); [done|]. assert (lf' (S k) i c = lf' k i c) as ->; [|assert (rt' (S k) i c = rt' k i c) as ->; [|done]].
  - unfold lf'. destruct (Nat.leb_spec 1 c); [|done]. cbn [andb]. destruct (Nat.ltb_spec (c - 1) (S k)), (Nat.ltb_spec (c - 1) k); cbn [andb]; try done; try lia.
    assert (c - 1 = k) as -> by lia. destruct Hh; [done|lia].
  - unfold rt'. destruct (Nat.ltb_spec c (S k)), (Nat.ltb_spec c k); cbn [andb]; try done; try lia. assert (c = k) as -> by lia. destruct Hh as [->|Hh]; [by rewrite andb_false_r|].
    by rewrite (proj2 (Nat.ltb_ge _ _)) by lia.
Qed.
Lemma dtake i k d : DInv i k k d -> i < m -> S k < n -> H i k = true ->
  exists r, dz_take k d = Some r /\ match r with Some d' => DInv i (S k) k d' | None => ~ dgood end.
Proof.
  intros [D1 D2 D3] Hi Hk Hh. destruct (D2 k) as [E1 L1]; [lia|]. destruct (D2 (S k)) as [E2 L2]; [lia|]. unfold dz_take. rewrite E1. cbn [mbind option_bind]. rewrite E2. cbn [mbind option_bind].
  assert (Hl1 : lf' k i k = lf H i k).
  { unfold lf', lf. destruct (Nat.leb_spec 1 k); [|done]. by rewrite (proj2 (Nat.ltb_lt (k - 1) k)) by lia. }
  assert (V1 : val i k k k = one i k + b2n (lf H i k) + b2n (up vdn i k)).
  { unfold val. rewrite Nat.ltb_irrefl, Hl1. unfold rt'. rewrite Nat.ltb_irrefl. cbn. lia. }
  assert (V2 : val i k k (S k) = one i (S k) + b2n (up vdn i (S k))).
  { unfold val, lf', rt'. rewrite !(proj2 (Nat.ltb_ge (S k) k)) by lia. replace (S k - 1) with k by lia. rewrite Nat.ltb_irrefl. rewrite andb_false_r. cbn. lia. }
  assert (T1 : tot i k = S (val i k k k)).
  { rewrite V1. unfold tot. assert (rt b H i k = true) as -> by (unfold rt; rewrite Hh, (proj2 (Nat.ltb_lt _ _) Hk); done). cbn. lia. }
  assert (T2 : val i k k (S k) < tot i (S k)).
  { rewrite V2. unfold tot. assert (lf H i (S k) = true) as -> by (unfold lf; cbn [Nat.leb andb]; by replace (S k - 1) with k by lia). cbn. lia. }
  destruct (Nat.eqb_spec (val i k k k) 2) as [G1|G1]; [exists None; split; [done|intros HG; destruct (HG i k Hi ltac:(lia)); lia]|].
  destruct (Nat.eqb_spec (val i k k (S k)) 2) as [G2|G2]; [exists None; split; [done|intros HG; destruct (HG i (S k) Hi ltac:(lia)); lia]|]. cbn [orb].
  rewrite !w8_id by lia. rewrite put_ok by lia. cbn [mbind option_bind]. rewrite put_ok by (rewrite insert_length; lia). cbn [mbind option_bind].
  eexists. split; [done|]. constructor; [by rewrite !insert_length| |done]. intros c Hc. rewrite look by (rewrite insert_length; lia). rewrite look by lia.
  destruct (Nat.eqb_spec c (S k)) as [->|N1]; [|destruct (Nat.eqb_spec c k) as [->|N2]].
  - assert (val i (S k) k (S k) = S (val i k k (S k))) as ->.
    { rewrite V2. unfold val, lf', rt'. rewrite (proj2 (Nat.ltb_ge (S k) k)) by lia. replace (S k - 1) with k by lia. rewrite (proj2 (Nat.ltb_lt k (S k))) by lia. rewrite Hh, Nat.ltb_irrefl. cbn. lia. }
    split; [f_equal; lia|lia].
  - rewrite val_tot by lia. rewrite T1. split; [f_equal; lia|lia].
  - assert (val i (S k) k c = val i k k c) as ->; [|by apply D2]. unfold val. destruct (Nat.ltb_spec c k); [done|]. assert (lf' (S k) i c = lf' k i c) as ->; [unfold lf'|assert (rt' (S k) i c = rt' k i c) as ->; [unfold rt'|done]].
    + destruct (Nat.leb_spec 1 c); [|done]. by rewrite !(proj2 (Nat.ltb_ge (c - 1) _)) by lia.
    + by rewrite !(proj2 (Nat.ltb_ge c _)) by lia.
Qed.
Lemma ddown i k d : DInv i (S k) k d -> i < m -> k < n ->
  exists r, dz_down b i d k = Some r /\ match r with Some d' => DInv i (S k) (S k) d' | None => ~ dgood end.
Proof.
  intros [D1 D2 D3] Hi Hk. destruct (D2 k Hk) as [E1 L1]. rewrite val_tot in E1, L1 by done. unfold dz_down. rewrite E1. cbn [mbind option_bind].
  assert (HO : forall c, c < n -> c <> k -> val i (S k) (S k) c = val i (S k) k c).
  { intros c Hc Hn. unfold val. destruct (Nat.ltb_spec c (S k)), (Nat.ltb_spec c k); lia || done. }
  assert (HG : (S i = m -> tot i k <> 1) -> forall a c, a < m -> c < n -> bef i (S k) a c -> cell_good a c).
  { intros Ht a c Ha Hc Hbf. destruct (decide (a = i /\ c = k)) as [[-> ->]|Hn]; [by split|]. apply D3; [done|done|]. unfold bef in *. lia. }
  destruct (Nat.ltb_spec (S i) m) as [Hm|Hm].
  - destruct (dz_one_eq (S i) k Hm Hk) as (t & Et & Eo & _). rewrite Et. cbn [mbind option_bind]. rewrite put_ok by lia. cbn [mbind option_bind].
    eexists. split; [done|]. constructor; [by rewrite insert_length| |apply HG; lia]. intros c Hc. rewrite look by lia. destruct (Nat.eqb_spec c k) as [->|N1]; [|rewrite HO by done; by apply D2].
    assert (val i (S k) (S k) k = one (S i) k + b2n (vdn i k)) as ->.
    { unfold val. by rewrite (proj2 (Nat.ltb_lt k (S k))), (proj2 (Nat.ltb_lt (S i) m)) by lia. }
    rewrite vdn_tot, Eo. split; [f_equal; destruct (tot i k =? 1); cbn; lia|]. pose proof (one_le (S i) k). pose proof (b2n_le (tot i k =? 1)). lia.
  - destruct (Nat.eqb_spec (tot i k) 1) as [G|G]; [exists None; split; [done|intros HD; destruct (HD i k Hi Hk); lia]|]. rewrite put_ok by lia. cbn [mbind option_bind].
    eexists. split; [done|]. constructor; [by rewrite insert_length| |by apply HG]. intros c Hc. rewrite look by lia. destruct (Nat.eqb_spec c k) as [->|N1]; [|rewrite HO by done; by apply D2].
    unfold val. rewrite (proj2 (Nat.ltb_lt k (S k))), (proj2 (Nat.ltb_ge (S i) m)) by lia. split; [done|lia].
Qed.
Lemma dwrap i d : S i < m -> DInv i n n d -> DInv (S i) 0 0 d.
Proof.
  intros Hi [D1 D2 D3]. constructor; [done| |].
  - intros c Hc. assert (val (S i) 0 0 c = val i n n c) as ->; [|by apply D2]. unfold val. rewrite (proj2 (Nat.ltb_lt c n)), (proj2 (Nat.ltb_lt (S i) m)) by done. cbn [Nat.ltb Nat.leb].
    unfold lf', rt', up. cbn [Nat.leb andb]. rewrite (proj2 (Nat.ltb_ge (c - 1) 0)), (proj2 (Nat.ltb_ge c 0)) by lia. rewrite andb_false_r. cbn. rewrite Nat.sub_0_r. lia.
  - intros a c Ha Hc Hbf. apply D3; [done|done|]. unfold bef in *. lia.
Qed.
Lemma droot : exists d, dz_root b = Some (Z.of_nat top, d) /\ DInv 0 0 0 d.
Proof.
  unfold dz_root. rewrite (mapM_total _ (one 0)).
  2: { intros j Hj. apply elem_of_seq in Hj. destruct (dz_one_eq 0 j) as (t & Et & Eo & _); [destruct Hb; lia|lia|]. rewrite Et. cbn [mbind option_bind]. by rewrite Eo. }
  cbn [mbind option_bind]. eexists. split; [unfold dz_top; repeat f_equal; nia|]. constructor.
  - by rewrite map_length, seq_length.
  - intros c Hc. assert (val 0 0 0 c = one 0 c) as ->.
    { unfold val, lf', rt', up. rewrite (proj2 (Nat.ltb_ge (c - 1) 0)), (proj2 (Nat.ltb_ge c 0)) by lia. rewrite andb_false_r. cbn. lia. }
    split; [rewrite list_lookup_fmap, lookup_seq_lt by done; done|]. pose proof (one_le 0 c). lia.
  - intros a c Ha Hc. unfold bef. lia.
Qed.

Definition DAt (t : nat) (d : list nat) : Prop := if t <? top then DInv (t / (n - 1)) (t mod (n - 1)) (t mod (n - 1)) d else dgood.
Lemma DAt_eq t i k d : k < n - 1 -> i < m -> t = i * (n - 1) + k -> DAt t d <-> DInv i k k d.
Proof.
  intros Hk Hi ->. unfold DAt. rewrite (proj2 (Nat.ltb_lt (i * (n - 1) + k) top)) by nia. assert ((i * (n - 1) + k) / (n - 1) = i) as -> by (symmetry; apply (Nat.div_unique _ _ _ k); lia).
  by assert ((i * (n - 1) + k) mod (n - 1) = k) as -> by (symmetry; apply (Nat.mod_unique _ _ i); lia).
Qed.
Lemma dchild t d : t < top -> DAt t d ->
  exists r, dz_child b d (Z.of_nat (top - t)) (H (t / (n - 1)) (t mod (n - 1))) = Some r /\
    ((fst r = 0%Z /\ ~ dgood) \/ (fst r = (if (0 <? Z.of_nat (top - t) - 1)%Z then (Z.of_nat (top - t) - 1)%Z else (-1)%Z) /\ DAt (S t) (snd r))).
Proof.
  intros Ht HI. unfold DAt in HI. rewrite (proj2 (Nat.ltb_lt _ _) Ht) in HI. set (i := t / (n - 1)) in *. set (j := t mod (n - 1)) in *.
  assert (Hj : j < n - 1) by (apply Nat.mod_upper_bound; lia). assert (Et : t = i * (n - 1) + j) by (rewrite (Nat.div_mod t (n - 1)) at 1 by lia; unfold i, j; lia).
  assert (Hi : i < m) by nia. clearbody i j. unfold dz_child.
  assert (dz_top b - Z.of_nat (top - t) = Z.of_nat t)%Z as -> by (unfold dz_top; nia).
  replace (Z.of_nat n - 1)%Z with (Z.of_nat (n - 1)) by lia. rewrite <- Nat2Z.inj_div, <- Nat2Z.inj_mod, !Nat2Z.id.
  assert (t / (n - 1) = i) as -> by (symmetry; apply (Nat.div_unique _ _ _ j); lia).
  assert (t mod (n - 1) = j) as -> by (symmetry; apply (Nat.mod_unique _ _ i); lia).
  assert (exists r, (if H i j then dz_take j d else Some (Some d)) = Some r /\ match r with Some d' => DInv i (S j) j d' | None => ~ dgood end) as (r & Er & Hr).
  { destruct (H i j) eqn:EH; [apply dtake; [done|done|lia|done]|]. exists (Some d). split; [done|]. apply dskip; [by left|done]. }
  rewrite Er. cbn [mbind option_bind]. destruct r as [d1|]; [|eexists; split; [done|by left]].
  destruct (ddown i j d1 Hr Hi ltac:(lia)) as (r1 & E1 & H1).
  destruct (Nat.eqb_spec (S j) (n - 1)) as [Hlast|Hlast]; cbn [cuts]; rewrite E1; cbn [mbind option_bind]; (destruct r1 as [d2|]; [|eexists; split; [done|by left]]).
  - destruct (ddown i (S j) d2) as (r2 & E2 & H2); [apply dskip; [right; lia|done]|done|lia|]. rewrite E2. cbn [mbind option_bind]. destruct r2 as [d3|]; [|eexists; split; [done|by left]].
    cbn [mbind option_bind]. eexists. split; [done|]. right. split; [done|]. cbn [snd]. replace (S (S j)) with n in H2 by lia. destruct (decide (S i < m)) as [Hm|Hm].
    + apply (DAt_eq _ (S i) 0); [lia|done|lia|]. by apply dwrap.
    + unfold DAt. rewrite (proj2 (Nat.ltb_ge (S t) top)) by nia. intros a c Ha Hc. apply (di_old _ _ _ _ H2); [done|done|]. unfold bef. lia.
  - cbn [mbind option_bind]. eexists. split; [done|]. right. split; [done|]. cbn [snd]. apply (DAt_eq _ i (S j)); [lia|done|lia|done].
Qed.
End one.

Lemma deval_zero v : forall l s, zdd_eval (dz_spec b) l 0%Z s v = false.
Proof. induction l as [|l IH]; intros s; cbn [zdd_eval]; [done|]. destruct (Z.eqb_spec 0 (Z.of_nat (S l))); [lia|]. rewrite IH. by destruct (v (S l) =? 0). Qed.
Lemma deval_sem v : let H := links_of_vec b v in forall r t s, t + r = top -> 0 < r -> DAt H t s ->
  zdd_eval (dz_spec b) r (Z.of_nat r) s v = true <-> dgood H.
Proof.
  intros H. induction r as [|r IH]; intros t s Htr Hr HI; [lia|]. cbn [zdd_eval]. rewrite Z.eqb_refl.
  destruct (dchild H t s ltac:(lia) HI) as (r' & Er & Hr').
  assert (top - t = S r) as Et by lia. rewrite Et in *.
  cbn [dz_spec get_child]. assert (negb (v (S r) =? 0) = H (t / (n - 1)) (t mod (n - 1))) as ->.
  { unfold H, links_of_vec. f_equal. f_equal. f_equal. rewrite (Nat.div_mod t (n - 1)) in Htr by lia. nia. }
  rewrite Er. unfold default, id. cbn zeta. destruct r' as [c' s']. cbn [fst snd] in *. destruct Hr' as [[-> Hng]|[-> HI']].
  - rewrite deval_zero. split; [done|]. intros HG. by apply Hng in HG.
  - destruct (Z.ltb_spec 0 (Z.of_nat (S r) - 1)).
    + replace (Z.of_nat (S r) - 1)%Z with (Z.of_nat r) by lia. apply (IH (S t)); [lia|lia|done].
    + assert (r = 0) as -> by lia. cbn [zdd_eval]. split; [|done]. intros _. unfold DAt in HI'. rewrite (proj2 (Nat.ltb_ge (S t) top)) in HI' by lia. done.
Qed.
Lemma dsem v : zdd_sem (dz_spec b) top v = true <-> exists V, degrees_ok b (links_of_vec b v) V.
Proof.
  rewrite <- dgood_iff. destruct (droot (links_of_vec b v)) as (s & Es & HI). unfold zdd_sem. cbn [dz_spec get_root]. fold (dz_spec b). rewrite Es. unfold default, id. cbn [fst snd].
  assert (0 < top) as Ht by (destruct Hb; nia). apply (deval_sem v top 0); [lia|done|]. apply (DAt_eq _ 0 0 0); [lia|destruct Hb; lia|lia|done].
Qed.

(** ** memory safety: the array keeps its length *)
Lemma dz_safe_step l s take : (1 <= l <= Z.of_nat top)%Z -> length s = n -> exists r, dz_child b s l take = Some r /\ length (snd r) = n /\ (-1 <= fst r < l)%Z.
Proof.
  intros Hl Hs. unfold dz_child. set (t := (dz_top b - l)%Z).
  assert (Ht : (0 <= t < Z.of_nat m * (Z.of_nat n - 1))%Z) by (unfold t, dz_top; nia).
  set (i := Z.to_nat (t / (Z.of_nat n - 1))). set (j := Z.to_nat (t mod (Z.of_nat n - 1))).
  assert (Hj : j < n - 1) by (pose proof (Z.mod_pos_bound t (Z.of_nat n - 1)); unfold j; lia).
  assert (Hi : i < m). { assert (t / (Z.of_nat n - 1) < Z.of_nat m)%Z by (apply Z.div_lt_upper_bound; lia). pose proof (Z.div_pos t (Z.of_nat n - 1)). unfold i. lia. }
  clearbody i j.
  assert (exists r, (if take then dz_take j s else Some (Some s)) = Some r /\ match r with Some d => length d = n | None => True end) as (r & -> & Hr).
  { destruct take; [|by exists (Some s)]. unfold dz_take. destruct (lookup_lt_is_Some_2 s j) as [dj ->]; [lia|]. cbn [mbind option_bind]. destruct (lookup_lt_is_Some_2 s (S j)) as [dk ->]; [lia|]. cbn [mbind option_bind].
    destruct (_ || _); [by exists None|]. rewrite put_ok by lia. cbn [mbind option_bind]. rewrite put_ok by (rewrite insert_length; lia). cbn [mbind option_bind]. eexists. split; [done|]. cbn; by rewrite !insert_length. }
  cbn [mbind option_bind]. destruct r as [d|]; [|eexists; split; [done|]; cbn [fst snd]; split; [done|lia]].
  assert (HD : forall d k, k < n -> length d = n -> exists r, dz_down b i d k = Some r /\ match r with Some d => length d = n | None => True end).
  { intros d' k Hk Hd. unfold dz_down. destruct (lookup_lt_is_Some_2 d' k) as [dk ->]; [lia|]. cbn [mbind option_bind]. destruct (Nat.ltb_spec (S i) m).
    - destruct (dz_one_eq (S i) k) as (x & -> & _); [done|done|]. cbn [mbind option_bind]. rewrite put_ok by lia. cbn [mbind option_bind]. eexists. split; [done|]. cbn; by rewrite insert_length.
    - destruct (dk =? 1); [by exists None|]. rewrite put_ok by lia. cbn [mbind option_bind]. eexists. split; [done|]. cbn; by rewrite insert_length. }
  assert (exists r, cuts (dz_down b i) (if S j =? n - 1 then [j; S j] else [j]) d = Some r /\ match r with Some d => length d = n | None => True end) as (r & -> & Hr').
  { destruct (HD d j ltac:(lia) Hr) as (r1 & E1 & H1). destruct (S j =? n - 1); cbn [cuts]; rewrite E1; cbn [mbind option_bind]; (destruct r1 as [d1|]; [|by exists None]); [|by exists (Some d1)].
    destruct (HD d1 (S j) ltac:(lia) H1) as (r2 & E2 & H2). rewrite E2. cbn [mbind option_bind]. destruct r2 as [d2|]; [by exists (Some d2)|by exists None]. }
  cbn [mbind option_bind]. destruct r as [d'|]; (eexists; split; [done|]; cbn [fst snd]; split; [done|]); [destruct (Z.ltb_spec 0 (l - 1)); lia|lia].
Qed.
Lemma dz_reach l s : reach (dz_spec b) l s -> (1 <= l <= Z.of_nat top)%Z /\ length s = n.
Proof.
  induction 1 as [Hp|l s k Hr [Hl Hs] Hk Hp].
  - destruct (droot (fun _ _ => false)) as (s & Es & HI). cbn [dz_spec get_root] in *. rewrite Es in *. unfold default, id in *. cbn [fst snd] in *. split; [lia|apply HI].
  - cbn [dz_spec get_child] in *. destruct (dz_safe_step l s (negb (k =? 0)) Hl Hs) as ([c d] & Er & Hd & Hc). rewrite Er in *. unfold default, id in *. cbn [fst snd] in *. split; [lia|done].
Qed.

(** ** makeVerticalLinks *)
Lemma mv_row_eq H up i : i < m -> length up = n -> (forall k, k < n -> up !! k = Some (P_Numlin2.up (vdn b H) i k)) ->
  mv_row b H up i = Some (map (vdn b H i) (seq 0 n)).
Proof.
  intros Hi Hl Hup. unfold mv_row. apply mapM_total. intros j Hj. apply elem_of_seq in Hj. unfold mv_degree. destruct (dz_one_eq i j Hi ltac:(lia)) as (t & -> & _ & Eo). cbn [mbind option_bind].
  rewrite Eo, Hup by lia. cbn [mbind option_bind]. f_equal. rewrite vdn_eq by done. fold (one i j). unfold lf, rt. replace (j + 1) with (S j) by lia.
  destruct (1 <=? j), (S j <? n); cbn [andb b2n]; f_equal; lia.
Qed.
Lemma mv_rows_eq H k : forall i up, i + k < m -> length up = n -> (forall c, c < n -> up !! c = Some (P_Numlin2.up (vdn b H) i c)) ->
  mv_rows b H up (seq i k) = Some (map (fun a => map (vdn b H a) (seq 0 n)) (seq i k)).
Proof.
  induction k as [|k IH]; intros i up Hi Hl Hup; [done|]. cbn [seq mv_rows map]. rewrite mv_row_eq by (done || lia). cbn [mbind option_bind].
  rewrite IH; [done|lia|by rewrite map_length, seq_length|]. intros c Hc. rewrite list_lookup_fmap, lookup_seq_lt by done. cbn. unfold P_Numlin2.up. cbn [Nat.leb andb]. by rewrite Nat.sub_0_r.
Qed.
Lemma mv_eq H : makeVerticalLinks b H = Some (map (fun a => map (vdn b H a) (seq 0 n)) (seq 0 (m - 1))).
Proof.
  unfold makeVerticalLinks. apply mv_rows_eq; [destruct Hb; lia|by rewrite replicate_length|]. intros c Hc. unfold P_Numlin2.up. cbn [Nat.leb andb]. by apply lookup_replicate_2.
Qed.
End deg.
