(** NQueenZdd and NRookZdd: getChild, the family, the contract. *)
From Verif Require Import Base Sem P_Size M_Queen S_Queen P_Queen.
Local Open Scope nat_scope.

Section queens.
Context (Q : queens).
Notation n := (q_n Q).
Context (Hn : n <= 31).
Notation ext := (ext Q).
Notation at_ok := (at_ok Q).
Notation skip_ok := (skip_ok Q Hn).

Definition child_spec (i j : nat) (s : list N) (b : bool) (code : Z) (s' : list N) : Prop :=
  let L := i * n + j + 1 in
  let q v := if b then on n v i j else ~ on n v i j in
  (code = 0%Z /\ forall v, q v -> ~ ext v (i + 1) L (view s)) \/
  (code = (-1)%Z /\ forall v, q v -> ext v (i + 1) L (view s) <-> forall r c, r * n + c + 1 < L -> ~ on n v r c) \/
  (exists i' j', code = Z.of_nat (i' * n + j' + 1) /\ i' * n + j' + 1 < L /\ at_ok i' j' s' /\
   forall v, q v -> ext v (i + 1) L (view s) <->
     (forall r c, i' * n + j' + 1 < r * n + c + 1 < L -> ~ on n v r c) /\ ext v (i' + 1) (i' * n + j' + 1) (view s')).

Lemma take_ok i j s : i < n -> j < n -> arr_ok Q s ->
  exists code s', q_child Q s (i * n + j + 1) true = Some (code, s') /\ child_spec i j s true code s'.
Proof.
  intros Hi Hj Hs. unfold q_child. destruct (Nat.eqb_spec (i * n + j + 1) 0) as [|_]; [lia|].
  destruct (square Q Hn i j Hj) as [-> ->]. destruct (arr_get Q s i Hs Hi) as (x & -> & Hx & Hxn). cbn [mbind option_bind].
  rewrite qtest_ok by lia. cbn [mbind option_bind]. rewrite Hx. destruct (view s i j) eqn:Ev; cbn [negb].
  2: { eexists _, _. split; [done|]. left. split; [done|]. intros v Hon HE. apply (ext_take Q Hn v i j _ Hon) in HE as (HE & _). congruence. }
  destruct (place_ok Q Hn i j i s 0%N Hs) as (t & s1 & total & -> & Hs1 & H); [lia|done|]. cbn [mbind option_bind]. destruct t.
  { eexists _, _. split; [done|]. left. split; [done|]. intros v Hon. by apply (no_room Q Hn). }
  destruct H as (H1 & H2 & H3). destruct (Nat.eqb_spec i 0) as [->|Hi0].
  { eexists _, _. split; [done|]. right. left. split; [done|]. intros v Hon. rewrite (ext_take Q Hn v 0 j _ Hon). split.
    - intros (_ & Hno & _) r c Hl Hq. pose proof Hq as (_ & Hc & _). assert (r = 0) as ->.
      { assert (r <= 0); [|lia]. eapply (level_row Q Hn r c 0 j); lia. }
      apply (Hno c); [lia|done].
    - intros Hno. split; [done|]. split; [intros c Hc; apply Hno; lia|]. constructor.
      + intros r Hr. lia.
      + intros r c c' [_ Hl]. lia.
      + intros r c [_ Hl]. lia.
      + intros r c r' c' [_ Hl]. lia. }
  destruct (Nat.ltb_spec (popcount total) i) as [Hp|Hp].
  { eexists _, _. split; [done|]. left. split; [done|]. intros v Hon. by eapply (no_cols Q Hn). }
  assert (Hs2 : arr_ok Q (<[i := 0%N]> s1)).
  { apply arr_insert; [done|done|]. intros c Hc. unfold tb in Hc. by rewrite N.bits_0 in Hc. }
  assert (Hv2 : forall r c, r < i -> view (<[i := 0%N]> s1) r c = view s r c && free Q i j r c).
  { intros r c Hr. rewrite view_insert by (by rewrite (ao_len _ _ Hs1)). destruct (Nat.eqb_spec r i); [lia|]. rewrite H1. by rewrite (proj2 (Nat.ltb_lt r i)) by done. }
  assert (Elev : i * n + 1 = (i - 1) * n + (n - 1) + 1 + 1).
  { destruct i as [|i]; [done|]. replace (S i - 1) with i by lia. cbn [Nat.mul]. lia. }
  assert (Elev' : (i - 1) * n + (n - 1) + 1 = i * n) by lia.
  destruct (skip_ok (i * n + 1) (i - 1) (n - 1) (<[i := 0%N]> s1)) as (code & s' & E & H).
  - constructor; [lia|lia|done|]. intros c Hc. pose proof (ao_bits _ _ Hs2 _ _ Hc). lia.
  - destruct (H2 (i - 1)) as [c Hc]; [lia|]. exists c. rewrite Hv2 by lia. done.
  - rewrite Elev. generalize ((i - 1) * n). clear. lia.
  - rewrite <- Elev in E. rewrite E. eexists _, _. split; [done|]. rewrite Elev' in H.
    assert (Hi1 : i - 1 + 1 = i) by lia. rewrite Hi1 in H.
    assert (Hstep : forall v, on n v i j -> ext v (i + 1) (i * n + j + 1) (view s) <->
      (forall c, c < j -> ~ on n v i c) /\ ext v i (i * n) (view (<[i := 0%N]> s1))).
    { intros v Hon. rewrite (ext_take Q Hn v i j _ Hon). split.
      - intros (_ & Hno & HE). split; [done|]. eapply (ext_view Q Hn); [| |exact HE]; [done|]. intros r c Hr. by rewrite Hv2.
      - intros (Hno & HE). split; [done|]. split; [done|]. eapply (ext_view Q Hn); [| |exact HE]; [done|]. intros r c Hr. by rewrite Hv2. }
    destruct H as [[-> H]|(j' & Hj' & -> & HA & H)].
    + left. split; [done|]. intros v Hon [_ HE]%Hstep; [|done]. by apply H in HE.
    + right. right. exists (i - 1), j'. split; [done|]. split; [lia|]. split; [done|]. intros v Hon. rewrite Hstep by done. rewrite H, Hi1. split.
      * intros (Hno & Hno' & HE). split; [|done]. intros r c Hrc Hq. pose proof Hq as (_ & Hc & _).
        assert (r <= i) by (eapply (level_row Q Hn r c i j); lia). destruct (decide (r = i)) as [->|Hdec]; [apply (Hno c); [lia|done]|].
        assert (i - 1 <= r). { eapply (level_row Q Hn (i - 1) j' r c); lia. }
        assert (r = i - 1) as -> by lia. apply (Hno' c); [lia|done].
      * intros (Hno & HE). split; [|split; [|done]].
        { intros c Hc. apply Hno. lia. }
        { intros c Hc. apply Hno. lia. }
Qed.

Lemma leave_ok i j s : at_ok i j s -> q_take Q && (i * n + j + 1 =? q_top Q) = false ->
  exists code s', q_child Q s (i * n + j + 1) false = Some (code, s') /\ child_spec i j s false code s'.
Proof.
  intros [Hi Hj Hs Hbel] Ht. unfold q_child. destruct (Nat.eqb_spec (i * n + j + 1) 0) as [|_]; [lia|].
  rewrite Ht. destruct (square Q Hn i j Hj) as [-> ->]. destruct (arr_get Q s i Hs Hi) as (x & -> & Hx & Hxn). cbn [mbind option_bind].
  destruct (qclear_ok x j) as (y & -> & Hy); [lia|intros c Hc; specialize (Hxn c Hc); lia|]. cbn [mbind option_bind].
  assert (Hs1 : arr_ok Q (<[i := y]> s)).
  { apply arr_insert; [done|done|]. intros c Hc. rewrite Hy in Hc. apply andb_true_iff in Hc as [Hc _]. by apply Hxn. }
  assert (Hv1 : forall r c, view (<[i := y]> s) r c = if r =? i then view s i c && negb (c =? j) else view s r c).
  { intros r c. rewrite view_insert by (by rewrite (ao_len _ _ Hs)). by rewrite Hy, Hx. }
  assert (Hstep : forall v, ~ on n v i j -> ext v (i + 1) (i * n + j + 1) (view s) <-> ext v (i + 1) (i * n + j) (view (<[i := y]> s))).
  { intros v Hno. apply (ext_skip Q Hn); [done|done|]. intros r c Hr Hne. rewrite Hv1. destruct (Nat.eqb_spec r i) as [->|]; [|done].
    destruct (Nat.eqb_spec c j) as [->|]; [by destruct Hne|]. by rewrite andb_true_r. }
  destruct (y =? 0)%N eqn:E0.
  { eexists _, _. split; [done|]. left. split; [done|]. intros v Hno HE%Hstep; [|done]. revert HE. apply ext_empty with (r := i); [lia|].
    intros c. rewrite Hv1, Nat.eqb_refl, <- Hx, <- Hy. by apply tb_zero. }
  assert (exists c, view (<[i := y]> s) i c = true /\ c < j) as (c0 & Hc0 & Hcj).
  { destruct (tb_nonzero y E0) as [c Hc]; [intros c Hc; rewrite Hy in Hc; apply andb_true_iff in Hc as [Hc _]; specialize (Hxn c Hc); lia|].
    exists c. rewrite Hv1, Nat.eqb_refl, <- Hx, <- Hy. split; [done|]. rewrite Hy in Hc. apply andb_true_iff in Hc as [Hc Hne].
    rewrite Hx in Hc. specialize (Hbel c Hc). apply negb_true_iff, Nat.eqb_neq in Hne. lia. }
  destruct (skip_ok (i * n + j + 1) i (j - 1) (<[i := y]> s)) as (code & s' & E & H).
  - constructor; [done|lia|done|]. intros c. rewrite Hv1, Nat.eqb_refl. intros [Hc Hne]%andb_true_iff. specialize (Hbel c Hc). apply negb_true_iff, Nat.eqb_neq in Hne. lia.
  - by exists c0.
  - lia.
  - replace (i * n + (j - 1) + 1 + 1) with (i * n + j + 1) in E by lia. rewrite E. eexists _, _. split; [done|].
    replace (i * n + (j - 1) + 1) with (i * n + j) in H by lia. destruct H as [[-> H]|(j' & Hj' & -> & HA' & H)].
    + left. split; [done|]. intros v Hno HE%Hstep; [|done]. by apply H in HE.
    + right. right. exists i, j'. split; [done|]. split; [lia|]. split; [done|]. intros v Hno. rewrite Hstep by done. rewrite H. split.
      * intros (Hno' & HE). split; [|done]. intros r c Hrc Hq. pose proof Hq as (_ & Hc & _).
        assert (r <= i) by (eapply (level_row Q Hn r c i j); lia). assert (i <= r) by (eapply (level_row Q Hn i j' r c); lia).
        assert (r = i) as -> by lia. apply (Hno' c); [lia|done].
      * intros (Hno' & HE). split; [|done]. intros c Hc. apply Hno'. lia.
Qed.

(** ** the family *)
Notation sp := (queen_spec Q).

Lemma eval_jump (sp : spec) l k (s : St sp) v : k <= l ->
  zdd_eval sp l (Z.of_nat k) s v = true <-> (forall x, k < x <= l -> v x = 0) /\ zdd_eval sp k (Z.of_nat k) s v = true.
Proof.
  intros Hk. induction Hk as [|l Hk IH]; [split; [|by intros [_ ?]]; intros H; split; [intros; lia|done]|].
  cbn [zdd_eval]. destruct (Z.eqb_spec (Z.of_nat k) (Z.of_nat (S l))); [lia|]. destruct (Nat.eqb_spec (v (S l)) 0) as [E|E].
  - rewrite IH. split; intros [H1 H2]; (split; [|done]); intros x Hx; [|apply H1; lia]. destruct (decide (x = S l)) as [->|]; [done|]. apply H1. lia.
  - split; [done|]. intros [H1 _]. destruct E. apply H1. lia.
Qed.
Lemma eval_one (sp : spec) l (s : St sp) v : zdd_eval sp l (-1) s v = true <-> forall x, 1 <= x <= l -> v x = 0.
Proof.
  induction l as [|l IH]; cbn [zdd_eval].
  { split; [intros _ x Hx; lia|done]. }
  destruct (Z.eqb_spec (-1) (Z.of_nat (S l))); [lia|]. destruct (Nat.eqb_spec (v (S l)) 0) as [E|E].
  - rewrite IH. split; intros H x Hx; [|apply H; lia]. destruct (decide (x = S l)) as [->|]; [done|]. apply H. lia.
  - split; [done|]. intros H. destruct E. apply H. lia.
Qed.
(** levels and squares *)
Lemma level_square l : 1 <= l <= n * n -> exists i j, i < n /\ j < n /\ l = i * n + j + 1.
Proof.
  intros Hl. assert (n <> 0) by nia. exists ((l - 1) / n), ((l - 1) mod n). pose proof (Nat.div_mod (l - 1) n). pose proof (Nat.mod_upper_bound (l - 1) n).
  split; [apply Nat.div_lt_upper_bound; lia|]. lia.
Qed.
Lemma square_level i j : i < n -> j < n -> i * n + j + 1 <= n * n.
Proof. intros. assert (S i * n <= n * n) by (apply Nat.mul_le_mono_r; lia). cbn in *. lia. Qed.

Definition low (l : nat) : Prop := q_take Q = true -> l < q_top Q.
Lemma queen_eval v l : forall i j s, l = i * n + j + 1 -> at_ok i j s -> low l ->
  zdd_eval sp l (Z.of_nat l) s v = true <-> ext v (i + 1) l (view s).
Proof.
  induction (lt_wf l) as [l _ IH]. intros i j s El HA Hlow. pose proof HA as [Hi Hj Hs _].
  destruct l as [|l]; [lia|]. cbn [zdd_eval]. rewrite Z.eqb_refl. rewrite El. cbn [queen_spec get_child].
  rewrite Nat2Z.id.
  assert (Hb : if negb (v (i * n + j + 1) =? 0) then on n v i j else ~ on n v i j).
  { destruct (Nat.eqb_spec (v (i * n + j + 1)) 0) as [E|E]; cbn [negb]; [by intros (_ & _ & ?)|done]. }
  assert (exists code s', q_child Q s (i * n + j + 1) (negb (v (i * n + j + 1) =? 0)) = Some (code, s') /\ child_spec i j s (negb (v (i * n + j + 1) =? 0)) code s') as (code & s' & E & H).
  { destruct (negb _); [by apply take_ok|]. apply leave_ok; [done|]. apply andb_false_iff. destruct (q_take Q) eqn:Et; [right|by left].
    apply Nat.eqb_neq. specialize (Hlow Et). lia. }
  rewrite E. cbn [default id fst snd]. rewrite <- El. assert (Hll : l = i * n + j) by lia.
  destruct H as [[-> H]|[[-> H]|(i' & j' & -> & Hlt & HA' & H)]].
  - rewrite zdd_eval_zero. split; [done|]. intros HE. rewrite El in HE. by apply H in HE.
  - rewrite El, (H v Hb). rewrite eval_one. split.
    + intros Hz r c Hrc (_ & _ & Hq). apply Hq, Hz. lia.
    + intros Hno x Hx. assert (x <= n * n) by (pose proof (square_level i j Hi Hj); lia).
      destruct (level_square x) as (r & c & Hr & Hc & ->); [lia|]. destruct (decide (v (r * n + c + 1) = 0)) as [|Hnz]; [done|].
      destruct (Hno r c); [lia|]. split_and!; done.
  - rewrite El, (H v Hb). rewrite eval_jump by lia. rewrite (IH (i' * n + j' + 1)) with (i := i') (j := j'); [|lia|done|done|].
    2: { intros Et. specialize (Hlow Et). lia. }
    split; intros [Hz HE]; (split; [|done]).
    + intros r c Hrc (_ & _ & Hq). apply Hq, Hz. lia.
    + intros x Hx. assert (x <= n * n) by (pose proof (square_level i j Hi Hj); lia).
      destruct (level_square x) as (r & c & Hr & Hc & ->); [lia|]. destruct (decide (v (r * n + c + 1) = 0)) as [|Hnz]; [done|].
      destruct (Hz r c); [lia|]. split_and!; done.
Qed.

(** ** the root *)
Definition full : list N := replicate n (not32 (N.land (N.shiftl (N.ones 32) (N.of_nat n)) (N.ones 32))).
Lemma root_eq : q_root Q = Some (Z.of_nat (q_top Q), full).
Proof. unfold q_root. by rewrite (proj2 (Nat.ltb_lt n 32)) by lia. Qed.
Lemma full_view r c : view full r c = (r <? n) && (c <? n).
Proof.
  unfold view, full. destruct (Nat.ltb_spec r n) as [Hr|Hr].
  - rewrite lookup_replicate_2 by done. cbn [andb]. unfold tb, not32. destruct (decide (c < 32)) as [Hc|Hc].
    + rewrite N.lnot_spec_low by lia. rewrite N.land_spec, (N.ones_spec_low 32) by lia. rewrite andb_true_r.
      destruct (Nat.ltb_spec c n) as [H|H].
      * by rewrite N.shiftl_spec_low by lia.
      * rewrite N.shiftl_spec_high' by lia. by rewrite N.ones_spec_low by lia.
    + rewrite N.lnot_spec_high by lia. rewrite N.land_spec, (N.ones_spec_high 32) by lia. rewrite andb_false_r. destruct (Nat.ltb_spec c n); [lia|done].
  - rewrite lookup_ge_None_2; [done|by rewrite replicate_length].
Qed.
Lemma full_arr : arr_ok Q full.
Proof. constructor; [apply replicate_length|]. intros r c H. rewrite full_view in H. apply andb_true_iff in H as [_ H]. by apply Nat.ltb_lt in H. Qed.

(** the peaceful placements *)
Lemma free_attacks r c r' c' : r < r' -> free Q r' c' r c = true <-> ~ attacks (q_rook Q) r c r' c'.
Proof.
  intros Hr. unfold free, attacks. destruct (q_rook Q); cbn [orb].
  - rewrite andb_true_r, negb_true_iff, Nat.eqb_neq. unfold rook_attacks. lia.
  - rewrite !andb_true_iff, !negb_true_iff, !Nat.eqb_neq. unfold queen_attacks, rook_attacks. lia.
Qed.
Lemma attacks_sym r c r' c' : attacks (q_rook Q) r c r' c' -> attacks (q_rook Q) r' c' r c.
Proof. unfold attacks, queen_attacks, rook_attacks. destruct (q_rook Q); lia. Qed.
Lemma attacks_row r c c' : attacks (q_rook Q) r c r c'.
Proof. unfold attacks, queen_attacks, rook_attacks. destruct (q_rook Q); lia. Qed.
Lemma vis_all v r c : vis Q v (n * n) r c <-> on n v r c.
Proof. split; [by intros [? _]|]. intros H. split; [done|]. destruct H as (? & ? & _). by apply square_level. Qed.

Lemma ext_peaceful v : ext v n (n * n) (view full) <-> peaceful n (q_rook Q) v.
Proof.
  split.
  - intros HE. assert (forall R, R <= n -> exists qs, NoDup qs /\ length qs = R /\ forall i j, (i, j) ∈ qs <-> i < R /\ on n v i j) as Hqs.
    { induction R as [|R IH]; intros HR.
      - exists []. split; [constructor|]. split; [done|]. intros i j. rewrite elem_of_nil. lia.
      - destruct IH as (qs & Hnd & Hl & Hin); [lia|]. destruct (e_row _ _ _ _ _ HE R) as [c Hc]; [lia|]. exists ((R, c) :: qs). split; [|split].
        + constructor; [|done]. rewrite Hin. lia.
        + cbn. lia.
        + intros i j. rewrite elem_of_cons, Hin. split.
          * intros [Eq|[Hi Hq]]; [injection Eq as -> ->; split; [lia|by apply (vis_all v) in Hc]|]. split; [lia|done].
          * intros [Hi Hon]. destruct (decide (i = R)) as [->|Hdec]; [|right; split; [lia|done]]. left. f_equal.
            apply (e_one _ _ _ _ _ HE R); [by apply vis_all|done]. }
    destruct (Hqs n) as (qs & Hnd & Hl & Hin); [done|]. exists qs. split; [done|]. split; [done|]. split.
    + intros i j. rewrite Hin. split; [by intros [_ ?]|]. intros H. split; [|done]. by destruct H.
    + intros i j i' j' [_ H1]%Hin [_ H2]%Hin Hne Hatt.
      destruct (lt_eq_lt_dec i i') as [[Hlt|<-]|Hlt].
      * apply (free_attacks _ _ _ _ Hlt) in Hatt; [done|]. apply (e_peace _ _ _ _ _ HE); [by apply vis_all|by apply vis_all|done].
      * apply Hne. f_equal. apply (e_one _ _ _ _ _ HE i); by apply vis_all.
      * apply attacks_sym in Hatt. apply (free_attacks _ _ _ _ Hlt) in Hatt; [done|]. apply (e_peace _ _ _ _ _ HE); [by apply vis_all|by apply vis_all|done].
  - intros (qs & Hnd & Hl & Hin & Hp).
    assert (Hone : forall r c c', on n v r c -> on n v r c' -> c = c').
    { intros r c c' H1 H2. destruct (decide (c = c')) as [|Hne]; [done|]. destruct (Hp r c r c'); [by apply Hin|by apply Hin|congruence|apply attacks_row]. }
    assert (Hrows : NoDup (map fst qs)).
    { apply NoDup_fmap_2_strong; [|done]. intros [r c] [r' c'] H1 H2 E. cbn in E. subst r'. f_equal. apply (Hone r); by apply Hin. }
    assert (Hperm : seq 0 n ⊆+ map fst qs).
    { apply NoDup_submseteq; [apply NoDup_ListNoDup, seq_NoDup|].
      assert (map fst qs ≡ₚ seq 0 n) as HP; [|intros x Hx; by rewrite HP].
      apply submseteq_Permutation_length_le; [rewrite seq_length, map_length; lia|].
      apply NoDup_submseteq; [done|]. intros x Hx. apply elem_of_list_fmap in Hx as ([r c] & -> & Hx). apply Hin in Hx as (Hr & _). apply elem_of_seq. cbn. lia. }
    constructor.
    + intros r Hr. assert (r ∈ map fst qs) as Hx by (eapply elem_of_submseteq; [|exact Hperm]; apply elem_of_seq; lia).
      apply elem_of_list_fmap in Hx as ([r' c] & -> & Hx). exists c. apply vis_all. by apply Hin.
    + intros r c c' H1%vis_all H2%vis_all. by apply (Hone r).
    + intros r c H%vis_all. rewrite full_view. destruct H as (? & ? & _). apply andb_true_iff. split; by apply Nat.ltb_lt.
    + intros r c r' c' H1%vis_all H2%vis_all Hlt. apply free_attacks; [done|]. apply Hp; [by apply Hin|by apply Hin|]. intros [= -> _]. lia.
Qed.

Lemma queens_sem v : 1 <= n -> q_top Q = n * n -> q_take Q = false -> zdd_sem sp (n * n) v = true <-> peaceful n (q_rook Q) v.
Proof.
  intros H1 Ht Hf. unfold zdd_sem. cbn [queen_spec get_root]. rewrite root_eq. cbn [default id fst snd]. rewrite Ht.
  assert (El : n * n = (n - 1) * n + (n - 1) + 1) by nia.
  rewrite (queen_eval v (n * n) (n - 1) (n - 1)); [|done| |].
  - replace (n - 1 + 1) with n by lia. apply ext_peaceful.
  - constructor; [lia|lia|apply full_arr|]. intros c Hc. rewrite full_view in Hc. apply andb_true_iff in Hc as [_ Hc]. apply Nat.ltb_lt in Hc. lia.
  - unfold low. by rewrite Hf.
Qed.
Lemma first_sem v j : j < n -> q_top Q = (n - 1) * n + j + 1 -> q_take Q = true ->
  zdd_sem sp (n * n) v = true <-> peaceful n (q_rook Q) v /\ on n v (n - 1) j.
Proof.
  intros Hj Ht Hf. unfold zdd_sem. cbn [queen_spec get_root]. rewrite root_eq. cbn [default id fst snd].
  assert (El : n * n = (n - 1) * n + (n - 1) + 1) by nia.
  rewrite eval_jump by (rewrite Ht; lia).
  assert (E1 : (forall x, q_top Q < x <= n * n -> v x = 0) /\ on n v (n - 1) j -> ext v n (q_top Q) (view full) <-> ext v n (n * n) (view full)).
  { intros [Hz Hon]. assert (forall r c, vis Q v (q_top Q) r c <-> vis Q v (n * n) r c) as Hvis.
    { intros r c. rewrite vis_all. split; [by intros [? _]|]. intros H. split; [done|]. destruct (decide (r * n + c + 1 <= q_top Q)) as [|Hgt]; [done|].
      destruct H as (Hr & Hc & Hq). destruct Hq. apply Hz. pose proof (square_level r c Hr Hc). lia. }
    split; intros [A1 A2 A3 A4]; constructor.
    - intros r Hr. destruct (A1 r Hr) as [c Hc]. exists c. by apply Hvis.
    - intros r c c' H H'. apply (A2 r); by apply Hvis.
    - intros r c H. apply A3. by apply Hvis.
    - intros r c r' c' H H'. apply A4; by apply Hvis.
    - intros r Hr. destruct (A1 r Hr) as [c Hc]. exists c. by apply Hvis.
    - intros r c c' H H'. apply (A2 r); by apply Hvis.
    - intros r c H. apply A3. by apply Hvis.
    - intros r c r' c' H H'. apply A4; by apply Hvis. }
  assert (E2 : zdd_eval sp (q_top Q) (Z.of_nat (q_top Q)) full v = true <-> on n v (n - 1) j /\ ext v n (q_top Q) (view full)).
  { destruct (q_top Q) as [|l] eqn:Etop; [lia|]. cbn [zdd_eval]. rewrite Z.eqb_refl. cbn [queen_spec get_child]. rewrite Nat2Z.id. rewrite Ht.
    destruct (Nat.eqb_spec (v ((n - 1) * n + j + 1)) 0) as [E|E]; cbn [negb].
    - assert (q_child Q full ((n - 1) * n + j + 1) false = Some (0%Z, full)) as ->.
      { unfold q_child. destruct (Nat.eqb_spec ((n - 1) * n + j + 1) 0); [lia|]. rewrite Hf, Etop, Ht, Nat.eqb_refl. done. }
      cbn [default id fst snd]. rewrite zdd_eval_zero. split; [done|]. by intros [(_ & _ & ?) _].
    - assert (on n v (n - 1) j) as Hon by (split_and!; [lia|done|done]).
      destruct (take_ok (n - 1) j full) as (code & s' & -> & H); [lia|done|apply full_arr|]. cbn [default id fst snd]. assert (Hll : l = (n - 1) * n + j) by lia.
      replace (n - 1 + 1) with n in H by lia.
      destruct H as [[-> H]|[[-> H]|(i' & j' & -> & Hlt & HA' & H)]]; replace (n - 1 + 1) with n in * by lia.
      + rewrite zdd_eval_zero. split; [done|]. intros [_ HE]. by apply H in HE.
      + rewrite (H v Hon). rewrite eval_one. split.
        * intros Hz. split; [done|]. intros r c Hrc (_ & _ & Hq). apply Hq, Hz. lia.
        * intros [_ Hno] x Hx. assert (x <= n * n) by lia.
          destruct (level_square x) as (r & c & Hr & Hc & ->); [lia|]. destruct (decide (v (r * n + c + 1) = 0)) as [|Hnz]; [done|].
          destruct (Hno r c); [lia|]. split_and!; done.
      + rewrite (H v Hon). rewrite eval_jump by lia. rewrite (queen_eval v (i' * n + j' + 1) i' j'); [|done|done|].
        2: { intros _. rewrite Etop. lia. }
        split.
        * intros [Hz HE]. split; [done|]. split; [|done]. intros r c Hrc (_ & _ & Hq). apply Hq, Hz. lia.
        * intros (_ & Hz & HE). split; [|done]. intros x Hx. assert (x <= n * n) by lia.
          destruct (level_square x) as (r & c & Hr & Hc & ->); [lia|]. destruct (decide (v (r * n + c + 1) = 0)) as [|Hnz]; [done|].
          destruct (Hz r c); [lia|]. split_and!; done. }
  rewrite E2. split.
  - intros (Hz & Hon & HE). split; [|done]. apply ext_peaceful. by apply E1.
  - intros (HP & Hon). apply ext_peaceful in HP. assert (forall x, q_top Q < x <= n * n -> v x = 0) as Hz.
    { intros x Hx. destruct (level_square x) as (r & c & Hr & Hc & ->); [lia|]. destruct (decide (v (r * n + c + 1) = 0)) as [|Hnz]; [done|].
      assert (n - 1 <= r) by (eapply (level_row Q Hn (n - 1) j r c); lia). assert (r = n - 1) as -> by lia.
      assert (c = j) as ->; [|lia]. apply (e_one _ _ _ _ _ HP (n - 1)); apply vis_all; [|done]. split_and!; [lia|lia|done]. }
    split; [done|]. split; [done|]. by apply E1.
Qed.
End queens.
