(** The cardinality evaluators. *)
From Verif Require Import Base Sem M_Table Tree M_Big S_Big P_Big M_Eval S_Eval P_Eval P_Count.
Local Open Scope N_scope.

Section words.
  Context (a : nat) (Ha : (0 < a)%nat).
  Notation A := (N.of_nat a).

  (** s words are not too many for a number bounded by a^i *)
  Definition words (s i : nat) : Prop := (0 < s)%nat /\ 2 ^ (63 * N.of_nat (s - 1)) <= A ^ N.of_nat i.

  Lemma words_1 i : words 1 i.
  Proof. split; [lia|]. change (2 ^ (63 * N.of_nat (1 - 1))) with 1. assert (0 < A ^ N.of_nat i); [|lia]. apply N.neq_0_lt_0, N.pow_nonzero. lia. Qed.

  Lemma words_mono s i j : (i <= j)%nat -> words s i -> words s j.
  Proof. intros H [H1 H2]. split; [done|]. etrans; [exact H2|]. by apply pow_le_mono. Qed.

  Lemma words_need c s i : words s i -> c <= A ^ N.of_nat i -> words (wneed c s) i.
  Proof.
    intros [H1 H2] Hc. unfold wneed. destruct (N.ltb_spec c ((2 ^ 63) ^ N.of_nat s)) as [H|H]; [done|].
    split; [lia|]. rewrite Nat.sub_succ, Nat.sub_0_r, <- pow63. lia.
  Qed.

  Lemma words_max s1 s2 i : words s1 i -> words s2 i -> words (max s1 s2) i.
  Proof. intros H1 H2. destruct (Nat.max_spec s1 s2) as [[_ ->]|[_ ->]]; done. Qed.

  Lemma words_cap s i cap : words s i -> A ^ N.of_nat i < 2 ^ (63 * N.of_nat cap) -> (s <= cap)%nat.
  Proof.
    intros [H1 H2] Hc. assert (2 ^ (63 * N.of_nat (s - 1)) < 2 ^ (63 * N.of_nat cap)) as H by (eapply N.le_lt_trans; done).
    apply N.pow_lt_mono_r_iff in H; lia.
  Qed.

  Lemma big_add_words t1 t2 c1 c2 s1 s2 i cap : holds t1 c1 s1 -> holds t2 c2 s2 -> words s1 i -> words s2 i ->
    c1 + c2 <= A ^ N.of_nat i -> A ^ N.of_nat i < 2 ^ (63 * N.of_nat cap) -> length t1 = cap ->
    exists t' s', big_add t1 t2 = Some (t', s') /\ holds t' (c1 + c2) s' /\ words s' i /\ length t' = cap.
  Proof.
    intros H1 H2 W1 W2 Hc Hcap Hl.
    assert (words (wneed (c1 + c2) (max s1 s2)) i) as W by (apply words_need; [by apply words_max|done]).
    destruct (big_add_ok t1 t2 c1 c2 s1 s2 H1 H2) as (t' & E & Ht' & Hf).
    { rewrite Hl. by eapply words_cap. }
    exists t', (wneed (c1 + c2) (max s1 s2)). split_and!; try done. destruct Hf as [Hf _]. congruence.
  Qed.

  Lemma big_store_words t1 t2 c s i cap : holds t2 c s -> words s i ->
    A ^ N.of_nat i < 2 ^ (63 * N.of_nat cap) -> length t1 = cap ->
    exists t', big_store t1 t2 = Some (t', s) /\ holds t' c s /\ length t' = cap.
  Proof.
    intros H W Hcap Hl. destruct (big_store_ok t1 t2 c s H) as (t' & E & Ht & Hf).
    { rewrite Hl. by eapply words_cap. }
    exists t'. split_and!; try done. destruct Hf as [Hf _]. congruence.
  Qed.

  Lemma cb_times_ok t2 t3 c s j cap : holds t2 c s -> words s j -> c <= A ^ N.of_nat j ->
    A ^ N.of_nat (S j) < 2 ^ (63 * N.of_nat cap) -> length t2 = cap -> length t3 = cap ->
    exists t2' t3' s', cb_times a (t2, t3) = Some (t2', t3') /\ holds t2' (c * A) s' /\ words s' (S j) /\
      length t2' = cap /\ length t3' = cap.
  Proof.
    intros H W Hc Hcap H2 H3. unfold cb_times.
    assert (A ^ N.of_nat j <= A ^ N.of_nat (S j)) as Hm by (apply pow_le_mono; lia).
    destruct (big_store_words t3 t2 c s j cap) as (t3' & -> & Ht3 & Hl3); try done; [lia|]. cbn [mbind option_bind].
    destruct (ofor_inv (fun t2 _ => '(t2, _) ← big_add t2 t3'; Some t2)
      (fun m t2 => exists s', holds t2 (c * N.of_nat (S m)) s' /\ words s' (S j) /\ length t2 = cap) (a - 1)%nat t2)
      as (t2' & E & s' & Hh & Hw & Hl).
    - exists s. split_and!; [|by eapply words_mono; [|exact W]; lia|done]. by rewrite N.mul_1_r.
    - intros m t Hm' (s' & Hh & Hw & Hl).
      destruct (big_add_words t t3' (c * N.of_nat (S m)) c s' s (S j) cap) as (t' & s'' & -> & Hh' & Hw' & Hl'); try done.
      + by eapply words_mono; [|exact W]; lia.
      + rewrite (Nat2N.inj_succ j), N.pow_succ_r'. transitivity (c * A); [|rewrite N.mul_comm; by apply N.mul_le_mono_l].
        transitivity (c * N.of_nat (S (S m))); [lia|]. apply N.mul_le_mono_l. lia.
      + cbn [mbind option_bind]. exists t'. split; [done|]. exists s''. split_and!; try done.
        replace (c * N.of_nat (S (S m))) with (c * N.of_nat (S m) + c) by lia. done.
    - rewrite E. cbn [mbind option_bind]. exists t2', t3', s'. split_and!; try done.
      replace (S (a - 1)) with a in Hh by lia. done.
  Qed.

  Lemma cb_scale_ok k t2 t3 c s j cap : holds t2 c s -> words s j -> c <= A ^ N.of_nat j ->
    A ^ N.of_nat (j + k) < 2 ^ (63 * N.of_nat cap) -> length t2 = cap -> length t3 = cap ->
    exists t2' t3' s', cb_scale a k t2 t3 = Some (t2', t3') /\ holds t2' (c * A ^ N.of_nat k) s' /\ words s' (j + k) /\
      length t2' = cap /\ length t3' = cap.
  Proof.
    intros H W Hc Hcap H2 H3. unfold cb_scale. destruct (Nat.eqb_spec a 2) as [E|E].
    - assert (A = 2) as EA by (rewrite E; done).
      assert (c * 2 ^ N.of_nat k <= A ^ N.of_nat (j + k)) as Hb.
      { rewrite Nat2N.inj_add, N.pow_add_r. rewrite <- EA. by apply N.mul_le_mono_r. }
      assert (words (wneed (c * 2 ^ N.of_nat k) (s + k / 63)) (j + k)) as Wn.
      { apply words_need; [|done]. destruct W as [W1 W2]. split; [lia|]. rewrite EA in *.
        apply N.pow_le_mono_r_iff in W2; [|lia]. apply N.pow_le_mono_r; [lia|].
        pose proof (Nat.div_mod_eq k 63). lia. }
      destruct (big_shiftl_ok t2 c s k H) as (t2' & -> & Ht & Hf).
      { rewrite H2. by eapply words_cap. }
      cbn [mbind option_bind]. eexists t2', t3, _. split; [done|]. rewrite EA. split_and!; try done.
      destruct Hf as [Hf _]. congruence.
    - destruct (ofor_inv (fun acc _ => cb_times a acc)
        (fun m '(t2, t3) => exists s', holds t2 (c * A ^ N.of_nat m) s' /\ words s' (j + m) /\ length t2 = cap /\ length t3 = cap)
        k (t2, t3)) as ([t2' t3'] & E' & s' & Hh & Hw & Hl2 & Hl3).
      + exists s. change (N.of_nat 0) with 0. rewrite N.pow_0_r, N.mul_1_r, Nat.add_0_r. done.
      + intros m [u2 u3] Hm (s' & Hh & Hw & Hl2 & Hl3).
        destruct (cb_times_ok u2 u3 (c * A ^ N.of_nat m) s' (j + m) cap) as (v2 & v3 & s'' & -> & Hv & Hwv & Hlv2 & Hlv3); try done.
        * rewrite Nat2N.inj_add, N.pow_add_r. by apply N.mul_le_mono_r.
        * eapply N.le_lt_trans; [|exact Hcap]. apply pow_le_mono; lia.
        * exists (v2, v3). split; [done|]. exists s''. rewrite <- Nat.add_succ_r in Hwv. split_and!; try done.
          rewrite Nat2N.inj_succ, N.pow_succ_r'. replace (c * (A * A ^ N.of_nat m)) with (c * A ^ N.of_nat m * A) by lia. done.
      + exists t2', t3', s'. done.
  Qed.

  Lemma capacity_ok n : A ^ N.of_nat n < 2 ^ (63 * N.of_nat (max_words a n)).
  Proof.
    unfold max_words. set (L := N.log2_up (A ^ N.of_nat n)).
    apply N.le_lt_trans with (2 ^ L).
    - unfold L. destruct (N.eq_dec (A ^ N.of_nat n) 1) as [->|Hne]; [done|].
      assert (A ^ N.of_nat n <> 0) by (apply N.pow_nonzero; lia). apply N.log2_up_spec. lia.
    - apply N.pow_lt_mono_r; [lia|]. pose proof (Nat.div_mod_eq (N.to_nat L + 62) 63).
      pose proof (Nat.mod_upper_bound (N.to_nat L + 62) 63). lia.
  Qed.
End words.

Lemma Nsum_cons x l : Nsum (x :: l) = x + Nsum l.
Proof. done. Qed.

Section card.
  Context (d : dd) (Hd : dd_wf d) (junk : nat -> N) (capf : nat -> nat) (numVars : nat).
  Notation a := (d_ar d).
  Notation A := (N.of_nat (d_ar d)).
  Notation n := (row (rt d)).
  Notation cap := (capf n).
  Context (Hcap : A ^ N.of_nat n < 2 ^ (63 * N.of_nat cap)).

  Definition card_inv (e : card_state) : Prop :=
    cs_top e = n /\ length (tmp1 e) = cap /\ length (tmp2 e) = cap /\ length (tmp3 e) = cap.

  Definition card_q (count : tree -> N) (r c : nat) (v : list N) : Prop :=
    exists T s, rep (tab d) (mk r c) T /\ holds v (count T) s /\ words a s r.

  Lemma Hapos : (0 < a)%nat.
  Proof. apply Hd. Qed.
  Hint Resolve Hapos : core.

  Lemma card_term_ok bdd count : count T0 = 0 -> count T1 = 1 ->
    forall e j, card_inv e -> (j < 2)%nat ->
    exists e' v, e_term (card_big bdd a numVars capf junk) e j = Some (e', v) /\ card_inv e' /\ card_q count 0 j v.
  Proof.
    intros C0 C1 e j He Hj. cbn [e_term card_big]. unfold cb_term.
    destruct (big_store64_ok (fresh junk 1) (N.of_nat j)) as (v & -> & Hv & _).
    { assert (N.of_nat j < 2) by lia. pose proof B1. lia. }
    { rewrite wneed_1. destruct (N.ltb_spec (N.of_nat j) (2 ^ 63)); simpl; [lia|]. assert (N.of_nat j < 2) by lia. pose proof B1. lia. }
    cbn [mbind option_bind]. exists e, v. split; [done|]. split; [done|].
    rewrite wneed_1 in Hv. destruct (N.ltb_spec (N.of_nat j) (2 ^ 63)) as [_|H]; [|assert (N.of_nat j < 2) by lia; pose proof B1; lia].
    destruct j as [|[|]]; [| |lia].
    - exists T0, 1%nat. rewrite C0. split_and!; [by constructor|done|by apply words_1].
    - exists T1, 1%nat. rewrite C1. split_and!; [by constructor|done|by apply words_1].
  Qed.

  (** the trees of the children *)
  Lemma children_trees count i j p vs : (0 < i)%nat -> tget (tab d) (mk i j) = Some p ->
    Forall2 (fun g x => snd x = row g /\ (row g < i)%nat /\ card_q count (row g) (col g) (fst x)) p vs ->
    exists ts, rep (tab d) (mk i j) (TN i ts) /\ tok a (TN i ts) /\
      Forall2 (fun T x => snd x = tlev T /\ (tlev T < i)%nat /\ exists s, holds (fst x) (count T) s /\ words a s (tlev T)) ts vs.
  Proof.
    intros Hi Hp HF.
    assert (exists ts, Forall2 (rep (tab d)) p ts /\ Forall (fun g => row g < i)%nat p /\
      Forall2 (fun T x => snd x = tlev T /\ (tlev T < i)%nat /\ exists s, holds (fst x) (count T) s /\ words a s (tlev T)) ts vs)
      as (ts & H1 & H2 & H3).
    { clear Hp. induction HF as [|g x p vs (E1 & E2 & T & s & HT & Hh & Hw) HF (ts & H1 & H2 & H3)].
      - exists []. split_and!; constructor.
      - exists (T :: ts).
        assert (rep (tab d) g T) as HT' by (by eapply rep_code; [|exact HT]).
        assert (tlev T = row g) as EL by (by eapply rep_lev).
        split_and!; constructor; try done. rewrite EL. split_and!; try done. by exists s. }
    exists ts. assert (rep (tab d) (mk i j) (TN i ts)) as HR.
    { change i with (row (mk i j)) at 2. econstructor; try done. }
    split_and!; try done. eapply rep_tok; [apply Hd|exact HR].
  Qed.

  Lemma zdd_node_ok : forall e i j p vs, card_inv e -> (0 < i <= n)%nat -> tget (tab d) (mk i j) = Some p ->
    Forall2 (fun g x => snd x = row g /\ (row g < i)%nat /\ card_q zcount (row g) (col g) (fst x)) p vs ->
    exists e' v, e_node (card_big false a numVars capf junk) e i vs = Some (e', v) /\ card_inv e' /\ card_q zcount i j v.
  Proof.
    intros e i j p vs (E1 & E2 & E3 & E4) Hi Hp HF.
    destruct (children_trees zcount i j p vs ltac:(lia) Hp HF) as (ts & HR & Htok & HT).
    pose proof (zcount_le _ _ Hapos Htok) as Hle. cbn [zcount tlev] in Hle.
    assert (A ^ N.of_nat i < 2 ^ (63 * N.of_nat cap)) as Hcapi.
    { eapply N.le_lt_trans; [|exact Hcap]. apply pow_le_mono; [done|lia]. }
    cbn [e_node card_big]. unfold cb_node.
    destruct HT as [|T x ts vs (Hx1 & Hx2 & s & Hh & Hw) HT].
    { inversion Htok as [| |? ? ? Hz]; subst. pose proof Hapos. simpl in Hz. lia. }
    cbn [map] in Hle. rewrite Nsum_cons in Hle.
    destruct (big_store_words a Hapos (tmp1 e) (fst x) (zcount T) s i cap Hh) as (t1 & -> & Ht1 & Hl1); try done.
    { by eapply words_mono; [done|..|exact Hw]; lia. }
    cbn [mbind option_bind].
    assert (forall ts vs, Forall2 (fun T x => snd x = tlev T /\ (tlev T < i)%nat /\ exists s, holds (fst x) (zcount T) s /\ words a s (tlev T)) ts vs ->
      forall t1 c w, holds t1 c w -> words a w i -> length t1 = cap -> c + Nsum (map zcount ts) <= A ^ N.of_nat i ->
      exists t1' w', ofold (fun '(t1, _) x => big_add t1 (fst x)) vs (t1, w) = Some (t1', w') /\
        holds t1' (c + Nsum (map zcount ts)) w' /\ words a w' i /\ length t1' = cap) as G.
    { clear -Hcapi Hd Hi. induction 1 as [|T x ts vs (Hx1 & Hx2 & s & Hh & Hw) HT IH]; intros t1 c w H1 H2 H3 H4.
      - exists t1, w. cbn [ofold map Nsum fold_right]. rewrite N.add_0_r. done.
      - cbn [ofold map]. cbn [map] in H4. rewrite Nsum_cons in *.
        destruct (big_add_words a Hapos t1 (fst x) c (zcount T) w s i cap) as (t1' & s' & -> & A1 & A2 & A3); try done.
        + by eapply words_mono; [done|..|exact Hw]; lia.
        + lia.
        + destruct (IH t1' (c + zcount T) s') as (t2 & w2 & E & B1 & B2 & B3); try done; [lia|].
          exists t2, w2. rewrite E. rewrite N.add_assoc. done. }
    destruct (G ts vs HT t1 (zcount T) s) as (t2 & w2 & -> & B1 & B2 & B3); try done.
    { by eapply words_mono; [done|..|exact Hw]; lia. }
    cbn [mbind option_bind].
    destruct (big_store_ok (fresh junk w2) t2 _ w2 B1) as (v & -> & Hv & _).
    { unfold fresh. by rewrite map_length, seq_length. }
    cbn [mbind option_bind]. eexists _, v. split; [done|]. split; [done|].
    exists (TN i (T :: ts)), w2. done.
  Qed.

  Lemma bdd_node_ok : forall e i j p vs, card_inv e -> (0 < i <= n)%nat -> tget (tab d) (mk i j) = Some p ->
    Forall2 (fun g x => snd x = row g /\ (row g < i)%nat /\ card_q (bcount a) (row g) (col g) (fst x)) p vs ->
    exists e' v, e_node (card_big true a numVars capf junk) e i vs = Some (e', v) /\ card_inv e' /\ card_q (bcount a) i j v.
  Proof.
    intros e i j p vs (E1 & E2 & E3 & E4) Hi Hp HF.
    destruct (children_trees (bcount a) i j p vs ltac:(lia) Hp HF) as (ts & HR & Htok & HT).
    pose proof (bcount_le _ _ Hapos Htok) as Hle. cbn [bcount tlev] in Hle.
    assert (A ^ N.of_nat i < 2 ^ (63 * N.of_nat cap)) as Hcapi.
    { eapply N.le_lt_trans; [|exact Hcap]. apply pow_le_mono; [done|lia]. }
    assert (A ^ N.of_nat (i - 1) < 2 ^ (63 * N.of_nat cap)) as Hcapi1.
    { eapply N.le_lt_trans; [|exact Hcapi]. apply pow_le_mono; [done|lia]. }
    assert (0 < cap)%nat as Hc0.
    { destruct cap as [|k]; [|lia]. exfalso. change (2 ^ (63 * N.of_nat 0)) with 1 in Hcapi.
      assert (A ^ N.of_nat i <> 0) by (apply N.pow_nonzero; pose proof Hapos; lia). lia. }
    cbn [e_node card_big]. unfold cb_node.
    destruct (big_store64_ok (tmp1 e) 0) as (t1 & -> & Ht1 & [Hl1 _]); [done|rewrite wneed_1; change (0 <? 2 ^ 63) with true; cbv iota; lia|].
    cbn [mbind option_bind]. rewrite wneed_1 in *. change (0 <? 2 ^ 63) with true in *. cbv iota in *.
    assert (forall ts vs, Forall2 (fun T x => snd x = tlev T /\ (tlev T < i)%nat /\ exists s, holds (fst x) (bcount a T) s /\ words a s (tlev T)) ts vs ->
      Forall (tok a) ts ->
      forall t1 t2 t3 c w, holds t1 c w -> words a w i -> length t1 = cap -> length t2 = cap -> length t3 = cap ->
        c + Nsum (map (fun t => A ^ N.of_nat (i - tlev t - 1) * bcount a t) ts) <= A ^ N.of_nat i ->
      exists t1' t2' t3' w', ofold (fun '(t1, t2, t3, w) x =>
                 '(t2, _) ← big_store t2 (fst x);
                 '(t2, t3) ← cb_scale a (i - snd x - 1) t2 t3;
                 '(t1, w) ← big_add t1 t2;
                 Some (t1, t2, t3, w)) vs (t1, t2, t3, w) = Some (t1', t2', t3', w') /\
        holds t1' (c + Nsum (map (fun t => A ^ N.of_nat (i - tlev t - 1) * bcount a t) ts)) w' /\ words a w' i /\ length t1' = cap /\ length t2' = cap /\ length t3' = cap) as G.
    { clear -Hcapi Hcapi1 Hd Hi. induction 1 as [|T x ts vs (Hx1 & Hx2 & s & Hh & Hw) HT IH]; intros Hts t1 t2 t3 c w H1 H2 H3 H3' H3'' H4.
      - exists t1, t2, t3, w. cbn [ofold map Nsum fold_right]. rewrite N.add_0_r. done.
      - apply Forall_cons in Hts as [HtT Hts]. cbn [ofold map]. cbn [map] in H4. rewrite Nsum_cons in *.
        pose proof (bcount_le a T Hapos HtT) as HbT.
        destruct (big_store_words a Hapos t2 (fst x) (bcount a T) s (i - 1) cap Hh) as (u2 & -> & Hu2 & Hlu2); try done.
        { by eapply words_mono; [done|..|exact Hw]; lia. }
        cbn [mbind option_bind]. rewrite Hx1.
        destruct (cb_scale_ok a Hapos (i - tlev T - 1) u2 t3 (bcount a T) s (tlev T) cap Hu2 Hw HbT) as (v2 & v3 & s2 & -> & Hv2 & Hwv2 & Hlv2 & Hlv3); try done.
        { by replace (tlev T + (i - tlev T - 1))%nat with (i - 1)%nat by lia. }
        cbn [mbind option_bind]. rewrite N.mul_comm in Hv2.
        destruct (big_add_words a Hapos t1 v2 c (A ^ N.of_nat (i - tlev T - 1) * bcount a T) w s2 i cap) as (t1' & s' & -> & A1 & A2 & A3); try done.
        + by eapply words_mono; [done|..|exact Hwv2]; lia.
        + lia.
        + cbn [mbind option_bind].
          destruct (IH Hts t1' v2 v3 (c + A ^ N.of_nat (i - tlev T - 1) * bcount a T) s') as (r1 & r2 & r3 & w2 & E & B1 & B2 & B3); try done; [lia|].
          exists r1, r2, r3, w2. rewrite E. rewrite N.add_assoc. done. }
    destruct (G ts vs HT ltac:(by inversion Htok) t1 (tmp2 e) (tmp3 e) 0 1%nat) as (r1 & r2 & r3 & w2 & -> & B1 & B2 & B3 & B4 & B5); try done.
    { by apply words_1. } { congruence. }
    cbn [mbind option_bind]. rewrite N.add_0_l in B1.
    destruct (big_store_ok (fresh junk w2) r1 _ w2 B1) as (v & -> & Hv & _).
    { unfold fresh. by rewrite map_length, seq_length. }
    cbn [mbind option_bind]. eexists _, v. split; [done|]. split; [done|].
    exists (TN i ts), w2. done.
  Qed.

  Lemma card_init_ok bdd e0 : exists e, e_init (card_big bdd a numVars capf junk) e0 n = Some e /\ card_inv e.
  Proof.
    eexists. split; [done|]. unfold card_inv, fresh. cbn [cs_top tmp1 tmp2 tmp3]. by rewrite map_length, seq_length.
  Qed.

  Lemma card_destruct_ok bdd : forall e i, card_inv e -> exists e', e_destruct (card_big bdd a numVars capf junk) e i = Some e' /\ card_inv e'.
  Proof. intros e i He. exists e. done. Qed.

  Lemma zdd_value_ok e c v T : rep (tab d) (mk n c) T -> card_q zcount n c v ->
    exists ds, e_value (card_big false a numVars capf junk) e v = Some ds /\ decimal ds (zcount T).
  Proof.
    intros HT (T' & s & HT' & Hv & _). assert (T' = T) as -> by (by eapply rep_det). by apply (big_print_ok v _ s).
  Qed.

  Lemma bdd_value_ok e c v T : card_inv e -> rep (tab d) (mk n c) T -> card_q (bcount a) n c v ->
    (n <= numVars)%nat -> A ^ N.of_nat numVars < 2 ^ (63 * N.of_nat cap) ->
    exists ds, e_value (card_big true a numVars capf junk) e v = Some ds /\
      decimal ds (A ^ N.of_nat (numVars - n) * bcount a T).
  Proof.
    intros (E1 & E2 & E3 & E4) HT (T' & s & HT' & Hv & Hw) Hnv Hroom. assert (T' = T) as -> by (by eapply rep_det).
    assert (tok a T) as Htok by (eapply rep_tok; [apply Hd|exact HT]).
    assert (tlev T = n) as El by (by apply rep_lev in HT).
    pose proof (bcount_le a T Hapos Htok) as Hle. rewrite El in Hle.
    cbn [e_value card_big]. unfold cb_value.
    destruct (big_store_words a Hapos (tmp2 e) v (bcount a T) s n cap Hv Hw) as (t2 & -> & Ht2 & Hl2); try done.
    cbn [mbind option_bind]. rewrite E1. rewrite (proj2 (Nat.ltb_ge numVars n)), andb_false_r by done.
    destruct (cb_scale_ok a Hapos (numVars - n) t2 (tmp3 e) (bcount a T) s n cap Ht2 Hw Hle) as (v2 & v3 & s2 & -> & Hv2 & _); try done.
    { by replace (n + (numVars - n))%nat with numVars by lia. }
    cbn [mbind option_bind]. rewrite N.mul_comm in Hv2. by eapply big_print_ok.
  Qed.
End card.
