From Verif Require Import Base M_Big S_Big.
Local Open Scope N_scope.

Local Notation B := (2 ^ 63).
Arguments N.pow : simpl never.
Arguments N.mul : simpl never.
Arguments N.add : simpl never.
Lemma B64 : 2 ^ 64 = 2 * B. Proof. done. Qed.
Lemma Bpos : 0 < B. Proof. done. Qed.
Lemma B1 : 1 < B. Proof. done. Qed.
Ltac blia := let HB := fresh "HB" in pose proof B1 as HB; let b := fresh "b63" in set (b := 2 ^ 63) in *; clearbody b; first [lia|nia].

(** ** words *)
Lemma low_mod w : low w = w mod B.
Proof. unfold low. apply N.land_ones. Qed.
Lemma low_small w : w < B -> low w = w.
Proof. intros H. rewrite low_mod. by apply N.mod_small. Qed.
Lemma low_flag w : w < B -> low (w + B) = w.
Proof. intros H. rewrite low_mod. rewrite <- (N.mul_1_l B) at 1. rewrite N.mod_add by done. by apply N.mod_small. Qed.
Lemma msb_small w : w < B -> msb w = false.
Proof. intros H. unfold msb. rewrite N.testbit_eqb. rewrite N.div_small by done. done. Qed.
Lemma div_one x : B <= x -> x < 2 * B -> x / B = 1.
Proof.
  intros H1 H2. symmetry. apply (N.div_unique x B 1 (x - B)); [|].
  - revert H1 H2. generalize B. intros b ? ?. lia.
  - revert H1 H2. generalize B. intros b ? ?. lia.
Qed.
Lemma mod_one x : B <= x -> x < 2 * B -> x mod B = x - B.
Proof.
  intros H1 H2. symmetry. apply (N.mod_unique x B 1 (x - B)).
  - revert H1 H2. generalize B. intros b ? ?. lia.
  - revert H1 H2. generalize B. intros b ? ?. lia.
Qed.
Lemma msb_ge w : B <= w -> w < 2 * B -> msb w = true.
Proof. intros H H'. unfold msb. rewrite N.testbit_eqb. rewrite div_one by done. done. Qed.
Lemma msb_flag w : w < B -> msb (w + B) = true.
Proof. intros H. apply msb_ge; revert H; generalize B; intros; lia. Qed.

Lemma lor_add x y k : x < 2 ^ k -> N.lor x (y * 2 ^ k) = x + y * 2 ^ k.
Proof.
  intros H. symmetry. rewrite <- N.shiftl_mul_pow2. rewrite N.add_nocarry_lxor.
  - apply N.lxor_lor. apply N.bits_inj. intros i. rewrite N.land_spec, N.bits_0.
    destruct (N.ltb_spec i k) as [Hi|Hi].
    + rewrite N.shiftl_spec_low by done. by rewrite andb_false_r.
    + destruct (decide (x = 0)) as [->|Hx]; [by rewrite N.bits_0|].
      rewrite (N.bits_above_log2 x); [done|]. apply N.log2_lt_pow2 in H; lia.
  - apply N.bits_inj. intros i. rewrite N.land_spec, N.bits_0.
    destruct (N.ltb_spec i k) as [Hi|Hi].
    + rewrite N.shiftl_spec_low by done. by rewrite andb_false_r.
    + destruct (decide (x = 0)) as [->|Hx]; [by rewrite N.bits_0|].
      rewrite (N.bits_above_log2 x); [done|]. apply N.log2_lt_pow2 in H; lia.
Qed.
Lemma with_msb_small x : x < B -> with_msb x = x + B.
Proof. intros H. unfold with_msb, MSB. rewrite <- (N.mul_1_l B) at 1. rewrite lor_add by done. by rewrite N.mul_1_l. Qed.
Lemma with_msb_mod x : x < 2 * B -> with_msb x = x mod B + B.
Proof.
  intros H. destruct (N.ltb_spec x B) as [Hx|Hx].
  - rewrite N.mod_small by done. by apply with_msb_small.
  - rewrite mod_one by done. assert (x = (x - B) + 1 * B) as E by (revert Hx H; generalize B; intros; lia).
    unfold with_msb, MSB. rewrite E at 1. rewrite <- lor_add; [|revert Hx H; generalize B; intros; lia].
    rewrite <- N.lor_assoc. rewrite N.mul_1_l, N.lor_diag.
    rewrite <- (N.mul_1_l B) at 2. rewrite lor_add; [by rewrite N.mul_1_l|revert Hx H; generalize B; intros; lia].
Qed.

(** number of words of a result *)
Definition wneed (v : N) (s : nat) : nat := if v <? B ^ N.of_nat s then s else S s.

Lemma Bpow_S s : B ^ N.of_nat (S s) = B * B ^ N.of_nat s.
Proof. rewrite Nat2N.inj_succ. by rewrite N.pow_succ_r'. Qed.
Lemma Bpow_pos s : 0 < B ^ N.of_nat s.
Proof. apply N.neq_0_lt_0, N.pow_nonzero. done. Qed.

Lemma ltb_shift x v s : x < B -> (x + B * v <? B ^ N.of_nat (S s)) = (v <? B ^ N.of_nat s).
Proof.
  intros Hx. rewrite Bpow_S. generalize (B ^ N.of_nat s). intros P. revert Hx. generalize B. intros b Hx.
  destruct (N.ltb_spec v P); destruct (N.ltb_spec (x + b * v) (b * P)); try done; nia.
Qed.
Lemma wneed_S x v s : x < B -> wneed (x + B * v) (S s) = S (wneed v s).
Proof. intros Hx. unfold wneed. rewrite ltb_shift by done. by destruct (v <? _). Qed.
Lemma wneed_1 x : wneed x 1 = if x <? B then 1%nat else 2%nat.
Proof. unfold wneed. rewrite N.pow_1_r. done. Qed.
Lemma wneed_ge v s : (s <= wneed v s)%nat.
Proof. unfold wneed. destruct (_ <? _); lia. Qed.
Lemma wneed_le v s : (wneed v s <= S s)%nat.
Proof. unfold wneed. destruct (_ <? _); lia. Qed.

Lemma holds_len a n s : holds a n s -> (0 < s <= length a)%nat.
Proof. induction 1; simpl; lia. Qed.
Lemma holds_bound a n s : holds a n s -> n < B ^ N.of_nat s.
Proof.
  induction 1 as [w a H|w a n s H Hh IH]; [by rewrite N.pow_1_r|].
  rewrite Bpow_S. revert IH H. generalize (B ^ N.of_nat s). intros P. generalize B. intros b ? ?. nia.
Qed.

(** ** size, store *)
Lemma big_size_ok a n s : holds a n s -> big_size a = Some s.
Proof.
  induction 1 as [w a H|w a n s H Hh IH]; simpl; [by rewrite msb_small|].
  rewrite msb_flag by done. by rewrite IH.
Qed.

Lemma big_translate_ok a n s : holds a n s -> big_translate a = Some n.
Proof.
  induction 1 as [w a H|w a n s H Hh IH]; simpl; [by rewrite msb_small|].
  rewrite msb_flag by done. rewrite IH. cbn [mbind option_bind]. rewrite low_flag by done.
  f_equal. rewrite N.shiftl_mul_pow2. generalize B. intros; lia.
Qed.

(** the tail of an array after the first s words is not touched *)
Definition frame (a a' : list N) (s : nat) : Prop := length a' = length a /\ drop s a' = drop s a.

Lemma frame_cons a a' s x y : frame a a' s -> frame (x :: a) (y :: a') (S s).
Proof. intros [H1 H2]. split; simpl; congruence. Qed.

Lemma big_store_ok a o n s : holds o n s -> (s <= length a)%nat ->
  exists a', big_store a o = Some (a', s) /\ holds a' n s /\ frame a a' s.
Proof.
  intros H. revert a. induction H as [w o H|w o n s H Hh IH]; intros a Hl.
  - destruct a as [|x a]; [simpl in Hl; lia|]. simpl. rewrite msb_small by done.
    exists (w :: a). split; [done|]. split; [by constructor|done].
  - destruct a as [|x a]; [simpl in Hl; lia|]. simpl in Hl. simpl. rewrite msb_flag by done.
    destruct (IH a ltac:(lia)) as (a' & -> & Ha & Hf). cbn [mbind option_bind].
    eexists. split; [done|]. split; [by constructor|]. by apply frame_cons.
Qed.

Lemma big_store64_ok a x : x < 2 * B -> (wneed x 1 <= length a)%nat ->
  exists a', big_store64 a x = Some (a', wneed x 1) /\ holds a' x (wneed x 1) /\ frame a a' (wneed x 1).
Proof.
  intros Hx. rewrite wneed_1. intros Hl. destruct (N.ltb_spec x B) as [H|H].
  - destruct a as [|y a]; [simpl in Hl; lia|]. simpl. rewrite msb_small by done.
    eexists. split; [done|]. split; [by constructor|done].
  - destruct a as [|y [|z a]]; [simpl in Hl; lia..|]. simpl. rewrite msb_ge by done.
    eexists. split; [done|]. split; [|done].
    assert (x = (x - B) + B) as E1 by (revert H; generalize B; intros; lia).
    assert (x = (x - B) + B * 1) as E2 by (revert H; generalize B; intros; lia).
    rewrite E2 at 2. rewrite E1 at 1. constructor; [revert H Hx; generalize B; intros; lia|]. constructor. apply B1.
Qed.

(** ** add *)
Lemma u64_small x : x < 2 * B -> u64 x = x.
Proof. intros H. unfold u64. rewrite B64. by apply N.mod_small. Qed.
Lemma shr63 x : N.shiftr x 63 = x / B.
Proof. by rewrite N.shiftr_div_pow2. Qed.
Lemma div_le1 x : x < 2 * B -> x / B <= 1.
Proof. intros H. destruct (N.ltb_spec x B); [by rewrite N.div_small by done|]. rewrite div_one by done. done. Qed.
Lemma split_B x : x = x mod B + B * (x / B).
Proof. rewrite (N.div_mod' x B) at 1. generalize (B * (x / B)). intros; lia. Qed.
Lemma mod_B x : x mod B < B.
Proof. by apply N.mod_lt. Qed.


Lemma add_q_ok q nq sq : holds q nq sq -> forall a y w, head q = Some w -> y + low w < 2 * B ->
  (wneed (y + nq) sq <= length a)%nat ->
  exists a', add_q a q (y + low w) = Some (a', wneed (y + nq) sq) /\
             holds a' (y + nq) (wneed (y + nq) sq) /\ frame a a' (wneed (y + nq) sq).
Proof.
  induction 1 as [w q H|w q n s H Hh IH]; intros a y w0 Hw Hx Hl; simpl in Hw; injection Hw as <-.
  - cbn [add_q]. rewrite msb_small by done. rewrite low_small in * by done. unfold add_finish.
    by apply big_store64_ok.
  - rewrite low_flag in * by done. cbn [add_q]. rewrite msb_flag by done.
    set (x := y + w) in *.
    assert (y + (w + B * n) = x mod B + B * (x / B + n)) as E.
    { unfold x. rewrite N.add_assoc. rewrite (split_B (y + w)) at 1. generalize ((y + w) mod B) ((y + w) / B). generalize B. intros; lia. }
    rewrite E in *. rewrite wneed_S in * by apply mod_B.
    destruct a as [|z a]; [simpl in Hl; lia|]. simpl in Hl.
    destruct q as [|w' q']; [inversion Hh|].
    rewrite shr63. rewrite u64_small.
    2: { pose proof (div_le1 x Hx). assert (low w' < B) by (rewrite low_mod; apply mod_B). revert H0 H1. generalize (x / B) (low w'). pose proof B1. revert H0. generalize B. intros; lia. }
    destruct (IH a (x / B) w' eq_refl) as (a' & -> & Ha & Hf); [|lia|].
    { pose proof (div_le1 x Hx). assert (low w' < B) by (rewrite low_mod; apply mod_B). revert H0 H1. generalize (x / B) (low w'). pose proof B1. revert H0. generalize B. intros; lia. }
    cbn [mbind option_bind]. eexists. split; [done|]. split; [|by apply frame_cons].
    rewrite with_msb_mod by done. constructor; [apply mod_B|done].
Qed.

Lemma add_p_ok a na sa : holds a na sa -> forall y w, head a = Some w -> y + low w < 2 * B ->
  (wneed (y + na) sa <= length a)%nat ->
  exists a', add_p a (y + low w) = Some (a', wneed (y + na) sa) /\
             holds a' (y + na) (wneed (y + na) sa) /\ frame a a' (wneed (y + na) sa).
Proof.
  induction 1 as [w q H|w q n s H Hh IH]; intros y w0 Hw Hx Hl; simpl in Hw; injection Hw as <-.
  - cbn [add_p]. rewrite msb_small by done. rewrite low_small in * by done. unfold add_finish.
    by apply big_store64_ok.
  - rewrite low_flag in * by done. cbn [add_p]. rewrite msb_flag by done.
    set (x := y + w) in *.
    assert (y + (w + B * n) = x mod B + B * (x / B + n)) as E.
    { unfold x. rewrite N.add_assoc. rewrite (split_B (y + w)) at 1. generalize ((y + w) mod B) ((y + w) / B). generalize B. intros; lia. }
    rewrite E in *. rewrite wneed_S in * by apply mod_B. simpl in Hl.
    destruct q as [|w' q']; [inversion Hh|].
    assert (x / B + low w' < 2 * B).
    { pose proof (div_le1 x Hx). assert (low w' < B) by (rewrite low_mod; apply mod_B). revert H0 H1. generalize (x / B) (low w'). pose proof B1. revert H0. generalize B. intros; lia. }
    rewrite shr63. rewrite u64_small by done.
    destruct (IH (x / B) w' eq_refl H0) as (a' & -> & Ha & Hf); [lia|].
    cbn [mbind option_bind]. eexists. split; [done|]. split; [|by apply frame_cons].
    rewrite with_msb_mod by done. constructor; [apply mod_B|done].
Qed.

Lemma add_loop_ok a na sa : holds a na sa -> forall q nq sq x, holds q nq sq -> x <= 1 ->
  (wneed (x + na + nq) (max sa sq) <= length a)%nat ->
  exists a', add_loop a q x = Some (a', wneed (x + na + nq) (max sa sq)) /\
             holds a' (x + na + nq) (wneed (x + na + nq) (max sa sq)) /\ frame a a' (wneed (x + na + nq) (max sa sq)).
Proof.
  induction 1 as [v a H|v a n s H Hh IH]; intros q nq sq x Hq Hx Hl.
  - destruct q as [|w q]; [inversion Hq|]. cbn [add_loop]. rewrite low_small by done. rewrite msb_small by done. cbn [negb].
    assert (low w < B) as Hw by (rewrite low_mod; apply mod_B).
    assert (x + v + low w < 2 * B) as Hb by (revert H Hw; generalize (low w); generalize B; intros; lia).
    rewrite u64_small by (rewrite u64_small; [done|]; blia).
    rewrite u64_small by (blia).
    pose proof (holds_len _ _ _ Hq). rewrite Nat.max_r in * by lia.
    by apply (add_q_ok _ _ _ Hq (v :: a) (x + v) w).
  - inversion Hq as [w q' Hw|w q' nq' sq' Hw Hq']; subst.
    + cbn [add_loop]. rewrite low_flag, low_small by done. rewrite msb_flag, msb_small by done. cbn [negb].
      assert (x + v + nq < 2 * B) as Hb by (revert H Hw; generalize B; intros; lia).
      rewrite u64_small by (rewrite u64_small; [done|]; blia).
      rewrite u64_small by (blia).
      rewrite Nat.max_l in * by lia.
      assert (x + (v + B * n) + nq = (x + nq) + (v + B * n)) as E by lia. rewrite E in *.
      assert (x + v + nq = (x + nq) + low (v + B)) as E' by (rewrite low_flag by done; lia). rewrite E'.
      apply (add_p_ok (v + B :: a) (v + B * n) (S s)); [by constructor|done| |done].
      rewrite <- E'. done.
    + cbn [add_loop]. rewrite !low_flag by done. rewrite !msb_flag by done. cbn [negb].
      assert (x + v + w < 2 * B) as Hb by (revert H Hw; generalize B; intros; lia).
      rewrite u64_small by (rewrite u64_small; [done|]; blia).
      rewrite u64_small by (blia).
      set (y := x + v + w) in *.
      assert (x + (v + B * n) + (w + B * nq') = y mod B + B * (y / B + n + nq')) as E.
      { transitivity (y + B * (n + nq')); [unfold y; generalize B; intros; lia|].
        rewrite (split_B y) at 1. generalize (y mod B) (y / B). generalize B. intros; lia. }
      rewrite E in *. rewrite <- Nat.succ_max_distr in *. rewrite wneed_S in * by apply mod_B. simpl in Hl.
      rewrite shr63.
      destruct (IH q' nq' sq' (y / B) Hq' (div_le1 y Hb) ltac:(lia)) as (a' & -> & Ha & Hf).
      cbn [mbind option_bind]. eexists. split; [done|]. split; [|by apply frame_cons].
      rewrite with_msb_mod by done. constructor; [apply mod_B|done].
Qed.

Lemma big_add_ok a o na no sa so : holds a na sa -> holds o no so ->
  (wneed (na + no) (max sa so) <= length a)%nat ->
  exists a', big_add a o = Some (a', wneed (na + no) (max sa so)) /\
             holds a' (na + no) (wneed (na + no) (max sa so)) /\ frame a a' (wneed (na + no) (max sa so)).
Proof.
  intros Ha Ho Hl. unfold big_add.
  destruct (add_loop_ok a na sa Ha o no so 0 Ho ltac:(lia)) as (a' & H); rewrite N.add_0_l in *; [done|]. by exists a'.
Qed.

Lemma pow63 s : B ^ N.of_nat s = 2 ^ (63 * N.of_nat s).
Proof. by rewrite <- N.pow_mul_r. Qed.

Lemma minimal_add na no sa so : minimal na sa -> minimal no so -> minimal (na + no) (wneed (na + no) (max sa so)).
Proof.
  unfold minimal. rewrite <- !pow63. intros H1 H2. unfold wneed.
  destruct (N.ltb_spec (na + no) (B ^ N.of_nat (sa `max` so))) as [Hl|Hl].
  - destruct (Nat.max_spec sa so) as [[? ->]|[? ->]].
    + destruct H2 as [?|H2]; [by left|right]. lia.
    + destruct H1 as [?|H1]; [by left|right]. lia.
  - right. replace (S (sa `max` so) - 1)%nat with (sa `max` so)%nat by lia. done.
Qed.

(** ** division by ten *)
Lemma div_word_ok w r cont : w < B -> r < 10 ->
  div_word w r cont =
    let q := (r * B + w) / 10 in
    let q' := if cont then q + B else q in
    (q', (r * B + w) mod 10, cont || negb (q' =? 0)).
Proof.
  intros Hw Hr. unfold div_word. rewrite low_small by done. rewrite N.land_ones.
  rewrite !N.shiftl_mul_pow2, N.shiftr_div_pow2.
  assert (w / 2 ^ 32 < 2 ^ 31) as Hh by (apply N.div_lt_upper_bound; [done|by rewrite <- N.pow_add_r]).
  assert (w mod 2 ^ 32 < 2 ^ 32) as Hm by (by apply N.mod_lt).
  assert (r * 2 ^ 31 + w / 2 ^ 32 < 10 * 2 ^ 31) as Hr1 by (revert Hh; generalize (2 ^ 31); intros; nia).
  assert (u64 (r * 2 ^ 31) = r * 2 ^ 31) as ->.
  { apply u64_small. apply N.lt_le_trans with (10 * 2 ^ 31); [|done]. revert Hr1. generalize (w / 2 ^ 32) (2 ^ 31). intros; lia. }
  rewrite N.lor_comm, lor_add by done. rewrite (N.add_comm (w / _)).
  set (r1 := r * 2 ^ 31 + w / 2 ^ 32) in *.
  assert (r1 mod 10 < 10) as Hrm by (by apply N.mod_lt).
  assert (r1 / 10 < 2 ^ 31) as Hq1 by (by apply N.div_lt_upper_bound).
  assert (u64 (r1 mod 10 * 2 ^ 32) = r1 mod 10 * 2 ^ 32) as ->.
  { apply u64_small. apply N.lt_le_trans with (10 * 2 ^ 32); [|done]. revert Hrm. generalize (r1 mod 10). assert (0 < 2 ^ 32) as Hp by done. revert Hp. generalize (2 ^ 32). intros; nia. }
  rewrite N.lor_comm, lor_add by done. rewrite (N.add_comm (w mod _)).
  set (r2 := r1 mod 10 * 2 ^ 32 + w mod 2 ^ 32) in *.
  assert (r2 < 10 * 2 ^ 32) as Hr2 by (unfold r2; revert Hrm Hm; generalize (r1 mod 10) (w mod 2 ^ 32) (2 ^ 32); intros; nia).
  assert (r2 / 10 < 2 ^ 32) as Hq2 by (by apply N.div_lt_upper_bound).
  assert (r * B + w = 10 * (r1 / 10 * 2 ^ 32) + r2) as E.
  { assert (r * B + w = r1 * 2 ^ 32 + w mod 2 ^ 32) as ->.
    { unfold r1. rewrite N.mul_add_distr_r. rewrite <- N.mul_assoc, <- N.pow_add_r.
      change (31 + 32) with 63. rewrite <- N.add_assoc. f_equal. rewrite N.mul_comm. apply N.div_mod'. }
    unfold r2. rewrite (N.div_mod' r1 10) at 1. generalize (r1 / 10) (r1 mod 10) (w mod 2 ^ 32) (2 ^ 32). intros; lia. }
  assert ((r * B + w) / 10 = r1 / 10 * 2 ^ 32 + r2 / 10) as Eq.
  { rewrite E. rewrite (N.mul_comm 10), N.add_comm, N.div_add by done. apply N.add_comm. }
  assert ((r * B + w) mod 10 = r2 mod 10) as Er.
  { rewrite E. rewrite (N.mul_comm 10), N.add_comm, N.mod_add by done. done. }
  rewrite Eq, Er.
  assert (r1 / 10 * 2 ^ 32 + r2 / 10 < B) as Hqb.
  { change B with (2 ^ 31 * 2 ^ 32). revert Hq1 Hq2. generalize (r1 / 10) (r2 / 10) (2 ^ 31) (2 ^ 32). intros; nia. }
  assert (u64 (r1 / 10 * 2 ^ 32) = r1 / 10 * 2 ^ 32) as ->.
  { apply u64_small. revert Hqb. generalize (r1 / 10 * 2 ^ 32) (r2 / 10). generalize B. intros; lia. }
  set (t := r1 / 10 * 2 ^ 32) in *. set (z := r2 / 10) in *.
  destruct cont; unfold MSB.
  - rewrite (u64_small (B + t)) by blia. rewrite u64_small by blia.
    replace (B + t + z) with (t + z + B) by blia. done.
  - rewrite !N.add_0_l. rewrite (u64_small t) by blia. rewrite u64_small by blia. done.
Qed.

Lemma div_loop_ok a n s : holds a n s ->
  exists a' s', div_loop a = Some (a', n mod 10, negb (n / 10 =? 0)) /\ holds a' (n / 10) s' /\
    minimal (n / 10) s' /\ (s' <= s)%nat /\ frame a a' s.
Proof.
  induction 1 as [w a H|w a n s H Hh IH].
  - cbn [div_loop]. rewrite msb_small by done. cbn [mbind option_bind]. rewrite div_word_ok by done. cbn zeta.
    rewrite N.mul_0_l, N.add_0_l. cbn [orb]. eexists _, 1%nat. split; [done|].
    assert (w / 10 < B) by (apply N.le_lt_trans with w; [apply N.div_le_upper_bound; [done|lia]|done]).
    split_and!; [by constructor|by left|lia|done].
  - destruct IH as (a' & s' & E & Ha & Hm & Hs & Hf).
    cbn [div_loop]. rewrite msb_flag by done. rewrite E. cbn [mbind option_bind].
    assert (n mod 10 < 10) as Hr by (by apply N.mod_lt).
    assert (div_word (w + B) (n mod 10) (negb (n / 10 =? 0)) = div_word w (n mod 10) (negb (n / 10 =? 0))) as ->.
    { unfold div_word. rewrite low_flag, low_small by done. rewrite !N.land_ones.
      replace ((w + B) mod 2 ^ 32) with (w mod 2 ^ 32); [done|]. change B with (2 ^ 31 * 2 ^ 32). by rewrite N.mod_add. }
    rewrite div_word_ok by done. cbn zeta.
    set (q := (n mod 10 * B + w) / 10).
    assert (w + B * n = (n mod 10 * B + w) + (B * (n / 10)) * 10) as En.
    { rewrite (N.div_mod' n 10) at 1. generalize (n / 10) (n mod 10). generalize B. intros; lia. }
    assert ((w + B * n) / 10 = q + B * (n / 10)) as Eq by (rewrite En; by rewrite N.div_add by done).
    assert ((w + B * n) mod 10 = (n mod 10 * B + w) mod 10) as Er by (rewrite En; by rewrite N.mod_add by done).
    assert (q < B) as Hq. { unfold q. apply N.div_lt_upper_bound; [done|]. revert Hr H. generalize (n mod 10). generalize B. intros; nia. }
    rewrite Eq, Er. destruct (N.eqb_spec (n / 10) 0) as [Hz|Hz]; cbn [negb orb].
    + rewrite Hz, N.mul_0_r, N.add_0_r. eexists _, 1%nat. split; [done|].
      split_and!; [by constructor|by left|lia|by apply frame_cons].
    + eexists _, (S s'). split; [|split_and!].
      * f_equal. f_equal. destruct (N.eqb_spec (q + B * (n / 10)) 0) as [Hc|]; [|done]. exfalso.
        revert Hz Hc. generalize (n / 10). pose proof Bpos as Hp. revert Hp. generalize B. intros; nia.
      * by constructor.
      * right. rewrite <- pow63. replace (S s' - 1)%nat with s' by lia.
        destruct Hm as [->|Hm].
        -- rewrite N.pow_1_r. revert Hz. generalize (n / 10). generalize B. intros; nia.
        -- rewrite <- pow63 in Hm. pose proof (holds_len _ _ _ Ha). destruct s' as [|s']; [lia|].
           rewrite Bpow_S. replace (S s' - 1)%nat with s' in Hm by lia. revert Hm. generalize (n / 10) (B ^ N.of_nat s'). generalize B. intros; nia.
      * lia.
      * by apply frame_cons.
Qed.

Lemma big_divide_ok a n s : holds a n s ->
  exists a' s', big_divide a = Some (a', n mod 10) /\ holds a' (n / 10) s' /\ minimal (n / 10) s' /\ (s' <= s)%nat /\ frame a a' s.
Proof.
  intros H. destruct (div_loop_ok a n s H) as (a' & s' & E & ?). exists a', s'. split; [|done].
  unfold big_divide. rewrite E. done.
Qed.

(** ** shift *)
Lemma shift_bits_ok a n s k : holds a n s -> k < 63 -> forall x, x < 2 ^ k ->
  (wneed (x + n * 2 ^ k) s <= length a)%nat ->
  exists a', shift_bits a k x = Some (a', wneed (x + n * 2 ^ k) s) /\
             holds a' (x + n * 2 ^ k) (wneed (x + n * 2 ^ k) s) /\ frame a a' (wneed (x + n * 2 ^ k) s).
Proof.
  intros Hh Hk.
  assert (B = 2 ^ k * 2 ^ (63 - k)) as EB by (rewrite <- N.pow_add_r; f_equal; lia).
  assert (0 < 2 ^ k) as Hpk by (apply N.neq_0_lt_0, N.pow_nonzero; done).
  assert (0 < 2 ^ (63 - k)) as Hpk' by (apply N.neq_0_lt_0, N.pow_nonzero; done).
  assert (2 ^ k <= B) as HkB. { rewrite EB. revert Hpk'. generalize (2 ^ k) (2 ^ (63 - k)). intros; nia. }
  (* facts about one word *)
  assert (forall p f x, p < B -> x < 2 ^ k -> (f = 0 \/ f = B) ->
    let tmp := N.lor x (u64 (N.shiftl (p + f) k)) in
    tmp < 2 * B /\ tmp mod B = (x + p * 2 ^ k) mod B /\
    N.shiftr p (63 - k) = (x + p * 2 ^ k) / B /\ (x + p * 2 ^ k) / B < 2 ^ k) as W.
  { intros p f x Hp Hx Hf tmp.
    assert (N.shiftr p (63 - k) = (x + p * 2 ^ k) / B) as E3.
    { rewrite N.shiftr_div_pow2. rewrite EB. rewrite <- N.div_div by lia.
      rewrite N.div_add by lia. by rewrite (N.div_small x) by done. }
    assert ((x + p * 2 ^ k) / B < 2 ^ k) as E4.
    { apply N.div_lt_upper_bound; [done|]. revert Hp Hx. generalize (2 ^ k). generalize B. intros; nia. }
    assert (tmp = x + u64 (N.shiftl (p + f) k)) as E1.
    { unfold tmp, u64. rewrite N.shiftl_mul_pow2. rewrite B64. rewrite EB.
      replace (2 * (2 ^ k * 2 ^ (63 - k))) with (2 ^ (64 - k) * 2 ^ k).
      - rewrite N.mul_mod_distr_r by (try apply N.pow_nonzero; lia). by rewrite lor_add.
      - replace (64 - k) with (1 + (63 - k)) by lia. rewrite N.pow_add_r. generalize (2 ^ k) (2 ^ (63 - k)). intros; lia. }
    assert (u64 (N.shiftl (p + f) k) mod B = (p * 2 ^ k) mod B) as E2.
    { unfold u64. rewrite N.shiftl_mul_pow2. rewrite B64.
      rewrite (N.mul_comm 2 B). rewrite N.mod_mul_r by done.
      rewrite (N.mul_comm B (_ mod 2)). rewrite N.mod_add by done. rewrite N.mod_mod by done.
      destruct Hf as [->| ->]; [by rewrite N.add_0_r|]. rewrite N.mul_add_distr_r.
      rewrite (N.mul_comm B). rewrite N.mod_add by done. done. }
    assert (u64 (N.shiftl (p + f) k) + 2 ^ k <= 2 * B) as E5.
    { unfold u64. rewrite N.shiftl_mul_pow2. rewrite B64. rewrite EB.
      replace (2 * (2 ^ k * 2 ^ (63 - k))) with (2 ^ (64 - k) * 2 ^ k).
      - rewrite N.mul_mod_distr_r by (try apply N.pow_nonzero; lia).
        assert ((p + f) mod 2 ^ (64 - k) < 2 ^ (64 - k)) as Hm by (apply N.mod_lt, N.pow_nonzero; done).
        revert Hm. generalize ((p + f) mod 2 ^ (64 - k)) (2 ^ (64 - k)) (2 ^ k). intros; nia.
      - replace (64 - k) with (1 + (63 - k)) by lia. rewrite N.pow_add_r. generalize (2 ^ k) (2 ^ (63 - k)). intros; lia. }
    split_and!; try done.
    - rewrite E1. revert E5 Hx. generalize (u64 (N.shiftl (p + f) k)) (2 ^ k). generalize B. intros; lia.
    - rewrite E1. rewrite N.add_mod by done. rewrite E2. by rewrite <- N.add_mod by done. }
  induction Hh as [p a H|p a n s H Hh IH]; intros x Hx Hl.
  - cbn [shift_bits]. rewrite msb_small by done. cbn [negb]. rewrite low_small by done.
    destruct (W p 0 x H Hx (or_introl eq_refl)) as (W1 & W2 & W3 & W4). rewrite N.add_0_r in *.
    set (tmp := N.lor x (u64 (N.shiftl p k))) in *. set (v := x + p * 2 ^ k) in *.
    rewrite W3. rewrite wneed_1 in *. destruct (N.eqb_spec (v / B) 0) as [Hz|Hz].
    + assert (v < B) as Hv. { apply N.div_small_iff in Hz; done. }
      destruct (N.ltb_spec v B); [|lia]. eexists. split; [done|]. split; [|done].
      rewrite low_mod, W2. rewrite N.mod_small by done. by constructor.
    + assert (B <= v) as Hv. { apply N.le_ngt. intros Hc. apply Hz. by apply N.div_small. }
      destruct (N.ltb_spec v B); [lia|]. destruct a as [|z a]; [simpl in Hl; lia|].
      eexists. split; [done|]. split; [|done]. rewrite with_msb_mod by done. rewrite W2.
      assert (holds (v mod B + B :: v / B :: a) (v mod B + B * (v / B)) 2) as Hv2; [|by rewrite <- split_B in Hv2].
      constructor; [apply mod_B|]. constructor. revert W4 HkB. generalize (v / B) (2 ^ k). generalize B. intros; lia.
  - cbn [shift_bits]. rewrite msb_flag by done. cbn [negb]. rewrite low_flag by done.
    destruct (W p B x H Hx (or_intror eq_refl)) as (W1 & W2 & W3 & W4).
    set (tmp := N.lor x (u64 (N.shiftl (p + B) k))) in *.
    set (v := x + p * 2 ^ k) in *.
    assert (x + (p + B * n) * 2 ^ k = v mod B + B * (v / B + n * 2 ^ k)) as E.
    { transitivity (v + B * (n * 2 ^ k)); [unfold v; generalize (2 ^ k); generalize B; intros; lia|].
      rewrite (split_B v) at 1. generalize (v mod B) (v / B) (n * 2 ^ k). generalize B. intros; lia. }
    rewrite E in *. rewrite wneed_S in * by apply mod_B. simpl in Hl. rewrite W3.
    destruct (IH (v / B) W4 ltac:(lia)) as (a' & -> & Ha & Hf). cbn [mbind option_bind].
    eexists. split; [done|]. split; [|by apply frame_cons]. rewrite with_msb_mod by done. rewrite W2.
    constructor; [apply mod_B|done].
Qed.

Lemma holds_app a n s b : holds a n s -> holds (a ++ b) n s.
Proof. induction 1; simpl; by constructor. Qed.
Lemma holds_take a n s : holds a n s -> holds (take s a) n s.
Proof. induction 1; simpl; by constructor. Qed.
Lemma holds_shift a n s w : holds a n s -> holds (replicate w MSB ++ a) (n * B ^ N.of_nat w) (s + w).
Proof.
  intros H. induction w as [|w IH]; [by rewrite N.pow_0_r, N.mul_1_r, Nat.add_0_r|].
  rewrite Bpow_S. replace (s + S w)%nat with (S (s + w)) by lia. simpl replicate. cbn [app].
  replace (n * (B * B ^ N.of_nat w)) with (0 + B * (n * B ^ N.of_nat w)) by (generalize (B ^ N.of_nat w); generalize B; intros; lia).
  change MSB with (0 + B). by constructor.
Qed.

Lemma shift_words_ok a n s w : holds a n s -> (s + w <= length a)%nat ->
  exists a', shift_words a w = Some a' /\ holds a' (n * B ^ N.of_nat w) (s + w) /\ frame a a' (s + w).
Proof.
  intros Hh Hl. unfold shift_words. rewrite (big_size_ok _ _ _ Hh). cbn [mbind option_bind].
  destruct (ofold_inv (fun a q => v ← a !! q; _ ← a !! (q + w)%nat; Some (<[(q + w)%nat := v]> a))
     (fun pre a1 => let k := (s - length pre)%nat in (length pre <= s)%nat /\ length a1 = length a /\
        (forall j, (j < k + w)%nat \/ (s + w <= j)%nat -> a1 !! j = a !! j) /\
        (forall j, (k <= j < s)%nat -> a1 !! (j + w)%nat = a !! j))
     (reverse (seq 0 s)) a) as (a1 & E1 & _ & L1 & K1 & M1).
  - simpl. rewrite Nat.sub_0_r. split_and!; [lia|done|done|lia].
  - intros pre q post a1 Hs (P1 & P2 & P3 & P4).
    assert (length pre < s)%nat as Hlt.
    { apply (f_equal length) in Hs. rewrite reverse_length, seq_length, app_length in Hs. simpl in Hs. lia. }
    assert (q = s - 1 - length pre)%nat as ->.
    { assert (reverse (seq 0 s) !! length pre = Some q) as Hx.
      { rewrite Hs. rewrite lookup_app_r by lia. by rewrite Nat.sub_diag. }
      rewrite reverse_lookup in Hx by (rewrite seq_length; lia).
      rewrite seq_length in Hx. apply lookup_seq in Hx. lia. }
    set (q := (s - 1 - length pre)%nat) in *.
    destruct (lookup_lt_is_Some_2 a1 q ltac:(lia)) as [v Hv]. rewrite Hv. cbn [mbind option_bind].
    destruct (lookup_lt_is_Some_2 a1 (q + w)%nat ltac:(lia)) as [v' Hv']. rewrite Hv'. cbn [mbind option_bind].
    eexists. split; [done|]. rewrite app_length. simpl length. split_and!.
    + lia.
    + by rewrite insert_length.
    + intros j Hj. rewrite list_lookup_insert_ne by lia. apply P3. lia.
    + intros j Hj. destruct (decide (j = q)) as [->|Hne].
      * rewrite list_lookup_insert by lia. rewrite <- P3 by lia. done.
      * rewrite list_lookup_insert_ne by lia. apply P4. lia.
  - rewrite E1. cbn [mbind option_bind]. rewrite reverse_length, seq_length, Nat.sub_diag in *.
    destruct (ofold_inv (fun a q => _ ← a !! q; Some (<[q := MSB]> a))
      (fun pre a2 => (length pre <= w)%nat /\ length a2 = length a /\
         (forall j, (j < length pre)%nat -> a2 !! j = Some MSB) /\ (forall j, (length pre <= j)%nat -> a2 !! j = a1 !! j))
      (seq 0 w) a1) as (a2 & E2 & _ & L2 & K2 & M2).
    + simpl. split_and!; [lia|done|lia|done].
    + intros pre q post a2 Hs (P1 & P2 & P3 & P4).
      assert (length pre < w)%nat as Hlt.
      { apply (f_equal length) in Hs. rewrite seq_length, app_length in Hs. simpl in Hs. lia. }
      assert (q = length pre) as ->.
      { assert (seq 0 w !! length pre = Some q) as Hx.
        { rewrite Hs. rewrite lookup_app_r by lia. by rewrite Nat.sub_diag. }
        apply lookup_seq in Hx. lia. }
      destruct (lookup_lt_is_Some_2 a2 (length pre) ltac:(lia)) as [v Hv]. rewrite Hv. cbn [mbind option_bind].
      eexists. split; [done|]. rewrite app_length. simpl length. split_and!.
      * lia.
      * by rewrite insert_length.
      * intros j Hj. destruct (decide (j = length pre)) as [->|]; [by rewrite list_lookup_insert by lia|].
        rewrite list_lookup_insert_ne by lia. apply P3. lia.
      * intros j Hj. rewrite list_lookup_insert_ne by lia. apply P4. lia.
    + rewrite E2. rewrite seq_length in *. exists a2. split; [done|].
      assert (a2 = replicate w MSB ++ take s a ++ drop (s + w) a) as ->.
      { apply list_eq. intros j. destruct (decide (j < w)%nat) as [Hj|Hj].
        - rewrite K2 by done. rewrite lookup_app_l by (by rewrite replicate_length). symmetry. by apply lookup_replicate_2.
        - rewrite M2 by lia. rewrite lookup_app_r by (rewrite replicate_length; lia). rewrite replicate_length.
          destruct (decide (j < s + w)%nat) as [Hj'|Hj'].
          + rewrite lookup_app_l by (rewrite take_length; lia). rewrite lookup_take by lia.
            rewrite <- M1 by lia. f_equal. lia.
          + rewrite K1 by lia. rewrite lookup_app_r by (rewrite take_length; lia). rewrite take_length, lookup_drop. f_equal. lia. }
      split.
      * apply holds_shift. apply holds_app. by apply holds_take.
      * split; [done|]. rewrite app_assoc. rewrite drop_app_alt; [done|]. rewrite app_length, replicate_length, take_length. lia.
Qed.

Lemma big_shiftl_ok a n s k : holds a n s ->
  (wneed (n * 2 ^ N.of_nat k) (s + k / 63) <= length a)%nat ->
  exists a', big_shiftl a k = Some (a', wneed (n * 2 ^ N.of_nat k) (s + k / 63)) /\
    holds a' (n * 2 ^ N.of_nat k) (wneed (n * 2 ^ N.of_nat k) (s + k / 63)) /\
    frame a a' (wneed (n * 2 ^ N.of_nat k) (s + k / 63)).
Proof.
  intros Hh Hl. unfold big_shiftl.
  assert (n * 2 ^ N.of_nat k = n * B ^ N.of_nat (k / 63) * 2 ^ N.of_nat (k mod 63)) as E.
  { rewrite pow63. rewrite <- N.mul_assoc, <- N.pow_add_r. do 2 f_equal.
    rewrite (Nat.div_mod k 63) at 1 by done. lia. }
  rewrite E in *.
  assert (exists a1, (if (63 <=? k)%nat then shift_words a (k / 63) else Some a) = Some a1 /\
    holds a1 (n * B ^ N.of_nat (k / 63)) (s + k / 63) /\ frame a a1 (s + k / 63)) as (a1 & -> & H1 & F1).
  { pose proof (wneed_ge (n * B ^ N.of_nat (k / 63) * 2 ^ N.of_nat (k mod 63)) (s + k / 63)).
    destruct (Nat.leb_spec 63 k).
    - apply shift_words_ok; [done|lia].
    - rewrite Nat.div_small by done. exists a. rewrite N.pow_0_r, N.mul_1_r, Nat.add_0_r. done. }
  cbn [mbind option_bind].
  assert (N.of_nat (k mod 63) < 63) as Hk by (pose proof (Nat.mod_upper_bound k 63 ltac:(done)); lia).
  destruct (shift_bits_ok a1 _ _ _ H1 Hk 0) as (a2 & E2 & H2 & F2).
  - apply N.neq_0_lt_0, N.pow_nonzero. done.
  - rewrite N.add_0_l. destruct F1 as [-> _]. done.
  - rewrite N.add_0_l in *. exists a2. split; [done|]. split; [done|].
    destruct F1 as [G1 G2], F2 as [G3 G4]. split; [congruence|]. rewrite G4.
    pose proof (wneed_ge (n * B ^ N.of_nat (k / 63) * 2 ^ N.of_nat (k mod 63)) (s + k / 63)).
    set (z := wneed _ _) in *. clearbody z. set (m := (s + k / 63)%nat) in *. clearbody m.
    assert (z = m + (z - m))%nat as -> by lia. rewrite <- (drop_drop a1 (z - m)), <- (drop_drop a (z - m)). by rewrite G2.
Qed.

Lemma minimal_shift n s k : n <> 0 -> minimal n s -> (0 < s)%nat -> minimal (n * 2 ^ N.of_nat k) (wneed (n * 2 ^ N.of_nat k) (s + k / 63)).
Proof.
  intros Hn Hm Hs. unfold minimal, wneed. rewrite <- pow63.
  destruct (N.ltb_spec (n * 2 ^ N.of_nat k) (B ^ N.of_nat (s + k / 63))) as [Hl|Hl].
  - destruct (decide (s + k / 63 = 1)%nat) as [|Hne]; [by left|right].
    assert (2 ^ (63 * N.of_nat (s - 1)) <= n) as Hm'.
    { destruct Hm as [->|Hm]; [|done]. simpl. rewrite N.pow_0_r. lia. }
    rewrite pow63. replace (63 * N.of_nat (s + k / 63 - 1)) with (63 * N.of_nat (s - 1) + N.of_nat (63 * (k / 63))) by lia.
    rewrite N.pow_add_r. apply N.mul_le_mono; [done|]. apply N.pow_le_mono_r; [done|].
    pose proof (Nat.mul_div_le k 63 ltac:(done)). lia.
  - right. replace (S (s + k / 63) - 1)%nat with (s + k / 63)%nat by lia. done.
Qed.

(** ** comparison *)
Lemma minimal_tail w n s : w < B -> minimal (w + B * n) (S s) -> (0 < s)%nat -> minimal n s /\ n <> 0.
Proof.
  intros Hw [H|H] Hs; [lia|]. rewrite <- pow63 in H. replace (S s - 1)%nat with s in H by lia.
  destruct s as [|s]; [lia|]. rewrite Bpow_S in H.
  assert (B ^ N.of_nat s <= n) as Hn. { revert Hw H. generalize (B ^ N.of_nat s). generalize B. intros; nia. }
  split.
  - right. rewrite <- pow63. by replace (S s - 1)%nat with s by lia.
  - intros ->. pose proof (Bpow_pos s). lia.
Qed.

Lemma big_eqb_ok a n s o m s' : holds a n s -> holds o m s' -> minimal n s -> minimal m s' ->
  big_eqb a o = Some (n =? m).
Proof.
  intros Ha. revert o m s'. induction Ha as [v a H|v a n s H Hh IH]; intros o m s' Ho Hm Hm'.
  - inversion Ho as [w o' Hw|w o' m' s'' Hw Ho']; subst.
    + cbn [big_eqb]. rewrite msb_small by done. by destruct (N.eqb_spec v m).
    + cbn [big_eqb]. pose proof (holds_len _ _ _ Ho'). destruct (minimal_tail w m' s'' Hw Hm' ltac:(lia)) as [_ Hz].
      destruct (N.eqb_spec v (w + B)) as [->|]; [revert H; generalize B; intros; lia|]. cbn [negb].
      destruct (N.eqb_spec v (w + B * m')) as [Hc|]; [|done]. exfalso. revert H Hc Hz. generalize B. intros; nia.
  - pose proof (holds_len _ _ _ Hh). destruct (minimal_tail v n s H Hm ltac:(lia)) as [Hmn Hz].
    inversion Ho as [w o' Hw|w o' m' s'' Hw Ho']; subst.
    + cbn [big_eqb]. destruct (N.eqb_spec (v + B) m) as [<-|]; [revert Hw; generalize B; intros; lia|]. cbn [negb].
      destruct (N.eqb_spec (v + B * n) m) as [Hc|]; [|done]. exfalso. revert Hw Hc Hz. generalize B. intros; nia.
    + cbn [big_eqb]. pose proof (holds_len _ _ _ Ho'). destruct (minimal_tail w m' s'' Hw Hm' ltac:(lia)) as [Hmm Hz'].
      rewrite msb_flag by done. destruct (N.eqb_spec (v + B) (w + B)) as [E|E]; cbn [negb].
      * assert (v = w) as -> by (revert E; generalize B; intros; lia). rewrite (IH _ _ _ Ho' Hmn Hmm). f_equal.
        destruct (N.eqb_spec n m') as [->|Hne]; [by rewrite N.eqb_refl|].
        destruct (N.eqb_spec (w + B * n) (w + B * m')) as [Hc|]; [|done]. exfalso. revert Hc Hne. pose proof Bpos as Hp. revert Hp. generalize B. intros; nia.
      * f_equal. symmetry. apply N.eqb_neq. intros Hc. apply E. 
        assert (v = w) as ->; [|done].
        rewrite <- (N.mod_small v B H), <- (N.mod_small w B Hw).
        rewrite <- (N.mod_add v n B), <- (N.mod_add w m' B) by done. f_equal. revert Hc. generalize B. intros; lia.
Qed.

Lemma big_eqb64_ok a n s x : holds a n s -> minimal n s -> x < 2 ^ 64 -> big_eqb64 a x = Some (n =? x).
Proof.
  intros Ha Hm Hx. rewrite B64 in Hx. unfold big_eqb64. inversion Ha as [v a' H|v a' n' s' H Hh]; subst; cbn [head mbind option_bind list_lookup lookup].
  - destruct (N.eqb_spec n x) as [->|]; [|done]. cbn [negb]. by rewrite msb_small.
  - pose proof (holds_len _ _ _ Hh). destruct (minimal_tail v n' s' H Hm ltac:(lia)) as [Hmn Hz].
    destruct (N.eqb_spec (v + B) x) as [<-|Hne]; cbn [negb].
    + rewrite msb_flag by done. cbn [negb].
      inversion Hh as [w a'' Hw|w a'' n'' s'' Hw Hh']; subst; cbn [lookup list_lookup mbind option_bind].
      * f_equal. destruct (N.eqb_spec n' 1) as [->|Hn]; [by rewrite N.mul_1_r, N.eqb_refl|].
        symmetry. apply N.eqb_neq. intros Hc. revert Hc Hn Hz. pose proof Bpos as Hp. revert Hp. generalize B. intros; nia.
      * f_equal. pose proof (holds_len _ _ _ Hh'). destruct (minimal_tail w n'' s'' Hw Hmn ltac:(lia)) as [_ Hz'].
        transitivity false; [|symmetry]; apply N.eqb_neq; intros Hc.
        -- revert Hc. pose proof B1 as Hp. revert Hp. generalize B. intros; lia.
        -- revert Hc Hz'. pose proof B1 as Hp. revert Hp H Hw. generalize B. intros; nia.
    + f_equal. symmetry. apply N.eqb_neq. intros Hc. subst x. revert Hne Hx Hz H. generalize B. intros b ? ? ? ?.
      assert (n' = 1) as -> by nia. lia.
Qed.

(** ** printing *)
Lemma decimal_digit d : d < 10 -> decimal [d] d.
Proof. intros H. split_and!; [by repeat constructor|simpl; lia|done|]. intros ? [= <-] ->. done. Qed.
Lemma decimal_snoc ds n r : decimal ds n -> n <> 0 -> r < 10 -> decimal (ds ++ [r]) (10 * n + r).
Proof.
  intros (H1 & H2 & H3 & H4) Hn Hr. split_and!.
  - apply Forall_app. split; [done|by repeat constructor].
  - rewrite fold_left_app. simpl. rewrite H2. done.
  - by destruct ds.
  - intros d Hd Hz. destruct ds as [|d' ds']; [done|]. simpl in Hd. injection Hd as ->.
    specialize (H4 d eq_refl Hz). rewrite H4 in H2. simpl in H2. lia.
Qed.

Lemma print_helper_ok fuel : forall a n s, holds a n s -> n < 10 ^ N.of_nat fuel -> (0 < fuel)%nat ->
  exists ds, print_helper fuel a = Some ds /\ decimal ds n.
Proof.
  induction fuel as [|f IH]; intros a n s Ha Hn Hf; [lia|].
  cbn [print_helper]. destruct (big_divide_ok a n s Ha) as (a' & s' & -> & Ha' & Hm & _). cbn [mbind option_bind].
  rewrite (big_eqb64_ok a' _ s' 0 Ha' Hm) by done. cbn [mbind option_bind].
  assert (n mod 10 < 10) by (by apply N.mod_lt).
  destruct (N.eqb_spec (n / 10) 0) as [Hz|Hz].
  - eexists. split; [done|]. assert (n < 10) by (by apply N.div_small_iff in Hz).
    rewrite N.mod_small by done. by apply decimal_digit.
  - assert (n / 10 < 10 ^ N.of_nat f) as Hlt.
    { apply N.div_lt_upper_bound; [done|]. rewrite Nat2N.inj_succ, N.pow_succ_r' in Hn. done. }
    destruct (IH a' (n / 10) s' Ha' Hlt) as (ds & -> & Hd).
    { destruct f; [|lia]. change (10 ^ N.of_nat 0) with 1 in Hlt. revert Hlt Hz. generalize (n / 10). intros; lia. }
    cbn [mbind option_bind]. eexists. split; [done|]. pose proof (decimal_snoc _ _ _ Hd Hz H) as Hd2. by rewrite <- N.div_mod' in Hd2.
Qed.

Lemma big_print_ok a n s : holds a n s -> exists ds, big_print a = Some ds /\ decimal ds n.
Proof.
  intros Ha. unfold big_print. rewrite (big_size_ok _ _ _ Ha). cbn [mbind option_bind].
  destruct (big_store_ok (replicate s 0) a n s Ha) as (c & -> & Hc & _); [by rewrite replicate_length|].
  cbn [mbind option_bind]. pose proof (holds_len _ _ _ Ha). apply (print_helper_ok _ c n s Hc); [|lia].
  apply N.lt_le_trans with (B ^ N.of_nat s); [by eapply holds_bound|].
  rewrite Nat2N.inj_mul. rewrite N.pow_mul_r. apply N.pow_le_mono_l. by vm_compute.
Qed.

(** decimal representations are unique *)
Lemma decimal_value_pos d ds : fold_left (fun x d => 10 * x + d) ds d >= d.
Proof. revert d. induction ds as [|e ds IH]; intros d; simpl; [lia|]. specialize (IH (10 * d + e)). lia. Qed.
Lemma decimal_unique ds ds' n : decimal ds n -> decimal ds' n -> ds = ds'.
Proof.
  revert ds' n. induction ds as [|x ds IH] using rev_ind; intros ds' n; [by intros (_ & _ & ? & _)|].
  destruct ds' as [|y ds' _] using rev_ind; [by intros _ (_ & _ & ? & _)|].
  intros (A1 & A2 & A3 & A4) (B1 & B2 & B3 & B4). rewrite fold_left_app in A2, B2. cbn [fold_left] in A2, B2.
  apply Forall_app in A1 as [A1 Ax]. apply Forall_app in B1 as [B1' By]. inversion Ax; inversion By; subst; clear Ax By.
  set (u := fold_left _ ds 0) in *. set (w := fold_left _ ds' 0) in *.
  assert (x = y) as ->. { lia. } assert (u = w) as E by lia. f_equal.
  destruct ds as [|d ds].
  - destruct ds' as [|e ds']; [done|]. exfalso. change u with 0 in E.
    unfold w in E. cbn [fold_left] in E. pose proof (decimal_value_pos (10 * 0 + e) ds') as Hp. rewrite <- E in Hp.
    assert (e = 0) as -> by lia. specialize (B4 0 eq_refl eq_refl). injection B4 as B4. by destruct ds'.
  - destruct ds' as [|e ds'].
    + exfalso. change w with 0 in E. unfold u in E. cbn [fold_left] in E. pose proof (decimal_value_pos (10 * 0 + d) ds) as Hp. rewrite E in Hp.
      assert (d = 0) as -> by lia. specialize (A4 0 eq_refl eq_refl). injection A4 as A4. by destruct ds.
    + apply (IH (e :: ds') u); [split_and!; try done|split_and!; try done].
      * intros z [= <-] ->. specialize (A4 0 eq_refl eq_refl). injection A4 as A4. by destruct ds.
      * intros z [= <-] ->. specialize (B4 0 eq_refl eq_refl). injection B4 as B4. by destruct ds'.
Qed.
