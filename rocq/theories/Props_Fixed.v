(** C60: FixedBigNumber. *)
From Verif Require Import Base M_Fixed S_Big S_Fixed P_Big.
Local Open Scope N_scope.

Lemma number_lt a : words a -> number a < capacity a.
Proof.
  unfold capacity. intros H. induction H as [|w a Hw Ha IH]; [done|]. cbn [number length]. rewrite Nat2N.inj_succ, N.pow_succ_r'. generalize dependent ((2 ^ 32) ^ N.of_nat (length a)). intros c IH. nia.
Qed.
Lemma number_inj a o : words a -> words o -> length a = length o -> number a = number o -> a = o.
Proof.
  intros H. revert o. induction H as [|w a Hw Ha IH]; intros [|w' o] Ho Hl E; try done. inversion Ho as [|? ? Hw' Ho']; subst. cbn [number] in E.
  assert (w = w') as -> by (generalize dependent (number a); generalize dependent (number o); intros; nia). f_equal. apply IH; [done|by injection Hl|nia].
Qed.

(** construction from a word, and the default value *)
Theorem C60_construct : forall size, words (fb_zero size) /\ number (fb_zero size) = 0 /\ length (fb_zero size) = size /\
  forall i, i < 2 ^ 32 -> (0 < size)%nat -> exists a, fb_of size i = Some a /\ words a /\ number a = i /\ length a = size.
Proof.
  assert (forall k, words (replicate k 0) /\ number (replicate k 0) = 0) as H0.
  { induction k as [|k [I1 I2]]; [split; [constructor|done]|]. cbn. rewrite I2. split; [constructor; [lia|done]|done]. }
  intros size. split; [apply H0|]. split; [apply H0|]. split; [apply replicate_length|]. intros i Hi Hs. destruct size as [|k]; [lia|].
  eexists. split; [done|]. split; [constructor; [done|apply H0]|]. cbn [number length]. rewrite (proj2 (H0 k)), replicate_length. split; [lia|done].
Qed.
(** equality is equality of the numbers *)
Theorem C60_equal : forall a o, words a -> words o -> length a = length o -> fb_eqb a o = (number a =? number o).
Proof.
  intros a o Ha Ho Hl. assert (fb_eqb a o = true <-> a = o) as H.
  { clear Ha Ho. revert o Hl. induction a as [|w a IH]; intros [|w' o] Hl; try done. cbn [fb_eqb]. destruct (N.eqb_spec w w') as [->|Hne]; cbn [negb]; [|split; [done|congruence]]. rewrite IH by (by injection Hl). split; [congruence|by intros [= ->]]. }
  apply eq_bool_prop_intro. rewrite !Is_true_true, H, N.eqb_eq. split; [by intros ->|]. by apply number_inj.
Qed.
Theorem C60_equal_word : forall a n, words a -> (0 < length a)%nat -> n < 2 ^ 32 -> fb_eqb32 a n = Some (number a =? n).
Proof.
  intros [|w a] n Ha Hl Hn; [cbn in Hl; lia|]. inversion Ha as [|? ? Hw Ha']; subst. cbn [fb_eqb32 number]. f_equal.
  assert (forallb (fun w => w =? 0) a = (number a =? 0)) as ->.
  { clear Ha Hl. induction Ha' as [|x a Hx Ha IH]; [done|]. cbn [forallb number]. rewrite IH. destruct (N.eqb_spec x 0), (N.eqb_spec (number a) 0), (N.eqb_spec (x + 2 ^ 32 * number a) 0); try done; nia. }
  destruct (N.eqb_spec w n), (N.eqb_spec (number a) 0), (N.eqb_spec (w + 2 ^ 32 * number a) n); try done; cbn [negb]; exfalso; nia.
Qed.

Lemma add_loop_ok a : words a -> forall o x, words o -> length a = length o -> x <= 1 -> exists r c,
  fb_add_loop a o x = (r, c) /\ words r /\ length r = length a /\ c <= 1 /\ number r + c * capacity a = number a + number o + x.
Proof.
  intros Ha. induction Ha as [|v a Hv Ha IH]; intros [|w o] x Ho Hl Hx; try done.
  - exists [], x. unfold capacity. cbn. split; [done|]. split; [constructor|]. split; [done|]. split; [done|]. change (2 ^ 32) with 4294967296. lia.
  - inversion Ho as [|? ? Hw Ho']; subst. cbn [fb_add_loop].
    assert (w64 (w64 (x + v) + w) = x + v + w) as -> by (unfold w64; rewrite (N.mod_small (x + v)), N.mod_small by (change (2 ^ 32) with 4294967296 in *; change (2 ^ 64) with 18446744073709551616; lia); done).
    rewrite N.shiftr_div_pow2. set (y := x + v + w).
    assert (y / 2 ^ 32 <= 1) as Hc by (apply N.lt_succ_r, N.div_lt_upper_bound; [done|]; change (2 ^ 32) with 4294967296 in *; lia).
    destruct (IH o (y / 2 ^ 32) Ho' ltac:(by injection Hl) Hc) as (r & c & E & W & L & C & V). rewrite E. cbn [fst snd]. exists (w32 y :: r), c. split; [done|].
    split; [constructor; [by apply N.mod_lt|done]|]. split; [cbn; by rewrite L|]. split; [done|].
    unfold capacity in *. cbn [length number]. rewrite Nat2N.inj_succ, N.pow_succ_r'. unfold w32. pose proof (N.div_mod' y (2 ^ 32)) as Hy. subst y.
    generalize dependent ((2 ^ 32) ^ N.of_nat (length a)). intros cap V. change (2 ^ 32) with 4294967296 in *. nia.
Qed.
(** += is addition; it throws iff the sum does not fit.  After the exception the object holds the sum modulo its capacity. *)
Theorem C60_add : forall a o, words a -> words o -> length a = length o ->
  exists r thrown, fb_add a o = (r, thrown) /\ words r /\ length r = length a /\
    number r = (number a + number o) mod capacity a /\ thrown = (capacity a <=? number a + number o) /\
    fb_plus a o = (if thrown then None else Some r).
Proof.
  intros a o Ha Ho Hl. unfold fb_plus, fb_add. destruct (add_loop_ok a Ha o 0 Ho Hl ltac:(lia)) as (r & c & E & W & L & C & V). rewrite E. cbn [fst snd]. eexists r, _. split; [done|]. split; [done|]. split; [done|].
  pose proof (number_lt r W) as Hr. unfold capacity in Hr. rewrite L in Hr. fold (capacity a) in Hr. rewrite N.add_0_r in V. rewrite <- V.
  assert (c = 0 \/ c = 1) as [-> | ->] by lia.
  - rewrite N.mul_0_l, N.add_0_r, N.mod_small by done. split; [done|]. split; [symmetry; by apply N.leb_gt|done].
  - rewrite N.mul_1_l. split; [|split; [symmetry; apply N.leb_le; lia|done]].
    rewrite <- (N.mul_1_l (capacity a)) at 1. rewrite N.mod_add by lia. by rewrite N.mod_small.
Qed.

Lemma div_loop_ok n a : 0 < n <= 2 ^ 31 -> words a -> exists q r, fb_div_loop a n = (q, r) /\ words q /\ length q = length a /\ r < n /\ number a = n * number q + r.
Proof.
  intros Hn Ha. induction Ha as [|w a Hw Ha IH].
  - exists [], 0. split; [done|]. split; [constructor|]. split; [done|]. cbn. split; [lia|]. lia.
  - destruct IH as (q & r & E & W & L & R & V). cbn [fb_div_loop]. rewrite E. rewrite N.shiftl_mul_pow2.
    assert (w64 (w64 (r * 2 ^ 32) + w) = r * 2 ^ 32 + w) as ->.
    { unfold w64. change (2 ^ 31) with 2147483648 in *. change (2 ^ 32) with 4294967296 in *. change (2 ^ 64) with 18446744073709551616. rewrite (N.mod_small (r * _)), N.mod_small by lia. done. }
    assert (signed64 (r * 2 ^ 32 + w) = Z.of_N (r * 2 ^ 32 + w)) as ->.
    { unfold signed64. rewrite (proj2 (N.ltb_lt _ _)); [done|]. change (2 ^ 31) with 2147483648 in *. change (2 ^ 32) with 4294967296 in *. change (2 ^ 63) with 9223372036854775808. lia. }
    set (x := r * 2 ^ 32 + w). rewrite <- N2Z.inj_quot, <- N2Z.inj_rem.
    assert (x / n < 2 ^ 32) as Hq. { apply N.div_lt_upper_bound; [lia|]. subst x. change (2 ^ 32) with 4294967296 in *. nia. }
    assert (x mod n < n) as Hr by (apply N.mod_lt; lia).
    assert (z32 (Z.of_N (x / n)) = x / n) as ->. { unfold z32. rewrite Z.mod_small; [apply N2Z.id|]. change (2 ^ 32)%Z with 4294967296%Z. change (2 ^ 32) with 4294967296 in Hq. clear - Hq. generalize dependent (x / n). intros; lia. }
    assert (z64 (Z.of_N (x mod n)) = x mod n) as ->. { unfold z64. rewrite Z.mod_small; [apply N2Z.id|]. change (2 ^ 64)%Z with 18446744073709551616%Z. change (2 ^ 31) with 2147483648 in *. clear - Hr Hn. generalize dependent (x mod n). intros; lia. }
    exists (x / n :: q), (x mod n). split; [done|]. split; [by constructor|]. split; [cbn; by rewrite L|]. split; [done|]. cbn [number]. rewrite V.
    pose proof (N.div_mod' x n) as Hx. unfold x at 1 in Hx. change (2 ^ 32) with 4294967296 in *. nia.
Qed.
(** divide by a number up to 2^31 *)
Theorem C60_divide : forall a n, words a -> 0 < n <= 2 ^ 31 -> exists q, fb_divide a n = Some (q, number a mod n) /\ words q /\ length q = length a /\ number q = number a / n.
Proof.
  intros a n Ha Hn. unfold fb_divide. destruct (N.eqb_spec n 0) as [->|_]; [lia|]. destruct (div_loop_ok n a Hn Ha) as (q & r & E & W & L & R & V). rewrite E. cbn [fst snd]. exists q.
  assert (w32 r = r) as -> by (apply N.mod_small; change (2 ^ 31) with 2147483648 in *; change (2 ^ 32) with 4294967296; lia).
  rewrite V, (N.mul_comm n), N.div_add_l, N.div_small, N.add_0_r by lia. rewrite N.add_comm, N.mod_add, N.mod_small by lia. done.
Qed.
(** The full statement, for every divisor that is not 0, is false: lldiv takes the dividend for a signed number. *)
Theorem C60_divide_refuted : ~ forall a n, words a -> 0 < n < 2 ^ 32 -> exists q, fb_divide a n = Some (q, number a mod n) /\ words q /\ length q = length a /\ number q = number a / n.
Proof.
  intros H. destruct (H [0; 2 ^ 31] (2 ^ 31 + 1)) as (q & E & _ & _ & V).
  - repeat constructor.
  - split; done.
  - vm_compute in E. injection E as <-. vm_compute in V. discriminate V.
Qed.

(** translate to an unsigned type of more than 32 bits: the number modulo the size of the type *)
Theorem C60_translate : forall bits a, 32 < bits -> words a -> fb_translate bits a = number a mod 2 ^ bits.
Proof.
  intros bits a Hb Ha. assert (2 ^ bits <> 0) as Hz by (by apply N.pow_nonzero). induction Ha as [|w a Hw Ha IH].
  - cbn [fb_translate number]. by rewrite N.mod_0_l.
  - cbn [fb_translate number]. rewrite IH, N.shiftl_mul_pow2. rewrite N.mul_mod_idemp_l by done. rewrite N.add_mod_idemp_l by done. f_equal. lia.
Qed.

Lemma capacity_digits a : capacity a <= 10 ^ N.of_nat (10 * length a).
Proof. unfold capacity. rewrite Nat2N.inj_mul, N.pow_mul_r. apply N.pow_le_mono_l. by vm_compute. Qed.
Lemma fb_print_ok fuel : forall a, words a -> (0 < length a)%nat -> number a < 10 ^ N.of_nat fuel -> (0 < fuel)%nat -> exists ds, fb_print_helper fuel a = Some ds /\ decimal ds (number a).
Proof.
  induction fuel as [|f IH]; intros a Ha Hl Hn Hf; [lia|]. cbn [fb_print_helper].
  destruct (C60_divide a 10 Ha ltac:(done)) as (q & -> & W & L & V). cbn [mbind option_bind]. rewrite C60_equal_word by (done || lia). cbn [mbind option_bind]. rewrite V.
  assert (number a mod 10 < 10) as Hr by (by apply N.mod_lt).
  destruct (N.eqb_spec (number a / 10) 0) as [Hz|Hz].
  - eexists. split; [done|]. apply N.div_small_iff in Hz; [|done]. rewrite N.mod_small by done. by apply decimal_digit.
  - assert (number a / 10 < 10 ^ N.of_nat f) as Hlt by (apply N.div_lt_upper_bound; [done|]; by rewrite Nat2N.inj_succ, N.pow_succ_r' in Hn).
    destruct (IH q W ltac:(lia) ltac:(by rewrite V)) as (ds & -> & Hd). { destruct f; [|lia]. change (10 ^ N.of_nat 0) with 1 in Hlt. revert Hlt Hz. generalize (number a / 10). intros; lia. }
    cbn [mbind option_bind]. eexists. split; [done|]. rewrite V in Hd. pose proof (decimal_snoc _ _ _ Hd Hz Hr) as Hd2. by rewrite <- N.div_mod' in Hd2.
Qed.
(** printing is decimal *)
Theorem C60_print : forall a, words a -> (0 < length a)%nat -> exists ds, fb_print a = Some ds /\ decimal ds (number a).
Proof.
  intros a Ha Hl. apply fb_print_ok; [done|done| |lia]. eapply N.lt_le_trans; [by apply number_lt|apply capacity_digits].
Qed.

(** 2^64 - 1 plus 5 in three words, printed; plus 2^64 in two words throws *)
Example C60_case :
  words [2 ^ 32 - 1; 2 ^ 32 - 1; 0] /\ fb_plus [2 ^ 32 - 1; 2 ^ 32 - 1; 0] [5; 0; 0] = Some [4; 0; 1] /\
  fb_print [4; 0; 1] = Some [1; 8; 4; 4; 6; 7; 4; 4; 0; 7; 3; 7; 0; 9; 5; 5; 1; 6; 2; 0] /\
  fb_add [2 ^ 32 - 1; 2 ^ 32 - 1] [5; 0] = ([4; 0], true) /\ fb_divide [4; 0; 1] 1000 = Some ([1271310319; 4294967; 0], 620).
Proof. split; [repeat constructor|]. split; [done|]. split; [done|]. split; [done|]. vm_compute. reflexivity. Qed.

Print Assumptions C60_construct.
Print Assumptions C60_equal.
Print Assumptions C60_equal_word.
Print Assumptions C60_add.
Print Assumptions C60_divide.
Print Assumptions C60_divide_refuted.
Print Assumptions C60_translate.
Print Assumptions C60_print.
