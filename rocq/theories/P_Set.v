(** Proofs about sets. *)
From stdpp Require Import gmap.
From Coq Require Import Sorted.
From Verif Require Import Base M_Set S_Set.
From Coq Require Import NArith.

Lemma insert_S {A} (x y : A) l k : <[S k := y]> (x :: l) = x :: <[k := y]> l.
Proof. done. Qed.
(** ** bits *)
Notation w64 w := (w < 2 ^ 64)%N.
Lemma w64_bits w : w64 w <-> forall i, (64 <= i)%N -> N.testbit w i = false.
Proof.
  split.
  - intros H i Hi. destruct (decide (w = 0%N)) as [->|]; [apply N.bits_0|]. apply N.bits_above_log2. apply N.log2_lt_pow2; [lia|].
    eapply N.lt_le_trans; [exact H|]. apply N.pow_le_mono_r; lia.
  - intros H. destruct (decide (w = 0%N)) as [->|Hw]; [done|]. apply N.log2_lt_pow2; [lia|]. destruct (decide (64 <= N.log2 w)%N) as [Hl|]; [|lia].
    specialize (H _ Hl). rewrite N.bit_log2 in H by done. done.
Qed.
Definition bit (w : N) (i : nat) : bool := N.testbit w (N.of_nat i).
Lemma w64_bit w i : w64 w -> 64 <= i -> bit w i = false.
Proof. intros H Hi. unfold bit. apply w64_bits; [done|]. lia. Qed.
Lemma mask_ok i : i < 64 -> mask i = Some (2 ^ N.of_nat i)%N.
Proof. intros H. unfold mask. rewrite (proj2 (Nat.ltb_lt _ _) H). by rewrite N.shiftl_1_l. Qed.
Lemma bit_pow i j : bit (2 ^ N.of_nat i) j = bool_decide (i = j).
Proof. unfold bit. rewrite N.pow2_bits_eqb. destruct (bool_decide_reflect (i = j)) as [->|Hn]; [apply N.eqb_refl|]. apply N.eqb_neq. lia. Qed.
Lemma bit_lor w v j : bit (N.lor w v) j = bit w j || bit v j. Proof. apply N.lor_spec. Qed.
Lemma bit_ldiff w v j : bit (N.ldiff w v) j = bit w j && negb (bit v j). Proof. apply N.ldiff_spec. Qed.
Lemma bit_land w v j : bit (N.land w v) j = bit w j && bit v j. Proof. apply N.land_spec. Qed.
Lemma bit_0 j : bit 0 j = false. Proof. apply N.bits_0. Qed.
Lemma bits_eq w v : (forall j, bit w j = bit v j) -> w = v.
Proof. intros H. apply N.bits_inj. intros k. specialize (H (N.to_nat k)). unfold bit in H. by rewrite N2Nat.id in H. Qed.
Lemma bits_ne0 w : w <> 0%N <-> exists j, bit w j = true.
Proof.
  split.
  - intros H. exists (N.to_nat (N.log2 w)). unfold bit. rewrite N2Nat.id. by apply N.bit_log2.
  - intros [j Hj] ->. by rewrite bit_0 in Hj.
Qed.
Lemma land_pow w i : negb (N.land w (2 ^ N.of_nat i) =? 0)%N = bit w i.
Proof.
  destruct (N.eqb_spec (N.land w (2 ^ N.of_nat i)) 0) as [E|E]; cbn [negb].
  - pose proof (bit_land w (2 ^ N.of_nat i) i) as H. rewrite E, bit_0, bit_pow, bool_decide_eq_true_2, andb_true_r in H by done. done.
  - apply bits_ne0 in E as [j Hj]. rewrite bit_land, bit_pow in Hj. apply andb_prop in Hj as [H1 H2]. apply bool_decide_eq_true in H2 as ->. done.
Qed.
Lemma w64_lor w v : w64 w -> w64 v -> w64 (N.lor w v).
Proof. rewrite !w64_bits. intros H1 H2 i Hi. by rewrite N.lor_spec, H1, H2. Qed.
Lemma w64_ldiff w v : w64 w -> w64 (N.ldiff w v).
Proof. rewrite !w64_bits. intros H1 i Hi. by rewrite N.ldiff_spec, H1. Qed.
Lemma w64_pow i : i < 64 -> w64 (2 ^ N.of_nat i).
Proof. intros H. apply N.pow_lt_mono_r; lia. Qed.
Lemma pos_ffs_ok p : exists t, pos_ffs p = S t /\ bit (Npos p) t = true /\ forall u, u < t -> bit (Npos p) u = false.
Proof.
  induction p as [p IH|p (t & E & H1 & H2)|]; cbn [pos_ffs].
  - exists 0. split_and!; [done..|lia].
  - rewrite E. exists (S t). split; [done|]. unfold bit in *. replace (N.pos p~0) with (2 * N.pos p)%N by done. split.
    + rewrite Nat2N.inj_succ, N.testbit_even_succ by lia. done.
    + intros [|u] Hu; [apply N.testbit_even_0|]. rewrite Nat2N.inj_succ, N.testbit_even_succ by lia. apply H2. lia.
  - exists 0. split_and!; [done..|lia].
Qed.
Lemma ffsll_ok w : w <> 0%N -> exists t, ffsll w = S t /\ bit w t = true /\ forall u, u < t -> bit w u = false.
Proof. intros H. destruct w as [|p]; [done|]. apply pos_ffs_ok. Qed.
Lemma bit_shiftr w k j : bit (N.shiftr w (N.of_nat k)) j = bit w (k + j).
Proof. unfold bit. rewrite N.shiftr_spec by lia. f_equal. lia. Qed.
Lemma shiftr_0_all w k : (forall j, k <= j -> bit w j = false) <-> N.shiftr w (N.of_nat k) = 0%N.
Proof.
  split.
  - intros H. apply bits_eq. intros j. rewrite bit_shiftr, bit_0. apply H. lia.
  - intros E j Hj. pose proof (bit_shiftr w k (j - k)) as H. rewrite E, bit_0 in H. rewrite H. f_equal. lia.
Qed.

(** ** representation *)
Definition brep (b : bitset) (ws : list N) : Prop :=
  Forall (fun w => w64 w) ws /\
  (b_N b = 0 /\ b_arr b = N.of_nat (length ws) :: ws \/ b_N b <> 0 /\ b_N b = length ws /\ b_arr b = ws).
Definition has (ws : list N) (i : nat) : bool := match ws !! (i / 64) with Some w => bit w (i mod 64) | None => false end.
Lemma numWords_ok b ws : brep b ws -> numWords b = Some (length ws).
Proof.
  intros (_ & [[H1 H2]|[H1 [H2 H3]]]); unfold numWords.
  - rewrite H1, H2. cbn. by rewrite Nat2N.id.
  - rewrite (proj2 (Nat.eqb_neq _ _) H1). by rewrite H2.
Qed.
Lemma word_ok b ws i : brep b ws -> word b i = ws !! i.
Proof.
  intros HB. unfold word. rewrite (numWords_ok _ _ HB). cbn [mbind option_bind]. destruct (Nat.ltb_spec i (length ws)) as [Hi|Hi].
  - destruct HB as (_ & [[H1 H2]|[H1 [H2 H3]]]); unfold offset.
    + rewrite H1, H2. cbn [Nat.eqb]. rewrite Nat.add_1_r. done.
    + rewrite (proj2 (Nat.eqb_neq _ _) H1), H3. by rewrite Nat.add_0_r.
  - by rewrite lookup_ge_None_2.
Qed.
Lemma set_word_ok b ws i w : brep b ws -> i < length ws -> w64 w -> exists b', set_word b i w = Some b' /\ brep b' (<[i := w]> ws) /\ b_N b' = b_N b.
Proof.
  intros HB Hi Hw. unfold set_word. rewrite (numWords_ok _ _ HB). cbn [mbind option_bind]. rewrite (proj2 (Nat.ltb_lt _ _) Hi). cbn [andb].
  assert (i + offset b <? length (b_arr b) = true) as ->.
  { apply Nat.ltb_lt. destruct HB as (_ & [[H1 H2]|[H1 [H2 H3]]]); unfold offset.
    - rewrite H1, H2. cbn [Nat.eqb length]. lia.
    - rewrite (proj2 (Nat.eqb_neq _ _) H1), H3. lia. }
  eexists. split; [done|]. split; [|done]. destruct HB as (HF & HB). split; [by apply Forall_insert|]. cbn [b_N b_arr]. rewrite insert_length.
  unfold offset. destruct HB as [[H1 H2]|[H1 [H2 H3]]]; [left|right].
  - split; [done|]. rewrite H1, H2. cbn [Nat.eqb]. rewrite Nat.add_1_r. done.
  - split; [done|]. split; [done|]. rewrite (proj2 (Nat.eqb_neq _ _) H1), H3. by rewrite Nat.add_0_r.
Qed.
Lemma brep_word b ws i w : brep b ws -> ws !! i = Some w -> w64 w.
Proof. intros (HF & _) E. by eapply Forall_lookup_1 in HF. Qed.
Lemma has_insert ws i w j : i < length ws -> has (<[i := w]> ws) j = if j / 64 =? i then bit w (j mod 64) else has ws j.
Proof.
  intros Hi. unfold has. destruct (Nat.eqb_spec (j / 64) i) as [->|Hn]; [by rewrite list_lookup_insert|]. by rewrite list_lookup_insert_ne.
Qed.
Lemma div_mod_eq i j : j / 64 = i / 64 -> j mod 64 = i mod 64 -> j = i.
Proof. intros H1 H2. rewrite (Nat.div_mod i 64), (Nat.div_mod j 64) by lia. congruence. Qed.
Lemma div_lt i n : i < 64 * n -> i / 64 < n.
Proof. intros H. apply Nat.div_lt_upper_bound; lia. Qed.

(** the set represented *)
Definition binv (b : bitset) (n : nat) (s : gset nat) : Prop := exists ws, brep b ws /\ length ws = n /\ forall i, i ∈ s <-> has ws i = true.
Lemma has_lt ws i : has ws i = true -> i < 64 * length ws.
Proof.
  unfold has. destruct (ws !! (i / 64)) as [w|] eqn:E; [|done]. intros _. apply lookup_lt_Some in E.
  pose proof (Nat.div_mod i 64). pose proof (Nat.mod_upper_bound i 64). lia.
Qed.
Lemma add_ok b n s i : binv b n s -> i < 64 * n -> exists b', b_add b i = Some b' /\ binv b' n ({[i]} ∪ s) /\ b_N b' = b_N b.
Proof.
  intros (ws & HB & Hn & Hs) Hi. pose proof (div_lt _ _ Hi) as Hd. rewrite <- Hn in Hd. pose proof (Nat.mod_upper_bound i 64 ltac:(lia)) as Hm.
  destruct (lookup_lt_is_Some_2 _ _ Hd) as [w Ew]. unfold b_add. rewrite (word_ok _ _ _ HB), Ew. cbn [mbind option_bind]. rewrite mask_ok by done. cbn [mbind option_bind].
  pose proof (brep_word _ _ _ _ HB Ew) as Hw.
  destruct (set_word_ok b ws (i / 64) (N.lor w (2 ^ N.of_nat (i mod 64))) HB Hd) as (b' & -> & HB' & EN); [apply w64_lor; [done|by apply w64_pow]|].
  exists b'. split; [done|]. split; [|done]. exists (<[i / 64 := N.lor w (2 ^ N.of_nat (i mod 64))]> ws). split; [done|]. split; [by rewrite insert_length|].
  intros j. rewrite elem_of_union, elem_of_singleton, Hs, has_insert by done. destruct (Nat.eqb_spec (j / 64) (i / 64)) as [E|E].
  - unfold has. rewrite E, Ew, bit_lor, bit_pow. destruct (bool_decide_reflect (i mod 64 = j mod 64)) as [E'|E'].
    + rewrite orb_true_r. split; [done|]. intros _. left. by apply div_mod_eq.
    + rewrite orb_false_r. split; [|tauto]. intros [->|]; done.
  - split; [|tauto]. intros [->|]; done.
Qed.
Lemma remove_ok b n s i : binv b n s -> i < 64 * n -> exists b', b_remove b i = Some b' /\ binv b' n (s ∖ {[i]}) /\ b_N b' = b_N b.
Proof.
  intros (ws & HB & Hn & Hs) Hi. pose proof (div_lt _ _ Hi) as Hd. rewrite <- Hn in Hd. pose proof (Nat.mod_upper_bound i 64 ltac:(lia)) as Hm.
  destruct (lookup_lt_is_Some_2 _ _ Hd) as [w Ew]. unfold b_remove. rewrite (word_ok _ _ _ HB), Ew. cbn [mbind option_bind]. rewrite mask_ok by done. cbn [mbind option_bind].
  pose proof (brep_word _ _ _ _ HB Ew) as Hw.
  destruct (set_word_ok b ws (i / 64) (N.ldiff w (2 ^ N.of_nat (i mod 64))) HB Hd) as (b' & -> & HB' & EN); [by apply w64_ldiff|].
  exists b'. split; [done|]. split; [|done]. exists (<[i / 64 := N.ldiff w (2 ^ N.of_nat (i mod 64))]> ws). split; [done|]. split; [by rewrite insert_length|].
  intros j. rewrite elem_of_difference, elem_of_singleton, Hs, has_insert by done. destruct (Nat.eqb_spec (j / 64) (i / 64)) as [E|E].
  - unfold has. rewrite E, Ew, bit_ldiff, bit_pow. destruct (bool_decide_reflect (i mod 64 = j mod 64)) as [E'|E']; cbn [negb].
    + rewrite andb_false_r. split; [|done]. intros [_ H]. destruct H. by apply div_mod_eq.
    + rewrite andb_true_r. split; [tauto|]. intros H. split; [done|]. intros ->. done.
  - split; [tauto|]. intros H. split; [done|]. intros ->. done.
Qed.
Lemma has_zero ws : (forall w, w ∈ ws -> w = 0%N) -> forall i, has ws i = false.
Proof. intros H i. unfold has. destruct (ws !! (i / 64)) as [w|] eqn:E; [|done]. apply elem_of_list_lookup_2 in E. rewrite (H w E). apply bit_0. Qed.
Lemma zero_ok b ws k : brep b ws -> k <= length ws ->
  exists b', ofold (fun b i => set_word b i 0%N) (seq k (length ws - k)) b = Some b' /\ brep b' (take k ws ++ replicate (length ws - k) 0%N) /\ b_N b' = b_N b.
Proof.
  intros HB Hk. remember (length ws - k) as d eqn:Ed. revert b ws k HB Hk Ed. induction d as [|d IH]; intros b ws k HB Hk Ed.
  - cbn. exists b. split; [done|]. rewrite app_nil_r, take_ge by lia. done.
  - cbn [seq ofold]. destruct (set_word_ok b ws k 0%N HB ltac:(lia)) as (b1 & -> & HB1 & E1); [lia|].
    destruct (IH b1 (<[k := 0%N]> ws) (S k)) as (b2 & E2 & HB2 & E3); [done|rewrite insert_length; lia|rewrite insert_length; lia|].
    exists b2. split; [done|]. split; [|congruence]. rewrite (take_S_r _ _ 0%N), take_insert, <- app_assoc in HB2 by (try apply list_lookup_insert; lia). exact HB2.
Qed.
Lemma clear_ok b n s : binv b n s -> exists b', b_clear b = Some b' /\ binv b' n ∅ /\ b_N b' = b_N b.
Proof.
  intros (ws & HB & Hn & Hs). unfold b_clear. rewrite (numWords_ok _ _ HB). cbn [mbind option_bind]. destruct (zero_ok b ws 0 HB) as (b' & E & HB' & EN); [lia|].
  rewrite Nat.sub_0_r in *. exists b'. split; [exact E|]. split; [|done]. eexists. split; [exact HB'|]. split; [rewrite app_length, take_length, replicate_length; lia|].
  intros i. rewrite has_zero; [|intros w Hw; by apply elem_of_replicate_inv in Hw]. set_solver.
Qed.
Lemma new_ok cN raw x n : bv_made cN n raw x -> exists b, b_new cN raw x = Some b /\ binv b n (bv_new cN x) /\ b_N b = cN.
Proof.
  unfold bv_made, b_new, bv_new. intros H. destruct (Nat.eqb_spec cN 0) as [->|HN].
  - destruct H as (-> & Hl). destruct raw as [|r raw]; [done|]. injection Hl as Hl. cbn [insert list_insert].
    assert (exists b, brep b (replicate n 0%N) /\ b_N b = 0 /\ ofold (fun b i => set_word b i 0%N) (seq 0 n) (BitSet 0 (N.of_nat n :: raw)) = Some b) as (b & HB & EN & E).
    { (* the words are unknown, perhaps not even words: only their places matter *)
      assert (forall d k (b : bitset) rs, k + d = n -> b_N b = 0 -> length rs = d -> b_arr b = N.of_nat n :: replicate k 0%N ++ rs ->
        exists b', brep b' (replicate n 0%N) /\ b_N b' = 0 /\ ofold (fun b i => set_word b i 0%N) (seq k d) b = Some b') as G.
      { induction d as [|d IH]; intros k b rs Hkd EN Hrs Ea; cbn [seq ofold].
        - exists b. split; [|done]. destruct rs; [|done]. rewrite app_nil_r in Ea. split; [apply Forall_replicate; lia|]. left. split; [done|]. rewrite Ea, replicate_length. by replace k with n by lia.
        - destruct rs as [|r' rs]; [done|]. unfold set_word at 1, numWords. rewrite EN, Ea. cbn [Nat.eqb lookup list_lookup fmap option_fmap option_map mbind option_bind]. rewrite Nat2N.id.
          unfold offset. rewrite EN. cbn [Nat.eqb]. rewrite (proj2 (Nat.ltb_lt k n)) by lia. rewrite (proj2 (Nat.ltb_lt (k + 1) _)) by (cbn [length]; rewrite app_length, replicate_length; cbn [length]; lia). cbn [andb].
          apply (IH (S k) _ rs); [lia|done|by injection Hrs|]. cbn [b_arr]. rewrite Nat.add_1_r, insert_S. f_equal.
          rewrite insert_app_r_alt by (rewrite replicate_length; lia). rewrite replicate_length, Nat.sub_diag. cbn [insert list_insert]. rewrite replicate_S_end, <- app_assoc. done. }
      destruct (G n 0 (BitSet 0 (N.of_nat n :: raw)) raw) as (b & A1 & A2 & A3); try done. by exists b. }
    unfold numWords. cbn [b_N Nat.eqb b_arr lookup list_lookup fmap option_fmap option_map mbind option_bind]. rewrite Nat2N.id, Nat.sub_0_r. rewrite E. exists b. split; [done|]. split; [|done].
    exists (replicate n 0%N). split; [done|]. split; [apply replicate_length|]. intros i. rewrite has_zero; [|intros w Hw; by apply elem_of_replicate_inv in Hw]. set_solver.
  - destruct H as (-> & Hl & Hx). destruct raw as [|r raw]; [cbn in Hl; congruence|]. cbn [insert list_insert]. unfold numWords at 1. cbn [b_N]. rewrite (proj2 (Nat.eqb_neq _ _) HN). cbn [mbind option_bind].
    assert (exists b, brep b (x :: replicate (cN - 1) 0%N) /\ b_N b = cN /\ ofold (fun b i => set_word b i 0%N) (seq 1 (cN - 1)) (BitSet cN (x :: raw)) = Some b) as (b & HB & EN & E).
    { assert (forall d k (b : bitset) rs, 1 + k + d = cN -> b_N b = cN -> length rs = d -> b_arr b = x :: replicate k 0%N ++ rs ->
        exists b', brep b' (x :: replicate (cN - 1) 0%N) /\ b_N b' = cN /\ ofold (fun b i => set_word b i 0%N) (seq (1 + k) d) b = Some b') as G.
      { induction d as [|d IH]; intros k b rs Hkd EN Hrs Ea; cbn [seq ofold].
        - exists b. split; [|done]. destruct rs; [|done]. rewrite app_nil_r in Ea. split; [constructor; [done|apply Forall_replicate; lia]|]. right. rewrite Ea. cbn [length]. rewrite replicate_length, EN. split; [done|]. split; [lia|]. do 2 f_equal. lia.
        - destruct rs as [|r' rs]; [done|]. unfold set_word at 1, numWords. rewrite EN, Ea. rewrite (proj2 (Nat.eqb_neq _ _) HN). cbn [mbind option_bind].
          unfold offset. rewrite EN, (proj2 (Nat.eqb_neq _ _) HN). rewrite (proj2 (Nat.ltb_lt (1 + k) cN)) by lia. rewrite (proj2 (Nat.ltb_lt (1 + k + 0) _)) by (cbn [length]; rewrite app_length, replicate_length; cbn [length]; lia). cbn [andb].
          apply (IH (S k) _ rs); [lia|done|by injection Hrs|]. cbn [b_arr]. rewrite Nat.add_0_r. cbn [Nat.add]. rewrite insert_S. f_equal.
          rewrite insert_app_r_alt by (rewrite replicate_length; lia). rewrite replicate_length, Nat.sub_diag. cbn [insert list_insert]. rewrite replicate_S_end, <- app_assoc. done. }
      destruct (G (cN - 1) 0 (BitSet cN (x :: raw)) raw) as (b & A1 & A2 & A3); try done; [lia|cbn in Hl; lia|]. by exists b. }
    rewrite E. exists b. split; [done|]. split; [|done]. eexists. split; [exact HB|]. split; [cbn [length]; rewrite replicate_length; lia|].
    intros i. rewrite elem_of_list_to_set, elem_of_list_filter, elem_of_seq. unfold has. destruct (decide (i < 64)) as [Hi|Hi].
    + rewrite (Nat.div_small i 64), (Nat.mod_small i 64) by lia. cbn. unfold bit. split; [tauto|]. intros ->. split; [done|lia].
    + assert (1 <= i / 64) as Hd by (apply Nat.div_le_lower_bound; lia). destruct (i / 64) as [|d]; [lia|]. cbn [lookup list_lookup].
      destruct (replicate (cN - 1) 0%N !! d) as [w|] eqn:Ew; [apply lookup_replicate in Ew as [-> _]; rewrite bit_0|]; split; try done; lia.
Qed.
Lemma bexec_ok b n s s' c : binv b n s -> bv_exec n s c = Some s' -> exists b', bexec b c = Some b' /\ binv b' n s' /\ b_N b' = b_N b.
Proof.
  intros HB E. destruct c as [i|i|]; cbn [bv_exec bexec] in *.
  - destruct (Nat.ltb_spec i (64 * n)); [|done]. injection E as <-. by apply add_ok.
  - destruct (Nat.ltb_spec i (64 * n)); [|done]. injection E as <-. by apply remove_ok.
  - injection E as <-. by eapply clear_ok.
Qed.
Lemma bexec_all_ok n l : forall b s s', binv b n s -> ofold (bv_exec n) l s = Some s' -> exists b', ofold bexec l b = Some b' /\ binv b' n s'.
Proof.
  induction l as [|c l IH]; intros b s s' HB E; cbn [ofold] in *; [injection E as <-; by exists b|].
  destruct (bv_exec n s c) as [s1|] eqn:E1; [|done]. destruct (bexec_ok _ _ _ _ _ HB E1) as (b1 & -> & HB1 & _). by eapply IH.
Qed.
(** observers *)
Lemma includes_ok b n s i : binv b n s -> i < 64 * n -> b_includes b i = Some (bool_decide (i ∈ s)).
Proof.
  intros (ws & HB & Hn & Hs) Hi. pose proof (div_lt _ _ Hi) as Hd. rewrite <- Hn in Hd. pose proof (Nat.mod_upper_bound i 64 ltac:(lia)) as Hm.
  destruct (lookup_lt_is_Some_2 _ _ Hd) as [w Ew]. unfold b_includes. rewrite (word_ok _ _ _ HB), Ew. cbn [mbind option_bind]. rewrite mask_ok by done. cbn [mbind option_bind].
  f_equal. rewrite land_pow. specialize (Hs i). unfold has in Hs. rewrite Ew in Hs. destruct (bool_decide_reflect (i ∈ s)) as [H|H]; [tauto|]. destruct (bit w (i mod 64)); tauto.
Qed.
Lemma words_eq_ok b o ws vs : brep b ws -> brep o vs -> forall k i, i + k = length ws -> length ws = length vs -> words_eq b o i k = Some (bool_decide (drop i ws = drop i vs)).
Proof.
  intros HB HO. induction k as [|k IH]; intros i Hi Hl; cbn [words_eq].
  - rewrite !drop_ge by lia. done.
  - assert (i < length ws) as H1 by lia. assert (i < length vs) as H2 by lia. destruct (lookup_lt_is_Some_2 _ _ H1) as [w Ew], (lookup_lt_is_Some_2 _ _ H2) as [v Ev].
    rewrite (word_ok _ _ _ HB), (word_ok _ _ _ HO), Ew, Ev. cbn [mbind option_bind]. rewrite (drop_S _ _ _ Ew), (drop_S _ _ _ Ev). destruct (N.eqb_spec w v) as [->|Hne]; cbn [negb].
    + rewrite IH by lia. f_equal. rewrite Nat.add_1_r. apply bool_decide_ext. split; [by intros ->|by injection 1].
    + rewrite bool_decide_eq_false_2; [done|]. by injection 1.
Qed.
Lemma word_has ws i w j : ws !! i = Some w -> j < 64 -> has ws (i * 64 + j) = bit w j.
Proof.
  intros E Hj. unfold has. rewrite Nat.add_comm, Nat.div_add, Nat.mod_add by lia. rewrite Nat.div_small, Nat.mod_small by lia. cbn [Nat.add]. by rewrite E.
Qed.
Lemma has_ext ws vs : Forall (fun w => w64 w) ws -> Forall (fun w => w64 w) vs -> length ws = length vs -> (forall i, has ws i = has vs i) -> ws = vs.
Proof.
  intros F1 F2 Hl H. apply list_eq_same_length with (length ws); [done|done|]. intros i w v Hi Ew Ev. apply bits_eq. intros j. destruct (decide (j < 64)) as [Hj|Hj].
  - rewrite <- (word_has ws i w j Ew Hj), <- (word_has vs i v j Ev Hj). apply H.
  - rewrite !w64_bit; [done| | | |]; try lia; [by eapply Forall_lookup_1 in F2|by eapply Forall_lookup_1 in F1].
Qed.
Lemma eq_ok b o n n' s s' : binv b n s -> binv o n' s' -> b_eq b o = Some (bool_decide (n = n' /\ s = s')).
Proof.
  intros (ws & HB & Hn & Hs) (vs & HO & Hn' & Hs'). unfold b_eq. rewrite (numWords_ok _ _ HB), (numWords_ok _ _ HO). cbn [mbind option_bind]. rewrite Hn, Hn'.
  destruct (Nat.eqb_spec n' n) as [->|Hne]; cbn [negb].
  - rewrite <- Hn at 1. rewrite (words_eq_ok _ _ _ _ HB HO) by lia. rewrite !drop_0. f_equal. apply bool_decide_ext. split.
    + intros ->. split; [done|]. apply set_eq. intros i. rewrite Hs, Hs'. done.
    + intros [_ ->]. apply has_ext; [apply HB|apply HO|lia|]. intros i. specialize (Hs i). specialize (Hs' i). destruct (has ws i), (has vs i); try done; destruct Hs, Hs'; naive_solver.
  - rewrite bool_decide_eq_false_2; [done|]. intros [-> _]. done.
Qed.
Lemma hash_ok b o n s : binv b n s -> binv o n s -> exists h, b_hash b = Some h /\ b_hash o = Some h.
Proof.
  intros (ws & HB & Hn & Hs) (vs & HO & Hn' & Hs').
  assert (ws = vs) as <-. { apply has_ext; [apply HB|apply HO|lia|]. intros i. specialize (Hs i). specialize (Hs' i). destruct (has ws i), (has vs i); try done; destruct Hs, Hs'; naive_solver. }
  exists (foldl (fun h w => (h + w) * 314159257 mod 2 ^ 64)%N 0%N ws).
  assert (forall b, brep b ws -> b_hash b = Some (foldl (fun h w => (h + w) * 314159257 mod 2 ^ 64)%N 0%N ws)) as G; [|by rewrite !G].
  intros b' HB'. unfold b_hash. rewrite (numWords_ok _ _ HB'). cbn [mbind option_bind].
  destruct (ofor_inv (fun h i => w ← word b' i; Some ((h + w) * 314159257 mod 2 ^ 64)%N) (fun i h => h = foldl (fun h w => (h + w) * 314159257 mod 2 ^ 64)%N 0%N (take i ws)) (length ws) 0%N) as (h & -> & ->).
  - done.
  - intros i h Hi ->. destruct (lookup_lt_is_Some_2 _ _ Hi) as [w Ew]. rewrite (word_ok _ _ _ HB'), Ew. cbn [mbind option_bind]. eexists. split; [done|]. by rewrite (take_S_r _ _ _ Ew), foldl_app.
  - by rewrite firstn_all.
Qed.
Lemma empty_ok b n s : binv b n s -> b_empty b = Some (bool_decide (s = ∅)).
Proof.
  intros (ws & HB & Hn & Hs). unfold b_empty. rewrite (numWords_ok _ _ HB). cbn [mbind option_bind].
  assert (forall k i, i + k = length ws -> all_zero b i k = Some (bool_decide (Forall (fun w => w = 0%N) (drop i ws)))) as G.
  { induction k as [|k IH]; intros i Hi; cbn [all_zero].
    - rewrite drop_ge by lia. by rewrite bool_decide_eq_true_2.
    - assert (i < length ws) as H1 by lia. destruct (lookup_lt_is_Some_2 _ _ H1) as [w Ew]. rewrite (word_ok _ _ _ HB), Ew. cbn [mbind option_bind]. rewrite (drop_S _ _ _ Ew).
      destruct (N.eqb_spec w 0) as [->|Hne]; cbn [negb].
      + rewrite IH by lia. f_equal. rewrite Nat.add_1_r. apply bool_decide_ext. rewrite Forall_cons. tauto.
      + rewrite bool_decide_eq_false_2; [done|]. rewrite Forall_cons. tauto. }
  rewrite G by lia. f_equal. apply bool_decide_ext. rewrite drop_0. split.
  - intros HF. apply elem_of_equiv_empty_L. intros i. rewrite Hs, has_zero; [done|]. intros w Hw. by eapply Forall_forall in HF.
  - intros ->. apply Forall_lookup_2. intros i w Ew. destruct (decide (w = 0%N)) as [|Hne]; [done|]. apply bits_ne0 in Hne as [j Hj].
    assert (j < 64) as Hj'. { destruct (decide (j < 64)); [done|]. rewrite w64_bit in Hj; [done| |lia]. by eapply brep_word. }
    rewrite <- (word_has _ _ _ _ Ew Hj'), <- Hs in Hj. set_solver.
Qed.
Lemma intersects_ok b o n n' s s' : binv b n s -> binv o n' s' -> b_intersects b o = Some (bool_decide (exists i, i ∈ s /\ i ∈ s')).
Proof.
  intros (ws & HB & Hn & Hs) (vs & HO & Hn' & Hs'). unfold b_intersects. rewrite (numWords_ok _ _ HB), (numWords_ok _ _ HO). cbn [mbind option_bind].
  assert (forall k i, i + k = length ws `min` length vs -> exists r, any_common b o i k = Some r /\ (r = true <-> exists j w v, i <= j /\ ws !! j = Some w /\ vs !! j = Some v /\ N.land w v <> 0%N)) as G.
  { induction k as [|k IH]; intros i Hi; cbn [any_common].
    - exists false. split; [done|]. split; [done|]. intros (j & w & v & Hj & Ew & Ev & _). apply lookup_lt_Some in Ew, Ev. lia.
    - assert (i < length ws) as H1 by lia. assert (i < length vs) as H2 by lia. destruct (lookup_lt_is_Some_2 _ _ H1) as [w Ew], (lookup_lt_is_Some_2 _ _ H2) as [v Ev].
      rewrite (word_ok _ _ _ HB), (word_ok _ _ _ HO), Ew, Ev. cbn [mbind option_bind]. destruct (N.eqb_spec (N.land w v) 0) as [E0|Hne]; cbn [negb].
      + destruct (IH (i + 1)) as (r & -> & Hr); [lia|]. exists r. split; [done|]. rewrite Hr. split; intros (j & w' & v' & Hj & Ew' & Ev' & Hn0).
        * exists j, w', v'. split; [lia|]. done.
        * exists j, w', v'. split; [|done]. destruct (decide (j = i)) as [->|]; [|lia]. congruence.
      + exists true. split; [done|]. split; [|done]. intros _. exists i, w, v. split; [lia|]. done. }
  destruct (G _ 0 eq_refl) as (r & -> & Hr). f_equal. symmetry. destruct (bool_decide_reflect (exists i, i ∈ s /\ i ∈ s')) as [(i & H1 & H2)|Hn0].
  - symmetry. apply Hr. rewrite Hs in H1. rewrite Hs' in H2. unfold has in *. destruct (ws !! (i / 64)) as [w|] eqn:Ew; [|done]. destruct (vs !! (i / 64)) as [v|] eqn:Ev; [|done].
    exists (i / 64), w, v. split; [lia|]. split; [done|]. split; [done|]. apply bits_ne0. exists (i mod 64). by rewrite bit_land, H1, H2.
  - destruct r; [|done]. destruct (proj1 Hr eq_refl) as (j & w & v & _ & Ew & Ev & Hne). exfalso. apply Hn0. apply bits_ne0 in Hne as [t Ht]. rewrite bit_land in Ht. apply andb_prop in Ht as [T1 T2].
    assert (t < 64) as Hj'. { destruct (decide (t < 64)); [done|]. rewrite w64_bit in T1; [done| |lia]. by eapply (brep_word b). }
    exists (j * 64 + t). rewrite Hs, Hs', (word_has _ _ _ _ Ew Hj'), (word_has _ _ _ _ Ev Hj'). done.
Qed.

(** iteration: [at_ it k]: the numbers from k on are still to come *)
Definition at_ (ws : list N) (it : biter) : Prop :=
  exists w, ws !! i_pos it = Some w /\ i_bit it <= 64 /\ i_word it = N.shiftr w (N.of_nat (i_bit it)).
Definition from (it : biter) : nat := i_pos it * 64 + i_bit it.
Lemma step_ok ws it : Forall (fun w => w64 w) ws -> at_ ws it -> i_word it <> 0%N ->
  at_ ws (bi_step it) /\ 1 <= i_bit (bi_step it) /\ from it <= bi_get (bi_step it) /\ has ws (bi_get (bi_step it)) = true /\
  forall j, from it <= j -> j < bi_get (bi_step it) -> has ws j = false.
Proof.
  intros HF (w & Ew & Hb & Hw) Hne. pose proof (Forall_lookup_1 _ _ _ _ HF Ew) as Hw64. cbn in Hw64. unfold bi_step, bi_get, from. destruct (N.eqb_spec (i_word it) (2 ^ 63)) as [E|E].
  - cbn [i_pos i_bit i_word].
    assert (i_bit it = 0) as Hb0.
    { pose proof (bit_shiftr w (i_bit it) 63) as H. rewrite <- Hw, E in H. change (2 ^ 63)%N with (2 ^ N.of_nat 63)%N in H. rewrite bit_pow, bool_decide_eq_true_2 in H by done.
      destruct (decide (i_bit it = 0)); [done|]. rewrite w64_bit in H by (done || lia). done. }
    rewrite Hb0 in *. assert (w = (2 ^ N.of_nat 63)%N) as Ew'. { rewrite Hw in E. rewrite N.shiftr_0_r in E. exact E. }
    split; [|split; [lia|split; [lia|split]]].
    + exists w. cbn [i_pos i_bit i_word]. split; [done|]. split; [lia|]. symmetry. apply shiftr_0_all. intros j Hj. by apply w64_bit.
    + replace (i_pos it * 64 + 64 - 1) with (i_pos it * 64 + 63) by lia. rewrite (word_has _ _ _ _ Ew) by lia. rewrite Ew', bit_pow. by apply bool_decide_eq_true_2.
    + intros j H1 H2. replace j with (i_pos it * 64 + (j - i_pos it * 64)) by lia. rewrite (word_has _ _ _ _ Ew) by lia. rewrite Ew', bit_pow. apply bool_decide_eq_false_2. lia.
  - destruct (ffsll_ok _ Hne) as (t & Et & T1 & T2). rewrite Et. cbn [i_pos i_bit i_word]. rewrite Hw, bit_shiftr in T1.
    assert (i_bit it + t < 64) as Hlt. { destruct (decide (i_bit it + t < 64)); [done|]. rewrite w64_bit in T1 by (done || lia). done. }
    split; [|split; [lia|split; [lia|split]]].
    + exists w. cbn [i_pos i_bit i_word]. split; [done|]. split; [lia|]. rewrite Hw, N.shiftr_shiftr. f_equal. lia.
    + replace (i_pos it * 64 + (i_bit it + S t) - 1) with (i_pos it * 64 + (i_bit it + t)) by lia. by rewrite (word_has _ _ _ _ Ew).
    + intros j H1 H2. replace j with (i_pos it * 64 + (i_bit it + (j - i_pos it * 64 - i_bit it))) by lia. rewrite (word_has _ _ _ _ Ew) by lia.
      rewrite <- bit_shiftr, <- Hw. apply T2. lia.
Qed.
Lemma next_ok b ws : brep b ws -> forall fuel it, at_ ws it -> length ws - i_pos it <= fuel ->
  exists it', bi_next fuel b it = Some it' /\
  ((it' = BIter (length ws) 0 0 /\ forall j, from it <= j -> has ws j = false) \/
   (at_ ws it' /\ 1 <= i_bit it' /\ from it <= bi_get it' /\ has ws (bi_get it') = true /\ forall j, from it <= j -> j < bi_get it' -> has ws j = false)).
Proof.
  intros HB. induction fuel as [|f IH]; intros it HA Hf; pose proof HA as (w & Ew & Hb & Hw); pose proof (lookup_lt_Some _ _ _ Ew) as Hp; cbn [bi_next]; destruct (N.eqb_spec (i_word it) 0) as [E0|Hne]; cbn [negb];
    try (exists (bi_step it); split; [done|]; right; apply step_ok; [apply HB|done|done]); [lia|].
  assert (forall j, from it <= j -> j < (i_pos it + 1) * 64 -> has ws j = false) as Hz.
  { intros j H1 H2. unfold from in H1. replace j with (i_pos it * 64 + (j - i_pos it * 64)) by lia. rewrite (word_has _ _ _ _ Ew) by lia. rewrite Hw in E0. apply (proj2 (shiftr_0_all w (i_bit it)) E0). lia. }
  rewrite (numWords_ok _ _ HB). cbn [mbind option_bind]. destruct (Nat.leb_spec (length ws) (i_pos it + 1)) as [Hl|Hl].
  - eexists. split; [done|]. left. split; [done|]. intros j Hj. destruct (has ws j) eqn:Eh; [|done]. pose proof (has_lt _ _ Eh) as Hlt. rewrite (Hz j) in Eh; [done|done|lia].
  - assert (i_pos it + 1 < length ws) as Hl' by lia. destruct (lookup_lt_is_Some_2 _ _ Hl') as [w' Ew']. rewrite (word_ok _ _ _ HB), Ew'. cbn [mbind option_bind].
    destruct (IH (BIter (i_pos it + 1) 0 w')) as (it' & E & Hit).
    + exists w'. cbn [i_pos i_bit i_word]. split; [done|]. split; [lia|]. change (N.of_nat 0) with 0%N. by rewrite N.shiftr_0_r.
    + cbn. lia.
    + exists it'. split; [done|]. unfold from in Hit at 1 2 3. cbn [i_pos i_bit] in Hit. rewrite Nat.add_0_r in Hit.
      assert (from it <= (i_pos it + 1) * 64) as Hfr by (unfold from; lia).
      destruct Hit as [[-> Hn]|(A1 & A2 & A3 & A4 & A5)]; [left|right].
      * split; [done|]. intros j Hj. destruct (decide (j < (i_pos it + 1) * 64)); [by apply Hz|apply Hn; lia].
      * split; [done|]. split; [done|]. split; [lia|]. split; [done|]. intros j H1 H2. destruct (decide (j < (i_pos it + 1) * 64)); [by apply Hz|apply A5; lia].
Qed.
Definition rest (ws : list N) (k : nat) : list nat := filter (fun i => has ws i = true) (seq k (64 * length ws - k)).
Lemma filter_none (P : nat -> Prop) `{!forall x, Decision (P x)} l : (forall x, x ∈ l -> ~ P x) -> filter P l = [].
Proof. intros Hno. induction l as [|x l IH]; [done|]. rewrite filter_cons_False by (apply Hno; left). apply IH. intros y Hy. apply Hno. by right. Qed.
Lemma rest_none ws k : (forall j, k <= j -> has ws j = false) -> rest ws k = [].
Proof. intros H. unfold rest. apply filter_none. intros x Hx. apply elem_of_seq in Hx. rewrite H by lia. done. Qed.
Lemma rest_cons ws k j : k <= j -> has ws j = true -> (forall i, k <= i -> i < j -> has ws i = false) -> rest ws k = j :: rest ws (S j).
Proof.
  intros Hk Hj Hb. pose proof (has_lt _ _ Hj) as Hlt. unfold rest. replace (64 * length ws - k) with ((j - k) + S (64 * length ws - S j)) by lia.
  rewrite seq_app, filter_app. rewrite filter_none; [|intros x Hx; apply elem_of_seq in Hx; rewrite Hb by lia; done]. cbn [app seq]. replace (k + (j - k)) with j by lia. by rewrite filter_cons_True.
Qed.
Lemma all_ok b ws : brep b ws -> forall fuel it,
  (it = BIter (length ws) 0 0 -> bi_all fuel b it = Some []) /\
  (at_ ws it -> 1 <= i_bit it -> 64 * length ws - bi_get it <= fuel -> has ws (bi_get it) = true -> bi_all fuel b it = Some (bi_get it :: rest ws (from it))).
Proof.
  intros HB. induction fuel as [|f IH]; intros it; (split; [intros ->; cbn [bi_all]; unfold bi_end; rewrite (numWords_ok _ _ HB); cbn [mbind option_bind]; unfold bi_eq; cbn [i_pos i_bit]; by rewrite !Nat.eqb_refl|]);
    intros HA Hb Hf Hh; pose proof (has_lt _ _ Hh) as Hlt; [lia|]. pose proof HA as (w & Ew & Hb' & Hw). pose proof (lookup_lt_Some _ _ _ Ew) as Hp.
  cbn [bi_all]. unfold bi_end. rewrite (numWords_ok _ _ HB). cbn [mbind option_bind]. unfold bi_eq. cbn [i_pos i_bit]. rewrite (proj2 (Nat.eqb_neq _ _)) by lia. cbn [andb].
  destruct (next_ok b ws HB (S (length ws)) it HA) as (it' & -> & Hit); [lia|]. cbn [mbind option_bind]. destruct (IH it') as [I1 I2]. destruct Hit as [[-> Hn]|(A1 & A2 & A3 & A4 & A5)].
  - rewrite I1 by done. cbn [mbind option_bind]. by rewrite rest_none.
  - assert (from it = S (bi_get it)) as Hfr by (unfold from, bi_get in *; lia). rewrite I2 by (done || lia). cbn [mbind option_bind]. rewrite (rest_cons ws (from it) (bi_get it')) by done.
    do 3 f_equal. f_equal. unfold from, bi_get. lia.
Qed.
Lemma list_ok b n s : binv b n s -> b_list b = Some (filter (fun i => i ∈ s) (seq 0 (64 * n))).
Proof.
  intros (ws & HB & Hn & Hs).
  assert (filter (fun i => i ∈ s) (seq 0 (64 * n)) = rest ws 0) as ->. { unfold rest. rewrite Nat.sub_0_r, Hn. apply list_filter_iff. intros i. apply Hs. }
  unfold b_list, bi_begin, bi_end. rewrite (numWords_ok _ _ HB). cbn [mbind option_bind]. destruct (Nat.eqb_spec (length ws) 0) as [H0|H0].
  - cbn [mbind option_bind]. destruct (all_ok b ws HB (64 * length ws) (BIter (length ws) 0 0)) as [E _]. rewrite E by done. f_equal. symmetry. apply rest_none. intros j _. unfold has. apply nil_length_inv in H0 as ->. done.
  - assert (0 < length ws) as Hl by lia. destruct (lookup_lt_is_Some_2 _ _ Hl) as [w Ew]. rewrite (word_ok _ _ _ HB), Ew. cbn [mbind option_bind].
    destruct (next_ok b ws HB (S (length ws)) (BIter 0 0 w)) as (it' & -> & Hit).
    + exists w. cbn [i_pos i_bit i_word]. split; [done|]. split; [lia|]. change (N.of_nat 0) with 0%N. by rewrite N.shiftr_0_r.
    + cbn. lia.
    + cbn [mbind option_bind]. unfold from in Hit at 1 2 3. cbn [i_pos i_bit Nat.mul Nat.add] in Hit. destruct (all_ok b ws HB (64 * length ws) it') as [I1 I2]. destruct Hit as [[-> Hn0]|(A1 & A2 & A3 & A4 & A5)].
      * rewrite I1 by done. by rewrite rest_none.
      * rewrite I2 by (done || lia). rewrite (rest_cons ws 0 (bi_get it')) by done. do 3 f_equal. unfold from, bi_get. lia.
Qed.
