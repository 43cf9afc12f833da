(** The grid of a Numberlink board as a numbered graph. *)
From stdpp Require Import strings.
From Verif Require Import Base Sem M_Graph S_Simpath P_Simpath1 P_Simpath2 P_Simpath3 P_Numlin1 M_Numlin S_Numlin.
Local Open Scope nat_scope.

Section grid.
Context (b : board) (Hb : board_ok b).
Notation m := (b_rows b).
Notation n := (b_cols b).

Definition vid (i k : nat) : nat := S (i * n + k).
Definition mm : nat := m * n.
Definition bef (i k a c : nat) : Prop := a < i \/ (a = i /\ c < k).
Definition num (i k : nat) : nat := number b (i, k).
Definition colr (x : nat) : nat := match x with O => 0 | S y => num (y / n) (y mod n) end.

Lemma vid_S i k : vid (S i) k = vid i k + n. Proof. unfold vid. lia. Qed.
Lemma vid_r i k : vid i (S k) = S (vid i k). Proof. unfold vid. lia. Qed.
Lemma vid_n i : vid i n = vid (S i) 0. Proof. unfold vid. lia. Qed.
Lemma vid_lex i k a c : c < n -> k < n -> vid a c < vid i k <-> bef i k a c.
Proof.
  intros Hc Hk. unfold vid, bef. split.
  - intros H. destruct (decide (a < i)) as [|Ha]; [by left|]. right. destruct (decide (a = i)) as [->|Hn]; [lia|].
    assert (S i * n <= a * n) by (apply Nat.mul_le_mono_r; lia). lia.
  - intros [H|[-> H]]; [|lia]. assert (S a * n <= i * n) by (apply Nat.mul_le_mono_r; lia). lia.
Qed.
Lemma vid_inj i k a c : c < n -> k < n -> vid a c = vid i k -> a = i /\ c = k.
Proof.
  intros Hc Hk E. assert (~ bef i k a c) as N1 by (rewrite <- vid_lex by done; lia). assert (~ bef a c i k) as N2 by (rewrite <- vid_lex by done; lia).
  unfold bef in *. lia.
Qed.
Lemma vid_range i k : i < m -> k < n -> 1 <= vid i k <= mm.
Proof. intros Hi Hk. unfold vid, mm. assert (S i * n <= m * n) by (apply Nat.mul_le_mono_r; lia). lia. Qed.
Lemma vid_out i k : m <= i -> mm < vid i k.
Proof. intros Hi. unfold vid, mm. assert (m * n <= i * n) by (apply Nat.mul_le_mono_r; lia). lia. Qed.
Lemma vid_cover x : 1 <= x <= mm -> exists i k, i < m /\ k < n /\ x = vid i k.
Proof.
  intros Hx. destruct Hb as (H1 & H2 & _). exists ((x - 1) / n), ((x - 1) mod n). split; [apply Nat.div_lt_upper_bound; [lia|unfold mm in Hx; lia]|].
  split; [apply Nat.mod_upper_bound; lia|]. unfold vid. pose proof (Nat.div_mod (x - 1) n ltac:(lia)). lia.
Qed.
Lemma vid_col i k : k < n -> colr (vid i k) = num i k.
Proof.
  intros Hk. unfold colr, vid. rewrite Nat.div_add_l, Nat.div_small by lia. replace (i * n + k) with (k + i * n) by lia. rewrite Nat.mod_add, Nat.mod_small by lia. f_equal. lia.
Qed.
Lemma b_num_some i k : i < m -> k < n -> exists t, b_num b i k = Some t /\ (0 <= t)%Z /\ num i k = Z.to_nat t.
Proof.
  intros Hi Hk. destruct Hb as (_ & _ & Hl & Hr & Ht). destruct (lookup_lt_is_Some_2 (b_number b) i) as [r Er]; [lia|].
  destruct (lookup_lt_is_Some_2 r k) as [t Et]; [rewrite (Hr _ _ Er); lia|].
  assert (b_num b i k = Some t) as E by (unfold b_num; by rewrite Er). exists t. split; [done|]. split; [by eapply Ht|].
  unfold num, number. cbn [fst snd]. by rewrite E.
Qed.
Lemma num_out i k : m <= i -> num i k = 0.
Proof. intros Hi. unfold num, number, b_num. cbn [fst snd]. rewrite lookup_ge_None_2; [done|]. destruct Hb as (_ & _ & Hl & _). lia. Qed.
Lemma colr_out x : colr x <> 0 -> 1 <= x <= mm.
Proof.
  destruct x as [|y]; [done|]. cbn [colr]. intros H. destruct Hb as (_ & Hn & _). destruct (decide (m <= y / n)) as [Hm|Hm]; [by rewrite num_out in H|].
  pose proof (Nat.div_mod y n ltac:(lia)). pose proof (Nat.mod_upper_bound y n ltac:(lia)). assert (S (y / n) * n <= m * n) by (apply Nat.mul_le_mono_r; lia). unfold mm. lia.
Qed.

(** ** sets of links *)
Definition rel (hh vv : nat -> nat -> Prop) (x y : nat) : Prop := exists a c,
  (hh a c /\ a < m /\ S c < n /\ ((x = vid a c /\ y = vid a (S c)) \/ (y = vid a c /\ x = vid a (S c)))) \/
  (vv a c /\ S a < m /\ c < n /\ ((x = vid a c /\ y = vid (S a) c) \/ (y = vid a c /\ x = vid (S a) c))).
Definition nbrs (hh vv : nat -> nat -> Prop) (a c y : nat) : Prop :=
  (1 <= c /\ hh a (c - 1) /\ y = vid a (c - 1)) \/ (S c < n /\ hh a c /\ y = vid a (S c)) \/
  (1 <= a /\ vv (a - 1) c /\ y = vid (a - 1) c) \/ (S a < m /\ vv a c /\ y = vid (S a) c).
Lemma rel_nbr hh vv a c y : a < m -> c < n -> rel hh vv (vid a c) y <-> nbrs hh vv a c y.
Proof.
  intros Ha Hc. split.
  - intros (i & k & [(Hh & Hi & Hk & [[E ->]|[-> E]])|(Hv & Hi & Hk & [[E ->]|[-> E]])]).
    + apply vid_inj in E as [-> ->]; [|lia|lia]. right; left. done.
    + apply vid_inj in E as [-> ->]; [|lia|lia]. left. replace (S k - 1) with k by lia. split; [lia|done].
    + apply vid_inj in E as [-> ->]; [|lia|lia]. right; right; right. done.
    + apply vid_inj in E as [-> ->]; [|lia|lia]. right; right; left. replace (S i - 1) with i by lia. split; [lia|done].
  - intros [(H1 & H2 & ->)|[(H1 & H2 & ->)|[(H1 & H2 & ->)|(H1 & H2 & ->)]]].
    + exists a, (c - 1). left. replace (S (c - 1)) with c by lia. split; [done|]. split; [done|]. split; [done|]. by right.
    + exists a, c. left. split; [done|]. split; [done|]. split; [done|]. by left.
    + exists (a - 1), c. right. replace (S (a - 1)) with a by lia. split; [done|]. split; [lia|]. split; [done|]. by right.
    + exists a, c. right. split; [done|]. split; [done|]. split; [done|]. by left.
Qed.
Lemma rel_range hh vv x y : rel hh vv x y -> 1 <= x <= mm /\ 1 <= y <= mm.
Proof.
  intros (a & c & [(_ & Ha & Hc & [[-> ->]|[-> ->]])|(_ & Ha & Hc & [[-> ->]|[-> ->]])]); split; apply vid_range; lia.
Qed.
Lemma rel_mono (hh vv hh' vv' : nat -> nat -> Prop) x y : (forall a c, a < m -> S c < n -> hh a c -> hh' a c) -> (forall a c, S a < m -> c < n -> vv a c -> vv' a c) ->
  rel hh vv x y -> rel hh' vv' x y.
Proof.
  intros H1 H2 (a & c & [(Hh & Ha & Hc & E)|(Hv & Ha & Hc & E)]); exists a, c; [left|right]; (split; [|done]); [by apply H1|by apply H2].
Qed.
Lemma rel_iff (hh vv hh' vv' : nat -> nat -> Prop) : (forall a c, a < m -> S c < n -> hh a c <-> hh' a c) -> (forall a c, S a < m -> c < n -> vv a c <-> vv' a c) ->
  forall x y, rel hh vv x y <-> rel hh' vv' x y.
Proof. intros H1 H2 x y. split; apply rel_mono; intros a c Ha Hc; by apply H1 || by apply H2. Qed.

(** ** the neighbours of a cell, counted *)
Definition lf (h : nat -> nat -> bool) (a c : nat) : bool := (1 <=? c) && h a (c - 1).
Definition rt (h : nat -> nat -> bool) (a c : nat) : bool := (S c <? n) && h a c.
Definition up (v : nat -> nat -> bool) (a c : nat) : bool := (1 <=? a) && v (a - 1) c.
Definition dn (v : nat -> nat -> bool) (a c : nat) : bool := (S a <? m) && v a c.

Definition four (p1 p2 p3 p4 : bool) (a c y : nat) : Prop :=
  (p1 = true /\ y = vid a (c - 1)) \/ (p2 = true /\ y = vid a (S c)) \/ (p3 = true /\ y = vid (a - 1) c) \/ (p4 = true /\ y = vid (S a) c).
Context (Hn2 : 2 <= n).
Lemma four_differ (p1 p3 : bool) a c : a < m -> c < n -> (p1 = true -> 1 <= c) -> (p3 = true -> 1 <= a) ->
  (p1 = true -> vid a (c - 1) <> vid a (S c)) /\ (p1 = true -> p3 = true -> vid a (c - 1) <> vid (a - 1) c) /\ (p1 = true -> vid a (c - 1) <> vid (S a) c) /\
  (p3 = true -> vid a (S c) <> vid (a - 1) c) /\ (vid a (S c) <> vid (S a) c) /\ (p3 = true -> vid (a - 1) c <> vid (S a) c).
Proof.
  intros Ha Hc H1 H3. split_and!.
  - intros E. specialize (H1 E). unfold vid. lia.
  - intros E E3. specialize (H1 E). specialize (H3 E3). destruct a as [|a]; [lia|]. replace (S a - 1) with a by lia. rewrite vid_S. unfold vid. lia.
  - intros E. specialize (H1 E). rewrite vid_S. unfold vid. lia.
  - intros E3. specialize (H3 E3). destruct a as [|a]; [lia|]. replace (S a - 1) with a by lia. rewrite vid_S. unfold vid. lia.
  - rewrite vid_S. unfold vid. lia.
  - intros E3. specialize (H3 E3). destruct a as [|a]; [lia|]. replace (S a - 1) with a by lia. rewrite !vid_S. lia.
Qed.
Lemma four_count p1 p2 p3 p4 a c (Q : nat -> Prop) : a < m -> c < n -> (p1 = true -> 1 <= c) -> (p3 = true -> 1 <= a) ->
  (forall y, Q y <-> four p1 p2 p3 p4 a c y) ->
  ((forall y, ~ Q y) <-> b2n p1 + b2n p2 + b2n p3 + b2n p4 = 0) /\
  ((exists z, forall y, Q y <-> y = z) <-> b2n p1 + b2n p2 + b2n p3 + b2n p4 = 1) /\
  ((exists z z', z <> z' /\ forall y, Q y <-> y = z \/ y = z') <-> b2n p1 + b2n p2 + b2n p3 + b2n p4 = 2).
Proof.
  intros Ha Hc H1 H3 HQ. destruct (four_differ p1 p3 a c Ha Hc H1 H3) as (D1 & D2 & D3 & D4 & D5 & D6). clear H1 H3.
  revert D1 D2 D3 D4 D5 D6 HQ. unfold four. generalize (vid a (c - 1)), (vid a (S c)), (vid (a - 1) c), (vid (S a) c). intros y1 y2 y3 y4 D1 D2 D3 D4 D5 D6 HQ.
  assert (Q1 : p1 = true -> Q y1) by (intros; apply HQ; tauto). assert (Q2 : p2 = true -> Q y2) by (intros; apply HQ; tauto).
  assert (Q3 : p3 = true -> Q y3) by (intros; apply HQ; tauto). assert (Q4 : p4 = true -> Q y4) by (intros; apply HQ; tauto).
  split_and!; split.
  - intros H. destruct p1; [by destruct (H y1); apply Q1|]. destruct p2; [by destruct (H y2); apply Q2|]. destruct p3; [by destruct (H y3); apply Q3|]. destruct p4; [by destruct (H y4); apply Q4|]. done.
  - intros H y Hy. apply HQ in Hy. destruct p1, p2, p3, p4; cbn in H; try lia; destruct Hy as [[? _]|[[? _]|[[? _]|[? _]]]]; done.
  - intros [z Hz]. assert (E1 : p1 = true -> y1 = z) by (intros; apply Hz; auto). assert (E2 : p2 = true -> y2 = z) by (intros; apply Hz; auto).
    assert (E3 : p3 = true -> y3 = z) by (intros; apply Hz; auto). assert (E4 : p4 = true -> y4 = z) by (intros; apply Hz; auto).
    assert (Hsome : Q z) by (by apply Hz). apply HQ in Hsome. clear HQ Hz.
    assert (1 <= b2n p1 + b2n p2 + b2n p3 + b2n p4). { destruct Hsome as [[-> _]|[[-> _]|[[-> _]|[-> _]]]]; cbn; lia. }
    destruct p1, p2, p3, p4; cbn in *; try lia; exfalso;
      repeat match goal with H : true = true -> _ |- _ => specialize (H eq_refl) end; congruence.
  - intros H. destruct p1, p2, p3, p4; cbn in H; try lia;
      [exists y1|exists y2|exists y3|exists y4]; intros y; rewrite HQ; clear; split; intuition congruence.
  - intros (z & z' & Hzz & Hz). assert (E1 : p1 = true -> y1 = z \/ y1 = z') by (intros; apply Hz; auto). assert (E2 : p2 = true -> y2 = z \/ y2 = z') by (intros; apply Hz; auto).
    assert (E3 : p3 = true -> y3 = z \/ y3 = z') by (intros; apply Hz; auto). assert (E4 : p4 = true -> y4 = z \/ y4 = z') by (intros; apply Hz; auto).
    assert (Hsome : Q z) by (apply Hz; tauto). assert (Hsome' : Q z') by (apply Hz; tauto). apply HQ in Hsome, Hsome'. clear HQ Hz Q1 Q2 Q3 Q4 Ha Hc.
    destruct p1, p2, p3, p4; cbn; try done; exfalso;
      repeat match goal with H : true = true -> _ |- _ => specialize (H eq_refl) end;
      repeat match goal with H : false = true -> _ |- _ => clear H end;
      destruct Hsome as [[? ?]|[[? ?]|[[? ?]|[? ?]]]], Hsome' as [[? ?]|[[? ?]|[[? ?]|[? ?]]]]; subst; try done; intuition congruence.
  - intros H. destruct p1, p2, p3, p4; cbn in H; try lia;
      [exists y1, y2|exists y1, y3|exists y1, y4|exists y2, y3|exists y2, y4|exists y3, y4]; (split; [auto|]); intros y; rewrite HQ; clear; split; intuition congruence.
Qed.
End grid.
