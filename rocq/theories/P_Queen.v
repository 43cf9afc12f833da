(** NQueenZdd and NRookZdd: bitmaps, the meaning of a state, and one step of getChild. *)
From Verif Require Import Base Sem M_Queen S_Queen.
Local Open Scope nat_scope.

Definition tb (x : N) (c : nat) : bool := N.testbit x (N.of_nat c).

Lemma qbit_ok j : j < 32 -> qbit j = Some (2 ^ N.of_nat j)%N.
Proof. intros H. unfold qbit. rewrite (proj2 (Nat.ltb_lt _ _) H). by rewrite N.shiftl_1_l. Qed.
Lemma pow_bit j c : tb (2 ^ N.of_nat j) c = (c =? j).
Proof.
  unfold tb. rewrite N.pow2_bits_eqb. destruct (N.eqb_spec (N.of_nat j) (N.of_nat c)), (Nat.eqb_spec c j); try done; lia.
Qed.
Lemma qclear_ok x j : j < 32 -> (forall c, tb x c = true -> c < 32) ->
  exists y, qclear x j = Some y /\ forall c, tb y c = tb x c && negb (c =? j).
Proof.
  intros Hj Hx. unfold qclear. rewrite qbit_ok by done. cbn [mbind option_bind]. eexists. split; [done|].
  intros c. unfold tb at 1. rewrite N.land_spec. fold (tb x c). destruct (tb x c) eqn:E; [|done]. cbn [andb].
  specialize (Hx c E). unfold not32. rewrite N.lnot_spec_low by lia. fold (tb (2 ^ N.of_nat j) c). by rewrite pow_bit.
Qed.
Lemma qtest_ok x j : j < 32 -> qtest x j = Some (tb x j).
Proof.
  intros Hj. unfold qtest. rewrite qbit_ok by done. cbn [mbind option_bind]. f_equal. unfold tb.
  destruct (N.eqb_spec (N.land x (2 ^ N.of_nat j)) 0) as [E|E]; cbn [negb].
  - assert (N.testbit (N.land x (2 ^ N.of_nat j)) (N.of_nat j) = false) as H by (by rewrite E, N.bits_0).
    rewrite N.land_spec, N.pow2_bits_true, andb_true_r in H. done.
  - destruct (N.testbit x (N.of_nat j)) eqn:H; [done|]. destruct E. apply N.bits_inj. intros k. rewrite N.land_spec, N.bits_0, N.pow2_bits_eqb.
    destruct (N.eqb_spec (N.of_nat j) k) as [<-|]; [by rewrite H|by rewrite andb_false_r].
Qed.
Lemma tb_zero x : (x =? 0)%N = true -> forall c, tb x c = false.
Proof. intros ->%N.eqb_eq c. apply N.bits_0. Qed.
Lemma tb_nonzero x : (x =? 0)%N = false -> (forall c, tb x c = true -> c < 32) -> exists c, tb x c = true.
Proof.
  intros H Hx. apply N.eqb_neq in H. exists (N.to_nat (N.log2 x)). unfold tb. rewrite N2Nat.id. by apply N.bit_log2.
Qed.
Lemma popcount_ge x cs : NoDup cs -> (forall c, c ∈ cs -> tb x c = true /\ c < 32) -> length cs <= popcount x.
Proof.
  intros Hn H. apply submseteq_length, NoDup_submseteq; [done|]. intros c Hc. destruct (H c Hc). apply elem_of_list_filter.
  split; [done|]. apply elem_of_seq. lia.
Qed.

Section queens.
Context (Q : queens).
Notation n := (q_n Q).
Context (Hn : n <= 31).

(** a piece on (i, j) leaves (r, c) in a row below free *)
Definition free (i j r c : nat) : bool :=
  negb (c =? j) && (q_rook Q || negb (c + (i - r) =? j) && negb (c =? j + (i - r))).

Lemma attack_ok i j r x : j < n -> (forall c, tb x c = true -> c < n) ->
  exists y, q_attack Q i j r x = Some y /\ forall c, tb y c = tb x c && free i j r c.
Proof.
  intros Hj Hx. unfold q_attack. destruct (qclear_ok x j) as (y & -> & Hy); [lia|intros c Hc; specialize (Hx c Hc); lia|].
  cbn [mbind option_bind]. unfold free. destruct (q_rook Q).
  { eexists. split; [done|]. intros c. rewrite Hy. cbn [orb]. by rewrite andb_true_r. }
  cbn [orb]. assert (Hyn : forall c, tb y c = true -> c < n).
  { intros c Hc. rewrite Hy in Hc. apply andb_true_iff in Hc as [Hc _]. by apply Hx. }
  assert (exists z, (if i - r <=? j then qclear y (j - (i - r)) else Some y) = Some z /\
    forall c, tb z c = tb y c && negb (c + (i - r) =? j)) as (z & -> & Hz).
  { destruct (Nat.leb_spec (i - r) j).
    - destruct (qclear_ok y (j - (i - r))) as (z & -> & Hz); [lia|intros c Hc; specialize (Hyn c Hc); lia|].
      eexists. split; [done|]. intros c. rewrite Hz. do 2 f_equal. destruct (Nat.eqb_spec c (j - (i - r))), (Nat.eqb_spec (c + (i - r)) j); done || lia.
    - eexists. split; [done|]. intros c. destruct (Nat.eqb_spec (c + (i - r)) j); [lia|]. by rewrite andb_true_r. }
  cbn [mbind option_bind].
  assert (Hzn : forall c, tb z c = true -> c < n).
  { intros c Hc. rewrite Hz in Hc. apply andb_true_iff in Hc as [Hc _]. by apply Hyn. }
  assert (exists w, (if j + (i - r) <? n then qclear z (j + (i - r)) else Some z) = Some w /\
    forall c, tb w c = tb z c && negb (c =? j + (i - r))) as (w & -> & Hw).
  { destruct (Nat.ltb_spec (j + (i - r)) n).
    - destruct (qclear_ok z (j + (i - r))) as (w & -> & Hw); [lia|intros c Hc; specialize (Hzn c Hc); lia|].
      eexists. split; [done|]. intros c. by rewrite Hw.
    - eexists. split; [done|]. intros c. destruct (tb z c) eqn:E; [|done]. specialize (Hzn c E). destruct (Nat.eqb_spec c (j + (i - r))); [lia|done]. }
  eexists. split; [done|]. intros c. rewrite Hw, Hz, Hy. by rewrite <- !andb_assoc.
Qed.

(** ** the array as a set of free squares *)
Definition view (s : list N) (r c : nat) : bool := match s !! r with Some x => tb x c | None => false end.
Record arr_ok (s : list N) : Prop := { ao_len : length s = n; ao_bits : forall r c, view s r c = true -> c < n }.

Lemma arr_get s r : arr_ok s -> r < n -> exists x, s !! r = Some x /\ (forall c, tb x c = view s r c) /\ forall c, tb x c = true -> c < n.
Proof.
  intros Hs Hr. destruct (lookup_lt_is_Some_2 s r) as [x Hx]; [by rewrite (ao_len _ Hs)|]. exists x. split; [done|].
  assert (forall c, tb x c = view s r c) as H by (intros c; unfold view; by rewrite Hx). split; [done|].
  intros c Hc. apply (ao_bits _ Hs r). by rewrite <- H.
Qed.
Lemma view_insert s k x r c : k < length s -> view (<[k := x]> s) r c = if r =? k then tb x c else view s r c.
Proof.
  intros Hk. unfold view. destruct (Nat.eqb_spec r k) as [->|Hne]; [by rewrite list_lookup_insert|]. by rewrite list_lookup_insert_ne.
Qed.
Lemma arr_insert s k x : arr_ok s -> k < n -> (forall c, tb x c = true -> c < n) -> arr_ok (<[k := x]> s).
Proof.
  intros Hs Hk Hx. constructor; [rewrite insert_length; apply Hs|]. intros r c. rewrite view_insert by (by rewrite (ao_len _ Hs)).
  destruct (r =? k); [apply Hx|apply (ao_bits _ Hs)].
Qed.

(** the squares of the rows below k after a piece was placed on (i, j) *)
Lemma check_ok i j k s total : arr_ok s -> k <= n -> j < n ->
  exists t total', q_check Q i j k s total = Some (t, total') /\
  if (t : bool) then forall c, tb total' c = true <-> tb total c = true \/ exists r, r < k /\ view s r c && free i j r c = true
  else exists r, r < k /\ forall c, view s r c && free i j r c = false.
Proof.
  intros Hs. revert total. induction k as [|r IH]; intros total Hk Hj; cbn [q_check].
  { eexists _, _. split; [done|]. intros c. split; [by left|]. intros [?|(? & ? & _)]; [done|lia]. }
  destruct (arr_get s r Hs) as (x & -> & Hx & Hxn); [lia|]. cbn [mbind option_bind].
  destruct (attack_ok i j r x Hj Hxn) as (y & -> & Hy). cbn [mbind option_bind]. destruct (y =? 0)%N eqn:E0.
  { eexists _, _. split; [done|]. exists r. split; [lia|]. intros c. rewrite <- Hx, <- Hy. by apply tb_zero. }
  destruct (IH (N.lor total y)) as (t & total' & -> & H); [lia|done|]. eexists _, _. split; [done|]. destruct t.
  - intros c. rewrite H. unfold tb at 1. rewrite N.lor_spec. fold (tb total c) (tb y c). rewrite orb_true_iff, Hy, Hx. split.
    + intros [[?|?]|(r' & ? & ?)]; [by left|right; exists r; split; [lia|done]|right; exists r'; split; [lia|done]].
    + intros [?|(r' & Hr & Hv)]; [by left; left|]. destruct (decide (r' = r)) as [->|Hdec]; [by left; right|]. right. exists r'. split; [lia|done].
  - destruct H as (r' & ? & ?). exists r'. split; [lia|done].
Qed.
Lemma place_ok i j k s total : arr_ok s -> k <= n -> j < n ->
  exists t s' total', q_place Q i j k s total = Some (t, s', total') /\ arr_ok s' /\
  if (t : bool) then exists r, r < k /\ forall c, view s r c && free i j r c = false
  else (forall r c, view s' r c = view s r c && (negb (r <? k) || free i j r c)) /\
    (forall r, r < k -> exists c, view s r c && free i j r c = true) /\
    forall c, tb total' c = true <-> tb total c = true \/ exists r, r < k /\ view s r c && free i j r c = true.
Proof.
  revert s total. induction k as [|r IH]; intros s total Hs Hk Hj; cbn [q_place].
  { eexists _, _, _. split; [done|]. split; [done|]. split; [intros r c; by rewrite andb_true_r|]. split; [intros r ?; lia|]. intros c. split; [by left|]. intros [?|(? & ? & _)]; [done|lia]. }
  destruct (arr_get s r Hs) as (x & -> & Hx & Hxn); [lia|]. cbn [mbind option_bind].
  destruct (attack_ok i j r x Hj Hxn) as (y & -> & Hy). cbn [mbind option_bind].
  assert (Hs1 : arr_ok (<[r := y]> s)).
  { apply arr_insert; [done|lia|]. intros c Hc. rewrite Hy in Hc. apply andb_true_iff in Hc as [Hc _]. by apply Hxn. }
  assert (Hv1 : forall r' c, view (<[r := y]> s) r' c = if r' =? r then view s r c && free i j r c else view s r' c).
  { intros r' c. rewrite view_insert by (rewrite (ao_len _ Hs); lia). by rewrite Hy, Hx. }
  destruct (y =? 0)%N eqn:E0.
  { eexists _, _, _. split; [done|]. split; [done|]. exists r. split; [lia|]. intros c. rewrite <- Hx, <- Hy. by apply tb_zero. }
  destruct (IH (<[r := y]> s) (N.lor total y) Hs1) as (t & s' & total' & -> & Hs' & H); [lia|done|]. eexists _, _, _. split; [done|]. split; [done|]. destruct t.
  - destruct H as (r' & Hr' & H). exists r'. split; [lia|]. intros c. specialize (H c). rewrite Hv1 in H. by destruct (Nat.eqb_spec r' r); [lia|].
  - destruct H as (H1 & H3 & H2). split_and!.
    + intros r' c. rewrite H1, Hv1. destruct (Nat.ltb_spec r' r), (Nat.ltb_spec r' (S r)), (Nat.eqb_spec r' r) as [->|]; try lia; cbn; try done. by rewrite andb_true_r.
    + intros r' Hr'. destruct (decide (r' = r)) as [->|Hdec].
      * destruct (tb_nonzero y E0) as [c Hc]; [intros c Hc; rewrite Hy in Hc; apply andb_true_iff in Hc as [Hc _]; specialize (Hxn c Hc); lia|].
        exists c. by rewrite <- Hx, <- Hy.
      * destruct (H3 r') as [c Hc]; [lia|]. exists c. rewrite Hv1 in Hc. by destruct (Nat.eqb_spec r' r).
    + intros c. rewrite H2. unfold tb at 1. rewrite N.lor_spec. fold (tb total c) (tb y c). rewrite orb_true_iff, Hy, Hx. split.
      * intros [[?|?]|(r' & Hr & Hv)]; [by left|right; exists r; split; [lia|done]|]. right. exists r'. split; [lia|]. rewrite Hv1 in Hv. by destruct (Nat.eqb_spec r' r); [lia|].
      * intros [?|(r' & Hr & Hv)]; [by left; left|]. destruct (decide (r' = r)) as [->|Hdec]; [by left; right|]. right. exists r'. split; [lia|]. rewrite Hv1. by destruct (Nat.eqb_spec r' r); [lia|].
Qed.

(** ** what a state means: the pieces on levels up to L are one in each of the rows below R, on free squares, and none
    attacks another *)
Definition vis (v : vec) (L r c : nat) : Prop := on n v r c /\ r * n + c + 1 <= L.
Record ext (v : vec) (R L : nat) (S : nat -> nat -> bool) : Prop := {
  e_row : forall r, r < R -> exists c, vis v L r c;
  e_one : forall r c c', vis v L r c -> vis v L r c' -> c = c';
  e_free : forall r c, vis v L r c -> S r c = true;
  e_peace : forall r c r' c', vis v L r c -> vis v L r' c' -> r < r' -> free r' c' r c = true
}.

Lemma ext_empty v R L S r : r < R -> (forall c, S r c = false) -> ~ ext v R L S.
Proof. intros Hr H HE. destruct (e_row _ _ _ _ HE r Hr) as [c Hc]. pose proof (e_free _ _ _ _ HE _ _ Hc). congruence. Qed.
Lemma ext_cols v R L S : ext v R L S -> forall R', R' <= R -> exists cs, NoDup cs /\ length cs = R' /\ forall c, c ∈ cs -> exists r, r < R' /\ vis v L r c.
Proof.
  intros HE. induction R' as [|r IH]; intros H.
  { exists []. split; [constructor|]. split; [done|]. intros c Hc. by apply elem_of_nil in Hc. }
  destruct IH as (cs & Hnd & Hl & Hcs); [lia|]. destruct (e_row _ _ _ _ HE r) as [c Hc]; [lia|]. exists (c :: cs). split; [|split].
  - constructor; [|done]. intros (r' & Hr' & Hv)%Hcs. pose proof (e_peace _ _ _ _ HE _ _ _ _ Hv Hc Hr') as F. unfold free in F. by rewrite Nat.eqb_refl in F.
  - cbn. lia.
  - intros c' [->|Hc']%elem_of_cons; [exists r; split; [lia|done]|]. destruct (Hcs c' Hc') as (r' & ? & ?). exists r'. split; [lia|done].
Qed.
Lemma ext_count v R L S total : ext v R L S -> (forall r c, r < R -> S r c = true -> tb total c = true) -> R <= popcount total.
Proof.
  intros HE Ht. destruct (ext_cols _ _ _ _ HE R) as (cs & Hnd & <- & Hcs); [done|]. apply popcount_ge; [done|].
  intros c (r & Hr & Hv)%Hcs. split; [|destruct Hv as [(_ & ? & _) _]; lia]. apply (Ht r); [done|]. by apply (e_free _ _ _ _ HE).
Qed.
Lemma level_row r c i j : c < n -> j < n -> r * n + c + 1 <= i * n + j + 1 -> r <= i.
Proof. intros. destruct (decide (r <= i)) as [|Hdec]; [done|]. assert (S i * n <= r * n) by (apply Nat.mul_le_mono_r; lia). cbn in *. lia. Qed.
Lemma level_lt r c i : r < i -> c < n -> r * n + c + 1 <= i * n.
Proof. intros. assert (S r * n <= i * n) by (apply Nat.mul_le_mono_r; lia). cbn in *. lia. Qed.

Lemma ext_take v i j S : on n v i j ->
  ext v (i + 1) (i * n + j + 1) S <->
  S i j = true /\ (forall c, c < j -> ~ on n v i c) /\ ext v i (i * n) (fun r c => S r c && free i j r c).
Proof.
  intros Hon. assert (vis v (i * n + j + 1) i j) as Hv by (split; [done|lia]). pose proof Hon as (Hi & Hj & _).
  assert (Hlow : forall r c, vis v (i * n) r c -> vis v (i * n + j + 1) r c /\ r < i).
  { intros r c [H1 H2]. split; [split; [done|lia]|]. destruct (decide (r < i)) as [|Hdec]; [done|]. assert (i * n <= r * n) by (apply Nat.mul_le_mono_r; lia). lia. }
  split.
  - intros HE. split; [by apply (e_free _ _ _ _ HE)|]. split.
    { intros c Hc Hq. assert (c = j); [|lia]. apply (e_one _ _ _ _ HE i); [split; [done|lia]|done]. }
    constructor.
    + intros r Hr. destruct (e_row _ _ _ _ HE r) as (c & Hc & _); [lia|]. exists c. split; [done|]. destruct Hc as (? & ? & _). by apply level_lt.
    + intros r c c' [H1 _]%Hlow [H2 _]%Hlow. by apply (e_one _ _ _ _ HE r).
    + intros r c [H1 Hr]%Hlow. apply andb_true_iff. split; [by apply (e_free _ _ _ _ HE)|]. by apply (e_peace _ _ _ _ HE _ _ _ _ H1 Hv).
    + intros r c r' c' [H1 _]%Hlow [H2 _]%Hlow. by apply (e_peace _ _ _ _ HE).
  - intros (Hs & Hno & HE).
    assert (Hcase : forall r c, vis v (i * n + j + 1) r c -> (r = i /\ c = j) \/ (r < i /\ vis v (i * n) r c)).
    { intros r c [Hq Hl]. pose proof Hq as (Hr & Hc & _). pose proof (level_row _ _ _ _ Hc Hj Hl) as Hri. destruct (decide (r = i)) as [->|Hdec].
      - left. split; [done|]. destruct (decide (c < j)) as [Hcj|]; [by destruct (Hno c Hcj)|lia].
      - right. split; [lia|]. split; [done|]. apply level_lt; lia. }
    constructor.
    + intros r Hr. destruct (decide (r = i)) as [->|Hdec]; [by exists j|]. destruct (e_row _ _ _ _ HE r) as (c & Hc); [lia|]. exists c. by apply Hlow.
    + intros r c c' [[-> ->]|[H1 H1']]%Hcase [[? ->]|[H2 H2']]%Hcase; [done|lia|lia|]. by apply (e_one _ _ _ _ HE r).
    + intros r c [[-> ->]|[H1 H1']]%Hcase; [done|]. pose proof (e_free _ _ _ _ HE _ _ H1') as F. by apply andb_true_iff in F as [? _].
    + intros r c r' c' [[-> ->]|[H1 H1']]%Hcase [[-> ->]|[H2 H2']]%Hcase Hlt; [lia|lia| |].
      * pose proof (e_free _ _ _ _ HE _ _ H1') as F. by apply andb_true_iff in F as [_ ?].
      * by apply (e_peace _ _ _ _ HE).
Qed.
Lemma ext_skip v i j S S' : j < n -> ~ on n v i j -> (forall r c, r <= i -> ~ (r = i /\ c = j) -> S' r c = S r c) ->
  ext v (i + 1) (i * n + j + 1) S <-> ext v (i + 1) (i * n + j) S'.
Proof.
  intros Hj Hno HS.
  assert (Hvis : forall r c, vis v (i * n + j + 1) r c <-> vis v (i * n + j) r c).
  { intros r c. split; intros [Hq Hl]; (split; [done|]); [|lia]. destruct (decide (r * n + c + 1 = i * n + j + 1)) as [E|]; [|lia].
    pose proof Hq as (_ & Hc & _). assert (r = i) as ->.
    { assert (r <= i) by (eapply (level_row r c i j); lia). assert (i <= r) by (eapply (level_row i j r c); lia). lia. }
    assert (c = j) as -> by lia. done. }
  assert (Hsame : forall r c, vis v (i * n + j) r c -> S' r c = S r c).
  { intros r c H. pose proof H as [Hq Hl]. apply HS; [|intros [-> ->]; lia]. destruct Hq as (_ & Hc & _). eapply (level_row r c i j); lia. }
  split; intros [H1 H2 H3 H4]; constructor.
  - intros r Hr. destruct (H1 r Hr) as [c Hc]. exists c. by apply Hvis.
  - intros r c c' Hc Hc'. apply (H2 r); by apply Hvis.
  - intros r c Hc. rewrite Hsame by done. apply H3. by apply Hvis.
  - intros r c r' c' Hc Hc'. apply H4; by apply Hvis.
  - intros r Hr. destruct (H1 r Hr) as [c Hc]. exists c. by apply Hvis.
  - intros r c c' Hc Hc'. apply (H2 r); by apply Hvis.
  - intros r c Hc. apply Hvis in Hc. rewrite <- Hsame by done. by apply H3.
  - intros r c r' c' Hc Hc'. apply H4; by apply Hvis.
Qed.
Lemma ext_view v R L S S' : L <= R * n -> (forall r c, r < R -> S r c = S' r c) -> ext v R L S -> ext v R L S'.
Proof.
  intros HL HS [H1 H2 H3 H4]. constructor; [done|done| |done]. intros r c Hc. rewrite <- HS; [by apply H3|].
  destruct Hc as [(_ & Hc & _) Hl]. destruct (decide (r < R)) as [|Hdec]; [done|]. assert (R * n <= r * n) by (apply Nat.mul_le_mono_r; lia). lia.
Qed.

(** ** the loop to the next square that can be taken *)
Lemma square i j : j < n -> (i * n + j + 1 - 1) / n = i /\ (i * n + j + 1 - 1) mod n = j.
Proof.
  intros Hj. replace (i * n + j + 1 - 1) with (j + i * n) by lia. rewrite Nat.div_add, Nat.mod_add by lia.
  rewrite Nat.div_small, Nat.mod_small by done. done.
Qed.
Record at_ok (i j : nat) (s : list N) : Prop := {
  at_i : i < n; at_j : j < n; at_arr : arr_ok s; at_below : forall c, view s i c = true -> c <= j
}.
(** no piece can stand on (i, j) when the rows below have no place left *)
Lemma no_room v i j S : (exists r, r < i /\ forall c, S r c && free i j r c = false) -> on n v i j -> ~ ext v (i + 1) (i * n + j + 1) S.
Proof. intros (r & Hr & H) Hon HE. apply ext_take in HE as (_ & _ & HE); [|done]. by apply ext_empty with (r := r) in HE. Qed.
Lemma no_cols v i j S total : (forall c, tb total c = true <-> tb 0 c = true \/ exists r, r < i /\ S r c && free i j r c = true) ->
  popcount total < i -> on n v i j -> ~ ext v (i + 1) (i * n + j + 1) S.
Proof.
  intros Ht Hlt Hon HE. apply ext_take in HE as (_ & _ & HE); [|done]. assert (i <= popcount total); [|lia].
  eapply ext_count; [exact HE|]. intros r c Hr Hs. apply Ht. right. by exists r.
Qed.

Lemma skip_ok f i j s : at_ok i j s -> (exists c, view s i c = true) -> j < f ->
  exists code s', q_skip Q f (i * n + j + 1 + 1) s = Some (code, s') /\
  ((code = 0%Z /\ forall v, ~ ext v (i + 1) (i * n + j + 1) (view s)) \/
   (exists j', j' <= j /\ code = Z.of_nat (i * n + j' + 1) /\ at_ok i j' s' /\
    forall v, ext v (i + 1) (i * n + j + 1) (view s) <->
      (forall c, j' < c <= j -> ~ on n v i c) /\ ext v (i + 1) (i * n + j' + 1) (view s'))).
Proof.
  revert j s. induction f as [|f IH]; intros j s HA Hex Hf; [lia|]. pose proof HA as [Hi Hj Hs Hbel]. cbn [q_skip].
  replace (i * n + j + 1 + 1 - 1) with (i * n + j + 1) by lia. destruct (Nat.eqb_spec (i * n + j + 1) 0) as [|_]; [lia|].
  destruct (square i j Hj) as [-> ->]. destruct (arr_get s i Hs Hi) as (x & -> & Hx & Hxn). cbn [mbind option_bind].
  rewrite qtest_ok by lia. cbn [mbind option_bind].
  assert (exists found, (if tb x j then '(takable, total) ← q_check Q i j i s 0%N; Some (takable && (i <=? popcount total)) else Some false) = Some found /\
    (found = false -> forall v, on n v i j -> ~ ext v (i + 1) (i * n + j + 1) (view s))) as (found & -> & Hfound).
  { destruct (tb x j) eqn:Eb.
    - destruct (check_ok i j i s 0%N Hs) as (t & total & -> & Ht); [lia|done|]. cbn [mbind option_bind]. eexists. split; [done|]. destruct t; cbn [andb].
      + intros Hp%Nat.leb_gt v Hon. by eapply no_cols.
      + intros _ v Hon. by apply no_room.
    - eexists. split; [done|]. intros _ v Hon HE. apply ext_take in HE as (HE & _); [|done]. rewrite <- Hx in HE. congruence. }
  cbn [mbind option_bind]. destruct found.
  { eexists _, _. split; [done|]. right. exists j. split_and!; [done|done|done|]. intros v. split; [|by intros [_ ?]]. intros HE. split; [|done]. intros c Hc. lia. }
  destruct (qclear_ok x j) as (y & -> & Hy); [lia|intros c Hc; specialize (Hxn c Hc); lia|]. cbn [mbind option_bind].
  assert (Hs1 : arr_ok (<[i := y]> s)).
  { apply arr_insert; [done|done|]. intros c Hc. rewrite Hy in Hc. apply andb_true_iff in Hc as [Hc _]. by apply Hxn. }
  assert (Hv1 : forall r c, view (<[i := y]> s) r c = if r =? i then view s i c && negb (c =? j) else view s r c).
  { intros r c. rewrite view_insert by (by rewrite (ao_len _ Hs)). by rewrite Hy, Hx. }
  assert (Hstep : forall v, ext v (i + 1) (i * n + j + 1) (view s) <-> ~ on n v i j /\ ext v (i + 1) (i * n + j) (view (<[i := y]> s))).
  { intros v. assert (forall r c, r <= i -> ~ (r = i /\ c = j) -> view (<[i := y]> s) r c = view s r c) as HS.
    { intros r c Hr Hne. rewrite Hv1. destruct (Nat.eqb_spec r i) as [->|]; [|done]. destruct (Nat.eqb_spec c j) as [->|]; [by destruct Hne|]. by rewrite andb_true_r. }
    split.
    - intros HE. assert (~ on n v i j) as Hno by (intros Hon; by apply (Hfound eq_refl v Hon)). split; [done|]. by eapply ext_skip.
    - intros [Hno HE]. by eapply ext_skip. }
  destruct (y =? 0)%N eqn:E0.
  { eexists _, _. split; [done|]. left. split; [done|]. intros v [_ HE]%Hstep. revert HE. apply ext_empty with (r := i); [lia|].
    intros c. rewrite Hv1, Nat.eqb_refl, <- Hx, <- Hy. by apply tb_zero. }
  assert (exists c, view (<[i := y]> s) i c = true /\ c < j) as (c0 & Hc0 & Hcj).
  { destruct (tb_nonzero y E0) as [c Hc]; [intros c Hc; rewrite Hy in Hc; apply andb_true_iff in Hc as [Hc _]; specialize (Hxn c Hc); lia|].
    exists c. rewrite Hv1, Nat.eqb_refl, <- Hx, <- Hy. split; [done|]. rewrite Hy in Hc. apply andb_true_iff in Hc as [Hc Hne].
    rewrite Hx in Hc. specialize (Hbel c Hc). apply negb_true_iff, Nat.eqb_neq in Hne. lia. }
  destruct (IH (j - 1) (<[i := y]> s)) as (code & s' & E & H).
  - constructor; [done|lia|done|]. intros c. rewrite Hv1, Nat.eqb_refl. intros [Hc Hne]%andb_true_iff. specialize (Hbel c Hc). apply negb_true_iff, Nat.eqb_neq in Hne. lia.
  - by exists c0.
  - lia.
  - replace (i * n + (j - 1) + 1 + 1) with (i * n + j + 1) in E by lia. rewrite E. eexists _, _. split; [done|].
    replace (i * n + (j - 1) + 1) with (i * n + j) in H by lia. destruct H as [[-> H]|(j' & Hj' & -> & HA' & H)].
    + left. split; [done|]. intros v [_ HE]%Hstep. by apply H in HE.
    + right. exists j'. split_and!; [lia|done|done|]. intros v. rewrite Hstep, H. split.
      * intros (Hno & Hno' & HE). split; [|done]. intros c Hc. destruct (decide (c = j)) as [->|Hdec]; [done|]. apply Hno'. lia.
      * intros (Hno & HE). split; [apply Hno; lia|]. split; [|done]. intros c Hc. apply Hno. lia.
Qed.
End queens.
