(** NumlinZdd: the invariant and its steps. *)
From stdpp Require Import strings.
From Verif Require Import Base Sem M_Graph S_Simpath P_Simpath1 P_Simpath2 P_Simpath3 P_Numlin1 M_Numlin S_Numlin P_Numlin2 P_Numlin3.
Local Open Scope nat_scope.

Lemma w8_id z : (0 <= z <= 255)%Z -> w8 z = Z.to_nat z.
Proof. intros Hz. unfold w8. rewrite Z.mod_small by lia. done. Qed.
Lemma put_ok M k x : k < length M -> put M k x = Some (<[k := x]> M).
Proof. intros Hk. unfold put. by rewrite (proj2 (Nat.ltb_lt _ _) Hk). Qed.
Lemma look {A} (M : list A) k x c : k < length M -> <[k := x]> M !! c = if c =? k then Some x else M !! c.
Proof. intros Hk. destruct (Nat.eqb_spec c k) as [->|Hn]; [by apply list_lookup_insert|by apply list_lookup_insert_ne]. Qed.

Section inv.
Context (q : numlin).
Notation b := (nl_quiz q).
Notation m := (b_rows b).
Notation n := (b_cols b).
Context (Hb : board_ok b) (Hn2 : 2 <= n) (Hsmall : forall i k t, b_num b i k = Some t -> (Z.of_nat n + t <= 255)%Z) (Hmax : (nl_max q <= 65535)%Z).
Context (H : nat -> nat -> bool).
Notation vid := (vid b).
Notation num := (num b).
Notation vdn := (vdn b H).
Notation E := (ed b H vdn).
Notation col := (colr b).
Notation N := (mm b).
Notation blankb := (blankb b H).
Notation cnt := (cnt b H).

Lemma n255 : n <= 255.
Proof. destruct (b_num_some b Hb 0 0) as (t & Et & Ht & _); [destruct Hb; lia|lia|]. pose proof (Hsmall _ _ _ Et). lia. Qed.
Lemma w8n : w8 (Z.of_nat n) = n.
Proof. pose proof n255. rewrite w8_id by lia. lia. Qed.
Definition fresh (i k : nat) : nat := if num i k =? 0 then k else n + num i k.
Lemma fresh_ok i k : i < m -> k < n -> exists t, b_num b i k = Some t /\ (0 <= t)%Z /\ num i k = Z.to_nat t /\ w8 (Z.of_nat n + t) = n + num i k /\ nl_fresh n t k = fresh i k.
Proof.
  intros Hi Hk. destruct (b_num_some b Hb i k Hi Hk) as (t & Et & Ht & En). pose proof (Hsmall _ _ _ Et). pose proof n255. exists t. split; [done|]. split; [done|]. split; [done|].
  assert (w8 (Z.of_nat n + t) = n + num i k) as E1 by (rewrite w8_id by lia; lia). split; [done|]. unfold nl_fresh, fresh. destruct (Z.ltb_spec 0 t).
  - rewrite E1. destruct (Nat.eqb_spec (num i k) 0); [lia|done].
  - rewrite w8_id by lia. destruct (Nat.eqb_spec (num i k) 0); lia.
Qed.

(** ** the links decided so far and the frontier *)
Definition R (i h k : nat) : nat -> nat -> Prop := rel b (fun a c => bef i h a c /\ H a c = true) (fun a c => bef i k a c /\ vdn a c = true).
Lemma R_E i h k x y : R i h k x y -> E x y.
Proof. apply rel_mono; tauto. Qed.
Lemma E_sym x y : E x y -> E y x.
Proof. apply ed_sym. Qed.
Lemma R_sym i h k x y : R i h k x y -> R i h k y x.
Proof. intros (a & c & [(? & ? & ? & ?)|(? & ? & ? & ?)]); exists a, c; [left|right]; tauto. Qed.
Definition fr (i k c : nat) : nat := if c <? k then vid (S i) c else vid i c.
Lemma fr_bounds i k c : k <= n -> c < n -> vid i k <= fr i k c < vid (S i) k.
Proof. intros Hk Hc. unfold fr. destruct (Nat.ltb_spec c k); rewrite ?vid_S; unfold P_Numlin2.vid; lia. Qed.
Lemma fr_inj i k c d : c < n -> d < n -> fr i k c = fr i k d -> c = d.
Proof. intros Hc Hd. unfold fr. destruct (Nat.ltb_spec c k), (Nat.ltb_spec d k); rewrite ?vid_S; unfold P_Numlin2.vid; lia. Qed.
Lemma fr_at i k : fr i k k = vid i k.
Proof. unfold fr. by rewrite Nat.ltb_irrefl. Qed.
Lemma fr_next i k c : c <> k -> fr i (S k) c = fr i k c.
Proof. intros Hc. unfold fr. destruct (Nat.ltb_spec c (S k)), (Nat.ltb_spec c k); try lia; done. Qed.
Lemma fr_next_at i k : fr i (S k) k = vid (S i) k.
Proof. unfold fr. by rewrite (proj2 (Nat.ltb_lt _ _)) by lia. Qed.

(** the value stored for a mate *)
Definition enc (f : nat -> nat) (w : Z) (a : nat) : Prop := (a < n /\ w = Z.of_nat (f a)) \/ (n < a /\ w = (- Z.of_nat (a - n))%Z).
Lemma enc_at f w a c : (forall x y, x < n -> y < n -> f x = f y -> x = y) -> enc f w a -> c < n -> w = Z.of_nat (f c) -> a = c.
Proof. intros Hf [[Ha ->]|[Ha ->]] Hc E; [apply Hf; [done|done|lia]|lia]. Qed.
Lemma enc_inj f w a a' : (forall x y, x < n -> y < n -> f x = f y -> x = y) -> enc f w a -> enc f w a' -> a = a'.
Proof. intros Hf [[Ha ->]|[Ha ->]] [[Ha' E]|[Ha' E]]; [apply Hf; [done|done|lia]|lia|lia|lia]. Qed.
Lemma enc_n f w a : enc f w a -> a <> n.
Proof. intros [[? _]|[? _]]; lia. Qed.

Definition arr (f : nat -> nat) (P : list nat -> Prop) (M : list nat) : Prop := forall c, c < n -> exists a, M !! c = Some a /\
  ((a = n /\ forall w, ~ live col P (f c) w) \/ exists w, live col P (f c) w /\ enc f w a).
Record core (P : list nat -> Prop) (i h k : nat) (M : list nat) : Prop := {
  co_conf : conf N col P (R i h k);
  co_fut : forall x, vid (S i) k <= x <= N -> P [x];
  co_old : forall x w, x < vid i k -> live col P x w -> w = Z.of_nat x;
  co_len : length M = n;
  co_arr : arr (fr i k) P M
}.

(** ** taking a horizontal link *)
Lemma take_eq j M mj mk : length M = n -> S j < n -> M !! j = Some mj -> M !! S j = Some mk -> mj <> n -> mk <> n -> mj <> S j ->
  (n < mj -> n < mk -> mj = mk) ->
  exists M', nl_take n j M = Some (Some M') /\ length M' = n /\
    forall c, c < n -> M' !! c = if c =? mk then Some mj else if c =? mj then Some mk else if (c =? j) || (c =? S j) then Some n else M !! c.
Proof.
  intros Hl Hj E1 E2 N1 N2 N3 Hs. unfold nl_take. rewrite E1. cbn [mbind option_bind]. rewrite E2. cbn [mbind option_bind].
  rewrite (proj2 (Nat.eqb_neq _ _) N1), (proj2 (Nat.eqb_neq _ _) N2), (proj2 (Nat.eqb_neq _ _) N3). cbn [orb].
  rewrite w8n, put_ok by lia. cbn [mbind option_bind]. rewrite put_ok by (rewrite insert_length; lia). cbn [mbind option_bind].
  set (M1 := <[j:=n]> (<[S j:=n]> M)).
  assert (L1 : length M1 = n) by (unfold M1; by rewrite !insert_length).
  assert (G1 : forall c, M1 !! c = if (c =? j) || (c =? S j) then Some n else M !! c).
  { intros c. unfold M1. rewrite look by (rewrite insert_length; lia). rewrite look by lia. by destruct (c =? j), (c =? S j). }
  destruct (Nat.ltb_spec n mj) as [Lj|Lj], (Nat.ltb_spec n mk) as [Lk|Lk]; cbn [andb].
  - rewrite (proj2 (Nat.eqb_eq _ _) (Hs Lj Lk)). exists M1. split; [done|]. split; [done|]. intros c Hc. rewrite G1.
    destruct (Nat.eqb_spec c mk); [lia|]. destruct (Nat.eqb_spec c mj); [lia|]. done.
  - rewrite (proj2 (Nat.ltb_ge mj n)) by lia. rewrite (proj2 (Nat.ltb_lt mk n)) by lia. cbn [mbind option_bind]. rewrite put_ok by lia. cbn [mbind option_bind].
    eexists. split; [done|]. rewrite insert_length. split; [done|]. intros c Hc. rewrite look by lia. rewrite G1. destruct (Nat.eqb_spec c mk); [done|]. destruct (Nat.eqb_spec c mj); [lia|]. done.
  - rewrite (proj2 (Nat.ltb_lt mj n)) by lia. rewrite (proj2 (Nat.ltb_ge mk n)) by lia. rewrite put_ok by lia. cbn [mbind option_bind].
    eexists. split; [done|]. rewrite insert_length. split; [done|]. intros c Hc. rewrite look by lia. rewrite G1. destruct (Nat.eqb_spec c mk); [lia|]. done.
  - rewrite (proj2 (Nat.ltb_lt mj n)) by lia. rewrite (proj2 (Nat.ltb_lt mk n)) by lia. rewrite put_ok by lia. cbn [mbind option_bind]. rewrite put_ok by (rewrite insert_length; lia). cbn [mbind option_bind].
    eexists. split; [done|]. rewrite !insert_length. split; [done|]. intros c Hc. rewrite look by (rewrite insert_length; lia). rewrite look by lia. rewrite G1. done.
Qed.

Lemma notR_h i k : i < m -> S k < n -> ~ R i k k (vid i k) (vid i (S k)).
Proof.
  intros Hi Hk (a & c & [([Hbf _] & Ha & Hc & [[E1 E2]|[E1 E2]])|(_ & Ha & Hc & [[E1 E2]|[E1 E2]])]).
  - apply vid_inj in E1 as [-> ->]; [unfold bef in Hbf; lia|lia|lia].
  - rewrite vid_r in E1, E2. lia.
  - rewrite vid_r, vid_S in E2. lia.
  - rewrite vid_r in E1. rewrite vid_S in E2. lia.
Qed.
Lemma E_h i k : i < m -> S k < n -> H i k = true -> E (vid i k) (vid i (S k)).
Proof. intros Hi Hk Hh. exists i, k. left. split; [done|]. split; [done|]. split; [done|]. by left. Qed.
Lemma E_v i k : S i < m -> k < n -> vdn i k = true -> E (vid i k) (vid (S i) k).
Proof. intros Hi Hk Hh. exists i, k. right. split; [done|]. split; [done|]. split; [done|]. by left. Qed.
Lemma R_h_add i k : i < m -> S k < n -> H i k = true ->
  forall x y, (R i k k x y \/ (x = vid i k /\ y = vid i (S k)) \/ (x = vid i (S k) /\ y = vid i k)) <-> R i (S k) k x y.
Proof.
  intros Hi Hk Hh x y. split.
  - intros [Hr|[[-> ->]|[-> ->]]].
    + revert Hr. apply rel_mono; [|tauto]. intros a c _ _ [Hbf Ha]. split; [|done]. unfold bef in *. lia.
    + exists i, k. left. split; [split; [unfold bef; lia|done]|]. split; [done|]. split; [done|]. by left.
    + exists i, k. left. split; [split; [unfold bef; lia|done]|]. split; [done|]. split; [done|]. by right.
  - intros (a & c & [([Hbf Hhc] & Ha & Hc & HE)|Hv]); [|left; exists a, c; by right].
    destruct (decide (a = i /\ c = k)) as [[-> ->]|Hn]; [destruct HE as [[-> ->]|[-> ->]]; tauto|].
    left. exists a, c. left. split; [split; [unfold bef in *; lia|done]|done].
Qed.
Lemma R_h_skip i k : H i k = false \/ n <= S k -> forall x y, R i k k x y <-> R i (S k) k x y.
Proof.
  intros Hh. apply rel_iff; [|done]. intros a c Ha Hc. unfold bef. split.
  - intros [Hbf E1]. split; [lia|done].
  - intros [Hbf E1]. split; [|done]. destruct (decide (a = i /\ c = k)) as [[-> ->]|]; [destruct Hh; [congruence|lia]|lia].
Qed.
Lemma core_ext P i h h' k M : (forall x y, R i h k x y <-> R i h' k x y) -> core P i h k M -> core P i h' k M.
Proof. intros HR [C1 C2 C3 C4 C5]. constructor; [by eapply conf_ext|done|done|done|done]. Qed.

Lemma fr_inj' i k : forall x y, x < n -> y < n -> fr i k x = fr i k y -> x = y.
Proof. intros x y. apply fr_inj. Qed.
Lemma enc_pos i k w a x : k <= n -> enc (fr i k) w a -> w = Z.of_nat x -> a < n /\ x = fr i k a /\ vid i k <= x < vid (S i) k.
Proof. intros Hk [[Ha ->]|[Ha ->]] Hx; [|lia]. apply Nat2Z.inj in Hx as <-. split; [done|]. split; [done|]. by apply fr_bounds. Qed.

Lemma take_step P i k M : core P i k k M -> i < m -> S k < n -> H i k = true ->
  exists r, nl_take n k M = Some r /\ match r with Some M' => exists P', core P' i (S k) k M' | None => ~ pathgood N col E end.
Proof.
  intros HI Hi Hk Hh. pose proof (co_conf _ _ _ _ _ HI) as HC. pose proof (fr_inj' i k) as Hinj.
  destruct (co_arr _ _ _ _ _ HI k) as (a1 & E1 & A1); [lia|]. destruct (co_arr _ _ _ _ _ HI (S k)) as (a2 & E2 & A2); [done|].
  rewrite fr_at in A1. assert (Ef2 : fr i k (S k) = vid i (S k)) by (unfold fr; by rewrite (proj2 (Nat.ltb_ge _ _)) by lia). rewrite Ef2 in A2.
  pose proof (notR_h i k Hi Hk) as HnR. pose proof (E_h i k Hi Hk Hh) as HE.
  assert (V1 : 1 <= vid i k <= N) by (apply vid_range; lia). assert (V2 : 1 <= vid i (S k) <= N) by (apply vid_range; lia).
  assert (HRE : forall x y, R i k k x y -> E x y) by apply R_E.
  destruct (decide (a1 = n)) as [->|N1].
  { exists None. split; [unfold nl_take; rewrite E1; cbn [mbind option_bind]; rewrite E2; cbn [mbind option_bind]; by rewrite Nat.eqb_refl|].
    intros HG. apply HnR. destruct A1 as [[_ Hd]|(w & _ & Hw)]; [|by apply enc_n in Hw]. by apply (no_dead N col P _ E HC HRE HG). }
  destruct (decide (a2 = n)) as [->|N2].
  { exists None. split; [unfold nl_take; rewrite E1; cbn [mbind option_bind]; rewrite E2; cbn [mbind option_bind]; by rewrite Nat.eqb_refl, orb_true_r|].
    intros HG. apply HnR, R_sym. destruct A2 as [[_ Hd]|(w & _ & Hw)]; [|by apply enc_n in Hw]. apply (no_dead N col P _ E HC HRE HG); [done|done|by apply E_sym]. }
  destruct A1 as [[? _]|(w1 & L1 & W1)]; [done|]. destruct A2 as [[? _]|(w2 & L2 & W2)]; [done|].
  destruct (decide (a1 = S k)) as [->|N3].
  { exists None. split.
    - unfold nl_take. rewrite E1. cbn [mbind option_bind]. rewrite E2. cbn [mbind option_bind]. rewrite (proj2 (Nat.eqb_neq _ _) N1), (proj2 (Nat.eqb_neq _ _) N2). cbn [orb]. by rewrite Nat.eqb_refl.
    - intros HG. apply HnR. apply (no_cycle N col P _ E HC HRE HG); [rewrite vid_r; lia| |done].
      destruct W1 as [[_ ->]|[? _]]; [|lia]. by rewrite Ef2 in L1. }
  destruct (decide (n < a1 /\ n < a2 /\ a1 <> a2)) as [(G1 & G2 & Hne)|Hok].
  { exists None. split.
    - unfold nl_take. rewrite E1. cbn [mbind option_bind]. rewrite E2. cbn [mbind option_bind]. rewrite (proj2 (Nat.eqb_neq _ _) N1), (proj2 (Nat.eqb_neq _ _) N2), (proj2 (Nat.eqb_neq _ _) N3). cbn [orb].
      pose proof (co_len _ _ _ _ _ HI). rewrite put_ok by lia. cbn [mbind option_bind]. rewrite put_ok by (rewrite insert_length; lia). cbn [mbind option_bind].
      rewrite (proj2 (Nat.ltb_lt _ _) G1), (proj2 (Nat.ltb_lt _ _) G2). cbn [andb]. by rewrite (proj2 (Nat.eqb_neq _ _) Hne).
    - intros HG. destruct W1 as [[? _]|[_ W1]]; [lia|]. destruct W2 as [[? _]|[_ W2]]; [lia|].
      pose proof (no_clash N col P _ E HC HRE HG _ _ _ _ L1 L2 HE ltac:(lia) ltac:(lia)). lia. }
  destruct (take_eq k M a1 a2) as (M' & EM & Hlen & Hlook); [apply HI|done|done|done|done|done|done|intros ? ?; lia|].
  exists (Some M'). split; [done|].
  assert (Hw12 : w1 <> Z.of_nat (vid i (S k))). { intros E3. apply N3. rewrite <- Ef2 in E3. by apply (enc_at _ _ _ (S k) Hinj W1). }
  destruct (join_live N col P _ (vid i k) (vid i (S k)) w1 w2 HC) as (P' & HC' & Hs' & HL'); [rewrite vid_r; lia|done|done|done| |].
  { intros Hw1 Hw2. destruct W1 as [[_ W1]|[? W1]]; [lia|]. destruct W2 as [[_ W2]|[? W2]]; [lia|]. lia. }
  exists P'. constructor.
  - eapply conf_ext; [|exact HC']. by apply R_h_add.
  - intros x Hx. rewrite vid_S in Hx. apply Hs'; [apply (co_fut _ _ _ _ _ HI); by rewrite vid_S|lia|rewrite vid_r; lia].
  - intros x w Hx Hl. apply HL' in Hl as [[Hz ->]|[[Hz ->]|(_ & _ & _ & _ & Hl)]].
    + apply (enc_pos i k w1 a1 x) in W1; [lia|lia|done].
    + apply (enc_pos i k w2 a2 x) in W2; [lia|lia|done].
    + by apply (co_old _ _ _ _ _ HI).
  - done.
  - intros c Hc. rewrite (Hlook c Hc). destruct (Nat.eqb_spec c a2) as [->|Nc2].
    + exists a1. split; [done|]. right. exists w1. split; [|done]. apply HL'. right; left. split; [|done]. by destruct W2 as [[_ ->]|[? _]]; [|lia].
    + destruct (Nat.eqb_spec c a1) as [->|Nc1].
      * exists a2. split; [done|]. right. exists w2. split; [|done]. apply HL'. left. split; [|done]. by destruct W1 as [[_ ->]|[? _]]; [|lia].
      * assert (F1 : w1 <> Z.of_nat (fr i k c)). { intros E3. by apply (enc_at _ _ _ c Hinj W1) in E3. }
        assert (F2 : w2 <> Z.of_nat (fr i k c)). { intros E3. by apply (enc_at _ _ _ c Hinj W2) in E3. }
        destruct (decide (c = k \/ c = S k)) as [Hck|Hck].
        -- exists n. split; [destruct Hck as [->| ->]; rewrite Nat.eqb_refl, ?orb_true_r; done|]. left. split; [done|].
           intros w [[? _]|[[? _]|(G1 & G2 & _)]]%HL'; [done|done|]. destruct Hck as [->| ->]; [by rewrite fr_at in G1|done].
        -- destruct (Nat.eqb_spec c k); [lia|]. destruct (Nat.eqb_spec c (S k)); [lia|]. cbn [orb]. destruct (co_arr _ _ _ _ _ HI c Hc) as (a & Ea & A). exists a. split; [done|].
           assert (G1 : fr i k c <> vid i k). { rewrite <- fr_at. intros E3. apply Hinj in E3; lia. }
           assert (G2 : fr i k c <> vid i (S k)). { rewrite <- Ef2. intros E3. apply Hinj in E3; lia. }
           destruct A as [[-> Hd]|(w & Hw & Ew)]; [left; split; [done|]|right; exists w; split; [|done]].
           ++ intros w [[? _]|[[? _]|(_ & _ & _ & _ & Hl)]]%HL'; [done|done|]. by apply (Hd w).
           ++ apply HL'. right; right. done.
Qed.

(** ** closing a cell *)
Lemma R_four i h k y : i < m -> k < n -> k < h -> R i h k (vid i k) y <-> four b (lf H i k) (rt b H i k) (up vdn i k) false i k y.
Proof.
  intros Hi Hk Hh. unfold R. rewrite rel_nbr by done. unfold nbrs, four, lf, rt, up, bef. rewrite !andb_true_iff, !Nat.leb_le, !Nat.ltb_lt. split.
  - intros [(H1 & [H2 H3] & ->)|[(H1 & [H2 H3] & ->)|[(H1 & [H2 H3] & ->)|(H1 & [H2 H3] & ->)]]]; [tauto|tauto|tauto|lia].
  - intros [([H1 H2] & ->)|[([H1 H2] & ->)|[([H1 H2] & ->)|[H1 _]]]]; [..|done].
    + left. split; [done|]. split; [split; [lia|done]|done].
    + right; left. split; [done|]. split; [split; [lia|done]|done].
    + right; right; left. split; [done|]. split; [split; [lia|done]|done].
Qed.
Lemma status P i k M : core P i (S k) k M -> i < m -> k < n -> exists a, M !! k = Some a /\
  ((a = k /\ vdn i k = false /\ blankb (i, k) = true /\ P [vid i k] /\ col (vid i k) = 0) \/
   (a = n /\ vdn i k = false /\ blankb (i, k) = false /\ forall w, ~ live col P (vid i k) w) \/
   (a <> k /\ a <> n /\ vdn i k = true /\ blankb (i, k) = false /\ exists w, live col P (vid i k) w /\ enc (fr i k) w a)).
Proof.
  intros HI Hi Hk. pose proof (co_conf _ _ _ _ _ HI) as HC. destruct (co_arr _ _ _ _ _ HI k Hk) as (a & Ea & A). exists a. split; [done|]. rewrite fr_at in A.
  assert (HQ : forall y, R i (S k) k (vid i k) y <-> four b (lf H i k) (rt b H i k) (up vdn i k) false i k y) by (intros y; apply R_four; lia).
  destruct (four_count b Hn2 (lf H i k) (rt b H i k) (up vdn i k) false i k (R i (S k) k (vid i k)) Hi Hk) as (C0 & C1 & C2);
    [unfold lf; rewrite andb_true_iff, Nat.leb_le; tauto|unfold up; rewrite andb_true_iff, Nat.leb_le; tauto|done|].
  clear HQ. cbn [b2n] in C0, C1, C2. rewrite Nat.add_0_r in C0, C1, C2. pose proof (vdn_eq b Hn2 H i k) as EV. unfold blankb.
  pose proof (vid_col b i k Hk) as EC. rewrite EC. pose proof (fr_inj' i k) as Hinj.
  destruct A as [[-> Hd]|(w & Hl & Hw)].
  - right; left. split; [done|]. destruct (dead_degree N col P _ (vid i k) HC) as [[Hc Hz]|[Hc Hz]]; [by apply vid_range|done|..]; rewrite EC in Hc.
    + apply C1 in Hz. rewrite (proj2 (Nat.eqb_neq _ _) Hc) in *. rewrite EV. split_and!; [apply Nat.eqb_neq; lia|done|done].
    + apply C2 in Hz. rewrite (proj2 (Nat.eqb_eq _ _) Hc) in *. rewrite EV. split_and!; [apply Nat.eqb_neq; lia|rewrite Hz; done|done].
  - destruct (live_degree N col P _ _ _ HC Hl) as [(Hp & -> & Hz)|(Hc & Hne & Hz)].
    + apply C0 in Hz. unfold endv in *. rewrite EC in *. destruct (Nat.ltb_spec 0 (num i k)).
      * right; right. assert (num i k <> 0) as Hc by lia. rewrite (proj2 (Nat.eqb_neq _ _) Hc) in *. split_and!; [|by apply enc_n in Hw| |done|by eexists].
        -- intros ->. destruct Hw as [[? Hw]|[? _]]; lia.
        -- rewrite EV. apply Nat.eqb_eq. lia.
      * left. assert (num i k = 0) as Hc by lia. rewrite (proj2 (Nat.eqb_eq _ _) Hc) in *. split_and!; [|rewrite EV; apply Nat.eqb_neq; lia|rewrite Hz; done|done|done].
        apply (enc_at _ _ _ k Hinj Hw Hk). by rewrite fr_at.
    + apply C1 in Hz. rewrite EC in Hc. right; right. rewrite (proj2 (Nat.eqb_eq _ _) Hc) in *. split_and!; [|by apply enc_n in Hw| |rewrite Hz; done|by eexists].
      * intros ->. destruct Hw as [[? Hw]|[? _]]; [|lia]. by rewrite fr_at in Hw.
      * rewrite EV. apply Nat.eqb_eq. lia.
Qed.

Lemma R_v_skip i h k : vdn i k = false \/ m <= S i -> forall x y, R i h k x y <-> R i h (S k) x y.
Proof.
  intros Hh. apply rel_iff; [done|]. intros a c Ha Hc. unfold bef. split.
  - intros [Hbf E1]. split; [lia|done].
  - intros [Hbf E1]. split; [|done]. destruct (decide (a = i /\ c = k)) as [[-> ->]|]; [destruct Hh; [congruence|lia]|lia].
Qed.
Lemma R_v_add i h k : S i < m -> k < n -> vdn i k = true ->
  forall x y, (R i h k x y \/ (x = vid i k /\ y = vid (S i) k) \/ (x = vid (S i) k /\ y = vid i k)) <-> R i h (S k) x y.
Proof.
  intros Hi Hk Hh x y. split.
  - intros [Hr|[[-> ->]|[-> ->]]].
    + revert Hr. apply rel_mono; [tauto|]. intros a c _ _ [Hbf Ha]. split; [|done]. unfold bef in *. lia.
    + exists i, k. right. split; [split; [unfold bef; lia|done]|]. split; [done|]. split; [done|]. by left.
    + exists i, k. right. split; [split; [unfold bef; lia|done]|]. split; [done|]. split; [done|]. by right.
  - intros (a & c & [Hv|([Hbf Hhc] & Ha & Hc & HE)]); [left; exists a, c; by left|].
    destruct (decide (a = i /\ c = k)) as [[-> ->]|Hn]; [destruct HE as [[-> ->]|[-> ->]]; tauto|].
    left. exists a, c. right. split; [split; [unfold bef in *; lia|done]|done].
Qed.

Lemma enc_next i k w a : a <> k -> enc (fr i k) w a -> enc (fr i (S k)) w a.
Proof. intros Ha [[Hl ->]|Hw]; [left; split; [done|]; by rewrite fr_next|by right]. Qed.

Lemma nolink_step P i k M : core P i (S k) k M -> i < m -> k < n -> vdn i k = false \/ m <= S i ->
  (P [vid i k] /\ col (vid i k) = 0) \/ (forall w, ~ live col P (vid i k) w) ->
  core P i (S k) (S k) (<[k := if S i <? m then fresh (S i) k else n]> M).
Proof.
  intros HI Hi Hk Hv Hst. pose proof (co_conf _ _ _ _ _ HI) as HC.
  assert (Hself : forall w, live col P (vid i k) w -> w = Z.of_nat (vid i k)).
  { intros w Hl. destruct Hst as [[Hp Hc]|Hd]; [|by apply Hd in Hl]. rewrite (live_fun _ _ _ _ HC _ _ _ Hl (live_single col P _ Hp)). unfold endv. by rewrite Hc. }
  constructor.
  - eapply conf_ext; [|exact HC]. by apply R_v_skip.
  - intros x Hx. apply (co_fut _ _ _ _ _ HI). rewrite vid_r in Hx. lia.
  - intros x w Hx Hl. rewrite vid_r in Hx. destruct (decide (x = vid i k)) as [->|Hn]; [by apply Hself|]. apply (co_old _ _ _ _ _ HI); [lia|done].
  - rewrite insert_length. apply HI.
  - intros c Hc. rewrite look by (rewrite (co_len _ _ _ _ _ HI); lia). destruct (Nat.eqb_spec c k) as [->|Nc].
    + rewrite fr_next_at. eexists. split; [done|]. destruct (Nat.ltb_spec (S i) m) as [Hm|Hm].
      * right. exists (endv col (vid (S i) k)). pose proof (vid_range b (S i) k Hm Hk) as Hr. split; [apply live_single, (co_fut _ _ _ _ _ HI); lia|].
        unfold enc, endv, fresh. rewrite vid_col by done. destruct (Nat.ltb_spec 0 (num (S i) k)), (Nat.eqb_spec (num (S i) k) 0); try lia.
        left. split; [done|]. by rewrite fr_next_at.
      * left. split; [done|]. intros w Hl. apply (live_range _ _ _ _ HC) in Hl. pose proof (vid_out b (S i) k Hm). lia.
    + rewrite fr_next by done. destruct (co_arr _ _ _ _ _ HI c Hc) as (a & Ea & A). exists a. split; [done|]. destruct A as [A|(w & Hl & Hw)]; [by left|]. right. exists w. split; [done|].
      apply enc_next; [|done]. intros ->. destruct Hw as [[_ ->]|[? _]]; [|lia]. rewrite fr_at in Hl.
      assert (fr i k c <> vid i k) as Hne. { rewrite <- fr_at. intros E3. apply fr_inj in E3; lia. }
      destruct (mate_live N col P _ _ _ HC Hl) as [?|Hl']; [done|]. apply Hself in Hl'. lia.
Qed.

Lemma link_step P i k M M' a w1 : core P i (S k) k M -> S i < m -> k < n -> vdn i k = true -> a <> k -> M !! k = Some a ->
  live col P (vid i k) w1 -> enc (fr i k) w1 a -> ((w1 < 0)%Z -> num (S i) k <> 0 -> a = n + num (S i) k) ->
  length M' = n -> (forall c, c < n -> M' !! c = if c =? k then Some (if num (S i) k =? 0 then a else n) else if c =? a then Some (if num (S i) k =? 0 then k else n + num (S i) k) else M !! c) ->
  exists P', core P' i (S k) (S k) M'.
Proof.
  intros HI Hi Hk Hv Hak Ea L1 W1 Hclash Hlen Hlook. pose proof (co_conf _ _ _ _ _ HI) as HC. pose proof (fr_inj' i k) as Hinj.
  pose proof (vid_range b (S i) k Hi Hk) as Hr. assert (P [vid (S i) k]) as HP by (apply (co_fut _ _ _ _ _ HI); lia).
  pose proof (live_single col P _ HP) as L2. set (w2 := endv col (vid (S i) k)) in *.
  assert (Hw2 : (num (S i) k = 0 /\ w2 = Z.of_nat (vid (S i) k)) \/ (num (S i) k <> 0 /\ w2 = (- Z.of_nat (num (S i) k))%Z)).
  { unfold w2, endv. rewrite vid_col by done. destruct (Nat.ltb_spec 0 (num (S i) k)); [right; split; [lia|done]|left; split; [lia|done]]. }
  assert (Hw1 : w1 <> Z.of_nat (vid (S i) k)). { intros E3. apply (enc_pos i k w1 a) in E3; [|lia|done]. lia. }
  destruct (join_live N col P _ (vid i k) (vid (S i) k) w1 w2 HC) as (P' & HC' & Hs' & HL'); [rewrite vid_S; lia|done|done|done| |].
  { intros G1 G2. destruct Hw2 as [[_ Hw2]|[Hn Hw2]]; [lia|]. specialize (Hclash G1 Hn). destruct W1 as [[_ W1]|[? W1]]; [lia|]. lia. }
  exists P'. constructor.
  - eapply conf_ext; [|exact HC']. by apply R_v_add.
  - intros x Hx. rewrite vid_r in Hx. apply Hs'; [apply (co_fut _ _ _ _ _ HI); lia|rewrite vid_S in Hx; lia|lia].
  - intros x w Hx Hl. rewrite vid_r in Hx. apply HL' in Hl as [[Hz ->]|[[Hz ->]|(Hne & _ & _ & _ & Hl)]].
    + exfalso. destruct (enc_pos i k w1 a x) as (Ha & -> & Hx2); [lia|done|done|]. assert (fr i k a = vid i k) as E3 by lia. rewrite <- fr_at in E3. apply Hinj in E3; lia.
    + exfalso. destruct Hw2 as [[_ Hw2]|[Hn Hw2]]; rewrite ?vid_S in Hw2; lia.
    + apply (co_old _ _ _ _ _ HI); [lia|done].
  - done.
  - intros c Hc. rewrite (Hlook c Hc). destruct (Nat.eqb_spec c k) as [->|Nc].
    + rewrite fr_next_at. eexists. split; [done|]. destruct (Nat.eqb_spec (num (S i) k) 0) as [E0|E0].
      * right. exists w1. split; [|by apply enc_next]. apply HL'. right; left. split; [|done]. by destruct Hw2 as [[_ ->]|[? _]].
      * left. split; [done|]. intros w [[? _]|[[Hz _]|(_ & ? & _)]]%HL'; [done| |done]. destruct Hw2 as [[? _]|[_ Hw2]]; lia.
    + rewrite fr_next by done. pose proof (fr_bounds i k c ltac:(lia) Hc) as HB. destruct (Nat.eqb_spec c a) as [->|Na].
      * eexists. split; [done|]. right. exists w2. split.
        -- apply HL'. left. split; [|done]. by destruct W1 as [[_ ->]|[? _]]; [|lia].
        -- unfold enc. destruct (Nat.eqb_spec (num (S i) k) 0) as [E0|E0].
           ++ left. split; [done|]. rewrite fr_next_at. by destruct Hw2 as [[_ ->]|[? _]].
           ++ right. split; [lia|]. destruct Hw2 as [[? _]|[_ ->]]; [done|]. f_equal. f_equal. lia.
      * assert (F1 : w1 <> Z.of_nat (fr i k c)). { intros E3. by apply (enc_at _ _ _ c Hinj W1) in E3. }
        assert (F2 : w2 <> Z.of_nat (fr i k c)). { destruct Hw2 as [[_ ->]|[? ->]]; lia. }
        assert (G1 : fr i k c <> vid i k). { rewrite <- fr_at. intros E3. apply Hinj in E3; lia. }
        destruct (co_arr _ _ _ _ _ HI c Hc) as (a' & Ea' & A). exists a'. split; [done|].
        destruct A as [[-> Hd]|(w & Hl & Hw)]; [left; split; [done|]|right; exists w; split].
        -- intros w [[? _]|[[? _]|(_ & _ & _ & _ & Hl)]]%HL'; [done|done|]. by apply (Hd w).
        -- apply HL'. right; right. split_and!; [done|lia|done|done|done].
        -- apply enc_next; [|done]. intros ->. destruct Hw as [[_ ->]|[? _]]; [|lia]. rewrite fr_at in Hl.
           destruct (mate_live N col P _ _ _ HC Hl) as [?|Hl']; [done|]. by rewrite (live_fun _ _ _ _ HC _ _ _ L1 Hl') in F1.
Qed.

(** the cell that is joined to the closed one knows it *)
Lemma mate_back P i k M a w1 : core P i (S k) k M -> k < n -> a <> k -> a < n -> live col P (vid i k) w1 -> enc (fr i k) w1 a -> M !! a = Some k.
Proof.
  intros HI Hk Hak Ha L1 W1. pose proof (co_conf _ _ _ _ _ HI) as HC. pose proof (fr_inj' i k) as Hinj. destruct W1 as [[_ ->]|[? _]]; [|lia].
  destruct (mate_live N col P _ _ _ HC L1) as [E3|Hl]; [rewrite <- fr_at in E3; apply Hinj in E3; lia|].
  destruct (co_arr _ _ _ _ _ HI a Ha) as (a' & Ea' & A). destruct A as [[_ Hd]|(w & Hl' & Hw)]; [by apply Hd in Hl|].
  rewrite Ea'. f_equal. apply (enc_at _ _ _ k Hinj Hw Hk). rewrite fr_at. by apply (live_fun _ _ _ _ HC _ _ _ Hl').
Qed.

(** ** the counter of unused cells *)
Definition blk (i k : nat) (bl : Z) : Prop :=
  bl = (if (0 <? nl_max q)%Z then Z.of_nat (cnt i k) else 0%Z) /\ ((0 <= nl_max q)%Z -> (Z.of_nat (cnt i k) <= nl_max q)%Z).
Definition few : Prop := (0 <= nl_max q)%Z -> (Z.of_nat (cnt m 0) <= nl_max q)%Z.
Lemma blank_step i k bl : i < m -> k < n -> blk i k bl -> blankb (i, k) = true ->
  match nl_blank (nl_max q) bl with Some bl' => blk i (S k) bl' | None => ~ few end.
Proof.
  intros Hi Hk [-> Hle] Hbl. pose proof (cnt_S b H i k) as ES. rewrite Hbl in ES. cbn [b2n] in ES. pose proof (cnt_mono b Hn2 H i (S k) ltac:(lia) Hi) as HM.
  unfold nl_blank, blk, few. destruct (Z.ltb_spec 0 (nl_max q)) as [Hp|Hp].
  - destruct (Z.eqb_spec (Z.of_nat (cnt i k)) (nl_max q)) as [Eq|Eq]; [intros Hf; specialize (Hf ltac:(lia)); lia|].
    specialize (Hle ltac:(lia)). unfold w16. rewrite Z.mod_small by lia. rewrite ES. split; [lia|]. intros _. lia.
  - destruct (Z.eqb_spec 0 (nl_max q)) as [Eq|Eq]; [intros Hf; specialize (Hf ltac:(lia)); lia|]. split; [done|]. intros ?. lia.
Qed.
Lemma noblank_step i k bl : blk i k bl -> blankb (i, k) = false -> blk i (S k) bl.
Proof. intros HB Hbl. unfold blk in *. rewrite cnt_S, Hbl. cbn [b2n]. by rewrite Nat.add_0_r. Qed.

Definition Inv (i h k : nat) (s : nl_state) : Prop := (exists P, core P i h k (snd s)) /\ blk i k (fst s).
Definition good : Prop := pathgood N col E /\ few.

Lemma close_step i k s : Inv i (S k) k s -> S i < m -> k < n ->
  exists r, nl_close q i k s = Some r /\ match r with Some s' => Inv i (S k) (S k) s' | None => ~ good end.
Proof.
  destruct s as [bl M]. intros [(P & HI) HB] Hi Hk. cbn [fst snd] in HI, HB. pose proof (co_conf _ _ _ _ _ HI) as HC. pose proof (co_len _ _ _ _ _ HI) as HL.
  destruct (status P i k M HI) as (a & Ea & St); [lia|done|]. destruct (fresh_ok (S i) k Hi Hk) as (t & Et & Ht & En & Ew & Ef).
  unfold nl_close. fold (nl_n q). change (nl_n q) with n. rewrite Ea. cbn [mbind option_bind].
  destruct St as [(-> & Ev & Hbl & Hp & Hc)|[(-> & Ev & Hbl & Hd)|(N1 & N2 & Ev & Hbl & w & Hl & Hw)]].
  - rewrite Nat.eqb_refl. pose proof (blank_step i k bl ltac:(lia) Hk HB Hbl) as HB'. destruct (nl_blank (nl_max q) bl) as [bl'|].
    + rewrite Et. cbn [mbind option_bind negb andb]. rewrite put_ok by lia. cbn [mbind option_bind]. eexists. split; [done|]. split; [|done]. exists P. cbn [snd].
      rewrite Ef. pose proof (nolink_step P i k M HI ltac:(lia) Hk (or_introl Ev) (or_introl (conj Hp Hc))) as HI'. by rewrite (proj2 (Nat.ltb_lt _ _) Hi) in HI'.
    + exists None. split; [done|]. intros [_ Hf]. done.
  - destruct (Nat.eqb_spec n k); [lia|]. rewrite Et. cbn [mbind option_bind negb]. rewrite Nat.eqb_refl. cbn [negb andb]. rewrite put_ok by lia. cbn [mbind option_bind].
    eexists. split; [done|]. split; [|by apply noblank_step]. exists P. cbn [snd]. rewrite Ef.
    pose proof (nolink_step P i k M HI ltac:(lia) Hk (or_introl Ev) (or_intror Hd)) as HI'. by rewrite (proj2 (Nat.ltb_lt _ _) Hi) in HI'.
  - rewrite (proj2 (Nat.eqb_neq _ _) N1). rewrite Et. cbn [mbind option_bind negb]. rewrite (proj2 (Nat.eqb_neq _ _) N2). cbn [negb andb].
    pose proof (noblank_step _ _ _ HB Hbl) as HB'. destruct (Z.ltb_spec 0 t) as [Hpos|Hz].
    + assert (num (S i) k <> 0) as Hn0 by lia. rewrite put_ok by lia. cbn [mbind option_bind]. rewrite w8n.
      destruct (Nat.ltb_spec n a) as [Hna|Hna].
      * destruct (Z.eqb_spec (Z.of_nat a) (Z.of_nat n + t)) as [Eq|Eq].
        -- eexists. split; [done|]. split; [|done]. cbn [snd]. eapply (link_step P i k M _ a w HI Hi Hk Ev N1 Ea Hl Hw); [intros _ _; lia|by rewrite insert_length|].
           intros c Hc. rewrite look by lia. rewrite (proj2 (Nat.eqb_neq _ _) Hn0). destruct (Nat.eqb_spec c k); [done|]. destruct (Nat.eqb_spec c a); [lia|done].
        -- exists None. split; [done|]. intros [HG _]. apply Eq. pose proof (vid_range b (S i) k Hi Hk) as Hr.
           assert (P [vid (S i) k]) as HP by (apply (co_fut _ _ _ _ _ HI); lia). pose proof (live_single col P _ HP) as L2.
           assert (endv col (vid (S i) k) = (- Z.of_nat (num (S i) k))%Z) as E2 by (unfold endv; rewrite vid_col by done; by rewrite (proj2 (Nat.ltb_lt 0 (num (S i) k))) by lia). rewrite E2 in L2.
           destruct Hw as [[? _]|[_ ->]]; [lia|].
           pose proof (no_clash N col P _ E HC (R_E i (S k) k) HG _ _ _ _ Hl L2 (E_v i k Hi Hk Ev) ltac:(lia) ltac:(lia)). lia.
      * rewrite put_ok by (rewrite insert_length; lia). cbn [mbind option_bind]. rewrite Ew. eexists. split; [done|]. split; [|done]. cbn [snd].
        eapply (link_step P i k M _ a w HI Hi Hk Ev N1 Ea Hl Hw); [|by rewrite !insert_length|].
        { intros Hneg _. destruct Hw as [[_ ->]|[? _]]; lia. }
        intros c Hc. rewrite look by (rewrite insert_length; lia). rewrite look by lia. rewrite (proj2 (Nat.eqb_neq _ _) Hn0).
        destruct (Nat.eqb_spec c k) as [->|]; [|done]. destruct (Nat.eqb_spec k a); [congruence|done].
    + assert (num (S i) k = 0) as Hn0 by lia. eexists. split; [done|]. split; [|done]. cbn [snd].
      eapply (link_step P i k M _ a w HI Hi Hk Ev N1 Ea Hl Hw); [done|done|].
      intros c Hc. rewrite Hn0. cbn [Nat.eqb]. destruct (Nat.eqb_spec c k) as [->|]; [done|]. destruct (Nat.eqb_spec c a) as [->|]; [|done].
      by apply (mate_back P i k M a w).
Qed.

Lemma bottom_step i k s : Inv i (S k) k s -> S i = m -> k < n ->
  exists r, nl_bottom q k s = Some r /\ match r with Some s' => Inv i (S k) (S k) s' | None => ~ good end.
Proof.
  destruct s as [bl M]. intros [(P & HI) HB] Hi Hk. cbn [fst snd] in HI, HB. pose proof (co_conf _ _ _ _ _ HI) as HC. pose proof (co_len _ _ _ _ _ HI) as HL.
  destruct (status P i k M HI) as (a & Ea & St); [lia|done|]. assert (S i <? m = false) as Em by (apply Nat.ltb_ge; lia).
  unfold nl_bottom. change (nl_n q) with n. rewrite Ea. cbn [mbind option_bind]. rewrite w8n.
  destruct St as [(-> & Ev & Hbl & Hp & Hc)|[(-> & Ev & Hbl & Hd)|(N1 & N2 & Ev & Hbl & w & Hl & Hw)]].
  - rewrite Nat.eqb_refl. pose proof (blank_step i k bl ltac:(lia) Hk HB Hbl) as HB'. destruct (nl_blank (nl_max q) bl) as [bl'|].
    + rewrite put_ok by lia. cbn [mbind option_bind]. eexists. split; [done|]. split; [|done]. exists P. cbn [snd].
      pose proof (nolink_step P i k M HI ltac:(lia) Hk (or_introl Ev) (or_introl (conj Hp Hc))) as HI'. by rewrite Em in HI'.
    + exists None. split; [done|]. intros [_ Hf]. done.
  - destruct (Nat.eqb_spec n k); [lia|]. rewrite Nat.eqb_refl. cbn [negb]. rewrite put_ok by lia. cbn [mbind option_bind].
    eexists. split; [done|]. split; [|by apply noblank_step]. exists P. cbn [snd].
    pose proof (nolink_step P i k M HI ltac:(lia) Hk (or_introl Ev) (or_intror Hd)) as HI'. by rewrite Em in HI'.
  - rewrite (proj2 (Nat.eqb_neq _ _) N1). rewrite (proj2 (Nat.eqb_neq _ _) N2). cbn [negb]. exists None. split; [done|]. intros [HG _].
    assert (w = Z.of_nat (vid i k)) as ->.
    { apply (no_loose N col P _ E HC (R_E i (S k) k) HG _ _ Hl). intros y. rewrite R_four by lia. rewrite ed_four by lia. unfold dn. by rewrite Em. }
    apply N1. apply (enc_at _ _ _ k (fr_inj' i k) Hw Hk). by rewrite fr_at.
Qed.
End inv.
