(** SimpathBasedImpl: the invariant of the mate array and its preservation. *)
From stdpp Require Import strings gmap.
From Verif Require Import Base Sem P_Size M_Graph S_Graph P_Front M_Degree S_Degree P_Degree M_Simpath S_Simpath P_Simpath1 P_Simpath2 P_Simpath3.
Local Open Scope Z_scope.

Definition upd (M : nat -> Z) (x : nat) (w : Z) (y : nat) : Z := if (y =? x)%nat then w else M y.
Lemma upd_eq M x w : upd M x w x = w.
Proof. unfold upd. by rewrite Nat.eqb_refl. Qed.
Lemma upd_ne M x w y : y <> x -> upd M x w y = M y.
Proof. intros H. unfold upd. by destruct (Nat.eqb_spec y x). Qed.

Section simpath.
Context (G : simpath).
Let g := sm_graph G.
Let es := g_edgeInfo g.
Let m := vertexSize g.
Let n := length es.
Let W := sm_size G.
Let col := colorNumber g.
Let K := g_numColor g.
Context (HN : numbering_ok m es) (HL : loop_free g) (Hm : Z.of_nat m <= 32767) (HK16 : Z.of_nat K <= 32767).
Context (Hout : forall x, col x <> 0%nat -> (1 <= x <= m)%nat) (HKr : forall x, (col x <= K)%nat).
Context (Hcyc : sm_cycle G = true -> forall x, col x = 0%nat).
Context (Hall : forall c, (1 <= c <= K)%nat -> exists x, col x = c).
Context (Hpair : forall z, col z <> 0%nat -> exists z', z' <> z /\ forall x, col x = col z <-> x = z \/ x = z').
Context (HK1 : sm_cycle G = false -> (1 <= K)%nat).
Context (Hseen : sm_cycle G = false -> forall a i, es !! a = Some i -> e_allColorsSeen i = true <->
    forall c, (1 <= c <= K)%nat -> exists b v, (b <= a)%nat /\ incident es b v /\ col v = c).

Notation V0 := (V0 m es).
Notation live := (live col).
Notation endv := (endv col).

(** the chosen edges among the first i *)
Definition E (ch : nat -> bool) (i : nat) (x y : nat) : Prop :=
  exists a e, (a < i)%nat /\ es !! a = Some e /\ ch a = true /\ joins e x y.
Definition few (i x : nat) : Prop := forall b c, (i <= b)%nat -> (i <= c)%nat -> incident es b x -> incident es c x -> b = c.

Record AInv (ch : nat -> bool) (i : nat) (M : nat -> Z) (P : list nat -> Prop) : Prop := {
  ai_conf : conf m col P (E ch i);
  ai_live : forall x, (V0 i <= x)%nat -> M x <> 0 -> live P x (M x);
  ai_dead : forall x, (x < V0 i)%nat \/ M x = 0 -> ~ (exists w, live P x w) \/ (P [x] /\ col x = 0%nat /\ few i x);
  ai_init : forall x, (V0 i + W <= x)%nat -> M x = sm_init_at G x;
  ai_neg : sm_cycle G = false -> ~ (forall z w, live P z w -> 0 <= w)
}.
Definition arr (i : nat) (M : nat -> Z) (s : list Z) : Prop :=
  length s = W /\ forall k, (k < W)%nat -> s !! k = Some (M (V0 i + k)%nat).

(** ** edges *)
Lemma joins_sym e x y : joins e x y -> joins e y x.
Proof. unfold joins. tauto. Qed.
Lemma joins_fun a e x y z : es !! a = Some e -> joins e x y -> joins e x z -> y = z.
Proof. intros He. pose proof (HL _ _ He). unfold joins. intuition congruence. Qed.
Lemma joins_inc a e x y : es !! a = Some e -> joins e x y -> incident es a x.
Proof. intros He H. exists e. split; [done|]. unfold joins in H. tauto. Qed.
Lemma joins_same a b e f x y : es !! a = Some e -> es !! b = Some f -> joins e x y -> joins f x y -> a = b.
Proof.
  intros He Hf H1 H2. pose proof (no_range _ _ HN _ _ He) as (_ & _ & R1 & _). pose proof (no_range _ _ HN _ _ Hf) as (_ & _ & R2 & _).
  apply (no_simple _ _ HN a b e f He Hf); unfold joins in *; lia.
Qed.
Lemma E_mono ch i j x y : (i <= j)%nat -> E ch i x y -> E ch j x y.
Proof. intros Hij (a & e & Ha & H). exists a, e. split; [lia|done]. Qed.
Lemma E_S ch i e x y : es !! i = Some e -> E ch (S i) x y <-> E ch i x y \/ (ch i = true /\ joins e x y).
Proof.
  intros He. split.
  - intros (a & f & Ha & Hf & Hc & Hj). destruct (decide (a = i)) as [->|]; [right; split; [done|congruence]|]. left. exists a, f. split; [lia|done].
  - intros [H|[Hc Hj]]; [eapply E_mono; [|done]; lia|]. exists i, e. split; [lia|done].
Qed.
Lemma E_new ch i e x y : es !! i = Some e -> joins e x y -> ~ E ch i x y.
Proof. intros He Hj (a & f & Ha & Hf & _ & Hj'). pose proof (joins_same _ _ _ _ _ _ He Hf Hj Hj'). lia. Qed.
Lemma E_ext ch ch' i x y : (forall a, (a < i)%nat -> ch a = ch' a) -> E ch i x y <-> E ch' i x y.
Proof. intros H. split; intros (a & e & Ha & He & Hc & Hj); exists a, e; (split_and!; [done|done| |done]); [by rewrite <- H|by rewrite H]. Qed.
Lemma E_end ch i x y : E ch n x y -> ~ E ch i x y -> exists a e, (i <= a < n)%nat /\ es !! a = Some e /\ ch a = true /\ joins e x y.
Proof. intros (a & e & Ha & He & Hc & Hj) Hn. exists a, e. split; [|done]. split; [|done]. destruct (decide (i <= a)%nat); [done|]. destruct Hn. exists a, e. split; [lia|done]. Qed.
Lemma AInv_ext ch ch' i M P : (forall a, (a < i)%nat -> ch a = ch' a) -> AInv ch i M P -> AInv ch' i M P.
Proof. intros H []. constructor; [|done..]. eapply conf_ext; [|done]. intros x y. by apply E_ext. Qed.

Lemma V0_le i j : (i <= j)%nat -> (j <= n)%nat -> (V0 i <= V0 j)%nat.
Proof. induction 1 as [|j Hij IH]; intros Hj; [done|]. etrans; [apply IH; lia|]. apply (V0_mono m es HN j). fold n. lia. Qed.
Lemma touched i b x : (b <= i)%nat -> (i <= n)%nat -> incident es b x -> (x < V0 i + W)%nat.
Proof.
  intros Hb Hi (e & He & Hx). pose proof (V0_le b i Hb Hi) as Hv. rewrite (V0_at m es b e He) in Hv. pose proof (no_range _ _ HN _ _ He).
  pose proof (max_frontier g b e He) as HM. change (maxFrontierSize g) with W in HM. lia.
Qed.
Lemma E_touched ch i x y : (i <= n)%nat -> E ch i x y -> (x < V0 i + W)%nat.
Proof. intros Hi (a & e & Ha & He & _ & Hj). apply (touched i a); [lia|done|]. by eapply joins_inc. Qed.
Lemma V0_pos i : (i <= n)%nat -> (1 <= V0 i)%nat.
Proof.
  intros Hi. destruct (es !! i) as [e|] eqn:He; [rewrite (V0_at m es i e He); by destruct (no_range _ _ HN _ _ He)|].
  apply lookup_ge_None in He. assert (i = length es) as -> by (unfold n in *; lia). rewrite V0_end. lia.
Qed.
Lemma init_endv x : (1 <= x <= m)%nat -> sm_init_at G x = endv x.
Proof.
  intros Hx. unfold sm_init_at. fold g m. rewrite (proj2 (Nat.leb_le _ _)) by lia. rewrite (proj2 (Nat.leb_le _ _)) by lia. cbn [andb].
  fold col. unfold P_Simpath1.endv. pose proof (HKr x). destruct (Nat.ltb_spec 0 (col x)); apply wrap16_id; lia.
Qed.

(** ** the root *)
Lemma AInv_root ch : AInv ch 0 (sm_init_at G) (fun r => exists x, r = [x] /\ (1 <= x <= m)%nat).
Proof.
  assert (forall x w, live (fun r => exists x, r = [x] /\ (1 <= x <= m)%nat) x w <-> (1 <= x <= m)%nat /\ w = endv x) as Hlive.
  { intros x w. split.
    - intros (l & (y & El & Hy) & _ & ->). destruct l as [|a [|b l]]; [|done|done]. injection El as ->. done.
    - intros [Hx ->]. exists []. split; [by exists x|]. split; [by left|done]. }
  constructor.
  - constructor.
    + intros p (x & -> & Hx). by exists x.
    + intros p (x & -> & Hx). apply NoDup_singleton.
    + by intros (x & ? & _).
    + intros x. split; [intros Hx; exists [x]; split; [by exists x|set_solver]|]. intros (p & (y & -> & Hy) & Hx). by apply elem_of_list_singleton in Hx as ->.
    + intros p q x (y & -> & _) (z & -> & _) Hx Hx'. apply elem_of_list_singleton in Hx as ->. apply elem_of_list_singleton in Hx' as ->. by left.
    + intros x y. split; [intros (a & e & Ha & _); lia|]. intros (p & (z & -> & _) & Hn). by apply next_one in Hn.
    + intros l1 l2 x (z & El & _) H1 _. destruct l1 as [|a [|b l1]]; done.
    + intros x l y (z & El & _). by destruct l.
  - intros x Hx Hnz. apply Hlive. unfold sm_init_at in *. destruct (Nat.leb_spec 1 x), (Nat.leb_spec x (vertexSize (sm_graph G))); cbn [andb] in *; [|done..].
    split; [split; [done|done]|]. rewrite <- init_endv by done. unfold sm_init_at. rewrite (proj2 (Nat.leb_le _ _)) by lia. by rewrite (proj2 (Nat.leb_le _ _)) by lia.
  - intros x Hx. left. intros [w [Hr _]%Hlive]. destruct Hx as [Hx|Hx].
    + destruct (es !! 0%nat) as [e|] eqn:He.
      * rewrite (V0_at m es 0 e He), (front_first m es HN 0 e He eq_refl) in Hx. lia.
      * destruct (no_used _ _ HN x Hr) as (a & e & Ha & _). apply lookup_ge_None in He. apply lookup_lt_Some in Ha. lia.
    + rewrite init_endv in Hx by done. unfold P_Simpath1.endv in Hx. destruct (Nat.ltb_spec 0 (col x)); lia.
  - done.
  - intros Hc Hno. destruct (Hall 1) as [z Hz]; [specialize (HK1 Hc); lia|]. assert (1 <= z <= m)%nat by (apply Hout; lia).
    specialize (Hno z (endv z) (proj2 (Hlive _ _) (conj H eq_refl))). unfold P_Simpath1.endv in Hno. rewrite Hz in Hno. cbn in Hno. lia.
Qed.

(** ** reading the ends of the current edge *)
Lemma arr_get i M s x : arr i M s -> (V0 i <= x)%nat -> (x < V0 i + W)%nat -> s !! (x - V0 i)%nat = Some (M x).
Proof. intros [_ H] H1 H2. rewrite H by lia. do 2 f_equal. lia. Qed.
Lemma edge_ends i e : es !! i = Some e -> (V0 i <= e_v1 e)%nat /\ (e_v1 e < e_v2 e)%nat /\ (e_v2 e <= m)%nat /\ (e_v2 e < V0 i + W)%nat /\ (1 <= V0 i)%nat.
Proof.
  intros He. destruct (no_range _ _ HN _ _ He) as (R1 & R2 & R3 & R4). pose proof (HL _ _ He). rewrite (V0_at m es i e He).
  pose proof (max_frontier g i e He) as HM. change (maxFrontierSize g) with W in HM. lia.
Qed.
Lemma edge_joins e : joins e (e_v1 e) (e_v2 e).
Proof. by left. Qed.
Lemma live_at ch i M P x : AInv ch i M P -> (V0 i <= x)%nat -> M x <> 0 -> exists l, P (l ++ [x]) /\ (l = [] \/ col x = 0%nat) /\ M x = endv (hd x l).
Proof. intros HI Hx Hnz. exact (ai_live _ _ _ _ HI x Hx Hnz). Qed.

(** live vertices of the path that ends in x *)
Lemma live_on P R l v x w : conf m col P R -> P (l ++ [v]) -> (l = [] \/ col v = 0%nat) -> live P x w -> x ∈ l ++ [v] ->
  (x = v /\ w = endv (hd v l)) \/ (x = hd v l /\ x <> v /\ w = endv v /\ col v = 0%nat /\ col x = 0%nat).
Proof.
  intros HC Hp Hcv Hlv Hx. destruct Hlv as (k & Hk & Hc & ->). apply elem_of_app in Hx as [Hx| ->%elem_of_list_singleton].
  - right. destruct l as [|a l]; [by apply elem_of_nil in Hx|]. destruct Hcv as [?|Hcv]; [done|].
    assert (Hne : x <> v). { intros ->. apply (c_nd _ _ _ _ HC), NoDup_app in Hp as (_ & Hp & _). apply (Hp v Hx). set_solver. }
    destruct (c_uniq _ _ _ _ HC _ _ x Hp Hk) as [E1|E1]; [set_solver|set_solver|by apply app_inj_tail in E1 as [_ ?]|].
    change ((a :: l) ++ [v]) with (a :: l ++ [v]) in E1. rewrite rev_ends, app_comm_cons in E1. apply app_inj_tail in E1 as [-> ->]. cbn. destruct Hc as [?|Hc]; [done|]. done.
  - left. by rewrite (conf_snoc _ _ _ _ HC _ _ _ Hp Hk).
Qed.

(** the two ends belong to different paths unless mate[v1] = v2 *)
Lemma ends_disjoint P R v1 v2 l k : conf m col P R -> v1 <> v2 -> P (l ++ [v1]) -> P (k ++ [v2]) -> (k = [] \/ col v2 = 0%nat) ->
  endv (hd v1 l) <> Z.of_nat v2 -> forall x, x ∈ l ++ [v1] -> x ∉ k ++ [v2].
Proof.
  intros HC Hne H1 H2 Hc Hw x Hx Hx'. destruct (c_uniq _ _ _ _ HC _ _ x H1 H2 Hx Hx') as [E1|E1].
  - by apply app_inj_tail in E1 as [_ ?].
  - destruct l as [|a l]; [destruct k as [|b k]; [by injection E1|injection E1 as _ E1; by destruct k]|].
    change ((a :: l) ++ [v1]) with (a :: l ++ [v1]) in E1. rewrite rev_ends, app_comm_cons in E1. apply app_inj_tail in E1 as [-> ->]. apply Hw. cbn. destruct Hc as [?|Hc]; [done|].
    unfold P_Simpath1.endv. by rewrite Hc.
Qed.

(** ** taking an edge *)
Definition M_take (M : nat -> Z) (e : edge_info) : nat -> Z :=
  let w1 := M (e_v1 e) in let w2 := M (e_v2 e) in
  let M1 := if 0 <? w1 then upd M (Z.to_nat w1) w2 else M in
  let M2 := if 0 <? w2 then upd M1 (Z.to_nat w2) w1 else M1 in
  let M3 := if e_v1final e || negb (w1 =? Z.of_nat (e_v1 e)) then upd M2 (e_v1 e) 0 else M2 in
  if e_v2final e || negb (w2 =? Z.of_nat (e_v2 e)) then upd M3 (e_v2 e) 0 else M3.

Section take.
Context (ch : nat -> bool) (i : nat) (M : nat -> Z) (P : list nat -> Prop) (HI : AInv ch i M P) (e : edge_info) (He : es !! i = Some e).
Notation v1 := (e_v1 e).
Notation v2 := (e_v2 e).
Context (Hnz1 : M v1 <> 0) (Hnz2 : M v2 <> 0).
Context (Hf1 : ~ (e_v1final e = true /\ M v1 = Z.of_nat v1)) (Hf2 : ~ (e_v2final e = true /\ M v2 = Z.of_nat v2)).
Context (Hd : M v1 <> Z.of_nat v2) (Hsame : M v1 < 0 -> M v2 < 0 -> M v1 = M v2).
Context (l k : list nat) (H1 : P (l ++ [v1])) (H2 : P (k ++ [v2])) (Hc1 : l = [] \/ col v1 = 0%nat) (Hc2 : k = [] \/ col v2 = 0%nat).
Context (Hw1 : M v1 = endv (hd v1 l)) (Hw2 : M v2 = endv (hd v2 k)).
Notation e1 := (hd v1 l).
Notation e2 := (hd v2 k).
Notation P' := (Pj P v1 v2 l k).
Let HC := ai_conf _ _ _ _ HI.

Lemma tk_disj : forall x, x ∈ l ++ [v1] -> x ∉ k ++ [v2].
Proof.
  eapply ends_disjoint; [exact HC| |done|done|done|by rewrite <- Hw1]. by apply (HL i).
Qed.
Lemma tk_same : col e1 <> 0%nat -> col e2 <> 0%nat -> col e1 = col e2.
Proof. unfold P_Simpath1.endv in *. destruct (Nat.ltb_spec 0 (col e1)), (Nat.ltb_spec 0 (col e2)); lia. Qed.
Lemma tk_conf0 : conf m col P' (Rj (E ch i) v1 v2).
Proof. apply join_conf; [exact HC|exact H1|exact H2|exact tk_disj|exact Hc1|exact Hc2|exact tk_same]. Qed.
Lemma e1_in : e1 ∈ l ++ [v1].
Proof. destruct l; cbn; set_solver. Qed.
Lemma e2_in : e2 ∈ k ++ [v2].
Proof. destruct k; cbn; set_solver. Qed.
Lemma v1_in : v1 ∈ l ++ [v1].
Proof. apply elem_of_app. right. by apply elem_of_list_singleton. Qed.
Lemma v2_in : v2 ∈ k ++ [v2].
Proof. apply elem_of_app. right. by apply elem_of_list_singleton. Qed.
Lemma tk_ne x y : x ∈ l ++ [v1] -> y ∈ k ++ [v2] -> x <> y.
Proof. intros Hx Hy ->. exact (tk_disj y Hx Hy). Qed.
Lemma e1_pos : col e1 = 0%nat -> M v1 = Z.of_nat e1 /\ 0 < M v1.
Proof.
  intros H. rewrite Hw1. unfold P_Simpath1.endv. rewrite H. cbn. split; [done|].
  pose proof (conf_range _ _ _ _ HC e1 _ H1 e1_in). lia.
Qed.
Lemma e2_pos : col e2 = 0%nat -> M v2 = Z.of_nat e2 /\ 0 < M v2.
Proof.
  intros H. rewrite Hw2. unfold P_Simpath1.endv. rewrite H. cbn. split; [done|].
  pose proof (conf_range _ _ _ _ HC e2 _ H2 e2_in). lia.
Qed.
Lemma e1_neg : col e1 <> 0%nat -> M v1 < 0.
Proof. intros H. rewrite Hw1. unfold P_Simpath1.endv. destruct (Nat.ltb_spec 0 (col e1)); lia. Qed.
Lemma e2_neg : col e2 <> 0%nat -> M v2 < 0.
Proof. intros H. rewrite Hw2. unfold P_Simpath1.endv. destruct (Nat.ltb_spec 0 (col e2)); lia. Qed.

(** the new array, cell by cell *)
Lemma tk_spec :
  (col e1 = 0%nat -> M_take M e e1 = M v2) /\ (col e2 = 0%nat -> M_take M e e2 = M v1) /\
  (e1 <> v1 \/ col e1 <> 0%nat -> M_take M e v1 = 0) /\ (e2 <> v2 \/ col e2 <> 0%nat -> M_take M e v2 = 0) /\
  (forall x, x <> v1 -> x <> v2 -> (x = e1 -> col e1 <> 0%nat) -> (x = e2 -> col e2 <> 0%nat) -> M_take M e x = M x).
Proof.
  pose proof (tk_ne _ _ e1_in e2_in) as N12. pose proof (tk_ne _ _ v1_in v2_in) as Nv. pose proof (tk_ne _ _ e1_in v2_in) as N1. pose proof (tk_ne _ _ v1_in e2_in) as N2.
  assert (Z1 : e1 <> v1 \/ col e1 <> 0%nat -> (M v1 =? Z.of_nat v1) = false).
  { intros H. apply Z.eqb_neq. destruct (decide (col e1 = 0%nat)) as [C|C]; [pose proof (e1_pos C); lia|]. pose proof (e1_neg C). lia. }
  assert (Z2 : e2 <> v2 \/ col e2 <> 0%nat -> (M v2 =? Z.of_nat v2) = false).
  { intros H. apply Z.eqb_neq. destruct (decide (col e2 = 0%nat)) as [C|C]; [pose proof (e2_pos C); lia|]. pose proof (e2_neg C). lia. }
  assert (Hz1 : 0 < M v1 -> Z.to_nat (M v1) = e1 /\ col e1 = 0%nat).
  { intros H. destruct (decide (col e1 = 0%nat)) as [C|C]; [pose proof (e1_pos C); lia|]. pose proof (e1_neg C). lia. }
  assert (Hz2 : 0 < M v2 -> Z.to_nat (M v2) = e2 /\ col e2 = 0%nat).
  { intros H. destruct (decide (col e2 = 0%nat)) as [C|C]; [pose proof (e2_pos C); lia|]. pose proof (e2_neg C). lia. }
  unfold M_take. cbv zeta. split_and!.
  - intros C. destruct (e1_pos C) as [E1 P1]. rewrite (proj2 (Z.ltb_lt _ _) P1). rewrite (proj1 (Hz1 P1)).
    assert (forall M', upd (if 0 <? M v2 then upd (upd M e1 (M v2)) (Z.to_nat (M v2)) (M v1) else upd M e1 (M v2)) v2 M' e1 = M v2) as Hin.
    { intros M'. rewrite upd_ne by done. destruct (Z.ltb_spec 0 (M v2)) as [P2|]; [rewrite (proj1 (Hz2 P2)), upd_ne by done|]; apply upd_eq. }
    pose proof (Hin 0) as Hin0. rewrite upd_ne in Hin0 by done.
    destruct (e_v1final e || negb (M v1 =? Z.of_nat v1)) eqn:B1.
    + assert (e1 <> v1). { intros E2. apply orb_true_iff in B1 as [B1|B1]; [apply Hf1; split; [done|by rewrite E1, E2]|]. apply negb_true_iff, Z.eqb_neq in B1. congruence. }
      destruct (e_v2final e || _); [rewrite (upd_ne _ v2) by done|]; rewrite upd_ne by done; exact Hin0.
    + destruct (e_v2final e || _); [rewrite (upd_ne _ v2) by done|]; exact Hin0.
  - intros C. destruct (e2_pos C) as [E1 P1]. rewrite (proj2 (Z.ltb_lt _ _) P1). rewrite (proj1 (Hz2 P1)).
    destruct (e_v2final e || negb (M v2 =? Z.of_nat v2)) eqn:B1.
    + assert (e2 <> v2). { intros E2. apply orb_true_iff in B1 as [B1|B1]; [apply Hf2; split; [done|by rewrite E1, E2]|]. apply negb_true_iff, Z.eqb_neq in B1. congruence. }
      rewrite (upd_ne _ v2) by done. destruct (e_v1final e || _); [rewrite (upd_ne _ v1) by done|]; by rewrite upd_eq.
    + destruct (e_v1final e || _); [rewrite (upd_ne _ v1) by done|]; by rewrite upd_eq.
  - intros H. rewrite (Z1 H). rewrite orb_true_r. destruct (e_v2final e || _); [rewrite (upd_ne _ v2) by done|]; by rewrite upd_eq.
  - intros H. rewrite (Z2 H). rewrite orb_true_r. by rewrite upd_eq.
  - intros x X1 X2 X3 X4.
    assert ((if 0 <? M v2 then upd (if 0 <? M v1 then upd M (Z.to_nat (M v1)) (M v2) else M) (Z.to_nat (M v2)) (M v1) else if 0 <? M v1 then upd M (Z.to_nat (M v1)) (M v2) else M) x = M x) as Hin.
    { assert ((if 0 <? M v1 then upd M (Z.to_nat (M v1)) (M v2) else M) x = M x) as Hin1.
      { destruct (Z.ltb_spec 0 (M v1)) as [Q|]; [|done]. destruct (Hz1 Q) as [-> C]. apply upd_ne. tauto. }
      destruct (Z.ltb_spec 0 (M v2)) as [Q|]; [|exact Hin1]. destruct (Hz2 Q) as [-> C]. rewrite upd_ne by tauto. exact Hin1. }
    destruct (e_v2final e || _); [rewrite (upd_ne _ v2) by done|]; (destruct (e_v1final e || _); [rewrite (upd_ne _ v1) by done|]); exact Hin.
Qed.

(** an uncolored other end is inside the frontier and its window *)
Lemma end_in_front z q w : P (q ++ [w]) -> (q = [] \/ col w = 0%nat) -> z = hd w q -> col z = 0%nat -> (V0 i <= w)%nat -> (w < V0 i + W)%nat -> (V0 i <= z < V0 i + W)%nat.
Proof.
  intros Hp Hc -> Hz Hw Hw'. destruct q as [|a q]; [done|]. cbn in *. destruct Hc as [?|Hc]; [done|].
  pose proof (lookup_lt_Some _ _ _ He) as Hi. fold n in Hi.
  assert (P ((w :: rev q) ++ [a])) as Hr. { pose proof (c_rev _ _ _ _ HC _ Hp) as Hr. rewrite rev_ends in Hr. exact Hr. }
  assert (live P a (endv w)) as Hla by (exists (w :: rev q); split; [done|]; split; [by right|done]).
  split.
  - destruct (decide (V0 i <= a)%nat) as [|Hlt]; [done|]. exfalso. destruct (ai_dead _ _ _ _ HI a) as [Hn|(Hs & _)]; [left; lia|apply Hn; by eexists|].
    pose proof (conf_snoc _ _ _ _ HC (w :: rev q) [] a Hr Hs). done.
  - destruct (snoc_inv (w :: rev q)) as [|(q' & b & E1)]; [done|]. apply (E_touched ch i a b); [lia|]. apply (conf_next_end _ _ _ _ HC _ _ _ Hr). rewrite E1. by exists q'.
Qed.
Lemma e1_front : col e1 = 0%nat -> (V0 i <= e1 < V0 i + W)%nat.
Proof. intros C. destruct (edge_ends i e He) as (R1 & R2 & R3 & R4 & R5). eapply end_in_front; [exact H1|done|done|done|lia|lia]. Qed.
Lemma e2_front : col e2 = 0%nat -> (V0 i <= e2 < V0 i + W)%nat.
Proof. intros C. destruct (edge_ends i e He) as (R1 & R2 & R3 & R4 & R5). eapply end_in_front; [exact H2|done|done|done|lia|lia]. Qed.

Lemma J_iff x : x ∈ J v1 v2 l k <-> x ∈ l ++ [v1] \/ x ∈ k ++ [v2].
Proof. apply J_in. Qed.

(** one side *)
Lemma side_live x : (x ∈ J v1 v2 l k) -> (V0 i <= x)%nat -> M_take M e x <> 0 -> live P' x (M_take M e x).
Proof.
  intros Hx Hv Hnz. destruct tk_spec as (T1 & T2 & T3 & T4 & T5).
  destruct (decide (x = e1)) as [->|X1].
  { destruct (decide (col e1 = 0%nat)) as [C|C].
    - rewrite T1 by done. eapply join_live1; [exact HC|exact H1|exact H2|exact tk_disj|exact Hc1|exact Hc2|exact tk_same|]. split; [done|by rewrite Hw2].
    - exfalso. destruct (decide (e1 = v1)) as [E1|N1]; [rewrite E1 in Hnz; apply Hnz, T3; rewrite <- E1; tauto|].
      rewrite T5 in Hnz; [|done|apply (tk_ne _ _ e1_in v2_in)|done|intros E1; by destruct (tk_ne _ _ e1_in e2_in)].
      pose proof (ai_live _ _ _ _ HI _ Hv Hnz) as Hl. destruct (live_on _ _ _ _ _ _ HC H1 Hc1 Hl e1_in) as [[? _]|(_ & _ & _ & _ & ?)]; done. }
  destruct (decide (x = e2)) as [->|X2].
  { destruct (decide (col e2 = 0%nat)) as [C|C].
    - rewrite T2 by done. eapply join_live2; [exact HC|exact H1|exact H2|exact tk_disj|exact Hc1|exact Hc2|exact tk_same|]. split; [done|by rewrite Hw1].
    - exfalso. destruct (decide (e2 = v2)) as [E1|N1]; [rewrite E1 in Hnz; apply Hnz, T4; rewrite <- E1; tauto|].
      rewrite T5 in Hnz; [|intros E1; by destruct (tk_ne _ _ v1_in e2_in)|done|done|done].
      pose proof (ai_live _ _ _ _ HI _ Hv Hnz) as Hl. destruct (live_on _ _ _ _ _ _ HC H2 Hc2 Hl e2_in) as [[? _]|(_ & _ & _ & _ & ?)]; done. }
  exfalso. destruct (decide (x = v1)) as [->|X3]; [apply Hnz, T3; left; congruence|]. destruct (decide (x = v2)) as [->|X4]; [apply Hnz, T4; left; congruence|].
  rewrite T5 in Hnz by done. pose proof (ai_live _ _ _ _ HI _ Hv Hnz) as Hl. apply J_iff in Hx as [Hx|Hx].
  - destruct (live_on _ _ _ _ _ _ HC H1 Hc1 Hl Hx) as [[? _]|(? & _)]; done.
  - destruct (live_on _ _ _ _ _ _ HC H2 Hc2 Hl Hx) as [[? _]|(? & _)]; done.
Qed.
Lemma out_take x : x ∉ J v1 v2 l k -> M_take M e x = M x.
Proof.
  intros Hx. destruct tk_spec as (T1 & T2 & T3 & T4 & T5). rewrite J_iff in Hx.
  apply T5; intros ->; exfalso; apply Hx; [left; apply v1_in|right; apply v2_in|left; apply e1_in|right; apply e2_in].
Qed.

Lemma take_init x : (V0 i + W <= x)%nat -> M_take M e x = sm_init_at G x.
Proof.
  intros Hx. destruct (edge_ends i e He) as (R1 & R2 & R3 & R4 & R5). destruct tk_spec as (T1 & T2 & T3 & T4 & T5).
  rewrite <- (ai_init _ _ _ _ HI x) by lia. apply T5; intros ->; [lia|lia| |].
  - intros C. pose proof (e1_front C). lia.
  - intros C. pose proof (e2_front C). lia.
Qed.
Context (Hch : ch i = true) (Hneg' : sm_cycle G = false -> ~ (forall z w, live P' z w -> 0 <= w)).

Lemma take_inv : AInv ch (S i) (M_take M e) P'.
Proof.
  pose proof (lookup_lt_Some _ _ _ He) as Hi. fold n in Hi. pose proof (V0_mono m es HN i Hi) as Hmono.
  destruct (edge_ends i e He) as (R1 & R2 & R3 & R4 & R5). destruct tk_spec as (T1 & T2 & T3 & T4 & T5).
  pose proof (conf_range _ _ _ _ HC) as Hrange.
  assert (Hfin : forall x, (V0 i <= x <= m)%nat -> (x < V0 (S i))%nat -> (x = v1 /\ e_v1final e = true) \/ (x = v2 /\ e_v2final e = true)).
  { intros x Hx. by apply (front_fin m es HN i e x He Hx). }
  constructor.
  - eapply conf_ext; [|exact tk_conf0]. intros x y. rewrite (E_S ch i e x y He). unfold Rj, joins. rewrite Hch. split.
    + intros [?|[[-> ->]|[-> ->]]]; [by left|right; split; [done|by left]|right; split; [done|by right]].
    + intros [?|[_ [[<- <-]|[<- <-]]]]; [by left|right; by left|right; by right].
  - intros x Hx Hnz. destruct (decide (x ∈ J v1 v2 l k)) as [Hj|Hj]; [apply side_live; [done|lia|done]|].
    rewrite out_take in * by done. apply (join_live_out m col P (E ch i) HC v1 v2 l k H1 H2 tk_disj Hc1 Hc2 tk_same x _ Hj). apply (ai_live _ _ _ _ HI); [lia|done].
  - intros x Hx. destruct (decide (x ∈ J v1 v2 l k)) as [Hj|Hj].
    + left. intros [w Hw]. assert (1 <= x <= m)%nat as Hxr. { apply J_iff in Hj as [Hj|Hj]; eapply Hrange; [exact H1|done|exact H2|done]. }
      destruct (join_live_in m col P (E ch i) HC v1 v2 l k H1 H2 tk_disj Hc1 Hc2 tk_same x w Hj Hw) as [->| ->].
      * apply (join_live1 m col P (E ch i) HC v1 v2 l k H1 H2 tk_disj Hc1 Hc2 tk_same) in Hw as [C _]. pose proof (e1_front C) as Hfr. destruct Hx as [Hx|Hx].
        -- destruct (Hfin e1) as [[E1 F]|[E1 F]]; [lia|done|apply Hf1; split; [done|]; rewrite (proj1 (e1_pos C)); by rewrite E1|].
           by destruct (tk_ne _ _ e1_in v2_in).
        -- rewrite T1 in Hx by done. done.
      * apply (join_live2 m col P (E ch i) HC v1 v2 l k H1 H2 tk_disj Hc1 Hc2 tk_same) in Hw as [C _]. pose proof (e2_front C) as Hfr. destruct Hx as [Hx|Hx].
        -- destruct (Hfin e2) as [[E1 F]|[E1 F]]; [lia|done| |apply Hf2; split; [done|]; rewrite (proj1 (e2_pos C)); by rewrite E1].
           by destruct (tk_ne _ _ v1_in e2_in).
        -- rewrite T2 in Hx by done. done.
    + rewrite out_take in Hx by done.
      assert ((x < V0 i)%nat \/ M x = 0) as Hx'.
      { destruct Hx as [Hx|Hx]; [|by right]. destruct (decide (x < V0 i)%nat) as [|Hge]; [by left|]. right. destruct (decide (M x = 0)) as [|Hnz]; [done|]. exfalso.
        pose proof (ai_live _ _ _ _ HI x ltac:(lia) Hnz) as Hl. pose proof (live_range _ _ _ _ HC _ _ Hl) as Hr.
        apply Hj, J_iff. destruct (Hfin x) as [[-> _]|[-> _]]; [lia|done|left; apply v1_in|right; apply v2_in]. }
      destruct (ai_dead _ _ _ _ HI x Hx') as [Hn|(Hs & Hcx & Hfew)].
      * left. intros [w Hw]. apply Hn. exists w. by apply (join_live_out m col P (E ch i) HC v1 v2 l k H1 H2 tk_disj Hc1 Hc2 tk_same x w Hj) in Hw.
      * right. split; [apply (old_Pj m col P (E ch i) HC v1 v2 l k H1 H2 tk_disj [x] x Hs (proj2 (elem_of_list_singleton _ _) eq_refl) Hj)|]. split; [done|].
        intros b c Hb Hc'. apply Hfew; lia.
  - intros x Hx. apply take_init. lia.
  - exact Hneg'.
Qed.
End take.

(** the sign of some live end stays negative (paths only) *)
Lemma take_neg ch i M P e l k : AInv ch i M P -> es !! i = Some e -> M (e_v1 e) <> 0 -> M (e_v2 e) <> 0 ->
  M (e_v1 e) <> Z.of_nat (e_v2 e) -> (M (e_v1 e) < 0 -> M (e_v2 e) < 0 -> M (e_v1 e) = M (e_v2 e)) ->
  P (l ++ [e_v1 e]) -> P (k ++ [e_v2 e]) -> (l = [] \/ col (e_v1 e) = 0%nat) -> (k = [] \/ col (e_v2 e) = 0%nat) ->
  M (e_v1 e) = endv (hd (e_v1 e) l) -> M (e_v2 e) = endv (hd (e_v2 e) k) ->
  (M (e_v1 e) < 0 -> M (e_v2 e) < 0 -> e_allColorsSeen e = false \/ exists x, (V0 i <= x)%nat /\ x <> e_v1 e /\ x <> e_v2 e /\ M x < 0) ->
  sm_cycle G = false -> ~ (forall z w, live (Pj P (e_v1 e) (e_v2 e) l k) z w -> 0 <= w).
Proof.
  intros HI He Hnz1 Hnz2 Hd Hsame H1 H2 Hc1 Hc2 Hw1 Hw2 Hcase Hty Hno. pose proof (ai_conf _ _ _ _ HI) as HC.
  assert (HD : forall x, x ∈ l ++ [e_v1 e] -> x ∉ k ++ [e_v2 e]) by (by eapply tk_disj).
  assert (HS : col (hd (e_v1 e) l) <> 0%nat -> col (hd (e_v2 e) k) <> 0%nat -> col (hd (e_v1 e) l) = col (hd (e_v2 e) k)) by (by eapply tk_same).
  (* an old live end with negative value outside the new path *)
  assert (Hold : forall x w, live P x w -> w < 0 -> x <> e_v1 e -> x <> e_v2 e -> False).
  { intros x w Hx Hw N1 N2. pose proof (live_range _ _ _ _ HC _ _ Hx) as Hr.
    destruct (decide (x ∈ J (e_v1 e) (e_v2 e) l k)) as [Hj|Hj].
    - apply J_in in Hj as [Hj|Hj].
      + destruct (live_on _ _ _ _ _ _ HC H1 Hc1 Hx Hj) as [[? _]|(_ & _ & -> & C & _)]; [done|]. unfold P_Simpath1.endv in Hw. rewrite C in Hw. cbn in Hw. lia.
      + destruct (live_on _ _ _ _ _ _ HC H2 Hc2 Hx Hj) as [[? _]|(_ & _ & -> & C & _)]; [done|]. unfold P_Simpath1.endv in Hw. rewrite C in Hw. cbn in Hw. lia.
    - specialize (Hno x w). rewrite (join_live_out m col P (E ch i) HC _ _ _ _ H1 H2 HD Hc1 Hc2 HS x w Hj) in Hno. specialize (Hno Hx). lia. }
  destruct (decide (M (e_v1 e) < 0)) as [N1|N1]; destruct (decide (M (e_v2 e) < 0)) as [N2|N2].
  - destruct (Hcase N1 N2) as [Hs|(x & Hx1 & Hx2 & Hx3 & Hx4)].
    + assert (e_allColorsSeen e = true) as Hs'; [|congruence]. apply (Hseen Hty i e He). intros c Hc.
      set (f := fun e' : edge_info => (col (e_v1 e') =? c)%nat || (col (e_v2 e') =? c)%nat).
      destruct (existsb f (take (S i) es)) eqn:Ex.
      * apply existsb_exists in Ex as (e' & Hin & Hf). apply elem_of_list_In, elem_of_list_lookup in Hin as [b Hb].
        apply lookup_take_Some in Hb as [Hb Hlt]. unfold f in Hf. apply orb_true_iff in Hf as [Hf|Hf]; apply Nat.eqb_eq in Hf.
        -- exists b, (e_v1 e'). split; [lia|]. split; [|done]. exists e'. tauto.
        -- exists b, (e_v2 e'). split; [lia|]. split; [|done]. exists e'. tauto.
      * exfalso. destruct (Hall c Hc) as [z Hz]. assert (col z <> 0%nat) as Cz by lia. pose proof (Hout z Cz) as Hr.
        assert (Hun : forall b e', (b <= i)%nat -> es !! b = Some e' -> e_v1 e' <> z /\ e_v2 e' <> z).
        { intros b e' Hb He'. assert (f e' = false) as Hf.
          { destruct (f e') eqn:Hf; [|done]. assert (existsb f (take (S i) es) = true); [|congruence]. apply existsb_exists. exists e'. split; [|done].
            apply elem_of_list_In, elem_of_list_lookup. exists b. apply lookup_take_Some. split; [done|lia]. }
          unfold f in Hf. apply orb_false_iff in Hf as [F1 F2]. apply Nat.eqb_neq in F1, F2. split; intros Ez; [apply F1|apply F2]; rewrite Ez; exact Hz. }
        destruct (Hun i e (le_n _) He) as [U1 U2]. apply (Hold z (endv z)); [|unfold P_Simpath1.endv; destruct (Nat.ltb_spec 0 (col z)); lia|congruence|congruence].
        assert (Hn : forall y, ~ E ch i z y). { intros y (a & e' & Ha & He' & _ & Hj). destruct (Hun a e' ltac:(lia) He'). unfold joins in Hj. tauto. }
        destruct (conf_place _ _ _ _ HC z Hr) as [[q Hq]|(l1 & l2 & a & b & Hp)].
        -- destruct (snoc_inv q) as [->|(q' & a & ->)]; [exists []; split; [done|]; split; [by left|done]|].
           exfalso. apply (Hn a). apply (conf_next_end _ _ _ _ HC _ _ _ Hq). by exists q'.
        -- exfalso. apply (Hn a). apply (conf_next_int _ _ _ _ HC _ _ _ _ _ _ Hp). tauto.
    + apply (Hold x (M x)); [|done..]. apply (ai_live _ _ _ _ HI); [done|lia].
  - assert (col (hd (e_v2 e) k) = 0%nat) as C. { rewrite Hw2 in N2. unfold P_Simpath1.endv in N2. destruct (Nat.ltb_spec 0 (col (hd (e_v2 e) k))); lia. }
    assert (0 <= M (e_v1 e)); [|lia]. eapply Hno. eapply (join_live2 m col P (E ch i) HC _ _ _ _ H1 H2 HD Hc1 Hc2 HS). split; [exact C|exact Hw1].
  - assert (col (hd (e_v1 e) l) = 0%nat) as C. { rewrite Hw1 in N1. unfold P_Simpath1.endv in N1. destruct (Nat.ltb_spec 0 (col (hd (e_v1 e) l))); lia. }
    assert (0 <= M (e_v2 e)); [|lia]. eapply Hno. eapply (join_live1 m col P (E ch i) HC _ _ _ _ H1 H2 HD Hc1 Hc2 HS). split; [exact C|exact Hw2].
  - apply (ai_neg _ _ _ _ HI Hty). intros z w Hz. destruct (decide (0 <= w)) as [|Hw]; [done|]. exfalso.
    destruct (edge_ends i e He) as (R1 & R2 & R3 & R4 & R5).
    apply (Hold z w Hz); [lia|..]; intros ->.
    + pose proof (ai_live _ _ _ _ HI (e_v1 e) ltac:(lia) Hnz1) as Hl. rewrite (live_fun _ _ _ _ HC _ _ _ Hz Hl) in Hw. lia.
    + pose proof (ai_live _ _ _ _ HI (e_v2 e) ltac:(lia) Hnz2) as Hl. rewrite (live_fun _ _ _ _ HC _ _ _ Hz Hl) in Hw. lia.
Qed.

(** ** leaving an edge *)
Definition M_leave (M : nat -> Z) (e : edge_info) : nat -> Z :=
  let M1 := if e_v1final e || (e_v1final2 e && (M (e_v1 e) =? Z.of_nat (e_v1 e))) then upd M (e_v1 e) 0 else M in
  if e_v2final e || (e_v2final2 e && (M1 (e_v2 e) =? Z.of_nat (e_v2 e))) then upd M1 (e_v2 e) 0 else M1.
Definition may_leave (M : nat -> Z) (e : edge_info) : Prop :=
  (e_v1final e = true -> M (e_v1 e) = 0 \/ M (e_v1 e) = Z.of_nat (e_v1 e)) /\
  (e_v2final e = true -> M (e_v2 e) = 0 \/ M (e_v2 e) = Z.of_nat (e_v2 e)).

Lemma leave_spec M i e : es !! i = Some e ->
  (forall x, M_leave M e x = M x \/ M_leave M e x = 0) /\
  (forall x, M_leave M e x <> M x ->
    (x = e_v1 e /\ (e_v1final e = true \/ (e_v1final2 e = true /\ M x = Z.of_nat x))) \/
    (x = e_v2 e /\ (e_v2final e = true \/ (e_v2final2 e = true /\ M x = Z.of_nat x)))) /\
  (e_v1final e = true -> M_leave M e (e_v1 e) = 0) /\ (e_v2final e = true -> M_leave M e (e_v2 e) = 0).
Proof.
  intros He. pose proof (HL _ _ He) as Hne. unfold M_leave. cbv zeta.
  set (M1 := if e_v1final e || (e_v1final2 e && (M (e_v1 e) =? Z.of_nat (e_v1 e))) then upd M (e_v1 e) 0 else M).
  assert (E1 : forall x, x <> e_v1 e -> M1 x = M x). { intros x Hx. unfold M1. destruct (_ || _); [by apply upd_ne|done]. }
  assert (E2 : M1 (e_v1 e) = if e_v1final e || (e_v1final2 e && (M (e_v1 e) =? Z.of_nat (e_v1 e))) then 0 else M (e_v1 e)).
  { unfold M1. destruct (_ || _); [by apply upd_eq|done]. }
  rewrite (E1 (e_v2 e)) by congruence.
  assert (F1 : forall x, x <> e_v2 e -> (if e_v2final e || (e_v2final2 e && (M (e_v2 e) =? Z.of_nat (e_v2 e))) then upd M1 (e_v2 e) 0 else M1) x = M1 x).
  { intros x Hx. destruct (e_v2final e || _); [by apply upd_ne|done]. }
  assert (F2 : (if e_v2final e || (e_v2final2 e && (M (e_v2 e) =? Z.of_nat (e_v2 e))) then upd M1 (e_v2 e) 0 else M1) (e_v2 e) =
    if e_v2final e || (e_v2final2 e && (M (e_v2 e) =? Z.of_nat (e_v2 e))) then 0 else M (e_v2 e)).
  { destruct (e_v2final e || _); [by apply upd_eq|apply E1; congruence]. }
  split_and!.
  - intros x. destruct (decide (x = e_v2 e)) as [->|N2]; [rewrite F2; destruct (e_v2final e || _); [by right|by left]|]. rewrite F1 by done.
    destruct (decide (x = e_v1 e)) as [->|N1]; [rewrite E2; destruct (e_v1final e || _); [by right|by left]|]. rewrite E1 by done. by left.
  - intros x. destruct (decide (x = e_v2 e)) as [->|N2].
    + rewrite F2. destruct (e_v2final e) eqn:B1; cbn [orb]; [tauto|]. destruct (e_v2final2 e); cbn [andb]; [|done]. destruct (Z.eqb_spec (M (e_v2 e)) (Z.of_nat (e_v2 e))); [|done]. tauto.
    + rewrite F1 by done. destruct (decide (x = e_v1 e)) as [->|N1]; [|rewrite E1 by done; done].
      rewrite E2. destruct (e_v1final e) eqn:B1; cbn [orb]; [tauto|]. destruct (e_v1final2 e); cbn [andb]; [|done]. destruct (Z.eqb_spec (M (e_v1 e)) (Z.of_nat (e_v1 e))); [|done]. tauto.
  - intros B. rewrite F1 by done. rewrite E2, B. done.
  - intros B. rewrite F2, B. done.
Qed.

Lemma few_final i e x : es !! i = Some e -> (x = e_v1 e /\ (e_v1final e = true \/ e_v1final2 e = true)) \/ (x = e_v2 e /\ (e_v2final e = true \/ e_v2final2 e = true)) -> few (S i) x.
Proof.
  intros He Hx b c Hb Hc Ib Ic. assert (later es i x b) as Lb by (split; [lia|done]). assert (later es i x c) as Lc by (split; [lia|done]).
  destruct Hx as [[-> [F|F]]|[-> [F|F]]].
  - by apply (proj1 (no_final1 _ _ HN _ _ He) F) in Lb.
  - destruct (proj1 (no_second1 _ _ HN _ _ He) F) as (d & _ & Hd). by rewrite (Hd _ Lb), (Hd _ Lc).
  - by apply (proj1 (no_final2 _ _ HN _ _ He) F) in Lb.
  - destruct (proj1 (no_second2 _ _ HN _ _ He) F) as (d & _ & Hd). by rewrite (Hd _ Lb), (Hd _ Lc).
Qed.

Lemma leave_inv ch i M P e : AInv ch i M P -> es !! i = Some e -> ch i = false -> may_leave M e -> AInv ch (S i) (M_leave M e) P.
Proof.
  intros HI He Hch [Hm1 Hm2]. pose proof (ai_conf _ _ _ _ HI) as HC. pose proof (lookup_lt_Some _ _ _ He) as Hi. fold n in Hi. pose proof (V0_mono m es HN i Hi) as Hmono.
  destruct (edge_ends i e He) as (R1 & R2 & R3 & R4 & R5). destruct (leave_spec M i e He) as (L1 & L2 & L3 & L4).
  constructor.
  - eapply conf_ext; [|exact HC]. intros x y. rewrite (E_S ch i e x y He). rewrite Hch. split; [by left|]. by intros [?|[? _]].
  - intros x Hx Hnz. destruct (L1 x) as [->|?]; [|done]. destruct (L1 x) as [E1|?]; [|done]. rewrite E1 in Hnz. apply (ai_live _ _ _ _ HI); [lia|done].
  - intros x Hx.
    assert (Hfew : few i x -> few (S i) x) by (intros Hf b c Hb Hc; apply Hf; lia).
    assert (Hkeep : (x < V0 i)%nat \/ M x = 0 -> ~ (exists w, live P x w) \/ (P [x] /\ col x = 0%nat /\ few (S i) x)).
    { intros H. destruct (ai_dead _ _ _ _ HI x H) as [?|(? & ? & ?)]; [by left|right; split_and!; auto]. }
    destruct (decide (x < V0 i)%nat) as [|Hge]; [by apply Hkeep; left|]. destruct (decide (M x = 0)) as [|Hnz]; [by apply Hkeep; right|].
    pose proof (ai_live _ _ _ _ HI x ltac:(lia) Hnz) as Hl. pose proof (live_range _ _ _ _ HC _ _ Hl) as Hr.
    assert (Hd : M_leave M e x <> M x).
    { intros E1. destruct Hx as [Hx|Hx]; [|congruence]. apply (front_fin m es HN i e x He ltac:(lia)) in Hx as [[-> F]|[-> F]]; [rewrite L3 in E1 by done|rewrite L4 in E1 by done]; congruence. }
    assert (Hself : M x = Z.of_nat x).
    { destruct (L2 x Hd) as [[-> [F|[_ F]]]|[-> [F|[_ F]]]]; [|done| |done]; [destruct (Hm1 F)|destruct (Hm2 F)]; done. }
    rewrite Hself in Hl. destruct (live_pos _ _ _ _ HC _ _ Hl) as [Cx [[_ Hp]|(? & _)]]; [|done]. right. split; [done|]. split; [done|].
    apply (few_final i e x He). destruct (L2 x Hd) as [[-> [F|[F _]]]|[-> [F|[F _]]]]; tauto.
  - intros x Hx. rewrite <- (ai_init _ _ _ _ HI x) by lia. destruct (decide (M_leave M e x = M x)) as [|Hd]; [done|]. destruct (L2 x Hd) as [[-> _]|[-> _]]; lia.
  - exact (ai_neg _ _ _ _ HI).
Qed.

(** ** when an edge set is wrong *)
Lemma single_few ch i P x y : conf m col P (E ch i) -> degs m col (E ch n) -> P [x] -> col x = 0%nat -> few i x -> ~ E ch n x y.
Proof.
  intros HC HD Hp Cx Hf He. destruct (dg_unc _ _ _ HD x y Cx He) as (a & b & Hab & Hz).
  destruct (E_end ch i x a) as (j & e & Hj & He1 & _ & J1); [by apply Hz; left|by apply (conf_next_one _ _ _ _ HC)|].
  destruct (E_end ch i x b) as (j' & e' & Hj' & He2 & _ & J2); [by apply Hz; right|by apply (conf_next_one _ _ _ _ HC)|].
  assert (j = j') as <- by (apply Hf; [lia|lia|by eapply joins_inc|by eapply joins_inc]). assert (e' = e) as -> by congruence.
  apply Hab. by eapply joins_fun.
Qed.
Lemma E_at ch i e x y : es !! i = Some e -> ch i = true -> joins e x y -> E ch n x y.
Proof. intros He Hc Hj. exists i, e. split_and!; [by eapply lookup_lt_Some|done..]. Qed.
Lemma E_full ch i x y : (i <= n)%nat -> E ch i x y -> E ch n x y.
Proof. apply E_mono. Qed.

(** the edge cannot be taken: x is not an end any more, or would be left with a single edge *)
Lemma no_take ch i M P e x y : AInv ch i M P -> es !! i = Some e -> ch i = true -> joins e x y ->
  M x = 0 \/ ((V0 i <= x)%nat /\ M x = Z.of_nat x /\ few i x) -> ~ degs m col (E ch n).
Proof.
  intros HI He Hch Hj Hx HD. pose proof (ai_conf _ _ _ _ HI) as HC. pose proof (E_at _ _ _ _ _ He Hch Hj) as HE.
  pose proof (lookup_lt_Some _ _ _ He) as Hi. fold n in Hi.
  destruct Hx as [Hx|(Hv & Hx & Hf)].
  - destruct (ai_dead _ _ _ _ HI x (or_intror Hx)) as [Hn|(Hs & Cx & Hf)]; [|by eapply single_few].
    apply (E_new ch i e x y He Hj). eapply (full_vertex m col P (E ch i) (E ch n) HC); [intros a b; apply E_full; lia|exact HD| |exact Hn|exact HE].
    destruct (no_range _ _ HN _ _ He) as (R1 & R2 & R3 & R4). unfold joins in Hj. lia.
  - assert (M x <> 0) as Hnz. { rewrite Hx. destruct (no_range _ _ HN _ _ He) as (R1 & R2 & R3 & R4). unfold joins in Hj. lia. }
    pose proof (ai_live _ _ _ _ HI x Hv Hnz) as Hl. rewrite Hx in Hl. destruct (live_pos _ _ _ _ HC _ _ Hl) as [Cx [[_ Hs]|(? & _)]]; [|done]. by eapply single_few.
Qed.
Lemma few_last i x : (forall b, ~ later es i x b) -> few i x.
Proof. intros H b c Hb Hc Ib Ic. destruct (decide (b = i)) as [->|]; [|destruct (H b); split; [lia|done]]. destruct (decide (c = i)) as [->|]; [done|]. destruct (H c); split; [lia|done]. Qed.

(** the edge cannot be left: x would stay an end of a path *)
Lemma later_E ch i x y : ch i = false -> (forall b, ~ later es i x b) -> E ch n x y -> E ch i x y.
Proof.
  intros Hch Hl (a & e & Ha & He & Hc & Hj). exists a, e. split; [|done]. destruct (decide (a < i)%nat) as [|Hge]; [done|].
  destruct (decide (a = i)) as [->|]; [congruence|]. destruct (Hl a). split; [lia|by eapply joins_inc].
Qed.
Lemma no_leave ch i M P x : AInv ch i M P -> (i < n)%nat -> ch i = false -> (V0 i <= x)%nat -> (forall b, ~ later es i x b) ->
  M x <> 0 -> degs m col (E ch n) -> M x = Z.of_nat x /\ forall y, ~ E ch n x y.
Proof.
  intros HI Hi Hch Hv Hl Hnz HD. pose proof (ai_conf _ _ _ _ HI) as HC. pose proof (ai_live _ _ _ _ HI x Hv Hnz) as Hlv.
  pose proof (live_range _ _ _ _ HC _ _ Hlv) as Hr. destruct Hlv as (l & Hp & Hc & Hw).
  destruct (snoc_inv l) as [->|(k & a & ->)].
  - cbn in Hw. assert (Hno : forall y, ~ E ch n x y). { intros y He. apply (later_E ch i x y Hch Hl) in He. by apply (conf_next_one _ _ _ _ HC _ _ Hp) in He. }
    split; [|done]. rewrite Hw. unfold P_Simpath1.endv. destruct (Nat.ltb_spec 0 (col x)); [|done]. exfalso.
    destruct (dg_col _ _ _ HD x Hr) as (a & Ha); [lia|]. by apply (Hno a), Ha.
  - exfalso. destruct Hc as [Hc|Hc]; [by destruct k|]. assert (E ch i x a) as Ea by (apply (conf_next_end _ _ _ _ HC _ _ _ Hp); by exists k).
    assert (E ch n x a) as Ea' by (eapply E_full; [|exact Ea]; lia). destruct (dg_unc _ _ _ HD x a Hc Ea') as (b & c & Hbc & Hz).
    assert (Honly : forall y, E ch n x y -> y = a). { intros y Hy. apply (later_E ch i x y Hch Hl), (conf_next_end _ _ _ _ HC _ _ _ Hp) in Hy as [k' E1]. by apply app_inj_tail in E1 as [_ ->]. }
    apply Hbc. rewrite (Honly b), (Honly c); [done|by apply Hz; right|by apply Hz; left].
Qed.

(** ** paths: the edge closes a cycle, or joins different colors *)
Lemma path_no_cycle ch i M P e : AInv ch i M P -> es !! i = Some e -> ch i = true -> M (e_v1 e) = Z.of_nat (e_v2 e) -> ~ pathgood m col (E ch n).
Proof.
  intros HI He Hch Hw HG. pose proof (ai_conf _ _ _ _ HI) as HC. destruct (edge_ends i e He) as (R1 & R2 & R3 & R4 & R5).
  pose proof (lookup_lt_Some _ _ _ He) as Hi. fold n in Hi.
  pose proof (ai_live _ _ _ _ HI (e_v1 e) R1 ltac:(lia)) as Hl. rewrite Hw in Hl.
  destruct (live_pos _ _ _ _ HC _ _ Hl) as [C2 [[? _]|(_ & C1 & q & Hp)]]; [lia|].
  assert (E ch n (e_v1 e) (e_v2 e)) as HE by (eapply E_at; [done|done|apply edge_joins]).
  assert (HRE : forall x y, E ch i x y -> E ch n x y) by (intros x y; apply E_full; lia).
  pose proof (closed_cycle m col P (E ch i) (E ch n) HC HRE (pg_degs _ _ _ HG) _ _ _ Hp C2 C1 HE (E_new ch i e _ _ He (edge_joins e))) as HS.
  destruct (pg_link _ _ _ HG _ _ _ HS HE) as (z & _ & Cz & Hz); [set_solver|]. apply Cz.
  apply elem_of_cons in Hz as [->|Hz]; [done|]. apply elem_of_app in Hz as [Hz| ->%elem_of_list_singleton]; [|done].
  apply elem_of_list_split in Hz as (q1 & q2 & ->). eapply (c_int _ _ _ _ HC (e_v2 e :: q1) (q2 ++ [e_v1 e])); [|done|by destruct q2].
  rewrite <- app_assoc in Hp. exact Hp.
Qed.
Lemma path_no_colors ch i M P e : AInv ch i M P -> es !! i = Some e -> ch i = true -> M (e_v1 e) < 0 -> M (e_v2 e) < 0 -> M (e_v1 e) <> M (e_v2 e) -> ~ pathgood m col (E ch n).
Proof.
  intros HI He Hch N1 N2 Hne HG. pose proof (ai_conf _ _ _ _ HI) as HC. destruct (edge_ends i e He) as (R1 & R2 & R3 & R4 & R5).
  pose proof (lookup_lt_Some _ _ _ He) as Hi. fold n in Hi.
  pose proof (ai_live _ _ _ _ HI (e_v1 e) R1 ltac:(lia)) as Hl1. pose proof (ai_live _ _ _ _ HI (e_v2 e) ltac:(lia) ltac:(lia)) as Hl2.
  destruct (live_neg _ _ _ _ Hl1 N1) as (l & Hp & _ & C1 & W1). destruct (live_neg _ _ _ _ Hl2 N2) as (k & Hq & _ & C2 & W2).
  assert (E ch n (e_v1 e) (e_v2 e)) as HE by (eapply E_at; [done|done|apply edge_joins]).
  assert (hd (e_v1 e) l ∈ l ++ [e_v1 e]) as I1 by (destruct l; cbn; set_solver). assert (hd (e_v2 e) k ∈ k ++ [e_v2 e]) as I2 by (destruct k; cbn; set_solver).
  destruct (pg_two _ _ _ HG (hd (e_v1 e) l) (hd (e_v2 e) k)) as (S & HS & S1 & S2); [by apply Hout|done|done|lia|].
  apply S2. assert (HSi : forall a b, E ch i a b -> S a -> S b) by (intros a b Hab; apply HS; eapply E_full; [|exact Hab]; lia).
  eapply (conf_conn _ _ _ _ HC S _ (e_v2 e) _ HSi Hq); [set_solver|done|]. apply (HS _ _ HE).
  eapply (conf_conn _ _ _ _ HC S _ _ (e_v1 e) HSi Hp); [exact I1|set_solver|done].
Qed.

(** ** paths: the edge may complete the last path *)
Section last_path.
Context (ch : nat -> bool) (i : nat) (M : nat -> Z) (P : list nat -> Prop) (HI : AInv ch i M P) (e : edge_info) (He : es !! i = Some e).
Notation v1 := (e_v1 e).
Notation v2 := (e_v2 e).
Context (Hch : ch i = true) (Hn1 : M v1 < 0) (Hn2 : M v2 < 0) (Hsame : M v1 = M v2).
Context (l k : list nat) (H1 : P (l ++ [v1])) (H2 : P (k ++ [v2])) (Hc1 : l = [] \/ col v1 = 0%nat) (Hc2 : k = [] \/ col v2 = 0%nat).
Context (Hw1 : M v1 = endv (hd v1 l)) (Hw2 : M v2 = endv (hd v2 k)).
Context (Hsn : e_allColorsSeen e = true) (Hrest : forall x, (V0 i <= x < V0 i + W)%nat -> x <> v1 -> x <> v2 -> 0 <= M x).
Notation P' := (Pj P v1 v2 l k).

Lemma lp_i : (i < n)%nat.
Proof. exact (lookup_lt_Some _ _ _ He). Qed.
Lemma lp_disj : forall x, x ∈ l ++ [v1] -> x ∉ k ++ [v2].
Proof. eapply (tk_disj ch i M P HI e He); [lia|done|done|done|done]. Qed.
Lemma lp_c1 : col (hd v1 l) <> 0%nat.
Proof. apply (endv_neg col). by rewrite <- Hw1. Qed.
Lemma lp_c2 : col (hd v2 k) <> 0%nat.
Proof. apply (endv_neg col). by rewrite <- Hw2. Qed.
Lemma lp_same : col (hd v1 l) <> 0%nat -> col (hd v2 k) <> 0%nat -> col (hd v1 l) = col (hd v2 k).
Proof. intros _ _. pose proof lp_c1. pose proof lp_c2. unfold P_Simpath1.endv in *. destruct (Nat.ltb_spec 0 (col (hd v1 l))), (Nat.ltb_spec 0 (col (hd v2 k))); lia. Qed.
Lemma lp_conf : conf m col P' (E ch (S i)).
Proof.
  eapply conf_ext; [|apply (join_conf m col P (E ch i) (ai_conf _ _ _ _ HI) v1 v2 l k H1 H2 lp_disj Hc1 Hc2 lp_same)].
  intros x y. rewrite (E_S ch i e x y He). unfold Rj, joins. rewrite Hch. split.
  - intros [?|[[-> ->]|[-> ->]]]; [by left|right; split; [done|by left]|right; split; [done|by right]].
  - intros [?|[_ [[<- <-]|[<- <-]]]]; [by left|right; by left|right; by right].
Qed.
Lemma lp_J_dead x w : x ∈ J v1 v2 l k -> ~ live P' x w.
Proof.
  intros Hj Hl. pose proof (ai_conf _ _ _ _ HI) as HC.
  destruct (join_live_in m col P (E ch i) HC v1 v2 l k H1 H2 lp_disj Hc1 Hc2 lp_same x w Hj Hl) as [->| ->].
  - apply (join_live1 m col P (E ch i) HC v1 v2 l k H1 H2 lp_disj Hc1 Hc2 lp_same) in Hl as [C _]. by apply lp_c1.
  - apply (join_live2 m col P (E ch i) HC v1 v2 l k H1 H2 lp_disj Hc1 Hc2 lp_same) in Hl as [C _]. by apply lp_c2.
Qed.
Lemma lp_out x w : x ∉ J v1 v2 l k -> live P' x w <-> live P x w.
Proof. apply (join_live_out m col P (E ch i) (ai_conf _ _ _ _ HI) v1 v2 l k H1 H2 lp_disj Hc1 Hc2 lp_same). Qed.
Lemma lp_v x : x = v1 \/ x = v2 -> x ∈ J v1 v2 l k.
Proof. intros H. apply J_in. destruct H as [->| ->]; [left|right]; apply elem_of_app; right; by apply elem_of_list_singleton. Qed.
Lemma lp_live x w : live P' x w -> ((V0 i <= x)%nat /\ M x = w /\ x <> v1 /\ x <> v2) \/ (P' [x] /\ w = Z.of_nat x).
Proof.
  intros Hl. pose proof (ai_conf _ _ _ _ HI) as HC. destruct (decide (x ∈ J v1 v2 l k)) as [Hj|Hj]; [by destruct (lp_J_dead x w Hj)|].
  apply (lp_out x w Hj) in Hl.
  assert ((x < V0 i)%nat \/ M x = 0 \/ ((V0 i <= x)%nat /\ M x <> 0)) as Hx by lia. rewrite or_assoc in Hx || idtac.
  assert (Hd : (x < V0 i)%nat \/ M x = 0 -> P' [x] /\ w = Z.of_nat x).
  { intros H. destruct (ai_dead _ _ _ _ HI x H) as [Hn|(Hs & Cx & _)]; [destruct Hn; by eexists|].
    split; [apply (old_Pj m col P (E ch i) HC v1 v2 l k H1 H2 lp_disj [x] x Hs (proj2 (elem_of_list_singleton _ _) eq_refl) Hj)|].
    destruct Hl as (q & Hq & _ & ->). rewrite (conf_snoc _ _ _ _ HC q [] x Hq Hs). cbn. unfold P_Simpath1.endv. by rewrite Cx. }
  destruct Hx as [Hx|[Hx|[Hx Hnz]]]; [right; apply Hd; by left|right; apply Hd; by right|]. left. split; [done|].
  split; [exact (live_fun _ _ _ _ HC _ _ _ (ai_live _ _ _ _ HI x Hx Hnz) Hl)|].
  split; intros ->; apply Hj, lp_v; [by left|by right].
Qed.
Lemma lp_touched x y : E ch (S i) x y -> (x < V0 i + W)%nat.
Proof. intros (a & e' & Ha & He' & _ & Hj). pose proof lp_i. apply (touched i a); [lia|lia|by eapply joins_inc]. Qed.
Lemma lp_noneg x w : live P' x w -> (x < V0 i + W)%nat -> 0 <= w.
Proof. intros Hl Hx. destruct (lp_live x w Hl) as [(Hv & <- & N1 & N2)|[_ ->]]; [by apply Hrest|lia]. Qed.

Lemma lp_rev_end a q x : P' (a :: q ++ [x]) -> P' ((x :: rev q) ++ [a]).
Proof. intros Hp. apply (c_rev _ _ _ _ lp_conf) in Hp. rewrite rev_ends in Hp. exact Hp. Qed.
Lemma lp_end_touched q x : P' (q ++ [x]) -> q <> [] -> (x < V0 i + W)%nat.
Proof.
  intros Hp Hq. destruct (snoc_inv q) as [->|(q' & b & ->)]; [done|]. apply (lp_touched x b). apply (conf_next_end _ _ _ _ lp_conf _ _ _ Hp). by exists q'.
Qed.

(** every colored vertex lies on a finished path *)
Lemma lp_seen u b : (b <= i)%nat -> incident es b u -> col u <> 0%nat -> exists p, P' p /\ complete col p /\ u ∈ p.
Proof.
  intros Hb Hin Cu. pose proof lp_i as Hi. pose proof (touched i b u Hb ltac:(lia) Hin) as Ht. pose proof (Hout u Cu) as Hr.
  destruct (conf_place _ _ _ _ lp_conf u Hr) as [[q Hq]|(l1 & l2 & a & c & Hp)].
  - destruct q as [|a q].
    + exfalso. assert (0 <= endv u) as Hn; [|unfold P_Simpath1.endv in Hn; destruct (Nat.ltb_spec 0 (col u)); lia].
      apply (lp_noneg u); [|done]. exists []. split; [exact Hq|]. split; [by left|done].
    + exists (a :: q ++ [u]). split; [exact Hq|]. split; [|set_solver]. destruct (decide (col a = 0%nat)) as [Ca|Ca]; [|by exists a, q, u].
      exfalso. pose proof (lp_rev_end a q u Hq) as Hq'. pose proof (lp_end_touched _ _ Hq' ltac:(done)) as Hta.
      assert (0 <= endv u) as Hn; [|unfold P_Simpath1.endv in Hn; destruct (Nat.ltb_spec 0 (col u)); lia].
      apply (lp_noneg a); [|done]. exists (u :: rev q). split; [exact Hq'|]. split; [by right|done].
  - destruct (conf_int_ne _ _ _ _ lp_conf _ _ _ _ _ Hp) as [_ C]. done.
Qed.
Lemma lp_colors z : col z <> 0%nat -> exists p, P' p /\ complete col p /\ z ∈ p.
Proof.
  intros Cz. assert (Hty : sm_cycle G = false) by (destruct (sm_cycle G) eqn:Ht; [by rewrite (Hcyc eq_refl) in Cz|done]).
  destruct (proj1 (Hseen Hty i e He) Hsn (col z)) as (b & u & Hb & Hin & Cu); [pose proof (HKr z); lia|].
  destruct (lp_seen u b Hb Hin ltac:(lia)) as (p & Hp & Hcp & Hu). exists p. split; [done|]. split; [done|].
  destruct Hcp as (x & q & y & -> & Cx & Cy). pose proof (c_nd _ _ _ _ lp_conf _ Hp) as Hnd.
  assert (Hint : forall c, c ∈ q -> col c = 0%nat).
  { intros c Hc. apply elem_of_list_split in Hc as (q1 & q2 & ->). eapply (c_int _ _ _ _ lp_conf (x :: q1) (q2 ++ [y])); [|done|by destruct q2].
    rewrite <- app_assoc in Hp. exact Hp. }
  assert (x <> y) as Nxy. { intros ->. apply NoDup_cons in Hnd as [Hnd _]. apply Hnd, elem_of_app. right. by apply elem_of_list_singleton. }
  assert (col x = col y) as Cxy by (eapply (c_same _ _ _ _ lp_conf); [exact Hp|done|done]).
  assert (u = x \/ u = y) as Hu'.
  { apply elem_of_cons in Hu as [->|Hu]; [by left|]. apply elem_of_app in Hu as [Hu| ->%elem_of_list_singleton]; [|by right]. rewrite (Hint u Hu) in Cu. lia. }
  destruct (Hpair x Cx) as (x' & Nx & HP). assert (y = x') as ->. { destruct (proj1 (HP y) (eq_sym Cxy)) as [->|?]; [done|done]. }
  assert (col z = col x) as Ez. { destruct Hu' as [->| ->]; lia. }
  apply HP in Ez as [->| ->]; [set_solver|]. apply elem_of_cons. right. apply elem_of_app. right. by apply elem_of_list_singleton.
Qed.
Definition fin_set (x : nat) : Prop := exists p, P' p /\ complete col p /\ x ∈ p.
Lemma lp_closed : degs m col (E ch n) -> closed (E ch n) fin_set.
Proof.
  intros HD a b Hab (p & Hp & Hcp & Ha). exists p. split; [done|]. split; [done|].
  assert (HRE : forall x y, E ch (S i) x y -> E ch n x y) by (intros x y; apply E_full; exact lp_i).
  exact (closed_complete m col P' (E ch (S i)) (E ch n) lp_conf HRE HD p Hp Hcp a b Hab Ha).
Qed.
Lemma lp_all x y : pathgood m col (E ch n) -> E ch n x y -> ~ ~ fin_set x.
Proof.
  intros HG He' Hx. destruct (pg_link _ _ _ HG (fun x => ~ fin_set x) x y) as (z & Hr & Cz & Hz); [|done|done|].
  - intros a b Hab Ha Hb. apply Ha. eapply lp_closed; [exact (pg_degs _ _ _ HG)| |exact Hb]. by apply (dg_sym _ _ _ (pg_degs _ _ _ HG)).
  - apply Hz. by apply lp_colors.
Qed.
(** no further edge can be chosen *)
Lemma lp_rest : pathgood m col (E ch n) -> forall a, (i < a < n)%nat -> ch a = false.
Proof.
  intros HG a Ha. destruct (ch a) eqn:Hca; [|done]. exfalso. destruct (lookup_lt_is_Some_2 es a) as [f Hf]; [exact (proj2 Ha)|].
  pose proof (E_at ch a f _ _ Hf Hca (edge_joins f)) as HE. apply (lp_all _ _ HG HE). intros (p & Hp & Hcp & Hx).
  assert (E ch (S i) (e_v1 f) (e_v2 f)) as (b & f' & Hb & Hf' & _ & Hj).
  { eapply (full_vertex m col P' (E ch (S i)) (E ch n) lp_conf); [intros x y; apply E_full; exact lp_i|exact (pg_degs _ _ _ HG)| | |exact HE].
    - eapply (conf_range _ _ _ _ lp_conf); [exact Hp|exact Hx].
    - intros [w Hw]. exact (complete_not_live m col P' (E ch (S i)) lp_conf p _ w Hp Hcp Hx Hw). }
  pose proof (joins_same _ _ _ _ _ _ Hf Hf' (edge_joins f) Hj). lia.
Qed.
(** an open cell refutes *)
Lemma lp_unclean x : (V0 i <= x)%nat -> x <> v1 -> x <> v2 -> M x <> 0 -> (M x <> Z.of_nat x \/ exists y, E ch n x y) -> ~ pathgood m col (E ch n).
Proof.
  intros Hv N1 N2 Hnz Hy HG. pose proof (ai_conf _ _ _ _ HI) as HC. pose proof (ai_live _ _ _ _ HI x Hv Hnz) as Hl. pose proof lp_i as Hi.
  assert (Hj : x ∉ J v1 v2 l k).
  { intros Hj. apply J_in in Hj as [Hj|Hj].
    - destruct (live_on _ _ _ _ _ _ HC H1 Hc1 Hl Hj) as [[? _]|(-> & _ & _ & _ & C)]; [done|]. by apply lp_c1.
    - destruct (live_on _ _ _ _ _ _ HC H2 Hc2 Hl Hj) as [[? _]|(-> & _ & _ & _ & C)]; [done|]. by apply lp_c2. }
  assert (exists y, E ch n x y) as [y HE].
  { destruct Hy as [Hy|Hy]; [|done]. destruct (live_at _ _ _ _ _ HI Hv Hnz) as (q & Hq & Hcq & Hw). destruct (snoc_inv q) as [->|(q' & a & ->)].
    - assert (col x <> 0%nat) as Cx. { intros Cx. cbn in Hw. unfold P_Simpath1.endv in Hw. rewrite Cx in Hw. done. }
      destruct (dg_col _ _ _ (pg_degs _ _ _ HG) x (Hout x Cx) Cx) as (a & Ha). exists a. by apply Ha.
    - exists a. apply (E_full ch i); [lia|]. apply (conf_next_end _ _ _ _ HC _ _ _ Hq). by exists q'. }
  apply (lp_all _ _ HG HE). intros (p & Hp & Hcp & Hx). apply (lp_out x _ Hj) in Hl. exact (complete_not_live m col P' (E ch (S i)) lp_conf p _ _ Hp Hcp Hx Hl).
Qed.
(** a clean frontier and no further edge: done *)
Lemma lp_done : (forall x, (V0 i <= x < V0 i + W)%nat -> x <> v1 -> x <> v2 -> M x = 0 \/ M x = Z.of_nat x) ->
  (forall a, (i < a < n)%nat -> ch a = false) -> exists ps, link_rel K col (E ch n) ps.
Proof.
  intros Hcl Hz.
  assert (HEE : forall x y, E ch (S i) x y <-> E ch n x y).
  { intros x y. split; [apply E_full; exact lp_i|]. intros (a & f & Ha & Hf & Hc & Hj). exists a, f. split; [|done].
    destruct (decide (a < S i)%nat) as [|Hge]; [done|]. rewrite Hz in Hc by lia. done. }
  assert (Hend : forall q x, P' (q ++ [x]) -> q <> [] -> col x <> 0%nat).
  { intros q x Hq Nq Cx. pose proof (lp_end_touched q x Hq Nq) as Ht.
    assert (live P' x (endv (hd x q))) as Hl by (exists q; split; [done|]; split; [by right|done]).
    assert (Hns : ~ P' [x]). { intros Hs. apply Nq. exact (conf_snoc _ _ _ _ lp_conf q [] x Hq Hs). }
    destruct (lp_live _ _ Hl) as [(Hv & Hw & N1 & N2)|[Hs _]]; [|done].
    destruct (Hcl x ltac:(lia) N1 N2) as [H0|Hself].
    - apply (live_nz _ _ _ _ lp_conf _ _ Hl). by rewrite <- Hw.
    - rewrite <- Hw, Hself in Hl. destruct (live_pos _ _ _ _ lp_conf _ _ Hl) as [_ [[_ Hs]|(? & _)]]; done. }
  destruct (done_links m K col Hout HKr Hall Hpair P' (E ch n)) as (ps & Hps & _); [|by exists ps].
  split; [eapply conf_ext; [exact HEE|exact lp_conf]|]. split.
  - intros p Hp Hlen. destruct (len2 p Hlen) as (x & q & y & ->). exists x, q, y. split; [done|]. split.
    + apply (Hend (y :: rev q)); [by apply lp_rev_end|done].
    + apply (Hend (x :: q)); [exact Hp|done].
  - intros z Cz Hs. destruct (lp_colors z Cz) as (p & Hp & (x & q & y & -> & _) & Hzp).
    destruct (c_uniq _ _ _ _ lp_conf _ _ z Hs Hp) as [E1|E1]; [set_solver|done|..].
    + injection E1 as _ E1. by destruct q.
    + apply (f_equal length) in E1. rewrite ?rev_length in E1. cbn in E1. rewrite app_length in E1. cbn in E1. lia.
Qed.
End last_path.

(** ** cycles: the edge closes a cycle *)
Section close.
Context (ch : nat -> bool) (i : nat) (M : nat -> Z) (P : list nat -> Prop) (HI : AInv ch i M P) (e : edge_info) (He : es !! i = Some e).
Notation v1 := (e_v1 e).
Notation v2 := (e_v2 e).
Context (Hch : ch i = true) (Hcy : sm_cycle G = true) (Hw : M v1 = Z.of_nat v2).
Lemma cy_path : exists q, P (v2 :: q ++ [v1]) /\ q <> [].
Proof.
  pose proof (ai_conf _ _ _ _ HI) as HC. destruct (edge_ends i e He) as (R1 & R2 & R3 & R4 & R5).
  pose proof (ai_live _ _ _ _ HI v1 R1 ltac:(lia)) as Hl. rewrite Hw in Hl.
  destruct (live_pos _ _ _ _ HC _ _ Hl) as [_ [[? _]|(_ & _ & q & Hp)]]; [lia|]. exists q. split; [done|]. intros ->.
  apply (E_new ch i e v1 v2 He (edge_joins e)). apply (conf_next_end _ _ _ _ HC [v2]); [exact Hp|by exists []].
Qed.
Lemma cy_full q : P (v2 :: q ++ [v1]) -> degs m col (E ch n) -> forall a b, a ∈ v2 :: q ++ [v1] -> E ch n a b -> E ch (S i) a b.
Proof.
  intros Hp HD a b Ha Hab. pose proof (ai_conf _ _ _ _ HI) as HC. pose proof (lookup_lt_Some _ _ _ He) as Hi. fold n in Hi.
  apply (E_S ch i e a b He).
  destruct (cycle_full m col P (E ch i) (E ch n) HC (fun x y => E_full ch i x y ltac:(lia)) HD v2 q v1 Hp (Hcyc Hcy _) (Hcyc Hcy _)
    (E_at ch i e _ _ He Hch (edge_joins e)) (E_new ch i e _ _ He (edge_joins e)) a b Ha Hab) as [H|[[-> ->]|[-> ->]]].
  - by left.
  - right. split; [done|apply edge_joins].
  - right. split; [done|apply joins_sym, edge_joins].
Qed.
Lemma cy_closed q : P (v2 :: q ++ [v1]) -> degs m col (E ch n) -> closed (E ch n) (fun y => y ∈ v2 :: q ++ [v1]).
Proof.
  intros Hp HD. pose proof (ai_conf _ _ _ _ HI) as HC. pose proof (lookup_lt_Some _ _ _ He) as Hi. fold n in Hi.
  apply (closed_cycle m col P (E ch i) (E ch n) HC (fun x y => E_full ch i x y ltac:(lia)) HD v2 q v1 Hp (Hcyc Hcy _) (Hcyc Hcy _)
    (E_at ch i e _ _ He Hch (edge_joins e)) (E_new ch i e _ _ He (edge_joins e))).
Qed.
Lemma cy_v1 q : v1 ∈ v2 :: q ++ [v1].
Proof. apply elem_of_cons. right. apply elem_of_app. right. by apply elem_of_list_singleton. Qed.
Lemma cy_rest : cyclegood m col (E ch n) -> forall a, (i < a < n)%nat -> ch a = false.
Proof.
  intros HG a Ha. destruct (ch a) eqn:Hca; [|done]. exfalso. destruct (lookup_lt_is_Some_2 es a) as [f Hf]; [exact (proj2 Ha)|].
  pose proof (E_at ch a f _ _ Hf Hca (edge_joins f)) as HE. destruct cy_path as (q & Hp & _). pose proof (cg_degs _ _ _ HG) as HD.
  pose proof (cg_conn _ _ _ HG _ _ _ _ _ (cy_closed q Hp HD) (E_at ch i e _ _ He Hch (edge_joins e)) (cy_v1 q) HE) as Hx. cbv beta in Hx.
  destruct (cy_full q Hp HD _ _ Hx HE) as (b & f' & Hb & Hf' & _ & Hj). pose proof (joins_same _ _ _ _ _ _ Hf Hf' (edge_joins f) Hj). lia.
Qed.
Lemma cy_unclean x : (V0 i <= x)%nat -> x <> v1 -> x <> v2 -> M x <> 0 -> (M x <> Z.of_nat x \/ exists y, E ch n x y) -> ~ cyclegood m col (E ch n).
Proof.
  intros Hv N1 N2 Hnz Hy HG. pose proof (ai_conf _ _ _ _ HI) as HC. pose proof (ai_live _ _ _ _ HI x Hv Hnz) as Hl. pose proof (lookup_lt_Some _ _ _ He) as Hi. fold n in Hi.
  destruct cy_path as (q & Hp & _). pose proof (cg_degs _ _ _ HG) as HD.
  assert (exists y, E ch n x y) as [y HE].
  { destruct Hy as [Hy|Hy]; [|done]. destruct (live_at _ _ _ _ _ HI Hv Hnz) as (r & Hr & Hcr & Hwr). destruct (snoc_inv r) as [->|(r' & a & ->)].
    - cbn in Hwr. unfold P_Simpath1.endv in Hwr. rewrite (Hcyc Hcy) in Hwr. done.
    - exists a. apply (E_full ch i); [lia|]. apply (conf_next_end _ _ _ _ HC _ _ _ Hr). by exists r'. }
  pose proof (cg_conn _ _ _ HG _ _ _ _ _ (cy_closed q Hp HD) (E_at ch i e _ _ He Hch (edge_joins e)) (cy_v1 q) HE) as Hx. cbv beta in Hx.
  destruct (live_on P (E ch i) (v2 :: q) v1 x (M x) HC Hp (or_intror (Hcyc Hcy _)) Hl Hx) as [[? _]|(? & _)]; done.
Qed.
Lemma cy_done : (forall x, (V0 i < x < V0 i + W)%nat -> x <> v1 -> x <> v2 -> M x = 0 \/ M x = Z.of_nat x) ->
  (forall a, (i < a < n)%nat -> ch a = false) -> exists c, cyc_rel (E ch n) c.
Proof.
  intros Hcl Hz. pose proof (ai_conf _ _ _ _ HI) as HC. pose proof (lookup_lt_Some _ _ _ He) as Hi. fold n in Hi. destruct cy_path as (q & Hp & Hq).
  exists (v2 :: q ++ [v1]). apply (close_cycle m col P (E ch i) (E ch n) v2 q v1 HC Hp Hq).
  - assert (Hend : forall r x, P (r ++ [x]) -> r <> [] -> x = V0 i \/ x = v1 \/ x = v2).
    { intros r x Hr Nr. destruct (decide (x = v1)) as [|N1]; [by right; left|]. destruct (decide (x = v2)) as [|N2]; [by right; right|]. left.
      assert (live P x (endv (hd x r))) as Hl by (exists r; split; [done|]; split; [right; apply (Hcyc Hcy)|done]).
      assert (x < V0 i + W)%nat as Ht. { destruct (snoc_inv r) as [->|(r' & b & ->)]; [done|]. apply (E_touched ch i x b); [lia|]. apply (conf_next_end _ _ _ _ HC _ _ _ Hr). by exists r'. }
      assert (Hns : ~ P [x]). { intros Hs. apply Nr. exact (conf_snoc _ _ _ _ HC r [] x Hr Hs). }
      assert (Hd : ~ ((x < V0 i)%nat \/ M x = 0)). { intros Hd. destruct (ai_dead _ _ _ _ HI x Hd) as [Hn|[Hs _]]; [apply Hn; by eexists|done]. }
      destruct (decide (x = V0 i)) as [|N0]; [done|]. exfalso.
      destruct (Hcl x ltac:(lia) N1 N2) as [H0|Hself]; [apply Hd; by right|].
      pose proof (ai_live _ _ _ _ HI x ltac:(lia) ltac:(lia)) as Hl'. rewrite Hself in Hl'. destruct (live_pos _ _ _ _ HC _ _ Hl') as [_ [[_ Hs]|(? & _)]]; done. }
    assert (Hin : forall p x, P p -> x ∈ p -> x = v1 \/ x = v2 -> v1 ∈ p).
    { intros p x Hpp Hx [->| ->]; [done|]. destruct (c_uniq _ _ _ _ HC _ _ v2 Hp Hpp) as [E1|E1]; [set_solver|done|rewrite E1; apply cy_v1|].
      rewrite E1. apply elem_of_rev. apply cy_v1. }
    intros p Hpp Hlen. destruct (len2 p Hlen) as (x & r & y & ->).
    assert (P ((y :: rev r) ++ [x])) as Hrev. { pose proof (c_rev _ _ _ _ HC _ Hpp) as Hr. rewrite rev_ends in Hr. exact Hr. }
    destruct (Hend _ _ Hrev ltac:(done)) as [->|Hx]; [|apply (Hin _ x Hpp); [set_solver|done]].
    destruct (Hend (V0 i :: r) y Hpp ltac:(done)) as [->|Hy]; [|apply (Hin _ y Hpp); [|done]; apply elem_of_cons; right; apply elem_of_app; right; by apply elem_of_list_singleton].
    exfalso. apply (c_nd _ _ _ _ HC), NoDup_cons in Hpp as [Hpp _]. apply Hpp, elem_of_app. right. by apply elem_of_list_singleton.
  - intros a b. split.
    + intros (c & f & Hc & Hf & Hcc & Hj). destruct (decide (c < i)%nat) as [|Hge]; [left; exists c, f; done|].
      destruct (decide (c = i)) as [->|Nc]; [|rewrite Hz in Hcc by lia; done]. rewrite He in Hf. injection Hf as <-.
      destruct Hj as [[<- <-]|[<- <-]]; [right; left; done|right; right; done].
    + intros [H|[[-> ->]|[-> ->]]]; [eapply E_full; [|exact H]; lia|eapply E_at; [done|done|apply edge_joins]|eapply E_at; [done|done|apply joins_sym, edge_joins]].
Qed.
End close.

(** ** after the last edge *)
Lemma path_end ch M P : AInv ch n M P -> sm_cycle G = true.
Proof.
  intros HI. destruct (sm_cycle G) eqn:Ht; [done|]. exfalso. pose proof (ai_conf _ _ _ _ HI) as HC. apply (ai_neg _ _ _ _ HI Ht). intros z w Hl.
  pose proof (live_range _ _ _ _ HC _ _ Hl) as Hr. destruct (ai_dead _ _ _ _ HI z) as [Hn|(Hs & Cz & _)].
  - left. unfold n. rewrite V0_end. lia.
  - destruct Hn. by eexists.
  - destruct Hl as (q & Hq & _ & ->). rewrite (conf_snoc _ _ _ _ HC q [] z Hq Hs). cbn. unfold P_Simpath1.endv. rewrite Cz. cbn. lia.
Qed.
Lemma cycle_end ch M P : AInv ch n M P -> sm_cycle G = true -> ~ cyclegood m col (E ch n).
Proof.
  intros HI Hcy HG. pose proof (ai_conf _ _ _ _ HI) as HC. destruct (cg_some _ _ _ HG) as (x & y & HE).
  apply (c_adj _ _ _ _ HC) in HE as (p & Hp & Hn). destruct Hn as (l1 & l2 & ->). destruct (snoc_inv (y :: l2)) as [|(q & z & E1)]; [done|].
  assert (P ((l1 ++ x :: q) ++ [z])) as Hz by (rewrite <- app_assoc; cbn; rewrite <- E1; exact Hp).
  destruct (snoc_inv (l1 ++ x :: q)) as [Er|(r & a & Er)]; [by destruct l1|]. rewrite Er in Hz.
  assert (E ch n z a) as Ha by (apply (conf_next_end _ _ _ _ HC _ _ _ Hz); by exists r).
  destruct (dg_unc _ _ _ (cg_degs _ _ _ HG) z a (Hcyc Hcy z) Ha) as (b & c & Hbc & Hd).
  assert (Hone : forall y, E ch n z y -> y = a). { intros y' Hy. apply (conf_next_end _ _ _ _ HC _ _ _ Hz) in Hy as [r' E2]. by apply app_inj_tail in E2 as [_ ->]. }
  apply Hbc. rewrite (Hone b), (Hone c); [done|apply Hd; by right|apply Hd; by left].
Qed.

(** ** the functions on the array *)
Lemma upd_ok i M s x w : arr i M s -> (V0 i <= x)%nat -> (x < V0 i + W)%nat -> arr i (upd M x w) (<[(x - V0 i)%nat := w]> s).
Proof.
  intros [Hl Hs] H1 H2. split; [by rewrite insert_length|]. intros k Hk. destruct (decide (k = x - V0 i)%nat) as [->|Hne].
  - rewrite list_lookup_insert by lia. replace (V0 i + (x - V0 i))%nat with x by lia. by rewrite upd_eq.
  - rewrite list_lookup_insert_ne by done. rewrite upd_ne by lia. by apply Hs.
Qed.
Lemma cell_ok i e x : es !! i = Some e -> (V0 i <= x)%nat -> sm_cell e x = Some (x - V0 i)%nat.
Proof. intros He Hx. rewrite (V0_at m es i e He) in *. unfold sm_cell. by rewrite (proj2 (Nat.leb_le _ _) Hx). Qed.
Lemma link_ok i e M s x w : es !! i = Some e -> arr i M s -> (0 < x -> (V0 i <= Z.to_nat x < V0 i + W)%nat) ->
  exists s', sm_link e x w s = Some s' /\ arr i (if 0 <? x then upd M (Z.to_nat x) w else M) s'.
Proof.
  intros He Ha Hx. unfold sm_link. destruct (Z.ltb_spec 0 x) as [Hp|Hp]; [|by exists s]. specialize (Hx Hp). rewrite <- (V0_at m es i e He).
  destruct (Z.ltb_spec (x - Z.of_nat (V0 i)) 0); [lia|]. replace (Z.to_nat (x - Z.of_nat (V0 i))) with (Z.to_nat x - V0 i)%nat by lia.
  rewrite (arr_get i M s (Z.to_nat x) Ha) by lia. cbn [mbind option_bind]. eexists. split; [reflexivity|]. apply upd_ok; [done|lia|lia].
Qed.
Lemma edge_cells i M s e : arr i M s -> es !! i = Some e ->
  sm_cell e (e_v1 e) = Some (e_v1 e - V0 i)%nat /\ sm_cell e (e_v2 e) = Some (e_v2 e - V0 i)%nat /\
  s !! (e_v1 e - V0 i)%nat = Some (M (e_v1 e)) /\ s !! (e_v2 e - V0 i)%nat = Some (M (e_v2 e)).
Proof.
  intros Ha He. destruct (edge_ends i e He) as (R1 & R2 & R3 & R4 & R5).
  split; [by apply cell_ok|]. split; [apply cell_ok; [done|lia]|]. split; apply arr_get; try done; lia.
Qed.

Definition skipped (i k : nat) (e : edge_info) : Prop := (V0 i + k)%nat = e_v1 e \/ (V0 i + k)%nat = e_v2 e.
Lemma skip_test i k e : es !! i = Some e -> (e_v0 e + k =? e_v1 e)%nat || (e_v0 e + k =? e_v2 e)%nat = true <-> skipped i k e.
Proof. intros He. unfold skipped. rewrite (V0_at m es i e He), orb_true_iff, !Nat.eqb_eq. done. Qed.
Lemma open_test ham (w : Z) (x : nat) : negb (w =? 0) && (ham || negb (w =? Z.of_nat x)) = true <-> w <> 0 /\ (ham = true \/ w <> Z.of_nat x).
Proof. rewrite andb_true_iff, orb_true_iff, !negb_true_iff, !Z.eqb_neq. done. Qed.
Lemma cycle_scan_ok ham i M s e ks : arr i M s -> es !! i = Some e -> (forall k, k ∈ ks -> (k < W)%nat) ->
  (cycle_scan ham e ks s = Some HIT /\ forall k, k ∈ ks -> ~ skipped i k e -> M (V0 i + k)%nat = 0 \/ (ham = false /\ M (V0 i + k)%nat = Z.of_nat (V0 i + k))) \/
  (cycle_scan ham e ks s = Some NO /\ exists k, k ∈ ks /\ ~ skipped i k e /\ M (V0 i + k)%nat <> 0 /\ (ham = true \/ M (V0 i + k)%nat <> Z.of_nat (V0 i + k))).
Proof.
  intros Ha He. induction ks as [|k ks IH]; intros Hks; [left; split; [done|]; intros k Hk; by apply elem_of_nil in Hk|]. cbn [cycle_scan].
  assert (forall k, k ∈ ks -> (k < W)%nat) as Hks' by (intros k' Hk'; apply Hks; by right). specialize (IH Hks').
  pose proof (skip_test i k e He) as Hsk. destruct (_ || _) eqn:Et.
  { pose proof (proj1 Hsk eq_refl) as Hs. destruct IH as [[-> IH]|(-> & k' & Hk' & IH)]; [left|right]; (split; [done|]).
    - intros k' Hk' Hn. apply elem_of_cons in Hk' as [->|Hk']; [done|by apply IH].
    - exists k'. split; [by right|done]. }
  assert (Hn : ~ skipped i k e) by (intros Hs; apply Hsk in Hs; discriminate). destruct Ha as [Hl Hs]. rewrite (Hs k) by (apply Hks; by left). cbn [mbind option_bind].
  rewrite <- (V0_at m es i e He). pose proof (open_test ham (M (V0 i + k)%nat) (V0 i + k)) as Ho. destruct (negb _ && _).
  - right. split; [done|]. exists k. split; [by left|]. split; [done|]. by apply Ho.
  - destruct IH as [[-> IH]|(-> & k' & Hk' & IH)]; [left|right]; (split; [done|]).
    + intros k' Hk' Hn'. apply elem_of_cons in Hk' as [->|Hk']; [|by apply IH].
      destruct (decide (M (V0 i + k)%nat = 0)) as [|Hz]; [by left|]. right.
      destruct ham; [destruct Ho as [_ Ho]; by specialize (Ho (conj Hz (or_introl eq_refl)))|]. split; [done|].
      destruct (decide (M (V0 i + k)%nat = Z.of_nat (V0 i + k))) as [|Hx]; [done|]. destruct Ho as [_ Ho]. by specialize (Ho (conj Hz (or_intror Hx))).
    + exists k'. split; [by right|done].
Qed.
Lemma path_scan_ok ham i M s e ks clean : arr i M s -> es !! i = Some e -> (forall k, k ∈ ks -> (k < W)%nat) ->
  exists t, path_scan ham e ks s clean = Some t /\
  match t with
  | YES => exists k, k ∈ ks /\ ~ skipped i k e /\ M (V0 i + k)%nat < 0
  | HIT => clean = true /\ forall k, k ∈ ks -> ~ skipped i k e -> 0 <= M (V0 i + k)%nat /\ (M (V0 i + k)%nat = 0 \/ (ham = false /\ M (V0 i + k)%nat = Z.of_nat (V0 i + k)))
  | NO => (forall k, k ∈ ks -> ~ skipped i k e -> 0 <= M (V0 i + k)%nat) /\
          (clean = false \/ exists k, k ∈ ks /\ ~ skipped i k e /\ M (V0 i + k)%nat <> 0 /\ (ham = true \/ M (V0 i + k)%nat <> Z.of_nat (V0 i + k)))
  end.
Proof.
  intros Ha He. revert clean. induction ks as [|k ks IH]; intros clean Hks.
  { cbn [path_scan]. eexists. split; [reflexivity|]. destruct clean; (split; [|]); [done| | |by left]; intros k Hk; by apply elem_of_nil in Hk. }
  cbn [path_scan].
  assert (forall k, k ∈ ks -> (k < W)%nat) as Hks' by (intros k' Hk'; apply Hks; by right).
  pose proof (skip_test i k e He) as Hsk. destruct (_ || _) eqn:Et.
  { pose proof (proj1 Hsk eq_refl) as Hs. destruct (IH clean Hks') as (t & -> & Ht). exists t. split; [done|]. destruct t.
    - destruct Ht as [H1 H2]. split; [intros k' Hk' Hn; apply elem_of_cons in Hk' as [->|Hk']; [done|by apply H1]|].
      destruct H2 as [H2|(k' & Hk' & H2)]; [by left|right; exists k'; split; [by right|done]].
    - destruct Ht as (k' & Hk' & H2). exists k'. split; [by right|done].
    - destruct Ht as [H1 H2]. split; [done|]. intros k' Hk' Hn. apply elem_of_cons in Hk' as [->|Hk']; [done|by apply H2]. }
  assert (Hn : ~ skipped i k e) by (intros Hs; apply Hsk in Hs; discriminate). destruct Ha as [Hl Hs]. rewrite (Hs k) by (apply Hks; by left). cbn [mbind option_bind].
  rewrite <- (V0_at m es i e He). destruct (Z.ltb_spec (M (V0 i + k)%nat) 0) as [Hneg|Hnn].
  { eexists. split; [reflexivity|]. exists k. split; [by left|done]. }
  pose proof (open_test ham (M (V0 i + k)%nat) (V0 i + k)) as Ho. destruct (negb _ && _).
  - destruct (IH false Hks') as (t & -> & Ht). exists t. split; [done|]. destruct t.
    + destruct Ht as [H1 H2]. split; [intros k' Hk' Hn'; apply elem_of_cons in Hk' as [->|Hk']; [done|by apply H1]|].
      right. exists k. split; [by left|]. split; [done|]. by apply Ho.
    + destruct Ht as (k' & Hk' & H2). exists k'. split; [by right|done].
    + by destruct Ht.
  - destruct (IH clean Hks') as (t & -> & Ht). exists t. split; [done|]. destruct t.
    + destruct Ht as [H1 H2]. split; [intros k' Hk' Hn'; apply elem_of_cons in Hk' as [->|Hk']; [done|by apply H1]|].
      destruct H2 as [H2|(k' & Hk' & H2)]; [by left|right; exists k'; split; [by right|done]].
    + destruct Ht as (k' & Hk' & H2). exists k'. split; [by right|done].
    + destruct Ht as [H1 H2]. split; [done|]. intros k' Hk' Hn'. apply elem_of_cons in Hk' as [->|Hk']; [|by apply H2]. split; [done|].
      destruct (decide (M (V0 i + k)%nat = 0)) as [|Hz]; [by left|]. right.
      destruct ham; [destruct Ho as [_ Ho]; by specialize (Ho (conj Hz (or_introl eq_refl)))|]. split; [done|].
      destruct (decide (M (V0 i + k)%nat = Z.of_nat (V0 i + k))) as [|Hx]; [done|]. destruct Ho as [_ Ho]. by specialize (Ho (conj Hz (or_intror Hx))).
Qed.

(** ** what is looked for *)
Definition good (ch : nat -> bool) : Prop := if sm_cycle G then exists c, cyc_rel (E ch n) c else exists ps, link_rel K col (E ch n) ps.
Definition goodH (ch : nat -> bool) : Prop := good ch /\ (sm_ham G = true -> forall x, (1 <= x <= m)%nat -> exists y, E ch n x y).
Lemma E_range ch i x y : E ch i x y -> (1 <= x <= m)%nat.
Proof. intros (a & e & _ & He & _ & Hj). destruct (no_range _ _ HN _ _ He) as (R1 & R2 & R3 & R4). unfold joins in Hj. lia. Qed.
Lemma good_cycle ch : sm_cycle G = true -> good ch -> cyclegood m col (E ch n).
Proof. unfold good. intros Hc. rewrite Hc. intros [c H]. eapply cycle_good; [by apply Hcyc|done]. Qed.
Lemma good_path ch : sm_cycle G = false -> good ch -> pathgood m col (E ch n).
Proof.
  unfold good. intros Hc. rewrite Hc. intros [ps H].
  destruct (links_done m K col Hout HKr Hall Hpair (E ch n) ps (fun x y => E_range ch n x y) H) as [P HP].
  exact (done_good m K col Hout HKr Hall Hpair P (E ch n) HP).
Qed.
Lemma ty_cases : sm_cycle G = true \/ sm_cycle G = false.
Proof. destruct (sm_cycle G); [by left|by right]. Qed.
Lemma good_degs ch : good ch -> degs m col (E ch n).
Proof. intros H. destruct ty_cases as [Hc|Hc]; [by apply cg_degs, good_cycle|by apply pg_degs, good_path]. Qed.

Definition tk_yes (i : nat) (M : nat -> Z) (e : edge_info) : Prop :=
  M (e_v1 e) <> 0 /\ M (e_v2 e) <> 0 /\ ~ (e_v1final e = true /\ M (e_v1 e) = Z.of_nat (e_v1 e)) /\ ~ (e_v2final e = true /\ M (e_v2 e) = Z.of_nat (e_v2 e)) /\
  M (e_v1 e) <> Z.of_nat (e_v2 e) /\ (M (e_v1 e) < 0 -> M (e_v2 e) < 0 -> M (e_v1 e) = M (e_v2 e)) /\
  (sm_cycle G = false -> M (e_v1 e) < 0 -> M (e_v2 e) < 0 -> e_allColorsSeen e = false \/ exists x, (V0 i <= x)%nat /\ x <> e_v1 e /\ x <> e_v2 e /\ M x < 0).

Lemma takable_ok ch i M P s e : AInv ch i M P -> arr i M s -> es !! i = Some e ->
  exists t, sm_takable G s e = Some t /\
  match t with
  | NO => ch i = true -> ~ goodH ch
  | YES => tk_yes i M e
  | HIT => ch i = true -> (goodH ch -> forall a, (i < a < n)%nat -> ch a = false) /\ ((forall a, (i < a < n)%nat -> ch a = false) -> good ch)
  end.
Proof.
  intros HI Ha He. destruct (edge_cells i M s e Ha He) as (K1 & K2 & W1 & W2). destruct (edge_ends i e He) as (R1 & R2 & R3 & R4 & R5).
  pose proof (ai_conf _ _ _ _ HI) as HC.
  unfold sm_takable. rewrite K1, K2. cbn [mbind option_bind]. rewrite W1, W2. cbn [mbind option_bind].
  destruct (Z.eqb_spec (M (e_v1 e)) 0) as [Z1|Z1].
  { eexists. split; [reflexivity|]. intros Hch [Hg _]. by apply (no_take ch i M P e _ _ HI He Hch (edge_joins e) (or_introl Z1)), good_degs. }
  destruct (e_v1final e && (M (e_v1 e) =? Z.of_nat (e_v1 e))) eqn:F1.
  { eexists. split; [reflexivity|]. intros Hch [Hg _]. apply andb_true_iff in F1 as [F1 S1]. apply Z.eqb_eq in S1.
    apply (no_take ch i M P e _ _ HI He Hch (edge_joins e)); [|by apply good_degs]. right. split; [done|]. split; [done|]. apply few_last. by apply (no_final1 _ _ HN _ _ He). }
  destruct (Z.eqb_spec (M (e_v2 e)) 0) as [Z2|Z2].
  { eexists. split; [reflexivity|]. intros Hch [Hg _]. by apply (no_take ch i M P e _ _ HI He Hch (joins_sym _ _ _ (edge_joins e)) (or_introl Z2)), good_degs. }
  destruct (e_v2final e && (M (e_v2 e) =? Z.of_nat (e_v2 e))) eqn:F2.
  { eexists. split; [reflexivity|]. intros Hch [Hg _]. apply andb_true_iff in F2 as [F2 S2]. apply Z.eqb_eq in S2.
    apply (no_take ch i M P e _ _ HI He Hch (joins_sym _ _ _ (edge_joins e))); [|by apply good_degs]. right. split; [lia|]. split; [done|]. apply few_last. by apply (no_final2 _ _ HN _ _ He). }
  assert (G1 : ~ (e_v1final e = true /\ M (e_v1 e) = Z.of_nat (e_v1 e))). { intros [B1 B2]. rewrite B1, B2, Z.eqb_refl in F1. done. }
  assert (G2 : ~ (e_v2final e = true /\ M (e_v2 e) = Z.of_nat (e_v2 e))). { intros [B1 B2]. rewrite B1, B2, Z.eqb_refl in F2. done. }
  destruct ty_cases as [Hty|Hty]; rewrite Hty.
  - destruct (Z.eqb_spec (M (e_v1 e)) (Z.of_nat (e_v2 e))) as [Hw|Hw].
    + destruct (cycle_scan_ok (sm_ham G) i M s e (seq 1 (sm_size G - 1)) Ha He) as [[-> Hs]|(-> & k & Hk & Hsk & Hnz & Hop)].
      { intros k Hk. apply elem_of_seq in Hk. change (sm_size G) with W in Hk. lia. }
      * eexists. split; [reflexivity|]. intros Hch. split.
        -- intros [Hg _]. apply (cy_rest ch i M P HI e He Hch Hty Hw). by apply good_cycle.
        -- intros Hz. unfold good. rewrite Hty. apply (cy_done ch i M P HI e He Hch Hty Hw); [|done]. intros x Hx N1 N2.
           destruct (Hs (x - V0 i)%nat) as [H|[_ H]].
           ++ apply elem_of_seq. change (sm_size G) with W. lia.
           ++ unfold skipped. lia.
           ++ replace (V0 i + (x - V0 i))%nat with x in H by lia. by left.
           ++ replace (V0 i + (x - V0 i))%nat with x in H by lia. by right.
      * eexists. split; [reflexivity|]. intros Hch [Hg Hh]. unfold skipped in Hsk.
        apply (cy_unclean ch i M P HI e He Hch Hty Hw (V0 i + k)%nat); [lia|lia|lia|done| |by apply good_cycle].
        destruct Hop as [Hham|?]; [right|by left]. apply (Hh Hham). eapply (live_range _ _ _ _ HC). apply (ai_live _ _ _ _ HI); [lia|exact Hnz].
    + eexists. split; [reflexivity|]. unfold tk_yes. split_and!; try done; [|by rewrite Hty]. intros Hn _. exfalso.
      pose proof (ai_live _ _ _ _ HI (e_v1 e) R1 Z1) as Hl. destruct (live_neg _ _ _ _ Hl Hn) as (q & _ & _ & Hq & _). by rewrite (Hcyc Hty) in Hq.
  - destruct (Z.eqb_spec (M (e_v1 e)) (Z.of_nat (e_v2 e))) as [Hw|Hw].
    { eexists. split; [reflexivity|]. intros Hch [Hg _]. by apply (path_no_cycle ch i M P e HI He Hch Hw), good_path. }
    destruct (Z.ltb_spec (M (e_v1 e)) 0) as [N1|N1]; cbn [andb]; [|eexists; split; [reflexivity|]; unfold tk_yes; split_and!; try done; lia].
    destruct (Z.ltb_spec (M (e_v2 e)) 0) as [N2|N2]; [|eexists; split; [reflexivity|]; unfold tk_yes; split_and!; try done; lia].
    destruct (Z.eqb_spec (M (e_v1 e)) (M (e_v2 e))) as [Hsm|Hsm]; cbn [negb].
    2:{ eexists. split; [reflexivity|]. intros Hch [Hg _]. by apply (path_no_colors ch i M P e HI He Hch N1 N2 Hsm), good_path. }
    destruct (e_allColorsSeen e) eqn:Hsn; cbn [negb].
    2:{ eexists. split; [reflexivity|]. unfold tk_yes. split_and!; try done. intros _ _ _. by left. }
    destruct (live_at _ _ _ _ _ HI R1 Z1) as (l & H1 & Hc1 & Hw1). destruct (live_at ch i M P (e_v2 e) HI ltac:(lia) Z2) as (k & H2 & Hc2 & Hw2).
    destruct (path_scan_ok (sm_ham G) i M s e (seq 0 (sm_size G)) true Ha He) as (t & -> & Ht).
    { intros c Hk. apply elem_of_seq in Hk. change (sm_size G) with W in Hk. lia. }
    exists t. split; [done|]. destruct t.
    + destruct Ht as [Hnn [?|(c & Hk & Hsk & Hnz & Hop)]]; [done|]. intros Hch [Hg Hh]. unfold skipped in *.
      eapply (lp_unclean ch i M P HI e He Hch N1 N2 Hsm l k H1 H2 Hc1 Hc2 Hw1 Hw2 Hsn) with (x := (V0 i + c)%nat); [|lia|lia|lia|done| |by apply good_path].
      * intros x Hx M1 M2. specialize (Hnn (x - V0 i)%nat). replace (V0 i + (x - V0 i))%nat with x in Hnn by lia. apply Hnn; [|lia].
        apply elem_of_seq. change (sm_size G) with W. lia.
      * destruct Hop as [Hham|?]; [right|by left]. apply (Hh Hham). eapply (live_range _ _ _ _ HC). apply (ai_live _ _ _ _ HI); [lia|exact Hnz].
    + destruct Ht as (c & Hk & Hsk & Hneg). unfold skipped in *. unfold tk_yes. split_and!; try done. intros _ _ _. right. exists (V0 i + c)%nat. split_and!; [lia|lia|lia|done].
    + destruct Ht as [_ Hs]. intros Hch. unfold skipped in *.
      assert (Hs' : forall x, (V0 i <= x < V0 i + W)%nat -> x <> e_v1 e -> x <> e_v2 e -> 0 <= M x /\ (M x = 0 \/ M x = Z.of_nat x)).
      { intros x Hx M1 M2. specialize (Hs (x - V0 i)%nat). replace (V0 i + (x - V0 i))%nat with x in Hs by lia. destruct Hs as [S1 S2]; [|lia|split; [done|]; destruct S2 as [?|[_ ?]]; [by left|by right]].
        apply elem_of_seq. change (sm_size G) with W. lia. }
      assert (Hnn : forall x, (V0 i <= x < V0 i + W)%nat -> x <> e_v1 e -> x <> e_v2 e -> 0 <= M x) by (intros x Hx M1 M2; by apply Hs').
      split.
      * intros [Hg _]. apply (lp_rest ch i M P HI e He Hch N1 N2 Hsm l k H1 H2 Hc1 Hc2 Hw1 Hw2 Hsn Hnn). by apply good_path.
      * intros Hz. unfold good. rewrite Hty. apply (lp_done ch i M P HI e He Hch N1 N2 Hsm l k H1 H2 Hc1 Hc2 Hw1 Hw2 Hsn Hnn); [|done]. intros x Hx M1 M2. by apply Hs'.
Qed.

Lemma leavable_ok ch i M P s e : AInv ch i M P -> arr i M s -> es !! i = Some e ->
  exists b, sm_leavable G s e = Some b /\ if b then may_leave M e else ch i = false -> ~ goodH ch.
Proof.
  intros HI Ha He. destruct (edge_cells i M s e Ha He) as (K1 & K2 & W1 & W2). destruct (edge_ends i e He) as (R1 & R2 & R3 & R4 & R5).
  pose proof (ai_conf _ _ _ _ HI) as HC. pose proof (lookup_lt_Some _ _ _ He) as Hi. fold n in Hi.
  unfold sm_leavable. rewrite K1, K2. cbn [mbind option_bind]. rewrite W1, W2. cbn [mbind option_bind]. eexists. split; [reflexivity|].
  assert (Hfin : forall x, (V0 i <= x)%nat -> (forall b, ~ later es i x b) -> ch i = false -> M x <> 0 -> (sm_ham G = true \/ M x <> Z.of_nat x) -> ~ goodH ch).
  { intros x Hx Hl Hch Hnz Hop [Hg Hh]. destruct (no_leave ch i M P x HI Hi Hch Hx Hl Hnz (good_degs _ Hg)) as [Hself Hno].
    destruct Hop as [Hham|?]; [|done]. destruct (Hh Hham x) as [y Hy]; [|by apply (Hno y)]. eapply (live_range _ _ _ _ HC). by apply (ai_live _ _ _ _ HI x Hx Hnz). }
  assert (Hfin2 : forall x, (V0 i <= x)%nat -> (1 <= x)%nat -> few (S i) x -> ch i = false -> sm_ham G = true -> M x = Z.of_nat x -> ~ goodH ch).
  { intros x Hx Hx1 Hf Hch Hham Hself [Hg Hh]. pose proof (ai_live _ _ _ _ HI x Hx ltac:(lia)) as Hl. pose proof (live_range _ _ _ _ HC _ _ Hl) as Hr.
    rewrite Hself in Hl. destruct (live_pos _ _ _ _ HC _ _ Hl) as [Cx [[_ Hs]|(? & _)]]; [|done]. destruct (Hh Hham x Hr) as [y Hy].
    assert (conf m col P (E ch (S i))) as HC'. { eapply conf_ext; [|exact HC]. intros a b. rewrite (E_S ch i e a b He), Hch. split; [by left|]. by intros [?|[? _]]. }
    by apply (single_few ch (S i) P x y HC' (good_degs _ Hg) Hs Cx Hf). }
  pose proof (proj1 (no_final1 _ _ HN _ _ He)) as L1. pose proof (proj1 (no_final2 _ _ HN _ _ He)) as L2.
  destruct (sm_ham G) eqn:Hham.
  - destruct (e_v1final e) eqn:A1, (Z.eqb_spec (M (e_v1 e)) 0) as [B1|B1]; cbn [negb andb].
    2:{ intros Hch. apply (Hfin (e_v1 e)); [done|by apply L1|done|done|by left]. }
    all: destruct (e_v2final e) eqn:A2, (Z.eqb_spec (M (e_v2 e)) 0) as [B2|B2]; cbn [negb andb];
      try (intros Hch; apply (Hfin (e_v2 e)); [lia|by apply L2|done|done|by left]).
    all: destruct (e_v1final2 e) eqn:A3, (Z.eqb_spec (M (e_v1 e)) (Z.of_nat (e_v1 e))) as [B3|B3]; cbn [negb andb];
      try (intros Hch; apply (Hfin2 (e_v1 e)); [lia|lia|apply (few_final i e _ He); left; split; [done|right; done]|done|done|done]).
    all: destruct (e_v2final2 e) eqn:A4, (Z.eqb_spec (M (e_v2 e)) (Z.of_nat (e_v2 e))) as [B4|B4]; cbn [negb andb];
      try (intros Hch; apply (Hfin2 (e_v2 e)); [lia|lia|apply (few_final i e _ He); right; split; [done|right; done]|done|done|done]).
    all: unfold may_leave; rewrite A1, A2; split; intros ?; try done; by left.
  - destruct (e_v1final e) eqn:A1, (Z.eqb_spec (M (e_v1 e)) 0) as [B1|B1], (Z.eqb_spec (M (e_v1 e)) (Z.of_nat (e_v1 e))) as [B3|B3]; cbn [negb andb];
      try (intros Hch; apply (Hfin (e_v1 e)); [done|by apply L1|done|done|by right]).
    all: destruct (e_v2final e) eqn:A2, (Z.eqb_spec (M (e_v2 e)) 0) as [B2|B2], (Z.eqb_spec (M (e_v2 e)) (Z.of_nat (e_v2 e))) as [B4|B4]; cbn [negb andb];
      try (intros Hch; apply (Hfin (e_v2 e)); [lia|by apply L2|done|done|by right]).
    all: unfold may_leave; rewrite A1, A2; split; intros ?; try done; (by left) || (by right).
Qed.

Lemma take_step ch i M P s e : AInv ch i M P -> arr i M s -> es !! i = Some e -> tk_yes i M e ->
  exists s', sm_take s e = Some s' /\ arr i (M_take M e) s' /\ (forall x, (V0 i + W <= x)%nat -> M_take M e x = sm_init_at G x) /\ (ch i = true -> exists P', AInv ch (S i) (M_take M e) P').
Proof.
  intros HI Ha He (Z1 & Z2 & F1 & F2 & Hd & Hsm & Hcase). destruct (edge_cells i M s e Ha He) as (K1 & K2 & W1 & W2). destruct (edge_ends i e He) as (R1 & R2 & R3 & R4 & R5).
  destruct (live_at _ _ _ _ _ HI R1 Z1) as (l & H1 & Hc1 & Hw1). destruct (live_at ch i M P (e_v2 e) HI ltac:(lia) Z2) as (k & H2 & Hc2 & Hw2).
  assert (P1 : 0 < M (e_v1 e) -> (V0 i <= Z.to_nat (M (e_v1 e)) < V0 i + W)%nat).
  { intros Hp. rewrite Hw1 in Hp. destruct (endv_pos col _ Hp) as [C E1]. rewrite Hw1, E1, Nat2Z.id. exact (end_in_front ch i M P HI e He Z1 Z2 l k Hc1 Hc2 _ _ _ H1 Hc1 eq_refl C R1 ltac:(lia)). }
  assert (P2 : 0 < M (e_v2 e) -> (V0 i <= Z.to_nat (M (e_v2 e)) < V0 i + W)%nat).
  { intros Hp. rewrite Hw2 in Hp. destruct (endv_pos col _ Hp) as [C E1]. rewrite Hw2, E1, Nat2Z.id. exact (end_in_front ch i M P HI e He Z1 Z2 l k Hc1 Hc2 _ _ _ H2 Hc2 eq_refl C ltac:(lia) ltac:(lia)). }
  unfold sm_take. rewrite K1, K2. cbn [mbind option_bind]. rewrite W1, W2. cbn [mbind option_bind].
  destruct (link_ok i e M s _ (M (e_v2 e)) He Ha P1) as (s1 & -> & A1). cbn [mbind option_bind].
  destruct (link_ok i e _ s1 _ (M (e_v1 e)) He A1 P2) as (s2 & -> & A2). cbn [mbind option_bind]. eexists. split; [reflexivity|]. split.
  - unfold M_take. cbv zeta. set (M2 := if 0 <? M (e_v2 e) then _ else _) in *. clearbody M2.
    assert (A3 : arr i (if e_v1final e || negb (M (e_v1 e) =? Z.of_nat (e_v1 e)) then upd M2 (e_v1 e) 0 else M2)
      (if e_v1final e || negb (M (e_v1 e) =? Z.of_nat (e_v1 e)) then <[(e_v1 e - V0 i)%nat := 0]> s2 else s2)).
    { destruct (e_v1final e || _); [apply upd_ok; [done|lia|lia]|done]. }
    destruct (e_v2final e || _); [apply upd_ok; [done|lia|lia]|done].
  - split; [eapply take_init; done|]. intros Hch. exists (Pj P (e_v1 e) (e_v2 e) l k). apply take_inv; try done. intros Hty. eapply take_neg; try done. intros N1 N2. by apply Hcase.
Qed.
Lemma leave_step ch i M P s e : AInv ch i M P -> arr i M s -> es !! i = Some e -> may_leave M e ->
  exists s', sm_leave s e = Some s' /\ arr i (M_leave M e) s' /\ (forall x, (V0 i + W <= x)%nat -> M_leave M e x = sm_init_at G x) /\ (ch i = false -> AInv ch (S i) (M_leave M e) P).
Proof.
  intros HI Ha He Hml. destruct (edge_cells i M s e Ha He) as (K1 & K2 & W1 & W2). destruct (edge_ends i e He) as (R1 & R2 & R3 & R4 & R5).
  unfold sm_leave. rewrite K1, K2. cbn [mbind option_bind]. rewrite W1. cbn [mbind option_bind].
  set (M1 := if e_v1final e || (e_v1final2 e && (M (e_v1 e) =? Z.of_nat (e_v1 e))) then upd M (e_v1 e) 0 else M).
  assert (A1 : arr i M1 (if e_v1final e || (e_v1final2 e && (M (e_v1 e) =? Z.of_nat (e_v1 e))) then <[(e_v1 e - V0 i)%nat := 0]> s else s)).
  { unfold M1. destruct (e_v1final e || _); [apply upd_ok; [done|lia|lia]|done]. }
  destruct (edge_cells i M1 _ e A1 He) as (_ & _ & _ & W2'). rewrite W2'. cbn [mbind option_bind]. eexists. split; [reflexivity|]. split.
  - unfold M_leave. fold M1. cbv zeta. destruct (e_v2final e || _); [apply upd_ok; [done|lia|lia]|done].
  - split; [|intros Hch; by apply leave_inv]. intros x Hx. rewrite <- (ai_init _ _ _ _ HI x) by lia.
    destruct (decide (M_leave M e x = M x)) as [|Hd]; [done|]. destruct (leave_spec M i e He) as (_ & L2 & _). destruct (L2 x Hd) as [[-> _]|[-> _]]; lia.
Qed.

Lemma mapM_fun {A B} (f : A -> option B) (h : A -> B) (l : list A) : (forall x, x ∈ l -> f x = Some (h x)) -> mapM f l = Some (map h l).
Proof.
  induction l as [|x l IH]; intros H; [done|]. cbn. rewrite (H x) by (by left). cbn [mbind option_bind]. rewrite IH; [done|]. intros y Hy. apply H. by right.
Qed.
Lemma init_get x : (x < m + W)%nat -> sm_init G !! x = Some (sm_init_at G x).
Proof.
  intros Hx. unfold sm_init. change (vertexSize (sm_graph G)) with m. change (sm_size G) with W. rewrite list_lookup_fmap. rewrite lookup_seq_lt by done. done.
Qed.
Lemma shift_ok i e e' M s : es !! i = Some e -> es !! S i = Some e' -> arr i M s -> (forall x, (V0 i + W <= x)%nat -> M x = sm_init_at G x) ->
  exists s', sm_shift G s (e_v0 e) (e_v0 e') = Some s' /\ arr (S i) M s'.
Proof.
  intros He He' [Hl Hs] HI. pose proof (lookup_lt_Some _ _ _ He) as Hlt.
  pose proof (V0_mono m es HN i Hlt) as Hmono. pose proof (V0_step m es HN W i (fun a e => max_frontier g a e) Hlt) as Hstep.
  destruct (edge_ends (S i) e' He') as (R1 & R2 & R3 & R4 & R5). rewrite <- (V0_at m es _ _ He), <- (V0_at m es _ _ He').
  unfold sm_shift. change (sm_size G) with W. destruct (Nat.ltb_spec W (V0 (S i) - V0 i)); [lia|].
  rewrite (mapM_fun _ (fun k => sm_init_at G (V0 (S i) + k))).
  2:{ intros x Hx. apply elem_of_seq in Hx. apply init_get. lia. }
  cbn [mbind option_bind]. eexists. split; [reflexivity|]. split.
  - rewrite app_length, drop_length, map_length, seq_length. lia.
  - intros k Hk. destruct (decide (k < W - (V0 (S i) - V0 i))%nat) as [Hc|Hc].
    + rewrite lookup_app_l by (rewrite drop_length; lia). rewrite lookup_drop, Hs by lia. do 2 f_equal. lia.
    + rewrite lookup_app_r by (rewrite drop_length; lia). rewrite drop_length, Hl, list_lookup_fmap, lookup_seq_lt by lia. cbn.
      replace (W - (V0 (S i) - V0 i) + (k - (W - (V0 (S i) - V0 i))))%nat with k by lia. f_equal. symmetry. apply HI. lia.
Qed.

(** ** the diagram *)
Definition chv (v : vec) (a : nat) : bool := negb (v (n - a)%nat =? 0)%nat.
Definition Ok (v : vec) (b : bool) : Prop := (goodH (chv v) -> b = true) /\ (b = true -> good (chv v)).
Definition SemOK (v : vec) (j : nat) : Prop := forall M P s, AInv (chv v) j M P -> arr j M s ->
  Ok v (zdd_eval (sm_spec G) (n - j) (Z.of_nat n - Z.of_nat j) s v).
Definition outcome (i : nat) (r : Z * list Z) : Prop :=
  fst r = 0 \/ fst r = -1 \/ exists j ch M P, (i <= j < n)%nat /\ fst r = Z.of_nat n - Z.of_nat j /\ AInv ch j M P /\ arr j M (snd r).
Definition cset (ch : nat -> bool) (i : nat) (b : bool) (a : nat) : bool := if (a =? i)%nat then b else ch a.
Lemma cset_at ch i b : cset ch i b i = b.
Proof. unfold cset. by rewrite Nat.eqb_refl. Qed.
Lemma cset_lt ch i b a : (a < i)%nat -> ch a = cset ch i b a.
Proof. unfold cset. intros H. destruct (Nat.eqb_spec a i); [lia|done]. Qed.
Lemma cset_agree ch i b v : (forall a, (a < i)%nat -> chv v a = ch a) -> chv v i = b -> forall a, (a < S i)%nat -> chv v a = cset ch i b a.
Proof. intros H Hb a Ha. unfold cset. destruct (Nat.eqb_spec a i) as [->|]; [done|]. apply H. lia. Qed.
Lemma Ok_no v : ~ goodH (chv v) -> Ok v false.
Proof. intros H. split; [by intros ?|done]. Qed.
Lemma AInv_end ch M P : AInv ch n M P -> ~ goodH ch.
Proof. intros HI [Hg _]. pose proof (path_end ch M P HI) as Hty. exact (cycle_end ch M P HI Hty (good_cycle ch Hty Hg)). Qed.
Lemma zdd_one sp s v k : (forall j, (1 <= j <= k)%nat -> v j = 0%nat) -> zdd_eval sp k (-1) s v = true.
Proof.
  induction k as [|k IH]; intros H; cbn [zdd_eval]; [done|]. destruct (Z.eqb_spec (-1) (Z.of_nat (S k))); [lia|].
  rewrite H by lia. cbn. apply IH. intros j Hj. apply H. lia.
Qed.
Lemma zdd_one_inv sp s v k : zdd_eval sp k (-1) s v = true -> forall j, (1 <= j <= k)%nat -> v j = 0%nat.
Proof.
  induction k as [|k IH]; cbn [zdd_eval]; intros H j Hj; [lia|]. destruct (Z.eqb_spec (-1) (Z.of_nat (S k))); [lia|].
  destruct (Nat.eqb_spec (v (S k)) 0); [|done]. destruct (decide (j = S k)) as [->|]; [done|]. apply IH; [done|lia].
Qed.


(** the part common to getChild and the lookahead loop: what follows an accepted decision *)
Lemma skip_ok : forall r i ch M P s, r = (n - i)%nat -> (i < n)%nat -> AInv ch i M P -> arr i M s ->
  exists res, sm_skip G (n - i) i s = Some res /\ outcome i res /\ fst res <> -1 /\
  forall v, (forall a, (a < i)%nat -> chv v a = ch a) -> (forall j, (i <= j < n)%nat -> SemOK v j) -> Ok v (zdd_eval (sm_spec G) (n - i) (fst res) (snd res) v).
Proof.
  induction r as [|r IH]; intros i ch M P s Hr Hi HI Ha; [lia|].
  destruct (lookup_lt_is_Some_2 es i Hi) as [e He]. rewrite <- Hr. cbn [sm_skip]. change (g_edgeInfo (sm_graph G)) with es. change (sm_n G) with n.
  rewrite He. cbn [mbind option_bind].
  assert (Hext : forall v, (forall a, (a < i)%nat -> chv v a = ch a) -> AInv (chv v) i M P). { intros v Hv. eapply AInv_ext; [|exact HI]. intros a Hai. symmetry. by apply Hv. }
  assert (Hstop : exists res, Some (Z.of_nat n - Z.of_nat i, s) = Some res /\ outcome i res /\ fst res <> -1 /\
    forall v, (forall a, (a < i)%nat -> chv v a = ch a) -> (forall j, (i <= j < n)%nat -> SemOK v j) -> Ok v (zdd_eval (sm_spec G) (S r) (fst res) (snd res) v)).
  { eexists. split; [reflexivity|]. cbn [fst snd]. split; [right; right; exists i, ch, M, P; split_and!; [lia|lia|done|done|done]|]. split; [lia|].
    intros v Hv HS. rewrite Hr. eapply HS; [lia| |exact Ha]. by apply Hext. }
  destruct (takable_ok ch i M P s e HI Ha He) as (t & Et & Ht0). rewrite Et. cbn [mbind option_bind]. destruct t; [|exact Hstop|exact Hstop]. clear Hstop Ht0.
  assert (Hno1 : forall v, (forall a, (a < i)%nat -> chv v a = ch a) -> chv v i = true -> ~ goodH (chv v)).
  { intros v Hv. destruct (takable_ok (chv v) i M P s e (Hext v Hv) Ha He) as (t & Et' & Ht). rewrite Et in Et'. injection Et' as <-. exact Ht. }
  destruct (leavable_ok ch i M P s e HI Ha He) as (b & Eb & Hb0). rewrite Eb. cbn [mbind option_bind].
  destruct b; cbn [negb].
  2:{ eexists. split; [reflexivity|]. split; [by left|]. split; [done|]. intros v Hv _. cbn [fst snd]. rewrite zdd_eval_zero. apply Ok_no.
      destruct (chv v i) eqn:Hc; [by apply Hno1|]. destruct (leavable_ok (chv v) i M P s e (Hext v Hv) Ha He) as (b & Eb' & Hb). rewrite Eb in Eb'. injection Eb' as <-. by apply Hb. }
  destruct (leave_step ch i M P s e HI Ha He Hb0) as (s1 & E1 & A1 & I1 & _).
  destruct (Nat.eqb_spec (S i) n) as [En|En].
  { eexists. split; [reflexivity|]. split; [by left|]. split; [done|]. intros v Hv _. cbn [fst snd]. rewrite zdd_eval_zero. apply Ok_no.
    destruct (chv v i) eqn:Hc; [by apply Hno1|]. destruct (leave_step (chv v) i M P s e (Hext v Hv) Ha He Hb0) as (_ & _ & _ & _ & HI'). specialize (HI' Hc). rewrite En in HI'. by eapply AInv_end. }
  rewrite E1. cbn [mbind option_bind]. destruct (lookup_lt_is_Some_2 es (S i)) as [e' He']; [fold n; lia|]. rewrite He'. cbn [mbind option_bind].
  destruct (shift_ok i e e' _ s1 He He' A1 I1) as (s2 & -> & A2). cbn [mbind option_bind].
  set (ch0 := cset ch i false). assert (HI0 : AInv ch0 i M P) by (eapply AInv_ext; [|exact HI]; intros a Hai; by apply cset_lt).
  destruct (leave_step ch0 i M P s e HI0 Ha He Hb0) as (_ & _ & _ & _ & HI'). specialize (HI' (cset_at _ _ _)).
  destruct (IH (S i) ch0 _ P s2 ltac:(lia) ltac:(lia) HI' A2) as (res & Hres & Hout' & Hn1 & Hsem).
  replace r with (n - S i)%nat by lia. exists res. split; [done|]. split; [|split; [done|]].
  - destruct Hout' as [?|[?|(j & c & M' & P' & Hj & ?)]]; [by left|by right; left|]. right; right. exists j, c, M', P'. split; [lia|done].
  - intros v Hv HS. assert (Hne : fst res =? Z.of_nat (S (n - S i)) = false).
    { apply Z.eqb_neq. destruct Hout' as [->|[->|(j & c & M' & P' & Hj & -> & _)]]; lia. }
    cbn [zdd_eval]. rewrite Hne. replace (S (n - S i)) with (n - i)%nat by lia. destruct (v (n - i)%nat =? 0)%nat eqn:Hv0.
    + apply Hsem; [|intros j Hj; apply HS; lia]. apply cset_agree; [done|]. unfold chv. by rewrite Hv0.
    + apply Ok_no, Hno1; [done|]. unfold chv. by rewrite Hv0.
Qed.

Lemma child_ok i ch M P s b : (i < n)%nat -> AInv ch i M P -> arr i M s ->
  exists res, sm_child G s (n - i) b = Some res /\ outcome (S i) res /\
  forall v, (forall a, (a < i)%nat -> chv v a = ch a) -> (v (n - i) =? 0)%nat = negb b -> (forall j, (i < j < n)%nat -> SemOK v j) ->
    Ok v (zdd_eval (sm_spec G) (n - S i) (fst res) (snd res) v).
Proof.
  intros Hi HI Ha. destruct (lookup_lt_is_Some_2 es i Hi) as [e He].
  unfold sm_child. change (g_edgeInfo (sm_graph G)) with es. change (sm_n G) with n.
  destruct (Nat.ltb_spec (n - i) 1); [lia|]. destruct (Nat.ltb_spec n (n - i)); [lia|]. cbn [orb]. replace (n - (n - i))%nat with i by lia.
  rewrite He. cbn [mbind option_bind].
  assert (Hext : forall v, (forall a, (a < i)%nat -> chv v a = ch a) -> AInv (chv v) i M P). { intros v Hv. eapply AInv_ext; [|exact HI]. intros a Hai. symmetry. by apply Hv. }
  (* what follows an accepted decision *)
  assert (Hgo : forall s1 M1, arr i M1 s1 -> (forall x, (V0 i + W <= x)%nat -> M1 x = sm_init_at G x) ->
    (forall ch', (forall a, (a < i)%nat -> ch a = ch' a) -> ch' i = b -> exists P', AInv ch' (S i) M1 P') ->
    exists res, (if (S i =? n)%nat then Some (0, s1) else
      e' ← es !! S i; mate2 ← sm_shift G s1 (e_v0 e) (e_v0 e');
      if sm_look G then sm_skip G (n - S i) (S i) mate2 else Some (Z.of_nat n - Z.of_nat (S i), mate2)) = Some res /\ outcome (S i) res /\
      forall v, (forall a, (a < i)%nat -> chv v a = ch a) -> (v (n - i) =? 0)%nat = negb b -> (forall j, (i < j < n)%nat -> SemOK v j) ->
        Ok v (zdd_eval (sm_spec G) (n - S i) (fst res) (snd res) v)).
  { intros s1 M1 A1 I1 Hinv. destruct (Nat.eqb_spec (S i) n) as [En|En].
    - eexists. split; [reflexivity|]. split; [by left|]. intros v Hv Hb _. cbn [fst snd]. rewrite zdd_eval_zero. apply Ok_no.
      destruct (Hinv (chv v)) as [P' HP']; [intros a Hai; symmetry; by apply Hv|unfold chv; by rewrite Hb, negb_involutive|]. rewrite En in HP'. by eapply AInv_end.
    - destruct (lookup_lt_is_Some_2 es (S i)) as [e' He']; [fold n; lia|]. rewrite He'. cbn [mbind option_bind].
      destruct (shift_ok i e e' _ s1 He He' A1 I1) as (s2 & -> & A2). cbn [mbind option_bind].
      destruct (Hinv (cset ch i b)) as [P' HP']; [intros a Hai; by apply cset_lt|apply cset_at|].
      destruct (sm_look G).
      + destruct (skip_ok (n - S i) (S i) _ _ P' s2 eq_refl ltac:(lia) HP' A2) as (res & Hres & Hout' & _ & Hsem). exists res. split; [done|]. split; [done|].
        intros v Hv Hb HS. apply Hsem; [|intros j Hj; apply HS; lia]. apply cset_agree; [done|]. unfold chv. by rewrite Hb, negb_involutive.
      + eexists. split; [reflexivity|]. cbn [fst snd]. split; [right; right; exists (S i), (cset ch i b), M1, P'; split_and!; [lia|lia|done|done|done]|].
        intros v Hv Hb HS. eapply HS; [lia| |exact A2]. eapply AInv_ext; [|exact HP']. intros a Hai. symmetry. apply cset_agree; [done| |done]. unfold chv. by rewrite Hb, negb_involutive. }
  destruct b.
  - destruct (takable_ok ch i M P s e HI Ha He) as (t & Et & Ht0). rewrite Et. cbn [mbind option_bind].
    assert (Htk : forall v, (forall a, (a < i)%nat -> chv v a = ch a) -> exists t', sm_takable G s e = Some t' /\ match t' with
      | NO => chv v i = true -> ~ goodH (chv v) | YES => tk_yes i M e
      | HIT => chv v i = true -> (goodH (chv v) -> forall a, (i < a < n)%nat -> chv v a = false) /\ ((forall a, (i < a < n)%nat -> chv v a = false) -> good (chv v)) end).
    { intros v Hv. exact (takable_ok (chv v) i M P s e (Hext v Hv) Ha He). }
    destruct t.
    + eexists. split; [reflexivity|]. split; [by left|]. intros v Hv Hb _. cbn [fst snd]. rewrite zdd_eval_zero. apply Ok_no.
      destruct (Htk v Hv) as (t' & Et' & Ht'). rewrite Et in Et'. injection Et' as <-. apply Ht'. unfold chv. by rewrite Hb.
    + destruct (take_step ch i M P s e HI Ha He Ht0) as (s1 & E1 & A1 & I1 & _). rewrite E1. cbn [mbind option_bind]. apply (Hgo s1 (M_take M e) A1 I1).
      intros ch' Hag Hb. assert (HI' : AInv ch' i M P) by (eapply AInv_ext; [|exact HI]; done). destruct (take_step ch' i M P s e HI' Ha He Ht0) as (_ & _ & _ & _ & HP). by apply HP.
    + eexists. split; [reflexivity|]. split; [by right; left|]. intros v Hv Hb _. cbn [fst snd].
      destruct (Htk v Hv) as (t' & Et' & Ht'). rewrite Et in Et'. injection Et' as <-. destruct Ht' as [T1 T2]; [unfold chv; by rewrite Hb|]. split.
      * intros Hg. apply zdd_one. intros j Hj. specialize (T1 Hg (n - j)%nat ltac:(lia)). unfold chv in T1. replace (n - (n - j))%nat with j in T1 by lia.
        apply negb_false_iff, Nat.eqb_eq in T1. done.
      * intros Hz. apply T2. intros a Hai. unfold chv. rewrite (zdd_one_inv _ _ _ _ Hz) by lia. done.
  - destruct (leavable_ok ch i M P s e HI Ha He) as (b & Eb & Hb0). rewrite Eb. cbn [mbind option_bind]. destruct b; cbn [negb].
    + destruct (leave_step ch i M P s e HI Ha He Hb0) as (s1 & E1 & A1 & I1 & _). rewrite E1. cbn [mbind option_bind]. apply (Hgo s1 (M_leave M e) A1 I1).
      intros ch' Hag Hb. assert (HI' : AInv ch' i M P) by (eapply AInv_ext; [|exact HI]; done). destruct (leave_step ch' i M P s e HI' Ha He Hb0) as (_ & _ & _ & _ & HP). exists P. by apply HP.
    + eexists. split; [reflexivity|]. split; [by left|]. intros v Hv Hb _. cbn [fst snd]. rewrite zdd_eval_zero. apply Ok_no.
      destruct (leavable_ok (chv v) i M P s e (Hext v Hv) Ha He) as (b & Eb' & Hb'). rewrite Eb in Eb'. injection Eb' as <-. apply Hb'. unfold chv. by rewrite Hb.
Qed.

Lemma all_sem v : forall k j, (n - j <= k)%nat -> (j < n)%nat -> SemOK v j.
Proof.
  induction k as [|k IH]; intros j Hk Hj; [lia|]. intros M P s HI Ha. replace (n - j)%nat with (S (n - S j)) by lia. cbn [zdd_eval].
  replace (Z.of_nat n - Z.of_nat j =? Z.of_nat (S (n - S j))) with true by (symmetry; apply Z.eqb_eq; lia).
  cbn [sm_spec get_child]. fold (sm_spec G). replace (Z.to_nat (Z.of_nat n - Z.of_nat j)) with (n - j)%nat by lia.
  replace (S (n - S j)) with (n - j)%nat by lia.
  destruct (child_ok j (chv v) M P s (negb (v (n - j) =? 0)%nat) Hj HI Ha) as (res & -> & _ & Hsem). unfold default, id. cbn zeta. apply Hsem.
  - done.
  - by rewrite negb_involutive.
  - intros j' Hj'. apply IH; lia.
Qed.

Lemma root_ok : (0 < n)%nat -> exists s, sm_root G = Some (Z.of_nat n, s) /\ arr 0 (sm_init_at G) s.
Proof.
  intros Hn. destruct (lookup_lt_is_Some_2 es 0 Hn) as [e He]. unfold sm_root. change (g_edgeInfo (sm_graph G)) with es. rewrite He. cbn [mbind option_bind].
  change (sm_size G) with W. change (sm_n G) with n. pose proof (front_first m es HN 0 e He eq_refl) as E1. destruct (edge_ends 0 e He) as (R1 & R2 & R3 & R4 & R5).
  rewrite (mapM_fun _ (fun k => sm_init_at G (e_v0 e + k))) by (intros x Hx; apply elem_of_seq in Hx; apply init_get; lia). cbn [mbind option_bind].
  eexists. split; [reflexivity|]. split; [by rewrite map_length, seq_length|]. intros k Hk. rewrite list_lookup_fmap, lookup_seq_lt by done. cbn. by rewrite (V0_at m es 0 e He).
Qed.
Lemma sm_sem v : (0 < n)%nat -> Ok v (zdd_sem (sm_spec G) n v).
Proof.
  intros Hn. destruct (root_ok Hn) as (s & Es & Ha). unfold zdd_sem. cbn [sm_spec get_root]. fold (sm_spec G). rewrite Es. unfold default, id. cbn [fst snd].
  pose proof (all_sem v n 0 ltac:(lia) Hn _ _ _ (AInv_root (chv v)) Ha) as H. by rewrite Nat.sub_0_r, Z.sub_0_r in H.
Qed.
Lemma sm_reach l s : (0 < n)%nat -> reach (sm_spec G) l s -> exists j ch M P, (j < n)%nat /\ l = Z.of_nat n - Z.of_nat j /\ AInv ch j M P /\ arr j M s.
Proof.
  intros Hn0. induction 1 as [H|l s b Hr (j & ch & M & P & Hj & -> & HI & Ha) Hb Hp].
  - destruct (root_ok Hn0) as (s & Es & Ha). cbn [sm_spec get_root] in *. rewrite Es in *. unfold default, id in *. cbn [fst snd] in *.
    exists 0%nat, (fun _ => false), (sm_init_at G), (fun r => exists x, r = [x] /\ (1 <= x <= m)%nat). split_and!; [lia|lia|apply AInv_root|done].
  - cbn [sm_spec get_child] in *. replace (Z.to_nat (Z.of_nat n - Z.of_nat j)) with (n - j)%nat in * by lia.
    destruct (child_ok j ch M P s (negb (b =? 0)%nat) Hj HI Ha) as (res & Eres & Hout' & _). rewrite Eres in *. unfold default, id in *.
    assert (Hp' : 0 < fst res) by exact Hp. clear Hp.
    destruct Hout' as [E1|[E1|(j' & ch' & M' & P' & Hj' & E1 & HI' & Ha')]]; [lia|lia|]. exists j', ch', M', P'. split_and!; [lia|done|done|done].
Qed.
Lemma sm_safe l s b : (0 < n)%nat -> reach (sm_spec G) l s -> is_Some (sm_child G s (Z.to_nat l) b).
Proof.
  intros Hn (j & ch & M & P & Hj & -> & HI & Ha)%sm_reach; [|done]. replace (Z.to_nat (Z.of_nat n - Z.of_nat j)) with (n - j)%nat by lia.
  destruct (child_ok j ch M P s b Hj HI Ha) as (res & -> & _). by eexists.
Qed.
Lemma sm_levels l s b : (0 < n)%nat -> reach (sm_spec G) l s -> -1 <= fst (get_child (sm_spec G) s l b) < l.
Proof.
  intros Hn Hr. pose proof (sm_reach _ _ Hn Hr) as (j & ch & M & P & Hj & -> & HI & Ha). cbn [sm_spec get_child].
  replace (Z.to_nat (Z.of_nat n - Z.of_nat j)) with (n - j)%nat by lia.
  destruct (child_ok j ch M P s (negb (b =? 0)%nat) Hj HI Ha) as (res & -> & Hout' & _). unfold default, id.
  change (-1 <= fst res < Z.of_nat n - Z.of_nat j).
  destruct Hout' as [->|[->|(j' & ch' & M' & P' & Hj' & -> & _)]]; lia.
Qed.
End simpath.

Lemma sm_congr G : spec_congr (sm_spec G).
Proof.
  constructor; cbn [sm_spec equal_to].
  - intros. by apply bool_decide_eq_true.
  - intros. apply bool_decide_ext. split; congruence.
  - intros l s s' s'' _ _ _ H1 H2. apply bool_decide_eq_true in H1, H2. subst. by apply bool_decide_eq_true.
  - intros l s s' b _ _ _ H. apply bool_decide_eq_true in H. subst. split; [done|]. intros _. by apply bool_decide_eq_true.
Qed.
Lemma sm_shareable G : shareable (sm_spec G).
Proof.
  split; cbn [sm_spec equal_to hash_code].
  - intros. apply bool_decide_ext. split; congruence.
  - intros l s s' H. apply bool_decide_eq_true in H. by subst.
Qed.
