(** Joining two paths; closed sets. *)
From stdpp Require Import strings.
From Verif Require Import Base Sem M_Graph S_Simpath P_Simpath1.
Local Open Scope nat_scope.

Lemma split_uniq (x : nat) l1 l2 k1 k2 : NoDup (l1 ++ x :: l2) -> l1 ++ x :: l2 = k1 ++ x :: k2 -> l1 = k1 /\ l2 = k2.
Proof.
  revert k1. induction l1 as [|a l1 IH]; intros [|b k1] N E; cbn in *.
  - injection E as E. done.
  - injection E as -> E. apply NoDup_cons in N as [N _]. rewrite E in N. destruct N. set_solver.
  - injection E as -> E. apply NoDup_cons in N as [N _]. destruct N. set_solver.
  - injection E as -> E. apply NoDup_cons in N as [_ N]. destruct (IH k1 N E) as [-> ->]. done.
Qed.
Lemma last_rev_hd (v : nat) k : last (v :: rev k) = Some (hd v k).
Proof. destruct k as [|a k]; [done|]. cbn [rev hd]. rewrite app_comm_cons. apply last_snoc. Qed.

Section join.
Context (m : nat) (col : nat -> nat) (P : list nat -> Prop) (R : nat -> nat -> Prop) (HC : conf m col P R).
Context (v1 v2 : nat) (l k : list nat) (H1 : P (l ++ [v1])) (H2 : P (k ++ [v2])).
Context (HD : forall x, x ∈ l ++ [v1] -> x ∉ k ++ [v2]).

Definition J : list nat := l ++ v1 :: v2 :: rev k.
Definition Pj (r : list nat) : Prop := (P r /\ v1 ∉ r /\ v2 ∉ r) \/ r = J \/ r = rev J.
Definition Rj (x y : nat) : Prop := R x y \/ (x = v1 /\ y = v2) \/ (x = v2 /\ y = v1).

Lemma J_split : J = (l ++ [v1]) ++ rev (k ++ [v2]).
Proof. unfold J. rewrite rev_snoc, <- app_assoc. done. Qed.
Lemma J_in x : x ∈ J <-> x ∈ l ++ [v1] \/ x ∈ k ++ [v2].
Proof. rewrite J_split, elem_of_app, elem_of_rev. done. Qed.
Lemma J_nd : NoDup J.
Proof.
  rewrite J_split. apply NoDup_app. split; [by apply (c_nd _ _ _ _ HC)|]. split; [intros x Hx Hx'; apply (proj1 (elem_of_rev _ _)) in Hx'; exact (HD x Hx Hx')|].
  apply NoDup_rev. by apply (c_nd _ _ _ _ HC).
Qed.
Lemma P_v1 p x : P p -> x ∈ p -> x ∈ l ++ [v1] -> p = l ++ [v1] \/ p = rev (l ++ [v1]).
Proof. intros Hp Hx Hx'. by apply (c_uniq _ _ _ _ HC _ _ x H1 Hp). Qed.
Lemma P_v2 p x : P p -> x ∈ p -> x ∈ k ++ [v2] -> p = k ++ [v2] \/ p = rev (k ++ [v2]).
Proof. intros Hp Hx Hx'. by apply (c_uniq _ _ _ _ HC _ _ x H2 Hp). Qed.
Lemma Pj_old r x : Pj r -> x ∈ r -> x ∉ J -> P r.
Proof. intros [[H _]|[->| ->]] Hx Hn; [done|done|]. by apply (proj1 (elem_of_rev _ _)) in Hx. Qed.
Lemma old_Pj r x : P r -> x ∈ r -> x ∉ J -> Pj r.
Proof.
  intros Hr Hx Hn. left. split; [done|]. rewrite J_in in Hn. split; intros Hv; apply Hn.
  - left. destruct (P_v1 r v1 Hr Hv) as [->| ->]; [set_solver|done|by apply elem_of_rev].
  - right. destruct (P_v2 r v2 Hr Hv) as [->| ->]; [set_solver|done|by apply elem_of_rev].
Qed.
Lemma old_disjoint r x : P r -> v1 ∉ r -> v2 ∉ r -> x ∈ r -> x ∉ J.
Proof.
  intros Hr N1 N2 Hx. rewrite J_in. intros [Hj|Hj].
  - apply N1. destruct (P_v1 r x Hr Hx Hj) as [->| ->]; [|apply elem_of_rev]; set_solver.
  - apply N2. destruct (P_v2 r x Hr Hx Hj) as [->| ->]; [|apply elem_of_rev]; set_solver.
Qed.

Context (HL1 : l = [] \/ col v1 = 0) (HL2 : k = [] \/ col v2 = 0).
Context (HS : col (hd v1 l) <> 0 -> col (hd v2 k) <> 0 -> col (hd v1 l) = col (hd v2 k)).

Lemma J_int a b x : J = a ++ x :: b -> a <> [] -> b <> [] -> col x = 0.
Proof.
  intros E Ha Hb. pose proof J_nd as N. assert (x ∈ l \/ x = v1 \/ x = v2 \/ x ∈ rev k) as Hx.
  { assert (x ∈ J) by (rewrite E; set_solver). unfold J in *. set_solver. }
  destruct Hx as [Hx|[->|[->|Hx]]].
  - apply elem_of_list_split in Hx as (a' & b' & El). unfold J in E, N. rewrite El, <- app_assoc in E, N. cbn in E, N.
    destruct (split_uniq _ _ _ _ _ N E) as [-> <-]. eapply (c_int _ _ _ _ HC a (b' ++ [v1])); [|done|by destruct b'].
    pose proof H1 as H1'. rewrite El, <- app_assoc in H1'. exact H1'.
  - unfold J in E, N. destruct (split_uniq _ _ _ _ _ N E) as [-> _]. by destruct HL1.
  - unfold J in E, N. replace (l ++ v1 :: v2 :: rev k) with ((l ++ [v1]) ++ v2 :: rev k) in E, N by (by rewrite <- app_assoc).
    destruct (split_uniq _ _ _ _ _ N E) as [_ <-]. destruct HL2 as [->|]; done.
  - apply elem_of_list_split in Hx as (a' & b' & El). unfold J in E, N. rewrite El in E, N.
    replace (l ++ v1 :: v2 :: a' ++ x :: b') with ((l ++ v1 :: v2 :: a') ++ x :: b') in E, N by (by rewrite <- app_assoc).
    destruct (split_uniq _ _ _ _ _ N E) as [_ <-]. eapply (c_int _ _ _ _ HC (v2 :: a') b'); [|done|done].
    apply (c_rev _ _ _ _ HC) in H2. rewrite rev_snoc, El in H2. exact H2.
Qed.
Lemma J_ends x q y : J = x :: q ++ [y] -> x = hd v1 l /\ y = hd v2 k.
Proof.
  intros E. split.
  - unfold J in E. destruct l; cbn in *; congruence.
  - assert (last J = Some y) as EL by (rewrite E, app_comm_cons; apply last_snoc). unfold J in EL.
    change (l ++ v1 :: v2 :: rev k) with (l ++ [v1] ++ v2 :: rev k) in EL. rewrite app_assoc, last_app, last_rev_hd in EL. congruence.
Qed.

Lemma join_conf : conf m col Pj Rj.
Proof.
  assert (HJ1 : forall x, x ∈ J -> 1 <= x <= m).
  { intros x [Hx|Hx]%J_in; [by eapply (conf_range _ _ _ _ HC); [exact H1|]|by eapply (conf_range _ _ _ _ HC); [exact H2|]]. }
  constructor.
  - intros p [(Hp & N1 & N2)|[->| ->]].
    + left. split; [by apply (c_rev _ _ _ _ HC)|]. by rewrite !elem_of_rev.
    + by right; right.
    + right; left. by rewrite rev_involutive.
  - intros p [(Hp & _)|[->| ->]]; [by apply (c_nd _ _ _ _ HC)|apply J_nd|apply NoDup_rev, J_nd].
  - intros [(Hp & _)|[E|E]]; [by apply (c_ne _ _ _ _ HC) in Hp|unfold J in E; by destruct l|].
    apply (f_equal (@rev nat)) in E. rewrite rev_involutive in E. unfold J in E; by destruct l.
  - intros x. split.
    + intros Hx. destruct (decide (x ∈ J)) as [Hj|Hj]; [exists J; split; [by right; left|done]|].
      apply (c_cov _ _ _ _ HC) in Hx as (p & Hp & Hx). exists p. split; [by eapply old_Pj|done].
    + intros (p & [(Hp & _)|[->| ->]] & Hx); [apply (c_cov _ _ _ _ HC); by exists p|by apply HJ1|by apply HJ1, elem_of_rev].
  - intros p q x Hp Hq Hxp Hxq. destruct Hp as [(Hp & N1 & N2)|Hp].
    + pose proof (old_disjoint p x Hp N1 N2 Hxp) as Hj. apply (c_uniq _ _ _ _ HC p q x Hp); [by eapply Pj_old|done|done].
    + assert (x ∈ J) as Hj by (destruct Hp as [->| ->]; [done|by apply elem_of_rev]).
      destruct Hq as [(Hq & N1 & N2)|Hq]; [by destruct (old_disjoint q x Hq N1 N2 Hxq)|].
      destruct Hp as [->| ->], Hq as [->| ->]; rewrite ?rev_involutive; tauto.
  - intros x y.
    assert (HN : next_to x y J <-> next_to x y (l ++ [v1]) \/ next_to x y (rev (k ++ [v2])) \/ (x = v1 /\ y = v2)).
    { rewrite J_split, next_app. split; (intros [H|[H|H]]; [by left|by right; left|right; right]).
      - destruct H as (l' & k' & E1 & E2). rewrite rev_snoc in E2. apply app_inj_tail in E1 as [_ ->]. by injection E2 as ->.
      - destruct H as [-> ->]. exists l, (rev k). by rewrite rev_snoc. }
    assert (HN' : next_to x y (rev J) <-> next_to x y (rev (l ++ [v1])) \/ next_to x y (k ++ [v2]) \/ (x = v2 /\ y = v1)).
    { rewrite J_split, rev_app_distr, rev_involutive, next_app. split; (intros [H|[H|H]]; [by right; left|by left|right; right]).
      - destruct H as (l' & k' & E1 & E2). rewrite rev_snoc in E2. apply app_inj_tail in E1 as [_ ->]. by injection E2 as ->.
      - destruct H as [-> ->]. exists k, (rev l). by rewrite rev_snoc. }
    split.
    + intros [Hr|[[-> ->]|[-> ->]]].
      * apply (c_adj _ _ _ _ HC) in Hr as (p & Hp & Hn). destruct (decide (x ∈ J)) as [Hj|Hj].
        -- assert (x ∈ p) as Hxp by exact (proj1 (next_in _ _ _ Hn)). apply J_in in Hj as [Hj|Hj].
           ++ destruct (P_v1 p x Hp Hxp Hj) as [->| ->]; [exists J|exists (rev J)]; (split; [unfold Pj; tauto|]); [apply HN|apply HN']; tauto.
           ++ destruct (P_v2 p x Hp Hxp Hj) as [->| ->]; [exists (rev J)|exists J]; (split; [unfold Pj; tauto|]); [apply HN'|apply HN]; tauto.
        -- exists p. split; [eapply old_Pj; [done|exact (proj1 (next_in _ _ _ Hn))|done]|done].
      * exists J. split; [by right; left|]. apply HN. tauto.
      * exists (rev J). split; [by right; right|]. apply HN'. tauto.
    + intros (p & [(Hp & _)|[->| ->]] & Hn).
      * left. apply (c_adj _ _ _ _ HC). by exists p.
      * apply HN in Hn as [Hn|[Hn|Hn]]; [left; apply (c_adj _ _ _ _ HC); eexists; split; [|exact Hn]; done|left; apply (c_adj _ _ _ _ HC); eexists; split; [|exact Hn]; by apply (c_rev _ _ _ _ HC)|by right; left].
      * apply HN' in Hn as [Hn|[Hn|Hn]]; [left; apply (c_adj _ _ _ _ HC); eexists; split; [|exact Hn]; by apply (c_rev _ _ _ _ HC)|left; apply (c_adj _ _ _ _ HC); eexists; split; [|exact Hn]; done|by right; right].
  - intros a b x [(Hp & _)|[E|E]] Ha Hb; [by eapply (c_int _ _ _ _ HC)|by eapply J_int|].
    apply (f_equal (@rev nat)) in E. rewrite rev_involutive, rev_app_distr in E. cbn in E. rewrite <- app_assoc in E. cbn in E.
    eapply J_int; [symmetry; exact E|..]; intros E'; [apply Hb|apply Ha]; apply (f_equal (@rev nat)) in E'; by rewrite rev_involutive in E'.
  - intros x q y [(Hp & _)|[E|E]] Cx Cy; [by eapply (c_same _ _ _ _ HC)|..].
    + symmetry in E. destruct (J_ends _ _ _ E) as [-> ->]. by apply HS.
    + apply (f_equal (@rev nat)) in E. rewrite rev_involutive, app_comm_cons, rev_snoc in E. cbn in E.
      symmetry in E. destruct (J_ends _ _ _ E) as [-> ->]. symmetry. by apply HS.
Qed.

(** live vertices after the join *)
Lemma join_live_out x w : x ∉ J -> live col Pj x w <-> live col P x w.
Proof.
  intros Hj. split; intros (q & Hq & Hc & E); exists q; (split; [|done]).
  - eapply Pj_old; [done| |done]. set_solver.
  - eapply old_Pj; [done| |done]. set_solver.
Qed.
Lemma join_end1 : Pj (rev J) /\ exists q, rev J = q ++ [hd v1 l] /\ q <> [] /\ hd (hd v1 l) q = hd v2 k.
Proof.
  split; [by right; right|]. assert (rev J = k ++ v2 :: v1 :: rev l) as EJ by (unfold J; rewrite rev_app_distr; cbn; rewrite rev_involutive, <- !app_assoc; done).
  rewrite EJ. destruct l as [|a l']; cbn [hd rev].
  - exists (k ++ [v2]). rewrite <- app_assoc. split; [done|]. split; [by destruct k|]. by destruct k.
  - exists (k ++ v2 :: v1 :: rev l'). rewrite <- app_assoc. split; [done|]. split; [by destruct k|]. by destruct k.
Qed.
Lemma join_end2 : Pj J /\ exists q, J = q ++ [hd v2 k] /\ q <> [] /\ hd (hd v2 k) q = hd v1 l.
Proof.
  split; [by right; left|]. unfold J. destruct k as [|a k']; cbn [hd rev].
  - exists (l ++ [v1]). rewrite <- app_assoc. split; [done|]. split; [by destruct l|]. by destruct l.
  - exists (l ++ v1 :: v2 :: rev k'). rewrite <- app_assoc. split; [done|]. split; [by destruct l|]. by destruct l.
Qed.
Lemma join_live1 w : live col Pj (hd v1 l) w <-> col (hd v1 l) = 0 /\ w = endv col (hd v2 k).
Proof.
  destruct join_end1 as (HP & q & E & Hq & Hh). rewrite E in HP. split.
  - intros (q' & HP' & Hc & Hw). pose proof (conf_snoc _ _ _ _ join_conf _ _ _ HP HP') as <-. destruct Hc as [?|Hc]; [done|]. by rewrite Hh in Hw.
  - intros [Hc ->]. exists q. split; [done|]. split; [by right|]. by rewrite Hh.
Qed.
Lemma join_live2 w : live col Pj (hd v2 k) w <-> col (hd v2 k) = 0 /\ w = endv col (hd v1 l).
Proof.
  destruct join_end2 as (HP & q & E & Hq & Hh). rewrite E in HP. split.
  - intros (q' & HP' & Hc & Hw). pose proof (conf_snoc _ _ _ _ join_conf _ _ _ HP HP') as <-. destruct Hc as [?|Hc]; [done|]. by rewrite Hh in Hw.
  - intros [Hc ->]. exists q. split; [done|]. split; [by right|]. by rewrite Hh.
Qed.
Lemma join_live_in x w : x ∈ J -> live col Pj x w -> x = hd v1 l \/ x = hd v2 k.
Proof.
  intros Hj (q & Hq & _). destruct Hq as [(Hq & N1 & N2)|[E|E]].
  - destruct (old_disjoint (q ++ [x]) x Hq N1 N2); [set_solver|done].
  - destruct join_end2 as (_ & q' & E' & _). rewrite E' in E. apply app_inj_tail in E as [_ ->]. by right.
  - destruct join_end1 as (_ & q' & E' & _). rewrite E' in E. apply app_inj_tail in E as [_ ->]. by left.
Qed.
End join.
