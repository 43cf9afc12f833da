(** The evaluators ToZBDD and ToBDD. *)
From stdpp Require Import gmap sets.
From Verif Require Import Base Sem Tree M_Table M_Eval P_Eval S_Bridge M_Bridge P_Bridge.
Local Open Scope Z_scope.

(** evaluation of a binary diagram, stated on trees *)
Section tree_eval.
  Context (d : dd) (Hd : dd_wf d) (H2 : d_ar d = 2%nat) (ev : evaluator) (I : ES ev -> Prop) (P : tree -> ET ev -> Prop) (e0 : ES ev).
  Notation n := (row (rt d)).
  Context (Hinit : exists e, e_init ev e0 n = Some e /\ I e).
  Context (Ht0 : forall e, I e -> exists e' v, e_term ev e 0 = Some (e', v) /\ I e' /\ P T0 v).
  Context (Ht1 : forall e, I e -> exists e' v, e_term ev e 1 = Some (e', v) /\ I e' /\ P T1 v).
  Context (Hn : forall e i Ta Tb xa xb, I e -> (0 < i <= n)%nat -> (tlev Ta < i)%nat -> (tlev Tb < i)%nat -> P Ta xa -> P Tb xb ->
    exists e' v, e_node ev e i [(xa, tlev Ta); (xb, tlev Tb)] = Some (e', v) /\ I e' /\ P (TN i [Ta; Tb]) v).
  Context (Hdes : forall e i, I e -> exists e', e_destruct ev e i = Some e' /\ I e').
  Let Q (r c : nat) (v : ET ev) : Prop := exists T, rep (tab d) (mk r c) T /\ P T v.
  Lemma tree_evaluate : exists e v T, I e /\ rep (tab d) (rt d) T /\ P T v /\ evaluate ev e0 d = e_value ev e v.
  Proof.
    destruct (evaluate_ok ev d Hd I Q e0) as (e & v & He & (T & HT & HP) & E); [done| | |done|].
    - intros e j He Hj. destruct j as [|[|]]; [| |lia].
      + destruct (Ht0 e He) as (e' & v & E & He' & HP). exists e', v. split_and!; try done. exists T0. split; [by constructor|done].
      + destruct (Ht1 e He) as (e' & v & E & He' & HP). exists e', v. split_and!; try done. exists T1. split; [by constructor|done].
    - intros e i j p vs He Hi Hp HF. assert (length p = 2%nat) as Hl.
      { rewrite <- H2. destruct Hd as (_ & Hwf & _). apply (table_wf_arity _ _ Hwf _ _ Hp). cbn. lia. }
      destruct p as [|ga [|gb [|]]]; try done. inversion HF as [|? xa ? l1 (A1 & A2 & Ta & A3 & A4) HF1]; subst.
      inversion HF1 as [|? xb ? l2 (B1 & B2 & Tb & B3 & B4) HF2]; subst. inversion HF2; subst.
      assert (rep (tab d) ga Ta) as Ra by (by eapply rep_code; [|exact A3]). assert (rep (tab d) gb Tb) as Rb by (by eapply rep_code; [|exact B3]).
      pose proof (rep_lev _ _ _ Ra) as La. pose proof (rep_lev _ _ _ Rb) as Lb.
      destruct (Hn e i Ta Tb (fst xa) (fst xb) He Hi) as (e' & v & E & He' & HP); [lia|lia|done|done|].
      exists e', v. destruct xa as [xa ?], xb as [xb ?]. cbn [fst snd] in *. subst. rewrite La, Lb in E. split_and!; try done.
      exists (TN i [Ta; Tb]). split; [|done]. change i with (row (mk i j)) at 2. econstructor; [cbn; lia|exact Hp|repeat constructor; done|].
      constructor; [exact A2|]. constructor; [exact B2|constructor].
    - exists e, v, T. split_and!; try done. by eapply rep_code; [|exact HT].
  Qed.
End tree_eval.

(** ** ToZBDD *)
Section zbdd.
  Context (o : order) (Ho : order_ok o) (off : Z).
  Definition fam_at (l : nat) (T : tree) (F : fam) : Prop :=
    forall s, s ∈ F <-> covered o off l s /\ tzdd l T (assign o off s) = true.
  Lemma fam_lift l T F : (tlev T <= l)%nat -> fam_at l T F -> fam_at (S l) T F.
  Proof.
    intros Hl H s. rewrite (H s), (tzdd_skip l T) by lia. split.
    - intros [H1 H2]. split; [by apply covered_S_not|]. destruct (assign o off s (S l) =? 0)%nat eqn:E; [done|]. exfalso.
      unfold assign in E. destruct (var_of_lev o (Z.of_nat (S l) + off)) as [x|] eqn:Ex; [|done]. destruct (decide (x ∈ s)) as [Hx|]; [|done].
      by destruct (covered_not o off l s x Ho H1 Ex).
    - intros [H1 H2]. destruct (assign o off s (S l) =? 0)%nat eqn:E; [|done]. split; [|done]. apply covered_S_zero; [|done]. by apply Nat.eqb_eq.
  Qed.
  Lemma fam_lift_to l l' T F : (tlev T <= l)%nat -> (l <= l')%nat -> fam_at l T F -> fam_at l' T F.
  Proof. intros Hl Hle H. induction Hle as [|l' Hle IH]; [done|]. apply fam_lift; [lia|done]. Qed.
  Lemma fam_zero : fam_at 0 T0 (z_const false).
  Proof. intros s. cbn. split; [set_solver|intros [_ H]; by apply bool_decide_eq_true in H]. Qed.
  Lemma fam_one : fam_at 0 T1 (z_const true).
  Proof.
    intros s. cbn. rewrite elem_of_singleton. split.
    - intros ->. split; [intros x Hx; set_solver|done].
    - intros [H _]. apply elem_of_equiv_empty_L. intros x Hx. destruct (H x Hx) as (k & Hk & _). lia.
  Qed.
  Lemma fam_node l Ta Tb Fa Fb F : (tlev Ta <= l)%nat -> (tlev Tb <= l)%nat -> fam_at l Ta Fa -> fam_at l Tb Fb ->
    (0 < Z.of_nat (S l) + off -> exists x, var_of_lev o (Z.of_nat (S l) + off) = Some x /\ F = Fa ∪ z_change x Fb) ->
    (Z.of_nat (S l) + off <= 0 -> F = Fa) -> fam_at (S l) (TN (S l) [Ta; Tb]) F.
  Proof.
    intros La Lb Ha Hb H1 H2 s. rewrite tzdd_node. destruct (Z.ltb_spec 0 (Z.of_nat (S l) + off)) as [Hp|Hp].
    - destruct (H1 Hp) as (x & Hx & ->). destruct (decide (x ∈ s)) as [Hs|Hs].
      + assert (assign o off s (S l) = 1%nat) as -> by (unfold assign; rewrite Hx; by destruct (decide (x ∈ s))). cbn [nth].
        rewrite (covered_S o off l s x Ho Hx). rewrite <- (tzdd_ext l Tb (assign o off (s ∖ {[x]}))); [|intros k Hk; apply (assign_eq o off l s x k Ho Hx); lia].
        rewrite <- (Hb (s ∖ {[x]})), elem_of_union. split.
        * intros [H|H]; [apply Ha in H as [H _]; by destruct (covered_not o off l s x Ho H Hx)|].
          apply elem_of_map in H as (t & -> & Ht). pose proof Ht as Ht'. apply Hb in Ht' as [Hc _]. pose proof (covered_not o off l t x Ho Hc Hx) as Hn.
          destruct (decide (x ∈ t)) as [|_]; [done|]. assert (({[x]} ∪ t) ∖ {[x]} = t) as -> by set_solver. done.
        * intros H. right. apply elem_of_map. exists (s ∖ {[x]}). split; [|done]. destruct (decide (x ∈ s ∖ {[x]})) as [H'|_]; [set_solver|].
          apply set_eq. intros y. destruct (decide (y = x)); set_solver.
      + assert (assign o off s (S l) = 0%nat) as E0 by (unfold assign; rewrite Hx; by destruct (decide (x ∈ s))). rewrite E0. cbn [nth].
        rewrite elem_of_union, (Ha s). split.
        * intros [[H H']|H]; [split; [by apply covered_S_not|done]|]. exfalso. apply elem_of_map in H as (t & -> & Ht). apply Hb in Ht as [Hc _].
          pose proof (covered_not o off l t x Ho Hc Hx) as Hn. destruct (decide (x ∈ t)); set_solver.
        * intros [H H']. left. split; [by apply covered_S_zero|done].
    - rewrite (H2 Hp). assert (assign o off s (S l) = 0%nat) as E0. { unfold assign, var_of_lev. destruct (Z.leb_spec 1 (Z.of_nat (S l) + off)); [lia|done]. }
      rewrite E0. cbn [nth]. rewrite (Ha s). split; intros [H H']; (split; [|done]); [by apply covered_S_not|by apply covered_S_zero].
  Qed.
End zbdd.

Lemma to_zbdd_ok d o off : dd_wf d -> d_ar d = 2%nat -> order_ok o ->
  let o' := enough_vars o (Z.of_nat (row (rt d)) + off) in
  exists F T, evaluate (to_zbdd off) o d = Some F /\ rep (tab d) (rt d) T /\ fam_at o' off (tlev T) T F.
Proof.
  intros Hd H2 Ho o'. destruct (enough_ok o (Z.of_nat (row (rt d)) + off) Ho) as (Ho' & Hlen & _). fold o' in Ho', Hlen.
  destruct (tree_evaluate d Hd H2 (to_zbdd off) (fun e => e = o') (fun T F => fam_at o' off (tlev T) T F) o) as (e & v & T & -> & HT & HF & E).
  - by exists o'.
  - intros e ->. eexists _, _. split; [done|]. split; [done|]. by apply fam_zero.
  - intros e ->. eexists _, _. split; [done|]. split; [done|]. by apply fam_one.
  - intros e i Ta Tb xa xb -> Hi La Lb Pa Pb. destruct i as [|l]; [lia|]. cbn [e_node to_zbdd]. unfold tz_node. cbn [lookup list_lookup mbind option_bind fst].
    apply (fam_lift_to o' Ho' off _ l) in Pa; [|lia|lia]. apply (fam_lift_to o' Ho' off _ l) in Pb; [|lia|lia].
    destruct (Z.ltb_spec 0 (Z.of_nat (S l) + off)) as [Hp|Hp].
    + destruct (var_of_lev o' (Z.of_nat (S l) + off)) as [x|] eqn:Ex.
      * cbn [mbind option_bind]. eexists _, _. split; [done|]. split; [done|]. cbn [tlev]. eapply fam_node; [done|lia|lia|exact Pa|exact Pb| |lia].
        intros _. exists x. done.
      * exfalso. unfold var_of_lev in Ex. destruct (Z.leb_spec 1 (Z.of_nat (S l) + off)); [|lia]. apply lookup_ge_None in Ex. lia.
    + cbn [mbind option_bind]. eexists _, _. split; [done|]. split; [done|]. cbn [tlev]. eapply fam_node; [done|lia|lia|exact Pa|exact Pb|lia|done].
  - intros e i ->. by exists o'.
  - exists v, T. done.
Qed.

(** ** ToBDD *)
Lemma elem_of_pw o s : s ∈ pw o <-> forall x, x ∈ s -> x ∈ o.
Proof.
  revert s. induction o as [|y o IH]; intros s; cbn [pw].
  - rewrite elem_of_singleton. split; [set_solver|]. intros H. apply elem_of_equiv_empty_L. intros x Hx. by apply H, elem_of_nil in Hx.
  - rewrite elem_of_union, elem_of_map. split.
    + intros [H|(t & -> & H)] x Hx; rewrite IH in H; [right; by apply H|].
      apply elem_of_union in Hx as [Hx|Hx]; [apply elem_of_singleton in Hx as ->; left|right; by apply H].
    + intros H. destruct (decide (y ∈ s)) as [Hy|Hy].
      * right. exists (s ∖ {[y]}). split; [apply set_eq; intros z; destruct (decide (z = y)); set_solver|]. apply IH. intros x Hx.
        apply elem_of_difference in Hx as [Hx Hn]. destruct (proj1 (elem_of_cons _ _ _) (H x Hx)) as [->|]; [set_solver|done].
      * left. apply IH. intros x Hx. destruct (proj1 (elem_of_cons _ _ _) (H x Hx)) as [->|]; [done|done].
Qed.

Section bdd.
  Context (o : order) (Ho : order_ok o) (off : Z).
  Definition fun_at (T : tree) (F : fam) : Prop :=
    (forall s, s ∈ F -> s ∈ pw o) /\ forall l s, (tlev T <= l)%nat -> s ∈ pw o -> s ∈ F <-> tbdd l T (assign o off s) = true.
  Lemma fun_zero : fun_at T0 (b_const o false).
  Proof. split; [cbn; set_solver|]. intros l s _ _. rewrite tbdd_T0. cbn. set_solver. Qed.
  Lemma fun_one : fun_at T1 (b_const o true).
  Proof. split; [done|]. intros l s _ Hs. split; [|done]. intros _. clear Hs. induction l as [|l IH]; [done|]. cbn [tbdd]. done. Qed.
  Lemma fun_node i Ta Tb Fa Fb x : (tlev Ta < i)%nat -> (tlev Tb < i)%nat -> fun_at Ta Fa -> fun_at Tb Fb ->
    var_of_lev o (Z.of_nat i + off) = Some x ->
    fun_at (TN i [Ta; Tb]) ((Fa ∩ b_not o (b_var o x)) ∪ (Fb ∩ b_var o x)).
  Proof.
    intros La Lb [Ha1 Ha2] [Hb1 Hb2] Hx. split; [set_solver|]. intros l s Hl Hs. cbn [tlev] in Hl.
    assert (s ∈ b_var o x <-> x ∈ s) as Hv by (unfold b_var; rewrite elem_of_filter; naive_solver).
    assert (s ∈ Fa ∩ b_not o (b_var o x) ∪ Fb ∩ b_var o x <-> if decide (x ∈ s) then s ∈ Fb else s ∈ Fa) as ->.
    { unfold b_not. rewrite elem_of_union, !elem_of_intersection, elem_of_difference, Hv. destruct (decide (x ∈ s)); naive_solver. }
    induction Hl as [|l Hl IH].
    - destruct i as [|i]; [lia|]. rewrite tbdd_node. unfold assign at 1. rewrite Hx. destruct (decide (x ∈ s)); cbn [nth]; [apply Hb2|apply Ha2]; try done; lia.
    - rewrite tbdd_skip by (cbn [tlev]; lia). exact IH.
  Qed.
End bdd.

Lemma to_bdd_ok d o off : dd_wf d -> d_ar d = 2%nat -> order_ok o -> 0 <= off ->
  let o' := enough_vars o (Z.of_nat (row (rt d)) + off) in
  exists F T, evaluate (to_bdd off) o d = Some F /\ rep (tab d) (rt d) T /\ fun_at o' off T F.
Proof.
  intros Hd H2 Ho Hoff o'. destruct (enough_ok o (Z.of_nat (row (rt d)) + off) Ho) as (Ho' & Hlen & _). fold o' in Ho', Hlen.
  destruct (tree_evaluate d Hd H2 (to_bdd off) (fun e => e = o') (fun T F => fun_at o' off T F) o) as (e & v & T & -> & HT & HF & E).
  - by exists o'.
  - intros e ->. eexists _, _. split; [done|]. split; [done|]. by apply fun_zero.
  - intros e ->. eexists _, _. split; [done|]. split; [done|]. by apply fun_one.
  - intros e i Ta Tb xa xb -> Hi La Lb Pa Pb. cbn [e_node to_bdd]. unfold tb_node. cbn [lookup list_lookup mbind option_bind fst].
    destruct (Z.ltb_spec 0 (Z.of_nat i + off)) as [Hp|Hp]; [|lia].
    destruct (var_of_lev o' (Z.of_nat i + off)) as [x|] eqn:Ex.
    + cbn [mbind option_bind]. eexists _, _. split; [done|]. split; [done|]. by apply fun_node.
    + exfalso. unfold var_of_lev in Ex. destruct (Z.leb_spec 1 (Z.of_nat i + off)); [|lia]. apply lookup_ge_None in Ex. lia.
  - intros e i ->. by exists o'.
  - exists v, T. done.
Qed.
