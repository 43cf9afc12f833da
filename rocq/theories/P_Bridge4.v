(** The specification SapporoBdd. *)
From stdpp Require Import gmap sets.
From Verif Require Import Base Sem M_Table M_Eval S_Bridge M_Bridge P_Bridge P_Bridge2 P_Bridge3.
Local Open Scope Z_scope.

Section bdd.
  Context (o : order) (Ho : order_ok o) (off : Z).
  Notation lev := (lev_of_var o).
  Definition func (f : fam) : Prop := forall s, s ∈ f -> s ∈ pw o.
  Definition dep_range (lo hi : Z) (f : fam) : Prop := forall x, x ∈ o -> b_depends o f x = true -> lo < lev x <= hi.

  Lemma pw_add x (s : gset nat) : x ∈ o -> s ∈ pw o -> {[x]} ∪ s ∈ pw o.
  Proof. rewrite !elem_of_pw. intros Hx H y Hy. apply elem_of_union in Hy as [Hy%elem_of_singleton|Hy]; [by subst|by apply H]. Qed.
  Lemma pw_sub x (s : gset nat) : s ∈ pw o -> s ∖ {[x]} ∈ pw o.
  Proof. rewrite !elem_of_pw. intros H y Hy. apply H. set_solver. Qed.
  Lemma dep_false (f : fam) x : (b_depends o f x = false <-> forall s : gset nat, s ∈ pw o -> s ∖ {[x]} ∈ f <-> {[x]} ∪ s ∈ f).
  Proof.
    unfold b_depends. rewrite bool_decide_eq_false. split.
    - intros H s Hs. apply dec_stable in H. assert (s ∈ b_at0 o x f <-> s ∈ b_at1 o x f) as E by (by rewrite H).
      unfold b_at0, b_at1 in E. rewrite !elem_of_filter in E. naive_solver.
    - intros H Hn. apply Hn. apply set_eq. intros s. unfold b_at0, b_at1. rewrite !elem_of_filter. split; intros [H1 H2]; (split; [|done]); by apply H.
  Qed.
  (** sets that agree on the variables that matter *)
  Lemma agree_on (f : fam) (L : list nat) : forall s t : gset nat, s ∈ pw o -> t ∈ pw o -> (forall x, x ∈ L -> b_depends o f x = false \/ (x ∈ s <-> x ∈ t)) ->
    (forall x, x ∉ L -> x ∈ s <-> x ∈ t) -> s ∈ f <-> t ∈ f.
  Proof.
    induction L as [|y L IH]; intros s t Hs Ht H1 H2.
    - assert (s = t) as -> by (apply set_eq; intros x; apply H2; set_solver). done.
    - destruct (decide (y ∈ s <-> y ∈ t)) as [E|E].
      + apply IH; [done|done|intros x Hx; apply H1; by right|]. intros x Hx. destruct (decide (x = y)) as [->|]; [done|]. apply H2. set_solver.
      + destruct (H1 y) as [Hd|?]; [left| |done]. rewrite dep_false in Hd.
        set (s' := if decide (y ∈ t) then {[y]} ∪ s else s ∖ {[y]}).
        assert (Hy : y ∈ o). { rewrite elem_of_pw in Hs, Ht. destruct (decide (y ∈ t)); [by apply Ht|]. destruct (decide (y ∈ s)); [by apply Hs|]. naive_solver. }
        assert (s' ∈ pw o) as Hs' by (unfold s'; destruct (decide (y ∈ t)); [by apply pw_add|by apply pw_sub]).
        transitivity (s' ∈ f).
        * unfold s'. destruct (decide (y ∈ t)) as [Hyt|Hyt].
          -- assert (y ∉ s) by naive_solver. rewrite <- (Hd s Hs). by rewrite difference_disjoint_L by set_solver.
          -- assert (y ∈ s) by (destruct (decide (y ∈ s)); [done|naive_solver]). rewrite (Hd s Hs). assert ({[y]} ∪ s = s) as -> by set_solver. done.
        * apply IH; [done|done| |].
          -- intros x Hx. destruct (decide (x = y)) as [->|Hxy].
             ++ right. unfold s'. destruct (decide (y ∈ t)); set_solver.
             ++ destruct (H1 x) as [?|E']; [by right|by left|]. right. rewrite <- E'. unfold s'. destruct (decide (y ∈ t)); set_solver.
          -- intros x Hx. destruct (decide (x = y)) as [->|Hxy].
             ++ unfold s'. destruct (decide (y ∈ t)); set_solver.
             ++ rewrite <- (H2 x) by set_solver. unfold s'. destruct (decide (y ∈ t)); set_solver.
  Qed.
  Lemma agree (f : fam) (s t : gset nat) : s ∈ pw o -> t ∈ pw o -> (forall x, x ∈ o -> b_depends o f x = true -> x ∈ s <-> x ∈ t) -> s ∈ f <-> t ∈ f.
  Proof.
    intros Hs Ht H. apply (agree_on f o); [done|done| |].
    - intros x Hx. destruct (b_depends o f x) eqn:E; [right; by apply H|by left].
    - intros x Hx. rewrite elem_of_pw in Hs, Ht. split; intros H'; destruct Hx; [by apply Hs|by apply Ht].
  Qed.
  Lemma at1_func x f : func (b_at1 o x f).
  Proof. intros s Hs. by apply elem_of_filter in Hs as [_ Hs]. Qed.
  Lemma at0_func x f : func (b_at0 o x f).
  Proof. intros s Hs. by apply elem_of_filter in Hs as [_ Hs]. Qed.
  Definition b_at (take : bool) x f : fam := if take then b_at1 o x f else b_at0 o x f.
  Lemma at_func take x f : func (b_at take x f).
  Proof. destruct take; [apply at1_func|apply at0_func]. Qed.
  Lemma at_in (take : bool) x f (s : gset nat) : s ∈ pw o -> (x ∈ s <-> take = true) -> s ∈ b_at take x f <-> s ∈ f.
  Proof.
    intros Hs Hx. unfold b_at, b_at0, b_at1. destruct take; rewrite elem_of_filter.
    - assert ({[x]} ∪ s = s) as -> by set_solver. naive_solver.
    - assert (s ∖ {[x]} = s) as ->; [|naive_solver]. apply difference_disjoint_L. assert (x ∉ s) by naive_solver. set_solver.
  Qed.
  Lemma at_dep (take : bool) x f y : x ∈ o -> y ∈ o -> b_depends o (b_at take x f) y = true -> y <> x /\ b_depends o f y = true.
  Proof.
    intros Hx Hy H. split.
    - intros ->. assert (b_depends o (b_at take x f) x = false); [|congruence]. apply dep_false. intros s Hs. unfold b_at, b_at0, b_at1. destruct take; rewrite !elem_of_filter.
      + assert ({[x]} ∪ s ∖ {[x]} = {[x]} ∪ s) as -> by (apply set_eq; intros z; destruct (decide (z = x)); set_solver).
        assert ({[x]} ∪ ({[x]} ∪ s) = {[x]} ∪ s) as -> by set_solver. pose proof (pw_add x s Hx Hs). pose proof (pw_sub x s Hs). naive_solver.
      + assert (s ∖ {[x]} ∖ {[x]} = s ∖ {[x]}) as -> by set_solver. assert (({[x]} ∪ s) ∖ {[x]} = s ∖ {[x]}) as -> by set_solver.
        pose proof (pw_add x s Hx Hs). pose proof (pw_sub x s Hs). naive_solver.
    - destruct (b_depends o f y) eqn:E; [done|]. assert (b_depends o (b_at take x f) y = false); [|congruence]. apply dep_false. intros s Hs.
      pose proof (pw_add y s Hy Hs) as P1. pose proof (pw_sub y s Hs) as P2.
      unfold b_at, b_at0, b_at1. destruct take; rewrite !elem_of_filter.
      + assert ({[x]} ∪ s ∖ {[y]} ∈ f <-> {[x]} ∪ ({[y]} ∪ s) ∈ f); [|naive_solver]. apply agree; [by apply pw_add|by apply pw_add|].
        intros z Hz Hd. assert (z <> y) by congruence. set_solver.
      + assert (s ∖ {[y]} ∖ {[x]} ∈ f <-> ({[y]} ∪ s) ∖ {[x]} ∈ f); [|naive_solver]. apply agree; [by apply pw_sub|by apply pw_sub|].
        intros z Hz Hd. assert (z <> y) by congruence. set_solver.
  Qed.

  Lemma pw_empty : ∅ ∈ pw o.
  Proof. apply elem_of_pw. intros x Hx. set_solver. Qed.
  Lemma b_top_spec f : func f ->
    (b_top o f = 0%nat /\ forall x, x ∈ o -> b_depends o f x = false) \/
    (b_top o f ∈ o /\ b_top o f <> 0%nat /\ b_depends o f (b_top o f) = true /\ 1 <= lev (b_top o f) <= Z.of_nat (length o) /\
     forall x, x ∈ o -> b_depends o f x = true -> lev x <= lev (b_top o f)).
  Proof.
    intros Hf. destruct (top_spec o Ho (b_depends o f)) as [(E & El & H)|(H1 & H2 & H3 & H4)]; fold (b_top o f) in *; [by left|]. right.
    split; [done|]. split; [intros E; apply (ord_range o Ho) in H1; lia|]. split; [done|]. split; [done|]. intros x Hx Hd.
    destruct (Z.le_gt_cases (lev x) (lev (b_top o f))) as [|Hgt]; [done|]. rewrite (H4 x Hx Hgt) in Hd. done.
  Qed.
  Lemma sb_level_ok f hi : func f -> dep_range off hi f -> exists c, sb_level o off f = Some (c, f) /\
    ((1 <= c /\ c = lev (b_top o f) - off /\ b_top o f ∈ o /\ (forall x, x ∈ o -> b_depends o f x = true -> lev x <= lev (b_top o f)) /\ lev (b_top o f) <= hi) \/
     ((c = 0 \/ c = -1) /\ (forall x, x ∈ o -> b_depends o f x = false) /\ forall s, s ∈ pw o -> c = -1 <-> s ∈ f)).
  Proof.
    intros Hf Hr. unfold sb_level. destruct (b_top_spec f Hf) as [[E H]|(H1 & H2 & H3 & H4 & H5)].
    - rewrite E. cbn [Nat.eqb]. eexists. split; [done|]. right. assert (Hall : forall s t, s ∈ pw o -> t ∈ pw o -> s ∈ f <-> t ∈ f).
      { intros s t Hs Ht. apply agree; [done|done|]. intros x Hx Hd. by rewrite (H x Hx) in Hd. }
      destruct (bool_decide (f = b_const o true)) eqn:Eb; [apply bool_decide_eq_true in Eb|apply bool_decide_eq_false in Eb].
      + split; [by right|]. split; [done|]. intros s Hs. rewrite Eb. done.
      + split; [by left|]. split; [done|]. intros s Hs. split; [done|]. intros Hsf. destruct Eb. apply set_eq. intros t. cbn. split; [apply Hf|]. intros Ht. by apply (Hall s t).
    - rewrite (proj2 (Nat.eqb_neq _ _) H2). pose proof (Hr _ H1 H3). destruct (Z.leb_spec 1 (lev (b_top o f) - off)); [|lia].
      eexists. split; [done|]. left. split_and!; try done; lia.
  Qed.
  Lemma sb_child_ok f l (take : bool) : func f -> 1 <= l -> b_top o f ∈ o -> lev (b_top o f) = l + off -> 1 <= l + off -> dep_range off (l + off) f ->
    exists c, let f1 := b_at take (b_top o f) f in func f1 /\ dep_range off (l - 1 + off) f1 /\
      sb_child o off f l take = Some (c, f1) /\ sb_level o off f1 = Some (c, f1).
  Proof.
    intros Hf Hl Hx E Hlo Hr. unfold sb_child.
    assert (var_of_lev o (l + off) = Some (b_top o f)) as -> by (apply vol_lev; done). cbn [mbind option_bind]. cbv zeta.
    change (if take then b_at1 o (b_top o f) f else b_at0 o (b_top o f) f) with (b_at take (b_top o f) f). set (f1 := b_at take (b_top o f) f).
    assert (func f1) as Hf1 by apply at_func.
    assert (dep_range off (l - 1 + off) f1) as Hr1.
    { intros y Hy Hd. destruct (at_dep take _ f y Hx Hy Hd) as [Hne Hd']. pose proof (Hr y Hy Hd'). assert (lev y <> lev (b_top o f)); [|lia].
      intros E'. by apply Hne, (lev_inj o Ho). }
    destruct (sb_level_ok f1 _ Hf1 Hr1) as (c & E1 & Hc). exists c. split; [done|]. split; [done|]. split; [|done].
    destruct (Nat.eqb_spec (b_top o f1) 0) as [E0|E0]; cbn [orb]; [done|].
    destruct (b_top_spec f1 Hf1) as [[? _]|(H1 & H2 & H3 & _)]; [done|]. pose proof (Hr1 _ H1 H3). destruct (Z.ltb_spec (lev (b_top o f1) - off) l); [done|lia].
  Qed.

  Context (id : fam -> N).
  Lemma sb_eval l : forall f0 f c v (s : gset nat), vec_ok 2 v -> func f -> dep_range off (Z.of_nat l + off) f -> sb_level o off f = Some (c, f) -> s ∈ pw o ->
    (forall k x, (1 <= k <= l)%nat -> var_of_lev o (Z.of_nat k + off) = Some x -> x ∈ s <-> v k <> 0%nat) ->
    bdd_eval (sb_spec o off id f0) l c f v = true <-> s ∈ f.
  Proof.
    induction l as [|l IH]; intros f0 f c v s Hv Hf Hr Hlv Hs Hag; destruct (sb_level_ok f _ Hf Hr) as (c1 & E1 & Hc); rewrite E1 in Hlv; injection Hlv as ->.
    - cbn [bdd_eval]. destruct Hc as [(? & ? & _ & _ & ?)|(H1 & H2 & H3)]; [lia|]. rewrite <- (H3 s Hs), Z.ltb_lt. lia.
    - cbn [bdd_eval]. destruct (Z.eqb_spec c (Z.of_nat (S l))) as [->|Hne].
      + destruct Hc as [(H1 & H2 & Hx & H4 & H5)|([?|?] & _)]; [|lia|lia]. pose proof (lev_in o Ho _ Hx).
        destruct (sb_child_ok f (Z.of_nat (S l)) (negb (v (S l) =? 0)%nat) Hf ltac:(lia) Hx ltac:(lia) ltac:(lia) Hr) as (c & Hf1 & Hr1 & E2 & E3).
        cbn [sb_spec get_child]. rewrite E2. cbn [from_option]. unfold Datatypes.id. cbn [fst snd].
        rewrite (IH f0 _ c v s Hv Hf1); [|by replace (Z.of_nat l + off) with (Z.of_nat (S l) - 1 + off) by lia|done|done|intros k x Hk; apply Hag; lia].
        apply at_in; [done|]. rewrite (Hag (S l) (b_top o f)); [|lia|apply vol_lev; [done|]; split_and!; [lia|done|lia]].
        destruct (Nat.eqb_spec (v (S l)) 0); cbn [negb]; naive_solver.
      + apply IH; try done; [|intros k x Hk; apply Hag; lia]. intros x Hx Hd. pose proof (Hr x Hx Hd).
        destruct Hc as [(_ & H2 & _ & H4 & H5)|(_ & H2 & _)]; [pose proof (H4 x Hx Hd); lia|]. by rewrite (H2 x Hx) in Hd.
  Qed.
  Lemma sb_reach f0 hi l f : func f0 -> dep_range off hi f0 -> reach (sb_spec o off id f0) l f ->
    func f /\ 1 <= l /\ b_top o f ∈ o /\ lev (b_top o f) = l + off /\ dep_range off (l + off) f.
  Proof.
    intros Hf0 Hr0 Hr. induction Hr as [Hp|l f b Hr (Hf & Hl & Hx & Ht & Hd) Hb Hp].
    - cbn [sb_spec get_root] in *. unfold sb_root in *. destruct (sb_level_ok f0 hi Hf0 Hr0) as (c & E & Hc). rewrite E in *. cbn [from_option] in *. unfold Datatypes.id in *. cbn [fst snd] in *.
      destruct Hc as [(H1 & H2 & H3 & H4 & H5)|([?|?] & _)]; [|lia|lia]. split_and!; [done|lia|done|lia|]. intros x Hx Hd. pose proof (H4 x Hx Hd). pose proof (Hr0 x Hx Hd). lia.
    - cbn [sb_spec get_child] in *. pose proof (lev_in o Ho _ Hx).
      destruct (sb_child_ok f l (negb (b =? 0)%nat) Hf Hl Hx Ht ltac:(lia) Hd) as (c & Hf1 & Hr1 & E2 & E3).
      rewrite E2 in *. cbn [from_option] in *. unfold Datatypes.id in *. cbn [fst snd] in *.
      destruct (sb_level_ok _ _ Hf1 Hr1) as (c' & E & Hc). rewrite E3 in E. injection E as <-.
      destruct Hc as [(H1 & H2 & H3 & H4 & H5)|([?|?] & _)]; [|lia|lia]. split_and!; [done|lia|done|lia|]. intros x Hx' Hd'. pose proof (H4 x Hx' Hd'). pose proof (Hr1 x Hx' Hd'). lia.
  Qed.
  (** a function that depends on a variable up to the offset: some call throws *)
  Lemma at_dep_back x f y : x ∈ o -> y ∈ o -> y <> x -> b_depends o f y = true -> exists take, b_depends o (b_at take x f) y = true.
  Proof.
    intros Hx Hy Hne Hd. destruct (b_depends o (b_at true x f) y) eqn:E1; [by exists true|]. destruct (b_depends o (b_at false x f) y) eqn:E0; [by exists false|]. exfalso.
    assert (b_depends o f y = false); [|congruence]. rewrite dep_false in E1, E0. apply dep_false. intros s Hs. pose proof (pw_add y s Hy Hs) as P1. pose proof (pw_sub y s Hs) as P2.
    destruct (decide (x ∈ s)) as [Hxs|Hxs].
    - rewrite <- (at_in true x f (s ∖ {[y]}) P2), <- (at_in true x f ({[y]} ∪ s) P1); [by apply E1|set_solver|set_solver].
    - rewrite <- (at_in false x f (s ∖ {[y]}) P2), <- (at_in false x f ({[y]} ∪ s) P1); [by apply E0|set_solver|set_solver].
  Qed.
  Lemma sb_throws_from f0 x : x ∈ o -> lev x <= off -> forall k l f, (Z.to_nat l <= k)%nat -> reach (sb_spec o off id f0) l f -> func f -> 1 <= l -> b_top o f ∈ o -> lev (b_top o f) = l + off ->
    (forall y, y ∈ o -> b_depends o f y = true -> lev y <= l + off) -> b_depends o f x = true ->
    exists l' f' b, reach (sb_spec o off id f0) l' f' /\ sb_child o off f' l' b = None.
  Proof.
    intros Hx Hlx. induction k as [|k IH]; intros l f Hk Hre Hf Hl Ht E Hm Hd; [lia|]. pose proof (lev_in o Ho x Hx).
    destruct (at_dep_back (b_top o f) f x Ht Hx) as [take Hd1]; [intros ->; lia|done|]. set (f1 := b_at take (b_top o f) f) in *.
    destruct (sb_child o off f l take) as [[c f']|] eqn:Ec; [|by exists l, f, take]. pose proof Ec as Ec0.
    unfold sb_child in Ec. assert (var_of_lev o (l + off) = Some (b_top o f)) as Ev by (apply vol_lev; [done|]; split; [lia|]; split; done). rewrite Ev in Ec. cbn [mbind option_bind] in Ec. cbv zeta in Ec.
    change (if take then b_at1 o (b_top o f) f else b_at0 o (b_top o f) f) with f1 in Ec. assert (func f1) as Hf1 by apply at_func.
    destruct (b_top_spec f1 Hf1) as [[_ H0]|(T1 & T2 & T3 & T4 & T5)]; [by rewrite (H0 x Hx) in Hd1|].
    assert (lev (b_top o f1) < l + off) as Hlt.
    { destruct (at_dep take _ f _ Ht T1 T3) as [Hne Hd']. pose proof (Hm _ T1 Hd'). assert (lev (b_top o f1) <> lev (b_top o f)); [|lia]. intros E'. by apply Hne, (lev_inj o Ho). }
    rewrite (proj2 (Nat.eqb_neq _ _) T2), (proj2 (Z.ltb_lt _ _)) in Ec by lia. cbn [orb] in Ec. unfold sb_level in Ec. rewrite (proj2 (Nat.eqb_neq _ _) T2) in Ec.
    destruct (Z.leb_spec 1 (lev (b_top o f1) - off)) as [Hge|]; [|done]. injection Ec as <- Ef. subst f'.
    apply (IH (lev (b_top o f1) - off) f1); [lia| |done|done|done|lia| |done].
    - pose proof (reach_child (sb_spec o off id f0) l f (if take then 1 else 0)%nat Hre) as Hc. cbn [sb_spec get_child ar] in Hc.
      assert (negb ((if take then 1 else 0) =? 0)%nat = take) as Et by (by destruct take). rewrite Et, Ec0 in Hc. cbn [from_option] in Hc. unfold Datatypes.id in Hc. cbn [fst snd] in Hc. apply Hc; [destruct take; lia|lia].
    - intros y Hy Hdy. pose proof (T5 y Hy Hdy). lia.
  Qed.
  Lemma sb_throws f0 x : func f0 -> x ∈ o -> lev x <= off -> b_depends o f0 x = true ->
    sb_root o off f0 = None \/ exists l f b, reach (sb_spec o off id f0) l f /\ sb_child o off f l b = None.
  Proof.
    intros Hf Hx Hlx Hd. destruct (b_top_spec f0 Hf) as [[_ H0]|(T1 & T2 & T3 & T4 & T5)]; [by rewrite (H0 x Hx) in Hd|].
    destruct (Z.le_gt_cases (lev (b_top o f0) - off) 0) as [Hle|Hgt].
    - left. unfold sb_root, sb_level. rewrite (proj2 (Nat.eqb_neq _ _) T2), (proj2 (Z.leb_gt _ _)) by lia. done.
    - right. assert (sb_root o off f0 = Some (lev (b_top o f0) - off, f0)) as E by (unfold sb_root, sb_level; rewrite (proj2 (Nat.eqb_neq _ _) T2), (proj2 (Z.leb_le _ _)) by lia; done).
      eapply (sb_throws_from f0 x Hx Hlx _ _ f0 (le_n _)); [|done| |done| | |done].
      + pose proof (reach_root (sb_spec o off id f0)) as Hr. cbn [sb_spec get_root] in Hr. rewrite E in Hr. cbn [from_option] in Hr. unfold Datatypes.id in Hr. cbn [fst snd] in Hr. apply Hr. lia.
      + lia.
      + lia.
      + intros y Hy Hdy. pose proof (T5 y Hy Hdy). lia.
  Qed.
  Lemma sb_step f0 hi l f b : func f0 -> dep_range off hi f0 -> reach (sb_spec o off id f0) l f ->
    exists res, sb_child o off f l (negb (b =? 0)%nat) = Some res /\ -1 <= fst res < l.
  Proof.
    intros Hf0 Hr0 Hr. destruct (sb_reach f0 hi l f Hf0 Hr0 Hr) as (Hf & Hl & Hx & Ht & Hd). pose proof (lev_in o Ho _ Hx).
    destruct (sb_child_ok f l (negb (b =? 0)%nat) Hf Hl Hx Ht ltac:(lia) Hd) as (c & Hf1 & Hr1 & E2 & E3). eexists. split; [exact E2|]. cbn [fst].
    destruct (sb_level_ok _ _ Hf1 Hr1) as (c' & E & Hc). rewrite E3 in E. injection E as <-.
    destruct Hc as [(H1 & H2 & H3 & H4 & H5)|([?|?] & _)]; lia.
  Qed.
  Lemma sb_root_ok f0 hi : func f0 -> dep_range off hi f0 -> exists res, sb_root o off f0 = Some res /\ -1 <= fst res /\ fst res <= Z.max 0 (hi - off).
  Proof.
    intros Hf Hr. destruct (sb_level_ok f0 hi Hf Hr) as (c & E & Hc). eexists. split; [exact E|]. cbn [fst].
    destruct Hc as [(H1 & H2 & H3 & H4 & H5)|([?|?] & _)]; lia.
  Qed.
  Lemma sb_contract f0 hi : func f0 -> dep_range off hi f0 -> let sp := sb_spec o off id f0 in spec_ok sp /\ spec_congr sp /\ one_code sp.
  Proof.
    intros Hf Hr sp. apply value_contract.
    - done.
    - intros l s s'. cbn. apply bool_decide_eq_true.
    - destruct (sb_root_ok f0 hi Hf Hr) as (res & E & H & _). cbn [sp sb_spec get_root]. by rewrite E.
    - intros l s b Hre Hb. destruct (sb_step f0 hi l s b Hf Hr Hre) as (res & E & H). cbn [sp sb_spec get_child]. by rewrite E.
  Qed.
  Lemma sb_sem f0 n v (s : gset nat) : vec_ok 2 v -> func f0 -> dep_range off (Z.of_nat n + off) f0 -> s ∈ pw o -> agrees_with o off n v s ->
    bdd_sem (sb_spec o off id f0) n v = true <-> s ∈ f0.
  Proof.
    intros Hv Hf Hr Hs Hst. unfold bdd_sem. cbn [sb_spec get_root]. unfold sb_root. destruct (sb_level_ok f0 _ Hf Hr) as (c & E & _). rewrite E.
    cbn [from_option]. unfold Datatypes.id. cbn [fst snd]. apply sb_eval; try done. intros k x Hk Hx. rewrite <- (Hst k x Hk) by (by apply at_level_vol).
    pose proof (Hv k). lia.
  Qed.
End bdd.
