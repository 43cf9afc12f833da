(** The specifications SapporoZdd and SapporoBdd. *)
From stdpp Require Import gmap sets.
From Verif Require Import Base Sem M_Table M_Eval S_Bridge M_Bridge P_Bridge P_Bridge2.
Local Open Scope Z_scope.

(** a specification whose states are compared with == and whose child function does not fail on reachable states *)
Section value_spec.
  Context (sp : spec) (Ha : ar sp = 2%nat) (Heq : forall l s s', equal_to sp l s s' = true <-> s = s').
  Context (Hroot : -1 <= fst (get_root sp)).
  Context (Hstep : forall l s b, reach sp l s -> (b < 2)%nat -> -1 <= fst (get_child sp s l b) < l).
  Lemma value_contract : spec_ok sp /\ spec_congr sp /\ one_code sp.
  Proof.
    split_and!.
    - constructor; [rewrite Ha; lia| |].
      + intros l s b Hr Hb. rewrite Ha in Hb. by apply Hstep.
      + intros l s s' _ _ H. apply Heq in H. subst. by intros bs _.
    - constructor.
      + intros. by apply Heq.
      + intros l s s' _ _. apply eq_true_iff_eq. rewrite !Heq. split; congruence.
      + intros l s s' s'' _ _ _ E1 E2. apply Heq in E1, E2. apply Heq. congruence.
      + intros l s s' b _ _ _ H. apply Heq in H. subst. split; [done|]. intros _. by apply Heq.
    - split; [done|]. intros l s b Hr Hb. rewrite Ha in Hb. by apply Hstep.
  Qed.
End value_spec.

(** ** SapporoZdd *)
Section zdd.
  Context (o : order) (Ho : order_ok o) (off : Z) (Hoff : 0 <= off).
  Notation lev := (lev_of_var o).
  (** the sets are over the variables in use, and those at the levels up to the offset are in their natural places *)
  Definition within (f : fam) : Prop := forall s, s ∈ f -> forall x, x ∈ s -> x ∈ o /\ (lev x <= off -> lev x = Z.of_nat x).
  Definition below (b : Z) (f : fam) : Prop := forall s, s ∈ f -> forall x, x ∈ s -> lev x <= b.

  Lemma occurs_true f x : z_occurs f x = true <-> exists s, s ∈ f /\ x ∈ s.
  Proof.
    unfold z_occurs. rewrite bool_decide_eq_true. split.
    - intros H. apply set_choose_L in H as [s H]. apply elem_of_filter in H as [H1 H2]. by exists s.
    - intros (s & H1 & H2) E. assert (s ∈ (∅ : fam)); [|set_solver]. rewrite <- E. by apply elem_of_filter.
  Qed.
  Lemma occurs_false f x : z_occurs f x = false <-> forall s, s ∈ f -> x ∉ s.
  Proof.
    rewrite <- not_true_iff_false, occurs_true. naive_solver.
  Qed.
  Lemma z_top_spec f : within f ->
    (lev (z_top o f) = 0 /\ forall s, s ∈ f -> s = ∅) \/
    (z_top o f ∈ o /\ 1 <= lev (z_top o f) <= Z.of_nat (length o) /\ (exists s, s ∈ f /\ z_top o f ∈ s) /\ below (lev (z_top o f)) f).
  Proof.
    intros Hw. destruct (top_spec o Ho (z_occurs f)) as [(E & El & H)|(H1 & H2 & H3 & H4)]; fold (z_top o f) in *.
    - left. split; [done|]. intros s Hs. apply elem_of_equiv_empty_L. intros x Hx. pose proof (H x (proj1 (Hw s Hs x Hx))) as Hf. rewrite occurs_false in Hf. by apply (Hf s).
    - right. split; [done|]. split; [done|]. split; [by apply occurs_true|]. intros s Hs x Hx. destruct (Z.le_gt_cases (lev x) (lev (z_top o f))) as [|Hgt]; [done|].
      pose proof (H4 x (proj1 (Hw s Hs x Hx)) Hgt) as Hf. rewrite occurs_false in Hf. by destruct (Hf s).
  Qed.
  Lemma z_top_le f b : within f -> 0 <= b -> below b f -> lev (z_top o f) <= b.
  Proof. intros Hw Hb H. destruct (z_top_spec f Hw) as [[-> _]|(_ & _ & (s & Hs & Hx) & _)]; [done|]. by apply (H s). Qed.
  Lemma z_top_below f : within f -> below (lev (z_top o f)) f.
  Proof. intros Hw. destruct (z_top_spec f Hw) as [[_ H]|(_ & _ & _ & H)]; [|done]. intros s Hs x Hx. rewrite (H s Hs) in Hx. set_solver. Qed.

  Lemma offset_within x f : within f -> within (z_offset x f).
  Proof. intros H s Hs. apply elem_of_filter in Hs as [_ Hs]. by apply H. Qed.
  Lemma onset_within x f : within f -> within (z_onset0 x f).
  Proof. intros H s Hs y Hy. apply elem_of_map in Hs as (t & -> & Ht). apply elem_of_filter in Ht as [_ Ht]. apply (H t Ht). set_solver. Qed.
  Lemma less_below b x f : within f -> x ∈ o -> lev x = b -> below b f -> (forall s, s ∈ f -> x ∉ s) -> below (b - 1) f.
  Proof.
    intros Hw Hx Hl H Hn s Hs y Hy. pose proof (H s Hs y Hy). assert (lev y <> b); [|lia]. intros E. apply (Hn s Hs).
    by rewrite <- (lev_inj o Ho y x (proj1 (Hw s Hs y Hy)) Hx) by congruence.
  Qed.
  Lemma offset_below b x f : within f -> x ∈ o -> lev x = b -> below b f -> below (b - 1) (z_offset x f).
  Proof.
    intros Hw Hx Hl H. apply (less_below b x); try done; [by apply offset_within| |]; intros s Hs; apply elem_of_filter in Hs as [Hs1 Hs2]; [|done]. by apply H.
  Qed.
  Lemma onset_below b x f : within f -> x ∈ o -> lev x = b -> below b f -> below (b - 1) (z_onset0 x f).
  Proof.
    intros Hw Hx Hl H. apply (less_below b x); try done; [by apply onset_within| |]; intros s Hs.
    - intros y Hy. apply elem_of_map in Hs as (t & -> & Ht). apply elem_of_filter in Ht as [_ Ht]. apply (H t Ht). set_solver.
    - apply elem_of_map in Hs as (t & -> & Ht). set_solver.
  Qed.

  Lemma strip_ok fuel : forall f, within f -> lev (z_top o f) <= off -> lev (z_top o f) < Z.of_nat fuel ->
    exists f', sz_strip o fuel f = Some f' /\ (f' = z_const true <-> ∅ ∈ f).
  Proof.
    induction fuel as [|fuel IH]; intros f Hw Ht Hf.
    { destruct (z_top_spec f Hw) as [[E _]|(_ & E & _)]; lia. }
    cbn [sz_strip]. destruct (Z.leb_spec 1 (lev (z_top o f))) as [H1|H1].
    - destruct (z_top_spec f Hw) as [[E _]|(Hx & _ & Hocc & Hbel)]; [lia|]. destruct Hocc as (t & Ht1 & Ht2). rewrite <- (proj2 (Hw t Ht1 _ Ht2) Ht).
      assert (var_of_lev o (lev (z_top o f)) = Some (z_top o f)) as -> by (apply vol_lev; done). cbn [mbind option_bind].
      set (x := z_top o f) in *.
      pose proof (z_top_le (z_offset x f) (lev x - 1) (offset_within x f Hw) ltac:(lia) (offset_below (lev x) x f Hw Hx eq_refl Hbel)) as Hlt.
      destruct (IH (z_offset x f)) as (f' & -> & E); [by apply offset_within|lia|lia|]. exists f'. split; [done|]. rewrite E.
      unfold z_offset. rewrite elem_of_filter. set_solver.
    - exists f. split; [done|]. destruct (z_top_spec f Hw) as [[E H]|(_ & E & _)]; [|lia]. cbn. split.
      + intros ->. set_solver.
      + intros H'. apply set_eq. intros s. rewrite elem_of_singleton. split; [apply H|by intros ->].
  Qed.

  Lemma sz_level_ok f : within f -> exists c f', sz_level o off f = Some (c, f') /\
    ((1 <= c /\ f' = f /\ c = lev (z_top o f) - off) \/ (lev (z_top o f) <= off /\ (c = 0 \/ c = -1) /\ (c = -1 <-> ∅ ∈ f))).
  Proof.
    intros Hw. unfold sz_level. destruct (Z.leb_spec 1 (lev (z_top o f) - off)) as [H|H].
    - eexists _, _. split; [done|]. left. done.
    - destruct (strip_ok (S (length o)) f Hw) as (f' & -> & E); [lia| |].
      { destruct (z_top_spec f Hw) as [[E _]|(_ & E & _)]; lia. }
      cbn [mbind option_bind]. eexists _, _. split; [done|]. right. split; [lia|].
      destruct (bool_decide (f' = z_const true)) eqn:Eb; [apply bool_decide_eq_true in Eb|apply bool_decide_eq_false in Eb].
      + split; [by right|]. rewrite <- E. done.
      + split; [by left|]. rewrite <- E. done.
  Qed.

  (** a step from a state whose top variable is at the level of the node *)
  Lemma sz_child_ok f l (take : bool) : within f -> 1 <= l -> lev (z_top o f) = l + off ->
    exists f1 c f', f1 = (if take then z_onset0 (z_top o f) f else z_offset (z_top o f) f) /\ within f1 /\ below (l - 1 + off) f1 /\
      sz_child o off f l take = Some (c, f') /\ sz_level o off f1 = Some (c, f').
  Proof.
    intros Hw Hl E. destruct (z_top_spec f Hw) as [[E' _]|(Hx & _ & Hocc & Hbel)]; [lia|]. unfold sz_child.
    assert (var_of_lev o (l + off) = Some (z_top o f)) as -> by (apply vol_lev; [done|]; split; [lia|done]). cbn [mbind option_bind]. cbv zeta.
    set (f1 := if take then z_onset0 (z_top o f) f else z_offset (z_top o f) f). assert (within f1) as Hw1 by (unfold f1; destruct take; [by apply onset_within|by apply offset_within]).
    assert (below (l - 1 + off) f1) as Hb1.
    { replace (l - 1 + off) with (lev (z_top o f) - 1) by lia. unfold f1. destruct take; [by apply onset_below|by apply offset_below]. }
    pose proof (z_top_le f1 (l - 1 + off) Hw1 ltac:(lia) Hb1) as Ht1. destruct (Z.ltb_spec (lev (z_top o f1) - off) l); [|lia].
    destruct (sz_level_ok f1 Hw1) as (c & f' & E1 & _). exists f1, c, f'. done.
  Qed.

  Context (id : fam -> N).
  Lemma sz_eval l : forall f0 f c f' v, vec_ok 2 v -> within f -> below (Z.of_nat l + off) f -> sz_level o off f = Some (c, f') ->
    zdd_eval (sz_spec o off id f0) l c f' v = true <-> exists s, s ∈ f /\ covered o off l s /\ forall k, (1 <= k <= l)%nat -> v k = assign o off s k.
  Proof.
    induction l as [|l IH]; intros f0 f c f' v Hv Hw Hb Hlv; destruct (sz_level_ok f Hw) as (c1 & f1 & E1 & Hc); rewrite E1 in Hlv; injection Hlv as -> ->.
    - cbn [zdd_eval]. pose proof (z_top_le f (Z.of_nat 0 + off) Hw ltac:(lia) Hb) as Ht. destruct Hc as [(Hc & _ & ->)|(_ & Hc & Hiff)]; [lia|]. rewrite Z.ltb_lt. split.
      + intros H. exists ∅. split; [apply Hiff; lia|]. split; [intros x Hx; set_solver|]. intros k Hk. lia.
      + intros (s & Hs & Hcov & _). assert (s = ∅) as ->. { apply elem_of_equiv_empty_L. intros x Hx. destruct (Hcov x Hx) as (k & Hk & _). lia. }
        apply Hiff in Hs. lia.
    - cbn [zdd_eval]. pose proof (z_top_le f (Z.of_nat (S l) + off) Hw ltac:(lia) Hb) as Ht. destruct (Z.eqb_spec c (Z.of_nat (S l))) as [->|Hne].
      + destruct Hc as [(_ & -> & Hc)|(_ & [?|?] & _)]; [|lia|lia].
        destruct (sz_child_ok f (Z.of_nat (S l)) (negb (v (S l) =? 0)%nat) Hw ltac:(lia) ltac:(lia)) as (f1 & c & f' & Ef1 & Hw1 & Hb1 & E2 & E3).
        cbn [sz_spec get_child]. rewrite E2. cbn [from_option]. unfold Datatypes.id.
        cbn [fst snd]. rewrite (IH f0 f1 c f' v Hv Hw1) by (try done; replace (Z.of_nat l + off) with (Z.of_nat (S l) - 1 + off) by lia; done).
        destruct (z_top_spec f Hw) as [[E' _]|(Hx & _ & _ & _)]; [lia|]. set (x := z_top o f) in *.
        assert (var_of_lev o (Z.of_nat (S l) + off) = Some x) as Hvx by (apply vol_lev; [done|]; split; [lia|]; split; [done|lia]).
        pose proof (Hv (S l)) as Hv2. destruct (Nat.eqb_spec (v (S l)) 0) as [E0|E0]; cbn [negb] in Ef1; subst f1.
        * split.
          -- intros (s & Hs & Hcov & Hag). apply elem_of_filter in Hs as [Hns Hs]. exists s. split; [done|]. split; [by apply covered_S_not|].
             intros k Hk. destruct (decide (k = S l)) as [->|]; [|apply Hag; lia]. rewrite E0. unfold assign. rewrite Hvx. by destruct (decide (x ∈ s)).
          -- intros (s & Hs & Hcov & Hag). assert (assign o off s (S l) = 0%nat) as Ea by (rewrite <- (Hag (S l)) by lia; done).
             exists s. split; [|split; [by apply covered_S_zero|intros k Hk; apply Hag; lia]]. apply elem_of_filter. split; [|done].
             unfold assign in Ea. rewrite Hvx in Ea. by destruct (decide (x ∈ s)).
        * split.
          -- intros (s & Hs & Hcov & Hag). apply elem_of_map in Hs as (t & -> & Ht'). apply elem_of_filter in Ht' as [Hxt Ht'].
             exists t. split; [done|]. split; [by apply (covered_S o off l t x Ho Hvx)|]. intros k Hk. destruct (decide (k = S l)) as [->|].
             ++ unfold assign. rewrite Hvx. destruct (decide (x ∈ t)); [lia|done].
             ++ rewrite Hag by lia. apply (assign_eq o off l t x k Ho Hvx). lia.
          -- intros (s & Hs & Hcov & Hag). pose proof (Hag (S l) ltac:(lia)) as Ea. unfold assign in Ea. rewrite Hvx in Ea. destruct (decide (x ∈ s)) as [Hxs|]; [|done].
             exists (s ∖ {[x]}). split; [apply elem_of_map; exists s; split; [done|by apply elem_of_filter]|]. split; [by apply (covered_S o off l s x Ho Hvx)|].
             intros k Hk. rewrite Hag by lia. symmetry. apply (assign_eq o off l s x k Ho Hvx). lia.
      + assert (lev (z_top o f) <= Z.of_nat l + off) as Ht2 by (destruct Hc as [(_ & _ & Hc)|(? & _)]; lia).
        assert (below (Z.of_nat l + off) f) as Hb2. { intros s Hs y Hy. pose proof (z_top_below f Hw s Hs y Hy). lia. }
        assert (Hno : forall s, s ∈ f -> assign o off s (S l) = 0%nat).
        { intros s Hs. unfold assign. destruct (var_of_lev o (Z.of_nat (S l) + off)) as [y|] eqn:Ey; [|done]. destruct (decide (y ∈ s)) as [Hy|]; [|done].
          pose proof (Hb2 s Hs y Hy). apply (vol_lev o Ho) in Ey. lia. }
        destruct (Nat.eqb_spec (v (S l)) 0) as [E0|E0].
        * rewrite (IH f0 f c f' v Hv Hw Hb2 E1). split; intros (s & Hs & Hcov & Hag); exists s; (split; [done|]).
          -- split; [by apply covered_S_not|]. intros k Hk. destruct (decide (k = S l)) as [->|]; [rewrite (Hno s Hs); done|apply Hag; lia].
          -- split; [apply covered_S_zero; [by apply Hno|done]|]. intros k Hk. apply Hag. lia.
        * split; [done|]. intros (s & Hs & Hcov & Hag). rewrite (Hag (S l)) in E0 by lia. by rewrite (Hno s Hs) in E0.
  Qed.

  Lemma sz_reach f0 l f : within f0 -> reach (sz_spec o off id f0) l f -> within f /\ 1 <= l /\ lev (z_top o f) = l + off.
  Proof.
    intros Hw0 Hr. induction Hr as [Hp|l f b Hr (Hw & Hl & Ht) Hb Hp].
    - cbn [sz_spec get_root] in *. unfold sz_root in *. destruct (sz_level_ok f0 Hw0) as (c & f' & E & Hc). rewrite E in *. cbn [from_option fst snd] in *. unfold Datatypes.id in *. cbn [fst snd] in *.
      destruct Hc as [(H1 & -> & H2)|(_ & [?|?] & _)]; [|lia|lia]. split_and!; [done|lia|lia].
    - cbn [sz_spec get_child] in *. destruct (sz_child_ok f l (negb (b =? 0)%nat) Hw Hl Ht) as (f1 & c & f' & _ & Hw1 & _ & E2 & E3).
      rewrite E2 in *. cbn [from_option fst snd] in *. unfold Datatypes.id in *. cbn [fst snd] in *.
      destruct (sz_level_ok f1 Hw1) as (c' & f'' & E & Hc). rewrite E3 in E. injection E as <- <-.
      destruct Hc as [(H1 & -> & H2)|(_ & [?|?] & _)]; [|lia|lia]. split_and!; [done|lia|lia].
  Qed.
  Lemma sz_step f0 l f b : within f0 -> reach (sz_spec o off id f0) l f ->
    exists res, sz_child o off f l (negb (b =? 0)%nat) = Some res /\ -1 <= fst res < l.
  Proof.
    intros Hw0 Hr. destruct (sz_reach f0 l f Hw0 Hr) as (Hw & Hl & Ht).
    destruct (sz_child_ok f l (negb (b =? 0)%nat) Hw Hl Ht) as (f1 & c & f' & _ & Hw1 & Hb1 & E2 & E3). exists (c, f'). split; [done|]. cbn [fst].
    destruct (sz_level_ok f1 Hw1) as (c' & f'' & E & Hc). rewrite E3 in E. injection E as <- <-.
    pose proof (z_top_le f1 (l - 1 + off) Hw1 ltac:(lia) Hb1). destruct Hc as [(H1 & _ & H2)|(_ & [?|?] & _)]; lia.
  Qed.
  Lemma sz_root_ok f0 : within f0 -> exists res, sz_root o off f0 = Some res /\ -1 <= fst res /\ fst res <= Z.max 0 (Z.of_nat (length o) - off).
  Proof.
    intros Hw. destruct (sz_level_ok f0 Hw) as (c & f' & E & Hc). exists (c, f'). split; [done|]. cbn [fst].
    destruct (z_top_spec f0 Hw) as [[E' _]|(_ & E' & _)]; destruct Hc as [(H1 & _ & H2)|(_ & [?|?] & _)]; lia.
  Qed.
  Lemma sz_contract f0 : within f0 -> let sp := sz_spec o off id f0 in spec_ok sp /\ spec_congr sp /\ one_code sp.
  Proof.
    intros Hw sp. apply value_contract.
    - done.
    - intros l s s'. cbn. apply bool_decide_eq_true.
    - destruct (sz_root_ok f0 Hw) as (res & E & H & _). cbn [sp sz_spec get_root]. by rewrite E.
    - intros l s b Hr Hb. destruct (sz_step f0 l s b Hw Hr) as (res & E & H). cbn [sp sz_spec get_child]. by rewrite E.
  Qed.
  Lemma sz_sem f0 n v : vec_ok 2 v -> within f0 -> Z.of_nat (length o) <= Z.of_nat n + off ->
    zdd_sem (sz_spec o off id f0) n v = true <-> exists s, s ∈ f0 /\ covered o off n s /\ stands_for o off n v s.
  Proof.
    intros Hv Hw Hn. unfold zdd_sem. cbn [sz_spec get_root]. unfold sz_root. destruct (sz_level_ok f0 Hw) as (c & f' & E & _). rewrite E.
    cbn [from_option]. unfold Datatypes.id. cbn [fst snd].
    assert (below (Z.of_nat n + off) f0) as Hb. { intros s Hs x Hx. pose proof (lev_in o Ho x (proj1 (Hw s Hs x Hx))). lia. }
    rewrite (sz_eval n f0 f0 c f' v Hv Hw Hb E). split; intros (s & H1 & H2 & H3); exists s; (split; [done|]); (split; [done|]); by apply stands_assign.
  Qed.
End zdd.
