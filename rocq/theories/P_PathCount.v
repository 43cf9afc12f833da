(** Path counting: the sum over all pending nodes of number * (paths from the node) is kept. *)
From Verif Require Import Base Sem M_Hash P_Hash M_Big S_Big P_Big M_PathCount S_Path.
Local Open Scope N_scope.

Fixpoint sumN {A} (f : A -> N) (l : list A) : N := match l with [] => 0 | x :: l' => f x + sumN f l' end.
Lemma sumN_app {A} (f : A -> N) l l' : sumN f (l ++ l') = sumN f l + sumN f l'.
Proof. induction l as [|x l IH]; cbn [sumN app]; [done|]. rewrite IH. lia. Qed.
Lemma sumN_reverse {A} (f : A -> N) l : sumN f (reverse l) = sumN f l.
Proof. induction l as [|x l IH]; [done|]. rewrite reverse_cons, sumN_app, IH. cbn [sumN]. lia. Qed.
Lemma sumN_ext {A} (f g : A -> N) l : (forall x, x ∈ l -> f x = g x) -> sumN f l = sumN g l.
Proof. induction l as [|x l IH]; intros H; [done|]. cbn [sumN]. rewrite (H x) by left. rewrite IH; [done|]. intros y Hy. apply H. by right. Qed.
Lemma sumN_mul {A} (f : A -> N) c l : sumN (fun x => c * f x) l = c * sumN f l.
Proof. induction l as [|x l IH]; cbn [sumN]; [lia|]. rewrite IH. lia. Qed.
Lemma sumN_upd (f g : nat -> N) l j : NoDup l -> j ∈ l -> (forall k, k ∈ l -> k <> j -> f k = g k) -> sumN f l + g j = sumN g l + f j.
Proof.
  induction 1 as [|x l Hx Hn IH]; intros Hj Hfg; [by apply elem_of_nil in Hj|]. cbn [sumN].
  destruct (decide (x = j)) as [->|Hne].
  - rewrite (sumN_ext f g l); [lia|]. intros k Hk. apply Hfg; [by right|]. by intros ->.
  - assert (j ∈ l) as Hj' by (apply elem_of_cons in Hj as [->|?]; done). rewrite (Hfg x) by (done || left).
    specialize (IH Hj' ltac:(intros k Hk; apply Hfg; by right)). lia.
Qed.
Lemma sumN_insert {A} (f : A -> N) l k x y : l !! k = Some x -> sumN f (<[k := y]> l) + f x = sumN f l + f y.
Proof.
  revert k. induction l as [|z l IH]; intros [|k] H; try done; cbn [sumN insert list_insert].
  - injection H as ->. lia.
  - cbn in H. specialize (IH k H). unfold insert in IH. unfold insert. lia.
Qed.

(** ** the accepting paths of a state *)
Fixpoint apaths (sp : spec) (fuel : nat) (l : Z) (s : St sp) : list (list (Z * nat)) :=
  match fuel with
  | O => if (l <? 0)%Z then [[]] else []
  | S f => if (l <? 0)%Z then [[]] else if (l =? 0)%Z then []
           else flat_map (fun b => let r := get_child sp s l b in map (cons (l, b)) (apaths sp f (fst r) (snd r))) (seq 0 (ar sp))
  end.
Section paths.
Context (sp : spec) (Hok : spec_ok sp).
Lemma apaths_ok fuel l s : (0 < l -> reach sp l s)%Z -> (l <= Z.of_nat fuel)%Z -> forall p, p ∈ apaths sp fuel l s <-> accepting sp l s p.
Proof.
  revert l s. induction fuel as [|fuel IH]; intros l s Hr Hl p; cbn [apaths].
  - destruct (Z.ltb_spec l 0).
    + rewrite elem_of_list_singleton. split; [intros ->; by constructor|]. intros H'. inversion H'; [done|lia].
    + split; [intros Hp; by apply elem_of_nil in Hp|]. intros H'. inversion H'; lia.
  - destruct (Z.ltb_spec l 0).
    + rewrite elem_of_list_singleton. split; [intros ->; by constructor|]. intros H'. inversion H'; [done|lia].
    + destruct (Z.eqb_spec l 0) as [->|Hn].
      * split; [intros Hp; by apply elem_of_nil in Hp|]. intros H'. inversion H'; lia.
      * specialize (Hr ltac:(lia)). rewrite elem_of_list_In, in_flat_map. split.
        -- intros (b & Hb & Hp). apply in_seq in Hb. apply in_map_iff in Hp as (q & <- & Hq). apply elem_of_list_In in Hq.
           pose proof (ok_level _ Hok l s b Hr ltac:(lia)) as Hlev. apply IH in Hq; [|intros; constructor; [done|lia|done]|cbn in *; lia].
           constructor; [lia|lia|done].
        -- intros H'. inversion H' as [|l' s' b q Hp Hb Hq]; subst; [lia|]. exists b. split; [apply in_seq; lia|].
           apply in_map_iff. exists q. split; [done|]. apply elem_of_list_In. apply IH; [intros; by constructor| |done].
           pose proof (ok_level _ Hok l s b Hr Hb). lia.
Qed.
Lemma flat_map_nodup {A B} (f : A -> list B) l : NoDup l -> (forall x, x ∈ l -> NoDup (f x)) ->
  (forall x y z, z ∈ f x -> z ∈ f y -> x = y) -> NoDup (flat_map f l).
Proof.
  induction 1 as [|x l Hx Hl IH]; intros Hf Hd; cbn [flat_map]; [constructor|]. apply NoDup_app. split_and!.
  - apply Hf. left.
  - intros z Hz Hz'. apply elem_of_list_In, in_flat_map in Hz' as (y & Hy & Hz'). apply elem_of_list_In in Hy, Hz'.
    by rewrite (Hd _ _ _ Hz Hz') in Hx.
  - apply IH; [|done]. intros y Hy. apply Hf. by right.
Qed.
Lemma apaths_nodup fuel l s : NoDup (apaths sp fuel l s).
Proof.
  revert l s. induction fuel as [|fuel IH]; intros l s; cbn [apaths].
  - destruct (l <? 0)%Z; [apply NoDup_singleton|constructor].
  - destruct (l <? 0)%Z; [apply NoDup_singleton|]. destruct (l =? 0)%Z; [constructor|]. apply flat_map_nodup.
    + apply NoDup_seq.
    + intros b _. apply NoDup_fmap_2; [intros ? ? [=]; done|]. apply IH.
    + intros b b' z Hz Hz'. apply elem_of_list_fmap in Hz as (? & -> & _), Hz' as (? & E & _). by injection E.
Qed.
Definition np (l : Z) (s : St sp) : N := N.of_nat (length (apaths sp (Z.to_nat l) l s)).
Lemma np_nodup_eq (P : list (list (Z * nat))) l s : (0 < l -> reach sp l s)%Z -> NoDup P -> (forall p, p ∈ P <-> accepting sp l s p) ->
  np l s = N.of_nat (length P).
Proof.
  intros Hr Hn HP. unfold np. f_equal. apply Permutation_length, NoDup_Permutation; [apply apaths_nodup|done|].
  intros p. rewrite HP. apply apaths_ok; [done|lia].
Qed.
Lemma np_zero s : np 0 s = 0. Proof. done. Qed.
Lemma np_neg l s : (l < 0)%Z -> np l s = 1.
Proof. intros H. unfold np. destruct (Z.to_nat l); cbn [apaths]; destruct (Z.ltb_spec l 0); done || lia. Qed.
Lemma apaths_fuel fuel fuel' l s : (0 < l -> reach sp l s)%Z -> (l <= Z.of_nat fuel)%Z -> (l <= Z.of_nat fuel')%Z ->
  length (apaths sp fuel l s) = length (apaths sp fuel' l s).
Proof.
  intros Hr H1 H2. apply Permutation_length, NoDup_Permutation; [apply apaths_nodup..|]. intros p. rewrite !apaths_ok by done. done.
Qed.
Lemma np_step l s : (0 < l)%Z -> reach sp l s ->
  np l s = sumN (fun b => np (fst (get_child sp s l b)) (snd (get_child sp s l b))) (seq 0 (ar sp)).
Proof.
  intros Hl Hr. unfold np at 1. destruct (Z.to_nat l) as [|f] eqn:E; [lia|]. cbn [apaths].
  destruct (Z.ltb_spec l 0); [lia|]. destruct (Z.eqb_spec l 0); [lia|].
  assert (forall b, b ∈ seq 0 (ar sp) -> (b < ar sp)%nat) as Hb by (intros b Hb; apply elem_of_seq in Hb; lia).
  revert Hb. generalize (seq 0 (ar sp)). intros bs0. induction bs0 as [|b bs IH]; intros Hb; cbn [flat_map sumN]; [done|].
  rewrite app_length, Nat2N.inj_add, IH by (intros; apply Hb; by right). f_equal. rewrite map_length. unfold np. f_equal.
  assert (b < ar sp)%nat as Hb' by (apply Hb; left).
  pose proof (ok_level _ Hok l s b Hr Hb'). apply apaths_fuel; [intros; by constructor|lia|lia].
Qed.
Lemma future_acc : forall p l s s', same_future sp l s s' -> accepting sp l s p -> accepting sp l s' p.
Proof.
  induction p as [|[l' b] p IH]; intros l s s' Hf Ha; inversion Ha as [? ? H|l1 s1 b1 p1 Hl Hb Ha' E1 E2 E3]; [by constructor|]. subst l' l1 s1 b1 p1. clear Ha.
  assert (forall bs, Forall (fun b => (b < ar sp)%nat) bs ->
    run sp (fst (get_child sp s l b)) (snd (get_child sp s l b)) bs = run sp (fst (get_child sp s' l b)) (snd (get_child sp s' l b)) bs) as Hr.
  { intros bs Hbs. specialize (Hf (b :: bs) ltac:(by constructor)). cbn [run] in Hf. destruct (Z.ltb_spec 0 l); [|lia]. by injection Hf. }
  assert (fst (get_child sp s l b) = fst (get_child sp s' l b)) as E.
  { specialize (Hr [] ltac:(constructor)). cbn in Hr. congruence. }
  constructor; [done|done|]. rewrite <- E. apply (IH _ (snd (get_child sp s l b))); [|done]. intros bs Hbs. rewrite Hr by done. by rewrite E.
Qed.
Lemma np_equal l s s' : reach sp l s -> reach sp l s' -> equal_to sp l s s' = true -> np l s = np l s'.
Proof.
  intros Hr Hr' He. unfold np. f_equal. apply Permutation_length, NoDup_Permutation; [apply apaths_nodup..|].
  assert (forall p, accepting sp l s p <-> accepting sp l s' p) as H.
  { pose proof (ok_equal _ Hok l s s' Hr Hr' He) as Hf. intros p. split; apply future_acc; [done|]. intros bs Hbs. by rewrite Hf. }
  intros p. rewrite !apaths_ok; [apply H|done|lia|done|lia].
Qed.
End paths.

Lemma init_elems {A} n (e : A) : e ∈ ht_elems (ht_init n) -> False.
Proof. unfold ht_elems, ht_init. cbn [slots]. rewrite elems_replicate. apply elem_of_nil. Qed.
Section run.
Context (sp : spec) (Hok : spec_ok sp) (Hsh : shareable sp).
Context {NT : Type} (n_copy : nat -> NT -> option NT) (n_add : NT -> NT -> option (NT * nat))
  (n_isz : NT -> option bool) (n_clear : NT -> option NT).
Context (nok : NT -> Prop) (nval : NT -> N) (eqm : N -> N -> Prop).
Context (eqm_refl : forall x, eqm x x) (eqm_sym : forall x y, eqm x y -> eqm y x)
  (eqm_trans : forall x y z, eqm x y -> eqm y z -> eqm x z)
  (eqm_add : forall x y z, eqm x y -> eqm (x + z) (y + z)) (eqm_mul : forall x y z, eqm x y -> eqm (x * z) (y * z))
  (eqm_cancel : forall x y z, eqm (x + z) (y + z) -> eqm x y).
Context (H_copy : forall cap x x', n_copy cap x = Some x' -> nok x -> nok x' /\ eqm (nval x') (nval x)).
Context (H_add : forall y x y' w, n_add y x = Some (y', w) -> nok y -> nok x -> nok y' /\ eqm (nval y') (nval y + nval x)).
Context (H_isz : forall x, n_isz x = Some true -> nok x -> eqm (nval x) 0).
Context (H_clear : forall x x', n_clear x = Some x' -> nok x -> nok x' /\ eqm (nval x') 0).

(** the weight of a state: the number of accepting paths, or (for bounds) a number depending on the level only *)
Context (wt : Z -> St sp -> N) (wt_equal : forall l s s', reach sp l s -> reach sp l s' -> equal_to sp l s s' = true -> wt l s = wt l s').
Context (wt_zero : forall s, wt 0 s = 0) (wt_neg : forall l s, (l < 0)%Z -> wt l s = 1).
Context (wt_step : forall l s, (0 < l)%Z -> reach sp l s ->
  wt l s = sumN (fun b => wt (fst (get_child sp s l b)) (snd (get_child sp s l b))) (seq 0 (ar sp))).
Definition vmass (j : nat) (v : St sp * NT) : N := nval (snd v) * wt (Z.of_nat j) (fst v).
Definition node_ok (j : nat) (v : St sp * NT) : Prop := reach sp (Z.of_nat j) (fst v) /\ nok (snd v).
Definition hj (j : nat) (e : nat * St sp) := hash_code sp (Z.of_nat j) (snd e).
Definition ej (j : nat) (e e' : nat * St sp) := equal_to sp (Z.of_nat j) (snd e) (snd e').
(** the entries of the unique table are nodes of the level *)
Definition tab_ok (j : nat) (vs : list (St sp * NT)) (u : htable (nat * St sp)) : Prop :=
  ht_good (hj j) (ej j) u /\ forall k s, (k, s) ∈ ht_elems u -> exists x, vs !! k = Some (s, x).

Lemma add_cases j vs u k s u' slot e : tab_ok j vs u ->
  pc_add sp j u (k, s) = Some (u', slot) -> ht_at u' slot = Some e ->
  ht_good (hj j) (ej j) u' /\
  ((e ∈ ht_elems u /\ equal_to sp (Z.of_nat j) (snd e) s = true /\ ht_elems u' ≡ₚ ht_elems u) \/
   (e = (k, s) /\ ht_elems u' ≡ₚ (k, s) :: ht_elems u /\ forall z, z ∈ ht_elems u -> equal_to sp (Z.of_nat j) (snd z) s = false)).
Proof.
  intros [Hg _] Ha He. destruct Hsh as [S1 S2].
  destruct (ht_add_strong (hj j) (ej j) ltac:(intros; apply S1) ltac:(intros; by apply S2) u (k, s) Hg) as (u1 & i1 & y & E & Hst & Hat & Hcase).
  unfold pc_add in Ha. unfold hj, ej in E. rewrite Ha in E. injection E as <- <-. rewrite He in Hat. injection Hat as <-.
  split; [by left|]. destruct Hcase as [(H1 & H2 & H3)|(-> & H2 & H3)]; [left|right]; done.
Qed.

(** levels 1..i-1 of the table *)
Definition lmass (lv : list (plevel sp (NT:=NT))) (j : nat) : N := match lv !! j with Some (vs, _) => sumN (vmass j) vs | None => 0 end.
Definition mass (i : nat) (lv : list (plevel sp (NT:=NT))) : N := sumN (lmass lv) (seq 0 i).
Definition levels_ok (i : nat) (lv : list (plevel sp (NT:=NT))) : Prop :=
  forall j vs u, (j < i)%nat -> lv !! j = Some (vs, u) -> Forall (node_ok j) vs /\ tab_ok j vs u.

Lemma mass_insert i lv ii vs u vs' u' : (ii < i)%nat -> lv !! ii = Some (vs, u) ->
  mass i (<[ii := (vs', u')]> lv) + sumN (vmass ii) vs = mass i lv + sumN (vmass ii) vs'.
Proof.
  intros Hii Hl. unfold mass.
  pose proof (sumN_upd (lmass (<[ii := (vs', u')]> lv)) (lmass lv) (seq 0 i) ii) as H.
  assert (lmass (<[ii := (vs', u')]> lv) ii = sumN (vmass ii) vs') as E1.
  { unfold lmass. by rewrite list_lookup_insert by (by eapply lookup_lt_Some). }
  assert (lmass lv ii = sumN (vmass ii) vs) as E2 by (unfold lmass; by rewrite Hl).
  rewrite E1, E2 in H. apply H.
  - apply NoDup_seq.
  - apply elem_of_seq. lia.
  - intros k _ Hk. unfold lmass. by rewrite list_lookup_insert_ne by done.
Qed.

Lemma put_ok cap i lv nw ii s x lv' nw' :
  levels_ok i lv -> (ii < i)%nat -> reach sp (Z.of_nat ii) s -> nok x ->
  pc_put sp n_copy n_add cap lv nw ii s x = Some (lv', nw') ->
  levels_ok i lv' /\ length lv' = length lv /\ (forall j, (i <= j)%nat -> lv' !! j = lv !! j) /\
  eqm (mass i lv') (mass i lv + nval x * wt (Z.of_nat ii) s).
Proof.
  intros HL Hii Hr Hx. unfold pc_put. destruct (lv !! ii) as [[vs u]|] eqn:El; [|done]. cbn [mbind option_bind].
  destruct (HL ii vs u Hii El) as [Hvs Htab].
  destruct (pc_add sp ii u (length vs, s)) as [[u' slot]|] eqn:Ea; [|done]. cbn [mbind option_bind].
  destruct (ht_at u' slot) as [e|] eqn:Ee; [|done]. cbn [mbind option_bind].
  destruct (add_cases _ _ _ _ _ _ _ _ Htab Ea Ee) as [Hg Hcase].
  assert (forall e', e' ∈ ht_elems u -> (fst e' < length vs)%nat) as Hlt.
  { intros [k s0] He'. destruct (proj2 Htab _ _ He') as [x0 Hx0]. by eapply lookup_lt_Some. }
  destruct (Nat.eqb_spec (fst e) (length vs)) as [En|En].
  - destruct Hcase as [(H1 & _)|(-> & Hp & _)]; [apply Hlt in H1; lia|].
    destruct (n_copy cap x) as [x'|] eqn:Ec; [|done]. cbn [mbind option_bind]. intros E. injection E as <- <-.
    destruct (H_copy _ _ _ Ec Hx) as [Hx' Hv]. split_and!.
    + intros j vs1 u1 Hj. destruct (decide (j = ii)) as [->|Hne]; [|rewrite list_lookup_insert_ne by done; by apply HL].
      rewrite list_lookup_insert by (by eapply lookup_lt_Some). intros E. injection E as <- <-. split.
      * apply Forall_app. split; [done|]. constructor; [by split|done].
      * split; [done|]. intros k s1 Hk. rewrite Hp in Hk. apply elem_of_cons in Hk as [E|Hk].
        -- injection E as -> ->. exists x'. rewrite lookup_app_r, Nat.sub_diag by lia. done.
        -- destruct (proj2 Htab _ _ Hk) as [x0 Hx0]. exists x0. by apply lookup_app_l_Some.
    + apply insert_length.
    + intros j Hj. apply list_lookup_insert_ne. lia.
    + pose proof (mass_insert i lv ii vs u (vs ++ [(s, x')]) u' Hii El) as HM. rewrite sumN_app in HM. cbn [sumN] in HM.
      assert (mass i (<[ii:=(vs ++ [(s, x')], u')]> lv) = mass i lv + vmass ii (s, x')) as -> by lia.
      unfold vmass. cbn [fst snd]. rewrite !(N.add_comm (mass i lv)). apply eqm_add, eqm_mul, Hv.
  - destruct Hcase as [(H1 & Heq & Hp)|(-> & _)]; [|done].
    destruct e as [k s1]. cbn [fst snd] in *. destruct (proj2 Htab _ _ H1) as [y Hy]. rewrite Hy. cbn [mbind option_bind].
    destruct (n_add y x) as [[y' w]|] eqn:Ead; [|done]. cbn [mbind option_bind]. intros E. injection E as <- <-.
    assert (node_ok ii (s1, y)) as [Hr1 Hy1] by (by eapply Forall_lookup_1). cbn [fst snd] in *.
    destruct (H_add _ _ _ _ Ead Hy1 Hx) as [Hy' Hv]. split_and!.
    + intros j vs1 u1 Hj. destruct (decide (j = ii)) as [->|Hne]; [|rewrite list_lookup_insert_ne by done; by apply HL].
      rewrite list_lookup_insert by (by eapply lookup_lt_Some). intros E. injection E as <- <-. split.
      * apply Forall_insert; [done|by split].
      * split; [done|]. intros k' s' Hk. rewrite Hp in Hk. destruct (proj2 Htab _ _ Hk) as [x0 Hx0].
        destruct (decide (k' = k)) as [->|Hne].
        -- exists y'. rewrite list_lookup_insert by (by eapply lookup_lt_Some). congruence.
        -- exists x0. by rewrite list_lookup_insert_ne.
    + apply insert_length.
    + intros j Hj. apply list_lookup_insert_ne. lia.
    + pose proof (mass_insert i lv ii vs u (<[k := (s1, y')]> vs) u' Hii El) as HM.
      pose proof (sumN_insert (vmass ii) vs k (s1, y) (s1, y') Hy) as HI. unfold vmass in HI at 2 4. cbn [fst snd] in HI.
      rewrite (wt_equal (Z.of_nat ii) s s1) by (done || by rewrite (proj1 Hsh)).
      assert (eqm (mass i (<[ii:=(<[k:=(s1, y')]> vs, u')]> lv) + nval y * wt (Z.of_nat ii) s1) (mass i lv + nval x * wt (Z.of_nat ii) s1 + nval y * wt (Z.of_nat ii) s1)) as HE.
      { assert (mass i (<[ii:=(<[k:=(s1, y')]> vs, u')]> lv) + nval y * wt (Z.of_nat ii) s1 = mass i lv + nval y' * wt (Z.of_nat ii) s1) as -> by lia.
        replace (mass i lv + nval x * wt (Z.of_nat ii) s1 + nval y * wt (Z.of_nat ii) s1) with ((nval y + nval x) * wt (Z.of_nat ii) s1 + mass i lv) by lia.
        rewrite N.add_comm. by apply eqm_add, eqm_mul. }
      by eapply eqm_cancel.
Qed.

Lemma eqm_eq x y : x = y -> eqm x y. Proof. intros ->. apply eqm_refl. Qed.
Lemma eqm_add2 x y z w : eqm x y -> eqm z w -> eqm (x + z) (y + w).
Proof. intros H1 H2. eapply eqm_trans; [by apply eqm_add|]. rewrite !(N.add_comm y). by apply eqm_add. Qed.

(** what a step over part of the level does *)
Definition step_ok (i : nat) (acc acc' : list (plevel sp (NT:=NT)) * nat * NT) (extra : N) : Prop :=
  let '(lv, nw, total) := acc in let '(lv', nw', total') := acc' in
  levels_ok i lv' /\ length lv' = length lv /\ (forall j, (i <= j)%nat -> lv' !! j = lv !! j) /\ nok total' /\
  eqm (nval total' + mass i lv') (nval total + mass i lv + extra).
Lemma branch_ok i nw0 s x acc b acc' :
  (0 < i)%nat -> reach sp (Z.of_nat i) s -> nok x -> (b < ar sp)%nat -> levels_ok i (fst (fst acc)) -> nok (snd acc) ->
  pc_branch sp n_copy n_add i nw0 s x acc b = Some acc' ->
  step_ok i acc acc' (nval x * wt (fst (get_child sp s (Z.of_nat i) b)) (snd (get_child sp s (Z.of_nat i) b))).
Proof.
  intros Hi Hr Hx Hb HL Ht. destruct acc as [[lv nw] total]. cbn [fst snd] in *. unfold pc_branch.
  pose proof (ok_level _ Hok _ s b Hr Hb) as Hlev.
  pose proof (fun H => reach_child sp _ s b Hr Hb H) as Hrc.
  destruct (get_child sp s (Z.of_nat i) b) as [c s'] eqn:Ec. cbn [fst snd] in *.
  destruct (Z.leb_spec c 0).
  - destruct (Z.eqb_spec c 0) as [->|Hc].
    + intros E. injection E as <-. unfold step_ok. split_and!; try done. rewrite wt_zero, N.mul_0_r, N.add_0_r. apply eqm_refl.
    + destruct (n_add total x) as [[t' w]|] eqn:Ea; [|done]. cbn [mbind option_bind]. intros E. injection E as <-.
      destruct (H_add _ _ _ _ Ea Ht Hx) as [Ht' Hv]. unfold step_ok. split_and!; try done. rewrite wt_neg by lia. rewrite N.mul_1_r.
      replace (nval total + mass i lv + nval x) with (nval total + nval x + mass i lv) by lia. by apply eqm_add.
  - destruct (Nat.ltb_spec (Z.to_nat c) i) as [Hlt|]; [|done].
    destruct (pc_put sp n_copy n_add _ lv nw (Z.to_nat c) s' x) as [[lv' nw']|] eqn:Ep; [|done]. cbn [mbind option_bind]. intros E. injection E as <-.
    destruct (put_ok _ i lv nw (Z.to_nat c) s' x lv' nw' HL Hlt ltac:(rewrite Z2Nat.id by lia; by apply Hrc) Hx Ep) as (H1 & H2 & H3 & H4).
    rewrite Z2Nat.id in H4 by lia. unfold step_ok. split_and!; try done. rewrite <- N.add_assoc. apply eqm_add2; [apply eqm_refl|done].
Qed.
Lemma step_trans i a1 a2 a3 e e' : step_ok i a1 a2 e -> step_ok i a2 a3 e' -> step_ok i a1 a3 (e + e').
Proof.
  destruct a1 as [[l1 w1] t1], a2 as [[l2 w2] t2], a3 as [[l3 w3] t3]. unfold step_ok. intros (A1 & A2 & A3 & A4 & A5) (B1 & B2 & B3 & B4 & B5).
  split_and!; try done; [congruence|intros j Hj; by rewrite B3, A3|]. eapply eqm_trans; [exact B5|].
  replace (nval t1 + mass i l1 + (e + e')) with (nval t1 + mass i l1 + e + e') by lia. by apply eqm_add.
Qed.
Lemma fold_step {A} (f : list (plevel sp (NT:=NT)) * nat * NT -> A -> option (list (plevel sp (NT:=NT)) * nat * NT)) (e : A -> N) i l acc acc' :
  levels_ok i (fst (fst acc)) -> nok (snd acc) ->
  (forall a acc acc', a ∈ l -> levels_ok i (fst (fst acc)) -> nok (snd acc) -> f acc a = Some acc' -> step_ok i acc acc' (e a)) ->
  ofold f l acc = Some acc' -> step_ok i acc acc' (sumN e l).
Proof.
  revert acc. induction l as [|a l IH]; intros acc HL Ht Hf; cbn [ofold sumN].
  - intros E. injection E as <-. destruct acc as [[lv nw] t]. unfold step_ok. split_and!; try done. rewrite N.add_0_r. apply eqm_refl.
  - destruct (f acc a) as [acc1|] eqn:E1; [|done]. cbn [mbind option_bind]. intros E.
    pose proof (Hf a acc acc1 ltac:(left) HL Ht E1) as H1. eapply step_trans; [exact H1|].
    destruct acc as [[lv nw] t], acc1 as [[lv1 nw1] t1]. unfold step_ok in H1. destruct H1 as (G1 & _ & _ & G4 & _).
    apply IH; [done|done| |done]. intros a' ? ? Ha'. apply Hf. by right.
Qed.
Lemma node_step i nw0 acc v acc' : (0 < i)%nat -> node_ok i v -> levels_ok i (fst (fst acc)) -> nok (snd acc) ->
  pc_node sp n_copy n_add n_isz i nw0 acc v = Some acc' -> step_ok i acc acc' (vmass i v).
Proof.
  intros Hi [Hr Hx] HL Ht. unfold pc_node. destruct (n_isz (snd v)) as [[]|] eqn:Ez; [| |done]; cbn [mbind option_bind].
  - intros E. injection E as <-. destruct acc as [[lv nw] t]. unfold step_ok. split_and!; try done.
    pose proof (H_isz _ Ez Hx) as Hz. apply eqm_sym. rewrite <- (N.add_0_r (nval t + mass i lv)) at 2. apply eqm_add2; [apply eqm_refl|].
    unfold vmass. rewrite <- (N.mul_0_l (wt (Z.of_nat i) (fst v))). by apply eqm_mul.
  - intros E. unfold vmass. rewrite wt_step by (done || lia). rewrite <- sumN_mul. unfold ofor in E.
    revert E. apply fold_step; [done|done|]. intros b a a' Hb. apply branch_ok; try done. apply elem_of_seq in Hb. lia.
Qed.
Lemma level_step lv nw total i lv' nw' total' : (0 < i)%nat -> levels_ok (S i) lv -> nok total ->
  pc_level sp n_copy n_add n_isz (lv, nw, total) i = Some (lv', nw', total') ->
  levels_ok i lv' /\ nok total' /\ eqm (nval total' + mass i lv') (nval total + mass (S i) lv).
Proof.
  intros Hi HL Ht. unfold pc_level. destruct (lv !! i) as [[vs u]|] eqn:El; [|done]. cbn [mbind option_bind].
  destruct (ofold _ _ _) as [[[lv1 nw1] t1]|] eqn:Ef; [|done]. cbn [mbind option_bind].
  destruct (lv1 !! (i - 1)%nat) as [[vs' u']|] eqn:El1; [|done]. cbn [mbind option_bind]. intros E. injection E as <- <- <-.
  destruct (HL i vs u ltac:(lia) El) as [Hvs _].
  assert (levels_ok i lv) as HLi by (intros j ? ? Hj; apply HL; lia).
  apply fold_step with (e := vmass i) (i := i) in Ef; [|done|done|].
  2:{ intros v a a' Hv. apply node_step; [done|]. apply elem_of_reverse in Hv; rewrite reverse_involutive in Hv. exact (proj1 (Forall_forall _ _) Hvs v Hv). }
  destruct Ef as (H1 & H2 & H3 & H4 & H5). rewrite sumN_reverse in H5.
  assert (forall j, (j < i)%nat -> lmass (<[(i - 1)%nat:=(vs', ht_empty)]> (<[i:=([], u)]> lv1)) j = lmass lv1 j) as Hm.
  { intros j Hj. unfold lmass. destruct (decide (j = i - 1)%nat) as [->|Hne].
    - rewrite list_lookup_insert by (rewrite insert_length; by eapply lookup_lt_Some). by rewrite El1.
    - rewrite !list_lookup_insert_ne by lia. done. }
  split_and!.
  - intros j vs1 u1 Hj. destruct (decide (j = i - 1)%nat) as [->|Hne].
    + rewrite list_lookup_insert by (rewrite insert_length; by eapply lookup_lt_Some). intros E. injection E as <- <-.
      split; [by apply (H1 _ _ _ Hj El1)|]. split; [by right|]. intros k s Hk. by apply elem_of_nil in Hk.
    + rewrite !list_lookup_insert_ne by lia. by apply H1.
  - done.
  - unfold mass at 1. rewrite (sumN_ext _ (lmass lv1)) by (intros j Hj; apply Hm; apply elem_of_seq in Hj; lia). fold (mass i lv1).
    eapply eqm_trans; [exact H5|]. apply eqm_eq. unfold mass. rewrite seq_S, sumN_app. cbn [sumN]. rewrite Nat.add_0_l.
    unfold lmass at 3. rewrite El. lia.
Qed.
Lemma run_ok n s one zero total : (0 < n)%nat -> reach sp (Z.of_nat n) s -> nok one -> nok zero -> nval one = 1 -> nval zero = 0 ->
  pc_run sp n_copy n_add n_isz n s one zero = Some total -> nok total /\ eqm (nval total) (wt (Z.of_nat n) s).
Proof.
  intros Hn Hr Ho Hz Eo Ez. unfold pc_run. set (lv0 := <[n := _]> _).
  assert (levels_ok (S n) lv0) as HL.
  { intros j vs u Hj. unfold lv0. destruct (decide (j = n)) as [->|Hne].
    - rewrite list_lookup_insert by (rewrite replicate_length; lia). intros E. injection E as <- <-.
      split; [by repeat constructor|]. split; [by right|]. intros k s' Hk. by apply elem_of_nil in Hk.
    - rewrite list_lookup_insert_ne by done. intros E. apply lookup_replicate in E as [E _]. injection E as E1 E2. subst vs u.
      split; [done|]. split; [by right|]. intros k s' Hk. by apply elem_of_nil in Hk. }
  assert (nval zero + mass (S n) lv0 = wt (Z.of_nat n) s) as HM.
  { unfold mass. rewrite seq_S, sumN_app, (sumN_ext _ (fun _ => 0 * 0)), sumN_mul.
    - cbn [sumN]. rewrite Nat.add_0_l. unfold lmass, lv0. rewrite list_lookup_insert by (rewrite replicate_length; lia).
      cbn [sumN]. unfold vmass. cbn [fst snd]. rewrite Eo. lia.
    - intros j Hj. apply elem_of_seq in Hj. unfold lmass, lv0. rewrite list_lookup_insert_ne, lookup_replicate_2 by lia. done. }
  rewrite <- HM. clearbody lv0. clear HM Ez Hr.
  intros E. revert E. generalize 1%nat at 2 as nw. intros nw E.
  assert (forall m lv nw t, levels_ok (S m) lv -> nok t ->
    match ofold (pc_level sp n_copy n_add n_isz) (reverse (seq 1 m)) (lv, nw, t) with
    | Some (_, _, t') => nok t' /\ eqm (nval t') (nval t + mass (S m) lv) | None => True end) as HA.
  { clear E. induction m as [|m IH]; intros lv nw0 t HLm Htm.
    - cbn. split; [done|]. unfold mass. cbn. unfold lmass. destruct (lv !! 0%nat) as [[vs u]|] eqn:El; [|apply eqm_eq; lia].
      rewrite (sumN_ext _ (fun _ => 0 * 0)), sumN_mul; [apply eqm_eq; lia|]. intros v _. unfold vmass. cbn. rewrite wt_zero. lia.
    - rewrite seq_S, reverse_app. change (reverse [(1 + m)%nat]) with [S m]. cbn [app ofold]. change (1 + m)%nat with (S m).
      destruct (pc_level sp n_copy n_add n_isz (lv, nw0, t) (S m)) as [[[lv1 nw1] t1]|] eqn:E1; [|exact I]. cbn [mbind option_bind].
      apply level_step in E1 as (A1 & A2 & A3); [|lia|done|done].
      specialize (IH lv1 nw1 t1 A1 A2). destruct (ofold _ _ _) as [[[? ?] t']|]; [|exact I]. destruct IH as [B1 B2].
      split; [done|]. by eapply eqm_trans. }
  specialize (HA n lv0 nw zero HL Hz). destruct (ofold _ _ _) as [[[? ?] t']|]; [|done]. cbn [mbind option_bind] in E. injection E as <-. done.
Qed.
(** ** countFast *)
Definition lmassF (lv : list (list (St sp * NT))) (j : nat) : N := match lv !! j with Some vs => sumN (vmass j) vs | None => 0 end.
Definition massF (i : nat) (lv : list (list (St sp * NT))) : N := sumN (lmassF lv) (seq 0 i).
Definition levels_okF (i : nat) (lv : list (list (St sp * NT))) : Prop :=
  forall j vs, (j < i)%nat -> lv !! j = Some vs -> Forall (node_ok j) vs.
Lemma massF_insert i lv ii vs vs' : (ii < i)%nat -> lv !! ii = Some vs ->
  massF i (<[ii := vs']> lv) + sumN (vmass ii) vs = massF i lv + sumN (vmass ii) vs'.
Proof.
  intros Hii Hl. unfold massF.
  pose proof (sumN_upd (lmassF (<[ii := vs']> lv)) (lmassF lv) (seq 0 i) ii) as H.
  assert (lmassF (<[ii := vs']> lv) ii = sumN (vmass ii) vs') as E1.
  { unfold lmassF. by rewrite list_lookup_insert by (by eapply lookup_lt_Some). }
  assert (lmassF lv ii = sumN (vmass ii) vs) as E2 by (unfold lmassF; by rewrite Hl).
  rewrite E1, E2 in H. apply H.
  - apply NoDup_seq.
  - apply elem_of_seq. lia.
  - intros k _ Hk. unfold lmassF. by rewrite list_lookup_insert_ne by done.
Qed.
Definition stepF_ok (i : nat) (acc acc' : list (list (St sp * NT)) * NT) (extra : N) : Prop :=
  let '(lv, total) := acc in let '(lv', total') := acc' in
  levels_okF i lv' /\ nok total' /\ eqm (nval total' + massF i lv') (nval total + massF i lv + extra).
Lemma branchF_ok i nw0 s x acc b acc' :
  (0 < i)%nat -> reach sp (Z.of_nat i) s -> nok x -> (b < ar sp)%nat -> levels_okF i (fst acc) -> nok (snd acc) ->
  pcf_branch sp n_copy n_add i nw0 s x acc b = Some acc' ->
  stepF_ok i acc acc' (nval x * wt (fst (get_child sp s (Z.of_nat i) b)) (snd (get_child sp s (Z.of_nat i) b))).
Proof.
  intros Hi Hr Hx Hb HL Ht. destruct acc as [lv total]. cbn [fst snd] in *. unfold pcf_branch.
  pose proof (ok_level _ Hok _ s b Hr Hb) as Hlev.
  pose proof (fun H => reach_child sp _ s b Hr Hb H) as Hrc.
  destruct (get_child sp s (Z.of_nat i) b) as [c s'] eqn:Ec. cbn [fst snd] in *.
  destruct (Z.leb_spec c 0).
  - destruct (Z.eqb_spec c 0) as [->|Hc].
    + intros E. injection E as <-. unfold stepF_ok. split_and!; try done. rewrite wt_zero, N.mul_0_r, N.add_0_r. apply eqm_refl.
    + destruct (n_add total x) as [[t' w]|] eqn:Ea; [|done]. cbn [mbind option_bind]. intros E. injection E as <-.
      destruct (H_add _ _ _ _ Ea Ht Hx) as [Ht' Hv]. unfold stepF_ok. split_and!; try done. rewrite wt_neg by lia. rewrite N.mul_1_r.
      replace (nval total + massF i lv + nval x) with (nval total + nval x + massF i lv) by lia. by apply eqm_add.
  - destruct (Nat.ltb_spec (Z.to_nat c) i) as [Hlt|]; [|done].
    destruct (lv !! Z.to_nat c) as [vs|] eqn:El; [|done]. cbn [mbind option_bind].
    destruct (n_copy _ x) as [x'|] eqn:Ep; [|done]. cbn [mbind option_bind]. intros E. injection E as <-.
    destruct (H_copy _ _ _ Ep Hx) as [Hx' Hv].
    unfold stepF_ok. split_and!; try done.
    + intros j vs1 Hj. destruct (decide (j = Z.to_nat c)) as [->|Hne]; [|rewrite list_lookup_insert_ne by done; by apply HL].
      rewrite list_lookup_insert by (by eapply lookup_lt_Some). intros E. injection E as <-. apply Forall_app. split; [by apply (HL _ _ Hlt El)|].
      constructor; [|done]. split; [|done]. cbn [fst]. rewrite Z2Nat.id by lia. by apply Hrc.
    + pose proof (massF_insert i lv (Z.to_nat c) vs (vs ++ [(s', x')]) Hlt El) as HM. rewrite sumN_app in HM. cbn [sumN] in HM.
      assert (massF i (<[Z.to_nat c:=vs ++ [(s', x')]]> lv) = massF i lv + vmass (Z.to_nat c) (s', x')) as -> by lia.
      unfold vmass. cbn [fst snd]. rewrite Z2Nat.id by lia. rewrite N.add_assoc. apply eqm_add2; [apply eqm_refl|]. apply eqm_mul, Hv.
Qed.
Lemma stepF_trans i a1 a2 a3 e e' : stepF_ok i a1 a2 e -> stepF_ok i a2 a3 e' -> stepF_ok i a1 a3 (e + e').
Proof.
  destruct a1 as [l1 t1], a2 as [l2 t2], a3 as [l3 t3]. unfold stepF_ok. intros (A1 & A4 & A5) (B1 & B4 & B5).
  split_and!; try done. eapply eqm_trans; [exact B5|].
  replace (nval t1 + massF i l1 + (e + e')) with (nval t1 + massF i l1 + e + e') by lia. by apply eqm_add.
Qed.
Lemma foldF_step {A} (f : list (list (St sp * NT)) * NT -> A -> option (list (list (St sp * NT)) * NT)) (e : A -> N) i l acc acc' :
  levels_okF i (fst acc) -> nok (snd acc) ->
  (forall a acc acc', a ∈ l -> levels_okF i (fst acc) -> nok (snd acc) -> f acc a = Some acc' -> stepF_ok i acc acc' (e a)) ->
  ofold f l acc = Some acc' -> stepF_ok i acc acc' (sumN e l).
Proof.
  revert acc. induction l as [|a l IH]; intros acc HL Ht Hf; cbn [ofold sumN].
  - intros E. injection E as <-. destruct acc as [lv t]. unfold stepF_ok. split_and!; try done. rewrite N.add_0_r. apply eqm_refl.
  - destruct (f acc a) as [acc1|] eqn:E1; [|done]. cbn [mbind option_bind]. intros E.
    pose proof (Hf a acc acc1 ltac:(left) HL Ht E1) as H1. eapply stepF_trans; [exact H1|].
    destruct acc as [lv t], acc1 as [lv1 t1]. unfold stepF_ok in H1. destruct H1 as (G1 & G4 & _).
    apply IH; [done|done| |done]. intros a' ? ? Ha'. apply Hf. by right.
Qed.
Lemma nodeF_step i nw0 acc v acc' : (0 < i)%nat -> node_ok i v -> levels_okF i (fst acc) -> nok (snd acc) ->
  pcf_node sp n_copy n_add n_isz i nw0 acc v = Some acc' -> stepF_ok i acc acc' (vmass i v).
Proof.
  intros Hi [Hr Hx] HL Ht. unfold pcf_node. destruct (n_isz (snd v)) as [[]|] eqn:Ez; [| |done]; cbn [mbind option_bind].
  - intros E. injection E as <-. destruct acc as [lv t]. unfold stepF_ok. split_and!; try done.
    pose proof (H_isz _ Ez Hx) as Hz. apply eqm_sym. rewrite <- (N.add_0_r (nval t + massF i lv)) at 2. apply eqm_add2; [apply eqm_refl|].
    unfold vmass. rewrite <- (N.mul_0_l (wt (Z.of_nat i) (fst v))). by apply eqm_mul.
  - intros E. unfold vmass. rewrite wt_step by (done || lia). rewrite <- sumN_mul. unfold ofor in E.
    revert E. apply foldF_step; [done|done|]. intros b a a' Hb. apply branchF_ok; try done. apply elem_of_seq in Hb. lia.
Qed.
(** merging of the duplicates of a level *)
Lemma merge_step i vs u nw k vs' u' nw' : Forall (node_ok i) vs -> tab_ok i vs u -> (forall e, e ∈ ht_elems u -> (k < fst e)%nat) ->
  pcf_merge sp n_add n_clear i (vs, u, nw) k = Some (vs', u', nw') ->
  Forall (node_ok i) vs' /\ tab_ok i vs' u' /\ (forall e, e ∈ ht_elems u' -> (k <= fst e)%nat) /\ length vs' = length vs /\
  eqm (sumN (vmass i) vs') (sumN (vmass i) vs).
Proof.
  intros Hvs Htab Hk. unfold pcf_merge. destruct (vs !! k) as [[s x]|] eqn:El; [|done]. cbn [mbind option_bind].
  destruct (pc_add sp i u (k, s)) as [[u1 slot]|] eqn:Ea; [|done]. cbn [mbind option_bind].
  destruct (ht_at u1 slot) as [e|] eqn:Ee; [|done]. cbn [mbind option_bind].
  assert (node_ok i (s, x)) as [Hr Hx] by (by eapply Forall_lookup_1). cbn [fst snd] in *.
  destruct (add_cases _ _ _ _ _ _ _ _ Htab Ea Ee) as [Hg Hcase]. destruct (Nat.eqb_spec (fst e) k) as [En|En].
  - destruct Hcase as [(H1 & _)|(-> & Hp & _)]; [apply Hk in H1; lia|]. intros E. injection E as <- <- <-. split_and!; try done.
    + split; [done|]. intros k' s' Hk'. rewrite Hp in Hk'. apply elem_of_cons in Hk' as [E|Hk']; [|by apply (proj2 Htab)].
      injection E as -> ->. by exists x.
    + intros e He. rewrite Hp in He. apply elem_of_cons in He as [->|He]; [done|]. apply Hk in He. lia.
  - destruct Hcase as [(H1 & Heq & Hp)|(-> & _)]; [|done]. destruct e as [k1 s1]. cbn [fst snd] in *.
    destruct (proj2 Htab _ _ H1) as [y Hy]. rewrite Hy. cbn [mbind option_bind].
    assert (node_ok i (s1, y)) as [Hr1 Hy1] by (by eapply Forall_lookup_1). cbn [fst snd] in *.
    destruct (n_add y x) as [[y' w]|] eqn:Ead; [|done]. cbn [mbind option_bind].
    destruct (n_clear x) as [x'|] eqn:Ecl; [|done]. cbn [mbind option_bind]. intros E. injection E as <- <- <-.
    destruct (H_add _ _ _ _ Ead Hy1 Hx) as [Hy' Hv]. destruct (H_clear _ _ Ecl Hx) as [Hx' Hv'].
    assert (Forall (node_ok i) (<[k1:=(s1, y')]> vs)) as Hvs1 by (apply Forall_insert; [done|by split]).
    split_and!.
    + apply Forall_insert; [done|by split].
    + split; [done|]. intros k' s' Hk'. rewrite Hp in Hk'. destruct (proj2 Htab _ _ Hk') as [x0 Hx0].
      assert (k < k')%nat by (by apply (Hk (k', s'))). rewrite list_lookup_insert_ne by lia.
      destruct (decide (k' = k1)) as [->|Hne].
      * exists y'. rewrite list_lookup_insert by (by eapply lookup_lt_Some). congruence.
      * exists x0. by rewrite list_lookup_insert_ne.
    + intros e He. rewrite Hp in He. apply Hk in He. lia.
    + by rewrite !insert_length.
    + pose proof (sumN_insert (vmass i) vs k1 (s1, y) (s1, y') Hy) as HI.
      assert (<[k1:=(s1, y')]> vs !! k = Some (s, x)) as El' by (rewrite list_lookup_insert_ne by done; done).
      pose proof (sumN_insert (vmass i) (<[k1:=(s1, y')]> vs) k (s, x) (s, x') El') as HI'.
      unfold vmass in HI at 2 4. unfold vmass in HI' at 2 4. cbn [fst snd] in HI, HI'.
      rewrite (wt_equal (Z.of_nat i) s s1) in HI' by (done || by rewrite (proj1 Hsh)).
      set (P := wt (Z.of_nat i) s1) in *. set (A := sumN _ (<[k:=_]> _)) in *. set (B := sumN (vmass i) (<[k1:=(s1, y')]> vs)) in *. set (C := sumN (vmass i) vs) in *.
      apply (eqm_cancel _ _ ((nval y + nval x) * P)).
      replace (A + (nval y + nval x) * P) with (C + nval y' * P + nval x' * P) by lia.
      replace (C + (nval y + nval x) * P) with (C + (nval y + nval x) * P + 0 * P) by lia.
      apply eqm_add2; [apply eqm_add2; [apply eqm_refl|by apply eqm_mul]|by apply eqm_mul].
Qed.
Lemma merge_fold i nw vs0 u0 m vs u nw' : Forall (node_ok i) vs0 -> tab_ok i vs0 u0 -> (forall e, e ∈ ht_elems u0 -> (m <= fst e)%nat) ->
  ofold (pcf_merge sp n_add n_clear i) (reverse (seq 0 m)) (vs0, u0, nw) = Some (vs, u, nw') ->
  Forall (node_ok i) vs /\ eqm (sumN (vmass i) vs) (sumN (vmass i) vs0).
Proof.
  revert vs0 u0 nw. induction m as [|m IH]; intros vs0 u0 nw Hvs Htab Hk.
  - cbn. intros E. injection E as <- <- <-. split; [done|apply eqm_refl].
  - rewrite seq_S, reverse_app. change (reverse [(0 + m)%nat]) with [m]. cbn [app ofold]. change (0 + m)%nat with m.
    destruct (pcf_merge sp n_add n_clear i (vs0, u0, nw) m) as [[[vs1 u1] nw1]|] eqn:E1; [|done]. cbn [mbind option_bind]. intros E.
    apply merge_step in E1 as (A1 & A2 & A3 & _ & A5); [|done|done|intros e He; apply Hk in He; lia].
    destruct (IH _ _ _ A1 A2 A3 E) as [B1 B2]. split; [done|]. by eapply eqm_trans.
Qed.
Lemma levelF_step lv nw total i lv' nw' total' : (0 < i)%nat -> levels_okF (S i) lv -> nok total ->
  pcf_level sp n_copy n_add n_isz n_clear (lv, nw, total) i = Some (lv', nw', total') ->
  levels_okF i lv' /\ nok total' /\ eqm (nval total' + massF i lv') (nval total + massF (S i) lv).
Proof.
  intros Hi HL Ht. unfold pcf_level. destruct (lv !! i) as [vs0|] eqn:El; [|done]. cbn [mbind option_bind].
  destruct (ofold (pcf_merge _ _ _ _) _ _) as [[[vs u] nw1]|] eqn:Em; [|done]. cbn [mbind option_bind].
  destruct (ofold (pcf_node _ _ _ _ _ _) _ _) as [[lv1 t1]|] eqn:Ef; [|done]. cbn [mbind option_bind]. intros E. injection E as <- <- <-.
  pose proof (HL i vs0 ltac:(lia) El) as Hvs0.
  apply merge_fold in Em as [Hvs HE]; [|done| |].
  2:{ split; [left; apply ht_init_strong|]. intros k s Hk. by apply init_elems in Hk. }
  2:{ intros e He. by apply init_elems in He. }
  assert (levels_okF i lv) as HLi by (intros j ? Hj; apply HL; lia).
  apply foldF_step with (e := vmass i) (i := i) in Ef; [|done|done|].
  2:{ intros v a a' Hv. apply nodeF_step; [done|]. apply elem_of_reverse in Hv; rewrite reverse_involutive in Hv. exact (proj1 (Forall_forall _ _) Hvs v Hv). }
  destruct Ef as (H1 & H4 & H5). rewrite sumN_reverse in H5. split_and!; [|done|].
  - intros j vs1 Hj. rewrite list_lookup_insert_ne by lia. by apply H1.
  - unfold massF at 1. rewrite (sumN_ext _ (lmassF lv1)) by (intros j Hj; apply elem_of_seq in Hj; unfold lmassF; by rewrite list_lookup_insert_ne by lia). fold (massF i lv1).
    eapply eqm_trans; [exact H5|]. unfold massF. rewrite seq_S, sumN_app. cbn [sumN]. rewrite Nat.add_0_l.
    unfold lmassF at 3. rewrite El. rewrite N.add_0_r, N.add_assoc. apply eqm_add2; [apply eqm_refl|done].
Qed.
Lemma runF_ok n s one zero total : (0 < n)%nat -> reach sp (Z.of_nat n) s -> nok one -> nok zero -> nval one = 1 -> nval zero = 0 ->
  pcf_run sp n_copy n_add n_isz n_clear n s one zero = Some total -> nok total /\ eqm (nval total) (wt (Z.of_nat n) s).
Proof.
  intros Hn Hr Ho Hz Eo Ez. unfold pcf_run. set (lv0 := <[n := _]> _).
  assert (levels_okF (S n) lv0) as HL.
  { intros j vs Hj. unfold lv0. destruct (decide (j = n)) as [->|Hne].
    - rewrite list_lookup_insert by (rewrite replicate_length; lia). intros E. injection E as <-. by repeat constructor.
    - rewrite list_lookup_insert_ne by done. intros E. apply lookup_replicate in E as [E _]. subst vs. constructor. }
  assert (nval zero + massF (S n) lv0 = wt (Z.of_nat n) s) as HM.
  { unfold massF. rewrite seq_S, sumN_app, (sumN_ext _ (fun _ => 0 * 0)), sumN_mul.
    - cbn [sumN]. rewrite Nat.add_0_l. unfold lmassF, lv0. rewrite list_lookup_insert by (rewrite replicate_length; lia).
      cbn [sumN]. unfold vmass. cbn [fst snd]. rewrite Eo. lia.
    - intros j Hj. apply elem_of_seq in Hj. unfold lmassF, lv0. rewrite list_lookup_insert_ne, lookup_replicate_2 by lia. done. }
  rewrite <- HM. clearbody lv0. clear HM Ez Hr.
  intros E. revert E. generalize 1%nat at 2 as nw. intros nw E.
  assert (forall m lv nw t, levels_okF (S m) lv -> nok t ->
    match ofold (pcf_level sp n_copy n_add n_isz n_clear) (reverse (seq 1 m)) (lv, nw, t) with
    | Some (_, _, t') => nok t' /\ eqm (nval t') (nval t + massF (S m) lv) | None => True end) as HA.
  { clear E. induction m as [|m IH]; intros lv nw0 t HLm Htm.
    - cbn. split; [done|]. unfold massF. cbn. unfold lmassF. destruct (lv !! 0%nat) as [vs|] eqn:El; [|apply eqm_eq; lia].
      rewrite (sumN_ext _ (fun _ => 0 * 0)), sumN_mul; [apply eqm_eq; lia|]. intros v _. unfold vmass. cbn. rewrite wt_zero. lia.
    - rewrite seq_S, reverse_app. change (reverse [(1 + m)%nat]) with [S m]. cbn [app ofold]. change (1 + m)%nat with (S m).
      destruct (pcf_level sp n_copy n_add n_isz n_clear (lv, nw0, t) (S m)) as [[[lv1 nw1] t1]|] eqn:E1; [|exact I]. cbn [mbind option_bind].
      apply levelF_step in E1 as (A1 & A2 & A3); [|lia|done|done].
      specialize (IH lv1 nw1 t1 A1 A2). destruct (ofold _ _ _) as [[[? ?] t']|]; [|exact I]. destruct IH as [B1 B2].
      split; [done|]. by eapply eqm_trans. }
  specialize (HA n lv0 nw zero HL Hz). destruct (ofold _ _ _) as [[[? ?] t']|]; [|done]. cbn [mbind option_bind] in E. injection E as <-. done.
Qed.
End run.

(** ** the number operations of count(): success means that the result is right *)
Lemma holds_app a n s e : holds a n s -> holds (a ++ e) n s.
Proof. induction 1; cbn [app]; by constructor. Qed.
Lemma store_inv a o n s a' k : holds o n s -> big_store a o = Some (a', k) -> k = s /\ holds a' n s /\ length a' = length a.
Proof.
  intros H. revert a a' k. induction H as [w o H|w o n s H Hh IH]; intros [|x a] a' k; cbn [big_store]; try done.
  - rewrite msb_small by done. intros E. injection E as <- <-. split; [done|]. split; [by constructor|done].
  - rewrite msb_flag by done. destruct (big_store a o) as [[r k']|] eqn:E; [|done]. cbn [mbind option_bind]. intros E'. injection E' as <- <-.
    destruct (IH _ _ _ E) as (-> & H1 & H2). split; [done|]. split; [by constructor|]. cbn. by rewrite H2.
Qed.
(** a successful operation does not look at what follows the array *)
Definition stable (r : option (list N * nat)) (r' : list N -> option (list N * nat)) (a : list N) : Prop :=
  forall a' k, r = Some (a', k) -> length a' = length a /\ (k <= length a)%nat /\ forall e, r' e = Some (a' ++ e, k).
Lemma store64_stable a x : stable (big_store64 a x) (fun e => big_store64 (a ++ e) x) a.
Proof.
  intros a' k. unfold big_store64. destruct a as [|v a]; [done|]. destruct (msb x).
  - destruct a as [|w a]; [done|]. intros E. injection E as <- <-. split_and!; [done|cbn; lia|done].
  - intros E. injection E as <- <-. split_and!; [done|cbn; lia|done].
Qed.
Lemma add_q_stable q a x : stable (add_q a q x) (fun e => add_q (a ++ e) q x) a.
Proof.
  revert a x. induction q as [|w q IH]; intros a x a' k; cbn [add_q]; [done|].
  destruct (msb w).
  - destruct a as [|v a]; [done|]. destruct q as [|w' q]; [done|].
    destruct (add_q a (w' :: q) _) as [[r k']|] eqn:E; [|done]. cbn [mbind option_bind]. intros E'. injection E' as <- <-.
    destruct (IH _ _ _ _ E) as (H1 & H2 & H3). split_and!; [cbn; lia|cbn; lia|]. intros e. cbn [app].
    rewrite H3. done.
  - apply store64_stable.
Qed.
Lemma add_p_stable a x : stable (add_p a x) (fun e => add_p (a ++ e) x) a.
Proof.
  revert x. induction a as [|w a IH]; intros x a' k; [done|]. cbn [add_p app].
  destruct (msb w); [|intros E; apply (store64_stable (w :: a) x a' k E)].
  destruct a as [|w' a]; [done|].
  destruct (add_p (w' :: a) _) as [[r k']|] eqn:E; [|done]. cbn [mbind option_bind]. intros E'. injection E' as <- <-.
  destruct (IH _ _ _ E) as (H1 & H2 & H3). split_and!; [cbn in *; lia|cbn in *; lia|]. intros e. specialize (H3 e). cbn [app] in *. by rewrite H3.
Qed.
Lemma add_loop_stable a q x : stable (add_loop a q x) (fun e => add_loop (a ++ e) q x) a.
Proof.
  revert q x. induction a as [|v a IH]; intros [|w q] x a' k; try done. cbn [add_loop app].
  destruct (negb (msb v)); [intros E; apply (add_q_stable _ _ _ _ _ E)|].
  destruct (negb (msb w)); [intros E; apply (add_p_stable _ _ _ _ E)|].
  destruct (add_loop a q _) as [[r k']|] eqn:E; [|done]. cbn [mbind option_bind]. intros E'. injection E' as <- <-.
  destruct (IH _ _ _ _ E) as (H1 & H2 & H3). split_and!; [cbn; lia|cbn; lia|]. intros e. by rewrite H3.
Qed.
Lemma add_inv a o na no sa so a' s : holds a na sa -> holds o no so -> big_add a o = Some (a', s) ->
  s = wneed (na + no) (max sa so) /\ holds a' (na + no) s /\ length a' = length a.
Proof.
  intros Ha Ho E. set (k := wneed (na + no) (max sa so)).
  destruct (add_loop_stable _ _ _ _ _ E) as (H1 & H2 & H3).
  destruct (big_add_ok (a ++ replicate k 0) o na no sa so (holds_app _ _ _ _ Ha) Ho) as (b & E1 & _ & _).
  { rewrite app_length, replicate_length. fold k. lia. }
  fold k in E1. unfold big_add in E1. rewrite H3 in E1. injection E1 as _ Ek.
  destruct (big_add_ok a o na no sa so Ha Ho) as (b1 & E2 & H4 & _); [fold k; lia|]. rewrite E in E2. injection E2 as <- E2. fold k in H4.
  rewrite Ek. done.
Qed.

Definition bval (x : list N) : N := default 0 (big_translate x).
Definition bok (x : list N) : Prop := exists s, holds x (bval x) s /\ minimal (bval x) s.
Lemma bok_intro x n s : holds x n s -> minimal n s -> bok x /\ bval x = n.
Proof.
  intros H Hm. assert (bval x = n) as E by (unfold bval; by rewrite (big_translate_ok _ _ _ H)).
  split; [|done]. exists s. by rewrite E.
Qed.
Lemma bn_copy_ok slack cap x x' : bn_copy slack cap x = Some x' -> bok x -> bok x' /\ bval x' = bval x.
Proof.
  unfold bn_copy. destruct (big_store _ x) as [[r k]|] eqn:E; [|done]. cbn. intros E'. injection E' as <-. intros (s & Hs & Hm).
  destruct (store_inv _ _ _ _ _ _ Hs E) as (-> & H & _). by eapply bok_intro.
Qed.
Lemma bn_add_ok y x y' w : big_add y x = Some (y', w) -> bok y -> bok x -> bok y' /\ bval y' = bval y + bval x.
Proof.
  intros E (s & Hs & Hm) (s' & Hs' & Hm'). destruct (add_inv _ _ _ _ _ _ _ _ Hs Hs' E) as (-> & H & _).
  eapply bok_intro; [done|]. by apply minimal_add.
Qed.
Lemma bn_isz_ok x b : bn_isz x = Some b -> bok x -> b = (bval x =? 0).
Proof. unfold bn_isz. intros E (s & Hs & Hm). rewrite (big_eqb64_ok _ _ _ 0 Hs Hm) in E by done. by injection E. Qed.
Lemma bn_isz_some x : bok x -> bn_isz x = Some (bval x =? 0).
Proof. unfold bn_isz. intros (s & Hs & Hm). by rewrite (big_eqb64_ok _ _ _ 0 Hs Hm). Qed.
Lemma bn_clear_ok x x' : bn_clear x = Some x' -> bok x -> bok x' /\ bval x' = 0.
Proof.
  unfold bn_clear, big_store64. destruct x as [|v x]; [done|]. cbn. intros E. injection E as <-. intros _.
  apply (bok_intro _ 0 1); [by constructor|by left].
Qed.
