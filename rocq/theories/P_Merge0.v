(** Keeping the cheapest members, on the level of specifications: pruning all states that are not the
    cheapest of their class, and all 1-terminals that are not the cheapest, leaves exactly the
    cheapest vectors. *)
From Verif Require Import Base Sem M_Table Tree S_Merge.
Local Open Scope Z_scope.

Lemma cmp_lt x y x' y' : (x ?= y) = (x' ?= y') -> x' < y' -> x < y.
Proof. unfold Z.lt. congruence. Qed.
Lemma cmp_eq x y x' y' : (x ?= y) = (x' ?= y') -> x' = y' -> x = y.
Proof. intros H ->. rewrite Z.compare_refl in H. by apply Z.compare_eq. Qed.

Section prune.
  Context (sp : spec) (mrg : St sp -> St sp -> nat) (cost : St sp -> Z) (Hm : merge_ok sp mrg cost).
  Let Hok := mo_ok _ _ _ Hm.
  Let Hcg := mo_congr _ _ _ Hm.

  (** all (level, state) pairs met below (c, s) *)
  Fixpoint visits (k : nat) (c : Z) (s : St sp) : list (Z * St sp) :=
    match k with
    | O => []
    | S k' => if c <=? 0 then [] else (c, s) ::
        concat (map (fun b => visits k' (fst (get_child sp s c b)) (snd (get_child sp s c b))) (seq 0 (ar sp)))
    end.
  Definition all_visits : list (Z * St sp) :=
    visits (Z.to_nat (fst (get_root sp))) (fst (get_root sp)) (snd (get_root sp)).

  Lemma visits_reach k c s l s' : (0 < c -> reach sp c s) -> (l, s') ∈ visits k c s -> reach sp l s'.
  Proof.
    revert c s. induction k as [|k IH]; intros c s Hr Hin; [by apply elem_of_nil in Hin|].
    cbn [visits] in Hin. destruct (Z.leb_spec c 0) as [|Hc]; [by apply elem_of_nil in Hin|].
    apply elem_of_cons in Hin as [E|Hin]; [inversion E; subst; by apply Hr|].
    apply elem_of_list_In, in_concat in Hin as (x & Hx & Hin). apply in_map_iff in Hx as (b & <- & Hb).
    apply in_seq in Hb. apply elem_of_list_In in Hin. eapply IH; [|exact Hin].
    intros Hp. apply reach_child; [by apply Hr|lia|done].
  Qed.

  Lemma visits_closed k c s l s' b : (Z.to_nat c <= k)%nat -> (0 < c -> reach sp c s) -> (b < ar sp)%nat ->
    (l, s') ∈ visits k c s -> 0 < fst (get_child sp s' l b) ->
    (fst (get_child sp s' l b), snd (get_child sp s' l b)) ∈ visits k c s.
  Proof.
    revert c s. induction k as [|k IH]; intros c s Hk Hr Hb Hin Hp; [by apply elem_of_nil in Hin|].
    cbn [visits] in *. destruct (Z.leb_spec c 0) as [|Hc]; [by apply elem_of_nil in Hin|]. specialize (Hr Hc).
    right. apply elem_of_list_In, in_concat. apply elem_of_cons in Hin as [E|Hin].
    - inversion E; subst l s'. eexists. split; [apply in_map_iff; exists b; split; [done|]; apply in_seq; lia|].
      pose proof (ok_level sp Hok c s b Hr Hb). apply elem_of_list_In.
      destruct k as [|k]; [lia|]. cbn [visits]. destruct (Z.leb_spec (fst (get_child sp s c b)) 0); [lia|]. left.
    - apply elem_of_list_In, in_concat in Hin as (x & Hx & Hin). apply in_map_iff in Hx as (b' & <- & Hb').
      apply in_seq in Hb'. apply elem_of_list_In in Hin. pose proof (ok_level sp Hok c s b' Hr ltac:(lia)).
      eexists. split; [apply in_map_iff; exists b'; split; [done|]; apply in_seq; lia|].
      apply elem_of_list_In, IH; try done; [lia|]. intros Hp'. apply reach_child; [done|lia|done].
  Qed.

  Lemma all_visits_reach l s : (l, s) ∈ all_visits <-> reach sp l s.
  Proof.
    split.
    - apply visits_reach. intros Hp. by apply reach_root.
    - induction 1 as [H|l s b Hr IH Hb Hp].
      + unfold all_visits. destruct (Z.to_nat (fst (get_root sp))) as [|k] eqn:E; [lia|]. cbn [visits].
        destruct (Z.leb_spec (fst (get_root sp)) 0); [lia|]. left.
      + apply visits_closed; try done. intros H. by apply reach_root.
  Qed.

  Definition all_finals : list (St sp) :=
    concat (map (fun x => concat (map (fun b => let r := get_child sp (snd x) (fst x) b in
      if fst r <? 0 then [snd r] else []) (seq 0 (ar sp)))) all_visits).

  Lemma all_finals_final s : s ∈ all_finals <-> final_state sp s.
  Proof.
    unfold all_finals, final_state. rewrite elem_of_list_In, in_concat. split.
    - intros (x & Hx & Hin). apply in_map_iff in Hx as ([l s0] & <- & Hv). cbn [fst snd] in Hin.
      apply in_concat in Hin as (y & Hy & Hin). apply in_map_iff in Hy as (b & <- & Hb). apply in_seq in Hb.
      destruct (Z.ltb_spec (fst (get_child sp s0 l b)) 0); [|done]. destruct Hin as [<-|[]].
      exists l, s0, b. split_and!; try done; [|lia]. by apply all_visits_reach, elem_of_list_In.
    - intros (l & s0 & b & Hr & Hb & Hc & ->). eexists. split.
      { apply in_map_iff. exists (l, s0). split; [done|]. by apply elem_of_list_In, all_visits_reach. }
      cbn [fst snd]. apply in_concat. eexists. split.
      { apply in_map_iff. exists b. split; [done|]. apply in_seq. lia. }
      cbn zeta. destruct (Z.ltb_spec (fst (get_child sp s0 l b)) 0); [|lia]. by left.
  Qed.

  (** a state with a cheaper state in its class *)
  Definition loserb (l : Z) (s : St sp) : bool :=
    existsb (fun x => (fst x =? l) && equal_to sp l (snd x) s && (cost (snd x) <? cost s)) all_visits.
  (** a final state of minimal cost *)
  Definition goodb (s : St sp) : bool := forallb (fun s' => cost s <=? cost s') all_finals.

  Lemma loserb_true l s : loserb l s = true <->
    exists s', reach sp l s' /\ equal_to sp l s' s = true /\ cost s' < cost s.
  Proof.
    unfold loserb. rewrite existsb_exists. split.
    - intros ([l' s'] & Hin & H). cbn [fst snd] in H. apply andb_prop in H as [H H3]. apply andb_prop in H as [H1 H2].
      apply Z.eqb_eq in H1. subst l'. apply Z.ltb_lt in H3. exists s'. split_and!; try done.
      by apply all_visits_reach, elem_of_list_In.
    - intros (s' & Hr & He & Hc). exists (l, s'). split; [by apply elem_of_list_In, all_visits_reach|].
      cbn [fst snd]. rewrite Z.eqb_refl, He. apply Z.ltb_lt in Hc. by rewrite Hc.
  Qed.
  Lemma loserb_false l s : loserb l s = false <->
    forall s', reach sp l s' -> equal_to sp l s' s = true -> cost s <= cost s'.
  Proof.
    split.
    - intros H s' Hr He. destruct (Z.leb_spec (cost s) (cost s')); [done|].
      assert (loserb l s = true) as E; [|congruence]. apply loserb_true. by exists s'.
    - intros H. destruct (loserb l s) eqn:E; [|done]. apply loserb_true in E as (s' & Hr & He & Hc).
      specialize (H s' Hr He). lia.
  Qed.
  Lemma goodb_true s : goodb s = true <-> forall s', final_state sp s' -> cost s <= cost s'.
  Proof.
    unfold goodb. rewrite forallb_forall. setoid_rewrite <- all_finals_final. setoid_rewrite elem_of_list_In.
    setoid_rewrite Z.leb_le. done.
  Qed.

  (** children of equal states *)
  Lemma child_eq l s s' b : reach sp l s -> reach sp l s' -> equal_to sp l s s' = true -> (b < ar sp)%nat ->
    fst (get_child sp s l b) = fst (get_child sp s' l b) /\
    (0 < fst (get_child sp s l b) -> reach sp (fst (get_child sp s l b)) (snd (get_child sp s l b)) /\
       reach sp (fst (get_child sp s l b)) (snd (get_child sp s' l b)) /\
       equal_to sp (fst (get_child sp s l b)) (snd (get_child sp s l b)) (snd (get_child sp s' l b)) = true) /\
    (fst (get_child sp s l b) <> 0 ->
     (cost (snd (get_child sp s l b)) ?= cost (snd (get_child sp s' l b))) = (cost s ?= cost s')).
  Proof.
    intros Hr Hr' He Hb. destruct (cg_child _ Hcg l s s' b Hr Hr' Hb He) as [E1 E2]. split_and!; [done| |].
    - intros Hp. split_and!; [by apply reach_child| |by apply E2]. rewrite E1. apply reach_child; [done|done|lia].
    - intros Hn. by eapply (mo_mono _ _ _ Hm).
  Qed.

  Lemma loserb_congr l s s' : reach sp l s -> reach sp l s' -> equal_to sp l s s' = true -> cost s = cost s' ->
    loserb l s = loserb l s'.
  Proof.
    intros Hr Hr' He Ec. apply Bool.eq_iff_eq_true. rewrite !loserb_true.
    assert (equal_to sp l s' s = true) as He' by (by rewrite (cg_sym _ Hcg)).
    split; intros (x & Hx & H1 & H2); exists x; (split_and!; [done| |lia]).
    - by apply (cg_trans _ Hcg l x s s').
    - by apply (cg_trans _ Hcg l x s' s).
  Qed.

  Lemma goodb_congr s s' : cost s = cost s' -> goodb s = goodb s'.
  Proof. intros E. unfold goodb. by rewrite E. Qed.

  (** ** The pruned specification *)
  Definition prune (c : Z) (s : St sp) : Z :=
    if c <? 0 then (if goodb s then c else 0) else if loserb c s then 0 else c.
  Definition psp : spec := {|
    St := St sp; ar := ar sp; get_root := get_root sp;
    get_child := fun s l b => let r := get_child sp s l b in (prune (fst r) (snd r), snd r);
    equal_to := equal_to sp; hash_code := hash_code sp |}.

  Lemma prune_cases c s : prune c s = 0 \/ prune c s = c.
  Proof. unfold prune. destruct (c <? 0); [destruct (goodb s)|destruct (loserb c s)]; auto. Qed.

  Lemma root_winner : 0 < fst (get_root sp) -> loserb (fst (get_root sp)) (snd (get_root sp)) = false.
  Proof.
    intros Hp. apply loserb_false. intros s' Hr _.
    assert (forall l s, reach sp l s -> l <= fst (get_root sp) /\ (l = fst (get_root sp) -> s = snd (get_root sp))) as H.
    { intros l s. induction 1 as [H|l s b H [IH1 IH2] Hb Hq]; [done|].
      pose proof (ok_level sp Hok l s b H Hb). split; [lia|]. intros. lia. }
    destruct (H _ _ Hr) as [_ ->]; [|done]. lia.
  Qed.

  Lemma psp_reach l s : reach psp l s -> reach sp l s /\ loserb l s = false.
  Proof.
    induction 1 as [H|l s b Hr [IH1 IH2] Hb Hp].
    - split; [exact (reach_root sp H)|by apply root_winner].
    - cbn [psp get_child fst snd ar] in *. unfold prune in Hp |- *.
      destruct (Z.ltb_spec (fst (get_child sp s l b)) 0) as [Hn|Hn].
      { exfalso. destruct (goodb _); lia. }
      destruct (loserb (fst (get_child sp s l b)) (snd (get_child sp s l b))) eqn:E; [lia|].
      split; [by apply reach_child|done].
  Qed.

  (** a winner is not reached from a loser *)
  Lemma reach_psp l s : reach sp l s -> loserb l s = false -> reach psp l s.
  Proof.
    induction 1 as [H|l s b Hr IH Hb Hp]; intros Hw; [exact (reach_root psp H)|].
    assert (loserb l s = false) as Hl.
    { destruct (loserb l s) eqn:E; [|done]. exfalso. apply loserb_true in E as (s' & Hr' & He & Hc).
      destruct (child_eq l s' s b Hr' Hr He Hb) as (E1 & E2 & E3). rewrite E1 in *.
      destruct (E2 Hp) as (R1 & _ & He').
      pose proof (proj1 (loserb_false _ _) Hw _ R1 He') as Hle.
      pose proof (cmp_lt _ _ _ _ (E3 ltac:(lia)) Hc). lia. }
    specialize (IH Hl).
    assert (prune (fst (get_child sp s l b)) (snd (get_child sp s l b)) = fst (get_child sp s l b)) as E.
    { unfold prune. destruct (Z.ltb_spec (fst (get_child sp s l b)) 0); [lia|]. by rewrite Hw. }
    pose proof (reach_child psp l s b IH Hb) as HR. cbn [psp get_child fst snd] in HR. rewrite E in HR. by apply HR.
  Qed.

  Lemma same_run bs : forall c s s', (0 < c -> reach sp c s /\ reach sp c s' /\ equal_to sp c s s' = true /\ cost s = cost s') ->
    Forall (fun b => (b < ar sp)%nat) bs -> run psp c s bs = run psp c s' bs.
  Proof.
    induction bs as [|b bs IH]; intros c s s' H HF; [done|]. cbn [run]. destruct (Z.ltb_spec 0 c) as [Hc|Hc]; [|done].
    destruct (H Hc) as (Hr & Hr' & He & Ec). apply Forall_cons in HF as [Hb HF].
    destruct (child_eq c s s' b Hr Hr' He Hb) as (E1 & E2 & E3). cbn [psp get_child fst snd].
    rewrite <- E1. set (c' := fst (get_child sp s c b)) in *.
    assert (prune c' (snd (get_child sp s' c b)) = prune c' (snd (get_child sp s c b))) as ->.
    { unfold prune. destruct (Z.ltb_spec c' 0) as [Hn|Hn].
      - rewrite (goodb_congr (snd (get_child sp s' c b)) (snd (get_child sp s c b))); [done|]. symmetry.
        exact (cmp_eq _ _ _ _ (E3 ltac:(lia)) Ec).
      - destruct (decide (c' = 0)) as [->|]; [by destruct (loserb 0 _), (loserb 0 _)|].
        destruct (E2 ltac:(lia)) as (R1 & R2 & He').
        rewrite (loserb_congr c' _ _ R1 R2 He'); [done|].
        exact (cmp_eq _ _ _ _ (E3 ltac:(lia)) Ec). }
    f_equal. apply IH; [|done]. intros Hp.
    assert (prune c' (snd (get_child sp s c b)) = c') as -> by (destruct (prune_cases c' (snd (get_child sp s c b))); lia).
    destruct (E2 ltac:(destruct (prune_cases c' (snd (get_child sp s c b))); lia)) as (R1 & R2 & He'). split_and!; try done.
    refine (cmp_eq _ _ _ _ (E3 _) Ec). destruct (prune_cases c' (snd (get_child sp s c b))); lia.
  Qed.

  Lemma psp_ok : spec_ok psp.
  Proof.
    constructor.
    - apply Hok.
    - intros l s b Hr Hb. apply psp_reach in Hr as [Hr _]. cbn [psp get_child fst snd].
      pose proof (ok_level sp Hok l s b Hr Hb). pose proof (reach_pos _ _ _ Hr).
      destruct (prune_cases (fst (get_child sp s l b)) (snd (get_child sp s l b))); lia.
    - intros l s s' Hr Hr' He bs Hbs. apply psp_reach in Hr as [Hr Hl], Hr' as [Hr' Hl'].
      apply same_run; [|done]. intros Hp. split_and!; try done.
      assert (equal_to sp l s' s = true) as He' by (by rewrite (cg_sym _ Hcg)).
      pose proof (proj1 (loserb_false _ _) Hl _ Hr' He'). pose proof (proj1 (loserb_false _ _) Hl' _ Hr He). lia.
  Qed.

  (** ** Meaning *)
  Lemma zfinal_cheaper l : forall c s s' v s1, vec_ok (ar sp) v -> reach sp c s -> reach sp c s' ->
    equal_to sp c s' s = true -> cost s' < cost s -> zfinal_at sp l c s v = Some s1 ->
    exists s1', final_state sp s1' /\ cost s1' < cost s1.
  Proof.
    induction l as [|l IH]; intros c s s' v s1 Hv Hr Hr' He Hc Hf; cbn [zfinal_at] in Hf.
    { pose proof (reach_pos _ _ _ Hr). destruct (Z.ltb_spec c 0); [lia|done]. }
    destruct (Z.eqb_spec c (Z.of_nat (S l))) as [Ec|Ec].
    2: { destruct (v (S l) =? 0)%nat; [|done]. exact (IH c s s' v s1 Hv Hr Hr' He Hc Hf). }
    destruct (child_eq c s' s (v (S l)) Hr' Hr He (Hv _)) as (E1 & E2 & E3).
    cbn zeta in Hf. rewrite <- E1 in Hf.
    destruct (Z.ltb_spec (fst (get_child sp s' c (v (S l)))) 0) as [Hn|Hn].
    - exists (snd (get_child sp s' c (v (S l)))). split.
      { exists c, s', (v (S l)). split_and!; try done. }
      assert (s1 = snd (get_child sp s c (v (S l)))) as ->.
      { revert Hf Hn. clear. generalize (fst (get_child sp s' c (v (S l)))) as c'. generalize (snd (get_child sp s c (v (S l)))) as x.
        induction l as [|l IH]; intros x c' Hf Hn; cbn [zfinal_at] in Hf.
        - destruct (Z.ltb_spec c' 0); [|lia]. by inversion Hf.
        - destruct (Z.eqb_spec c' (Z.of_nat (S l))); [lia|]. destruct (v (S l) =? 0)%nat; [|done]. by eapply IH. }
      exact (cmp_lt _ _ _ _ (E3 ltac:(lia)) Hc).
    - destruct (decide (fst (get_child sp s' c (v (S l))) = 0)) as [E0|E0].
      { exfalso. rewrite E0 in Hf. revert Hf. clear. generalize (snd (get_child sp s c (v (S l)))) as x.
        induction l as [|l IH]; intros x Hf; cbn [zfinal_at] in Hf; [done|].
        destruct (Z.eqb_spec 0 (Z.of_nat (S l))); [lia|]. destruct (v (S l) =? 0)%nat; [|done]. by eapply IH. }
      destruct (E2 ltac:(lia)) as (R1 & R2 & He').
      eapply (IH _ _ _ v s1 Hv R2 R1 He'); [|exact Hf].
      exact (cmp_lt _ _ _ _ (E3 ltac:(lia)) Hc).
  Qed.

  Lemma bfinal_cheaper l : forall c s s' v s1, vec_ok (ar sp) v -> reach sp c s -> reach sp c s' ->
    equal_to sp c s' s = true -> cost s' < cost s -> bfinal_at sp l c s v = Some s1 ->
    exists s1', final_state sp s1' /\ cost s1' < cost s1.
  Proof.
    induction l as [|l IH]; intros c s s' v s1 Hv Hr Hr' He Hc Hf; cbn [bfinal_at] in Hf.
    { pose proof (reach_pos _ _ _ Hr). destruct (Z.ltb_spec c 0); [lia|done]. }
    destruct (Z.eqb_spec c (Z.of_nat (S l))) as [Ec|Ec]; [|exact (IH c s s' v s1 Hv Hr Hr' He Hc Hf)].
    destruct (child_eq c s' s (v (S l)) Hr' Hr He (Hv _)) as (E1 & E2 & E3).
    cbn zeta in Hf. rewrite <- E1 in Hf.
    destruct (Z.ltb_spec (fst (get_child sp s' c (v (S l)))) 0) as [Hn|Hn].
    - exists (snd (get_child sp s' c (v (S l)))). split.
      { exists c, s', (v (S l)). split_and!; try done. }
      assert (s1 = snd (get_child sp s c (v (S l)))) as ->.
      { revert Hf Hn. clear. generalize (fst (get_child sp s' c (v (S l)))) as c'. generalize (snd (get_child sp s c (v (S l)))) as x.
        induction l as [|l IH]; intros x c' Hf Hn; cbn [bfinal_at] in Hf.
        - destruct (Z.ltb_spec c' 0); [|lia]. by inversion Hf.
        - destruct (Z.eqb_spec c' (Z.of_nat (S l))); [lia|]. by eapply IH. }
      exact (cmp_lt _ _ _ _ (E3 ltac:(lia)) Hc).
    - destruct (decide (fst (get_child sp s' c (v (S l))) = 0)) as [E0|E0].
      { exfalso. rewrite E0 in Hf. revert Hf. clear. generalize (snd (get_child sp s c (v (S l)))) as x.
        induction l as [|l IH]; intros x Hf; cbn [bfinal_at] in Hf; [done|].
        destruct (Z.eqb_spec 0 (Z.of_nat (S l))); [lia|]. by eapply IH. }
      destruct (E2 ltac:(lia)) as (R1 & R2 & He').
      eapply (IH _ _ _ v s1 Hv R2 R1 He'); [|exact Hf].
      exact (cmp_lt _ _ _ _ (E3 ltac:(lia)) Hc).
  Qed.

  Definition ogood (o : option (St sp)) : bool := match o with Some s => goodb s | None => false end.

  Lemma goodb_false_cheaper s : (exists s', final_state sp s' /\ cost s' < cost s) -> goodb s = false.
  Proof. intros (s' & Hs' & Hc). destruct (goodb s) eqn:E; [|done]. pose proof (proj1 (goodb_true s) E s' Hs'). lia. Qed.

  Lemma zdd_eval_0 (q : spec) l s v : zdd_eval q l 0 s v = false.
  Proof. induction l as [|l IH]; [done|]. cbn [zdd_eval]. destruct (Z.eqb_spec 0 (Z.of_nat (S l))); [lia|]. by destruct (v (S l) =? 0)%nat. Qed.
  Lemma bdd_eval_0 (q : spec) l s v : bdd_eval q l 0 s v = false.
  Proof. induction l as [|l IH]; [done|]. cbn [bdd_eval]. destruct (Z.eqb_spec 0 (Z.of_nat (S l))); [lia|done]. Qed.

  Lemma zdd_eval_prune l : forall c s v, vec_ok (ar sp) v -> (0 < c -> reach sp c s) ->
    zdd_eval psp l (prune c s) s v = ogood (zfinal_at sp l c s v).
  Proof.
    induction l as [|l IH]; intros c s v Hv Hr.
    - cbn [zdd_eval zfinal_at]. unfold prune. destruct (Z.ltb_spec c 0).
      + cbn [ogood]. destruct (goodb s); [by apply Z.ltb_lt|done].
      + cbn [ogood]. destruct (loserb c s); [done|]. apply Z.ltb_ge. lia.
    - cbn [zfinal_at]. destruct (Z.eqb_spec c (Z.of_nat (S l))) as [Ec|Ec].
      + specialize (Hr ltac:(lia)). unfold prune at 1. destruct (Z.ltb_spec c 0); [lia|].
        destruct (loserb c s) eqn:El.
        * rewrite zdd_eval_0. symmetry. apply loserb_true in El as (s' & Hr' & He & Hc).
          destruct (zfinal_at sp l _ _ v) as [s1|] eqn:E; [|done]. apply goodb_false_cheaper.
          eapply (zfinal_cheaper (S l) c s s' v s1); try done. cbn [zfinal_at]. rewrite Ec at 1. rewrite Z.eqb_refl. done.
        * cbn [zdd_eval]. rewrite Ec at 1. rewrite Z.eqb_refl. cbn [psp get_child fst snd]. apply IH; [done|].
          intros Hp. apply reach_child; [done|apply Hv|done].
      + cbn [zdd_eval]. destruct (Z.eqb_spec (prune c s) (Z.of_nat (S l))) as [E|E].
        { destruct (prune_cases c s); lia. }
        destruct (v (S l) =? 0)%nat; [|done]. by apply IH.
  Qed.

  Lemma bdd_eval_prune l : forall c s v, vec_ok (ar sp) v -> (0 < c -> reach sp c s) ->
    bdd_eval psp l (prune c s) s v = ogood (bfinal_at sp l c s v).
  Proof.
    induction l as [|l IH]; intros c s v Hv Hr.
    - cbn [bdd_eval bfinal_at]. unfold prune. destruct (Z.ltb_spec c 0).
      + cbn [ogood]. destruct (goodb s); [by apply Z.ltb_lt|done].
      + cbn [ogood]. destruct (loserb c s); [done|]. apply Z.ltb_ge. lia.
    - cbn [bfinal_at]. destruct (Z.eqb_spec c (Z.of_nat (S l))) as [Ec|Ec].
      + specialize (Hr ltac:(lia)). unfold prune at 1. destruct (Z.ltb_spec c 0); [lia|].
        destruct (loserb c s) eqn:El.
        * rewrite bdd_eval_0. symmetry. apply loserb_true in El as (s' & Hr' & He & Hc).
          destruct (bfinal_at sp l _ _ v) as [s1|] eqn:E; [|done]. apply goodb_false_cheaper.
          eapply (bfinal_cheaper (S l) c s s' v s1); try done. cbn [bfinal_at]. rewrite Ec at 1. rewrite Z.eqb_refl. done.
        * cbn [bdd_eval]. rewrite Ec at 1. rewrite Z.eqb_refl. cbn [psp get_child fst snd]. apply IH; [done|].
          intros Hp. apply reach_child; [done|apply Hv|done].
      + cbn [bdd_eval]. destruct (Z.eqb_spec (prune c s) (Z.of_nat (S l))) as [E|E].
        { destruct (prune_cases c s); lia. }
        by apply IH.
  Qed.

  (** ** Final states are states of vectors, and conversely *)
  Lemma zfinal_final l : forall c s v s1, vec_ok (ar sp) v -> reach sp c s -> zfinal_at sp l c s v = Some s1 -> final_state sp s1.
  Proof.
    induction l as [|l IH]; intros c s v s1 Hv Hr Hf; cbn [zfinal_at] in Hf.
    { pose proof (reach_pos _ _ _ Hr). destruct (Z.ltb_spec c 0); [lia|done]. }
    destruct (Z.eqb_spec c (Z.of_nat (S l))) as [Ec|Ec].
    2: { destruct (v (S l) =? 0)%nat; [|done]. exact (IH c s v s1 Hv Hr Hf). }
    cbn zeta in Hf. destruct (Z.ltb_spec 0 (fst (get_child sp s c (v (S l))))) as [Hp|Hp].
    { eapply IH; [exact Hv| |exact Hf]. apply reach_child; [done|apply Hv|done]. }
    assert (fst (get_child sp s c (v (S l))) < 0 /\ s1 = snd (get_child sp s c (v (S l)))) as [H1 H2].
    { revert Hf Hp. clear. generalize (fst (get_child sp s c (v (S l)))) as c'. generalize (snd (get_child sp s c (v (S l)))) as x.
      induction l as [|l IH]; intros x c' Hf Hn; cbn [zfinal_at] in Hf.
      - destruct (Z.ltb_spec c' 0); [|done]. by inversion Hf.
      - destruct (Z.eqb_spec c' (Z.of_nat (S l))); [lia|]. destruct (v (S l) =? 0)%nat; [|done]. by eapply IH. }
    exists c, s, (v (S l)). split_and!; try done.
  Qed.
  Lemma bfinal_final l : forall c s v s1, vec_ok (ar sp) v -> reach sp c s -> bfinal_at sp l c s v = Some s1 -> final_state sp s1.
  Proof.
    induction l as [|l IH]; intros c s v s1 Hv Hr Hf; cbn [bfinal_at] in Hf.
    { pose proof (reach_pos _ _ _ Hr). destruct (Z.ltb_spec c 0); [lia|done]. }
    destruct (Z.eqb_spec c (Z.of_nat (S l))) as [Ec|Ec]; [|exact (IH c s v s1 Hv Hr Hf)].
    cbn zeta in Hf. destruct (Z.ltb_spec 0 (fst (get_child sp s c (v (S l))))) as [Hp|Hp].
    { eapply IH; [exact Hv| |exact Hf]. apply reach_child; [done|apply Hv|done]. }
    assert (fst (get_child sp s c (v (S l))) < 0 /\ s1 = snd (get_child sp s c (v (S l)))) as [H1 H2].
    { revert Hf Hp. clear. generalize (fst (get_child sp s c (v (S l)))) as c'. generalize (snd (get_child sp s c (v (S l)))) as x.
      induction l as [|l IH]; intros x c' Hf Hn; cbn [bfinal_at] in Hf.
      - destruct (Z.ltb_spec c' 0); [|done]. by inversion Hf.
      - destruct (Z.eqb_spec c' (Z.of_nat (S l))); [lia|]. by eapply IH. }
    exists c, s, (v (S l)). split_and!; try done.
  Qed.

  Lemma zfinal_low l : forall c s v, Z.of_nat l < c -> zfinal_at sp l c s v = None.
  Proof.
    induction l as [|l IH]; intros c s v Hc; cbn [zfinal_at].
    - destruct (Z.ltb_spec c 0); [lia|done].
    - destruct (Z.eqb_spec c (Z.of_nat (S l))); [lia|]. rewrite IH by lia. by destruct (v (S l) =? 0)%nat.
  Qed.
  Lemma bfinal_low l : forall c s v, Z.of_nat l < c -> bfinal_at sp l c s v = None.
  Proof.
    induction l as [|l IH]; intros c s v Hc; cbn [bfinal_at].
    - destruct (Z.ltb_spec c 0); [lia|done].
    - destruct (Z.eqb_spec c (Z.of_nat (S l))); [lia|]. apply IH. lia.
  Qed.

  (** levels that are not tested *)
  Lemma final_skip k : forall l c s v, (k <= l)%nat -> c <= Z.of_nat k -> (forall j, (k < j <= l)%nat -> v j = 0%nat) ->
    zfinal_at sp l c s v = zfinal_at sp k c s v /\ bfinal_at sp l c s v = bfinal_at sp k c s v.
  Proof.
    induction l as [|l IH]; intros c s v Hk Hc Hv.
    - assert (k = 0%nat) as -> by lia. done.
    - destruct (decide (k = S l)) as [->|Hne]; [done|]. cbn [zfinal_at bfinal_at].
      destruct (Z.eqb_spec c (Z.of_nat (S l))); [lia|]. rewrite (Hv (S l)) by lia. cbn [Nat.eqb].
      apply IH; [lia|done|]. intros j Hj. apply Hv. lia.
  Qed.
  Lemma final_ext l : forall c s v v', (forall j, (j <= l)%nat -> v j = v' j) ->
    zfinal_at sp l c s v = zfinal_at sp l c s v' /\ bfinal_at sp l c s v = bfinal_at sp l c s v'.
  Proof.
    induction l as [|l IH]; intros c s v v' H; [done|]. cbn [zfinal_at bfinal_at]. rewrite (H (S l)) by lia.
    destruct (c =? Z.of_nat (S l)).
    - cbn zeta. apply IH. intros j Hj. apply H. lia.
    - destruct (IH c s v v') as [-> ->]; [intros j Hj; apply H; lia|]. done.
  Qed.

  (** a reachable state is reached by some vector *)
  Lemma reach_vec l s : reach sp l s -> l <= fst (get_root sp) /\ exists v0, vec_ok (ar sp) v0 /\
    forall n v, fst (get_root sp) <= Z.of_nat n ->
      zfinal sp n (fun k => if (k <=? Z.to_nat l)%nat then v k else v0 k) = zfinal_at sp (Z.to_nat l) l s v /\
      bfinal sp n (fun k => if (k <=? Z.to_nat l)%nat then v k else v0 k) = bfinal_at sp (Z.to_nat l) l s v.
  Proof.
    pose proof (ok_arity sp Hok) as Ha.
    induction 1 as [H|l s b Hr (Hle & v0 & Hv0 & IH) Hb Hp].
    - split; [done|]. exists (fun _ => 0%nat). split; [intros k; lia|]. intros n v Hn. unfold zfinal, bfinal.
      set (r := fst (get_root sp)) in *. set (v' := fun k => _).
      destruct (final_skip (Z.to_nat r) n r (snd (get_root sp)) v') as [-> ->]; [lia|lia| |].
      { intros j Hj. unfold v'. destruct (Nat.leb_spec j (Z.to_nat r)); [lia|done]. }
      apply final_ext. intros j Hj. unfold v'. by destruct (Nat.leb_spec j (Z.to_nat r)); [|lia].
    - pose proof (ok_level sp Hok l s b Hr Hb) as Hlt. split; [lia|].
      set (c' := fst (get_child sp s l b)) in *. set (s' := snd (get_child sp s l b)) in *.
      exists (fun k => if (k <? Z.to_nat l)%nat then 0%nat else if (k =? Z.to_nat l)%nat then b else v0 k). split.
      { intros k. destruct (k <? Z.to_nat l)%nat; [lia|]. destruct (k =? Z.to_nat l)%nat; [done|apply Hv0]. }
      intros n v Hn.
      set (v1 := fun k => if (k <=? Z.to_nat c')%nat then v k else if (k =? Z.to_nat l)%nat then b else 0%nat).
      destruct (IH n v1 Hn) as [IH1 IH2]. set (w := fun k => _).
      destruct (final_ext n (fst (get_root sp)) (snd (get_root sp)) w
        (fun k => if (k <=? Z.to_nat l)%nat then v1 k else v0 k)) as [E1 E2].
      { intros j _. unfold w, v1. destruct (Nat.leb_spec j (Z.to_nat c')), (Nat.leb_spec j (Z.to_nat l)),
          (Nat.ltb_spec j (Z.to_nat l)), (Nat.eqb_spec j (Z.to_nat l)); try lia; done. }
      unfold zfinal, bfinal in *. rewrite E1, E2, IH1, IH2.
      destruct (Z.to_nat l) as [|l'] eqn:El; [lia|]. cbn [zfinal_at bfinal_at].
      destruct (Z.eqb_spec l (Z.of_nat (S l'))) as [_|]; [|lia].
      assert (v1 (S l') = b) as ->.
      { unfold v1. destruct (Nat.leb_spec (S l') (Z.to_nat c')); [lia|]. by rewrite Nat.eqb_refl. }
      cbn zeta. fold c' s'.
      destruct (final_skip (Z.to_nat c') l' c' s' v1) as [-> ->]; [lia|lia| |].
      { intros j Hj. unfold v1. destruct (Nat.leb_spec j (Z.to_nat c')); [lia|]. destruct (Nat.eqb_spec j (S l')); [lia|done]. }
      apply final_ext. intros j Hj. unfold v1. by destruct (Nat.leb_spec j (Z.to_nat c')); [|lia].
  Qed.

  Lemma final_neg l : forall c s v, c < 0 -> (forall j, (j <= l)%nat -> v j = 0%nat) ->
    zfinal_at sp l c s v = Some s /\ bfinal_at sp l c s v = Some s.
  Proof.
    induction l as [|l IH]; intros c s v Hc Hv; cbn [zfinal_at bfinal_at].
    - by destruct (Z.ltb_spec c 0); [|lia].
    - destruct (Z.eqb_spec c (Z.of_nat (S l))); [lia|]. rewrite (Hv (S l)) by lia. cbn [Nat.eqb].
      apply IH; [done|]. intros j Hj. apply Hv. lia.
  Qed.

  Lemma final_vec s1 : final_state sp s1 -> exists v, vec_ok (ar sp) v /\
    forall n, fst (get_root sp) <= Z.of_nat n -> zfinal sp n v = Some s1 /\ bfinal sp n v = Some s1.
  Proof.
    intros (l & s & b & Hr & Hb & Hc & ->). destruct (reach_vec l s Hr) as (Hle & v0 & Hv0 & H).
    pose proof (reach_pos _ _ _ Hr) as Hl.
    pose (v := fun k => if (k =? Z.to_nat l)%nat then b else 0%nat).
    exists (fun k => if (k <=? Z.to_nat l)%nat then v k else v0 k). split.
    { intros k. pose proof (ok_arity sp Hok). destruct (k <=? Z.to_nat l)%nat; [|apply Hv0]. unfold v.
      destruct (k =? Z.to_nat l)%nat; [done|lia]. }
    intros n Hn. destruct (H n v Hn) as [-> ->]. destruct (Z.to_nat l) as [|l'] eqn:El; [lia|].
    cbn [zfinal_at bfinal_at]. destruct (Z.eqb_spec l (Z.of_nat (S l'))) as [_|]; [|lia].
    assert (v (S l') = b) as -> by (unfold v; by rewrite Nat.eqb_refl). cbn zeta.
    apply final_neg; [done|]. intros j Hj. unfold v. destruct (Nat.eqb_spec j (S l')); [lia|done].
  Qed.

  (** ** The pruned specification keeps the cheapest vectors *)
  Lemma zdd_sem_psp n v : 0 < fst (get_root sp) -> vec_ok (ar sp) v -> zdd_sem psp n v = ogood (zfinal sp n v).
  Proof.
    intros Hp Hv. unfold zdd_sem, zfinal. cbn [psp get_root].
    rewrite <- (zdd_eval_prune n (fst (get_root sp)) (snd (get_root sp)) v Hv); [|intros; by apply reach_root].
    unfold prune. destruct (Z.ltb_spec (fst (get_root sp)) 0); [lia|]. by rewrite root_winner.
  Qed.
  Lemma bdd_sem_psp n v : 0 < fst (get_root sp) -> vec_ok (ar sp) v -> bdd_sem psp n v = ogood (bfinal sp n v).
  Proof.
    intros Hp Hv. unfold bdd_sem, bfinal. cbn [psp get_root].
    rewrite <- (bdd_eval_prune n (fst (get_root sp)) (snd (get_root sp)) v Hv); [|intros; by apply reach_root].
    unfold prune. destruct (Z.ltb_spec (fst (get_root sp)) 0); [lia|]. by rewrite root_winner.
  Qed.

  Lemma cheapest_z n v : 0 < fst (get_root sp) -> vec_ok (ar sp) v ->
    ogood (zfinal sp n v) = true <-> cheapest (zfinal sp n) (ar sp) cost v.
  Proof.
    intros Hp Hv. unfold cheapest. split.
    - intros H. destruct (zfinal sp n v) as [s|] eqn:E; [|done]. cbn [ogood] in H. exists s. split; [done|].
      intros v' s' Hv' E'. apply (proj1 (goodb_true s) H).
      eapply (zfinal_final n (fst (get_root sp))); [exact Hv'|by apply reach_root|exact E'].
    - intros (s & E & H). rewrite E. cbn [ogood]. apply goodb_true. intros s' Hs'.
      destruct (final_vec s' Hs') as (v' & Hv' & E'). destruct (Z.leb_spec (fst (get_root sp)) (Z.of_nat n)) as [Hn|Hn].
      + destruct (E' n Hn) as [E1 _]. by apply (H v').
      + unfold zfinal in E. rewrite zfinal_low in E by lia. done.
  Qed.
  Lemma cheapest_b n v : 0 < fst (get_root sp) -> vec_ok (ar sp) v ->
    ogood (bfinal sp n v) = true <-> cheapest (bfinal sp n) (ar sp) cost v.
  Proof.
    intros Hp Hv. unfold cheapest. split.
    - intros H. destruct (bfinal sp n v) as [s|] eqn:E; [|done]. cbn [ogood] in H. exists s. split; [done|].
      intros v' s' Hv' E'. apply (proj1 (goodb_true s) H).
      eapply (bfinal_final n (fst (get_root sp))); [exact Hv'|by apply reach_root|exact E'].
    - intros (s & E & H). rewrite E. cbn [ogood]. apply goodb_true. intros s' Hs'.
      destruct (final_vec s' Hs') as (v' & Hv' & E'). destruct (Z.leb_spec (fst (get_root sp)) (Z.of_nat n)) as [Hn|Hn].
      + destruct (E' n Hn) as [_ E1]. by apply (H v').
      + unfold bfinal in E. rewrite bfinal_low in E by lia. done.
  Qed.

  (** ** Trees *)
  Definition ptr (l : Z) (s : St sp) : tree := if loserb l s then T0 else nz (stree psp l s).
  Definition gtree (s : St sp) : tree := if goodb s then T1 else T0.
  Definition pctree (l : Z) (s : St sp) (b : nat) : tree :=
    let r := get_child sp s l b in
    if fst r =? 0 then T0 else if fst r <? 0 then gtree (snd r) else ptr (fst r) (snd r).

  Lemma ptr_node l s : reach sp l s -> ptr l s = nzN (Z.to_nat l) (map (pctree l s) (seq 0 (ar sp))).
  Proof.
    intros Hr. pose proof (reach_pos _ _ _ Hr) as Hl. unfold ptr. destruct (loserb l s) eqn:El.
    - unfold nzN. replace (all0 _) with true; [done|]. symmetry. apply all0_true. intros b.
      destruct (decide (b < ar sp)%nat) as [Hb|Hb].
      2: { apply nth_overflow. rewrite map_length, seq_length. lia. }
      rewrite (nth_indep _ T0 (pctree l s 0)) by (by rewrite map_length, seq_length).
      rewrite map_nth, seq_nth by done. cbn [Nat.add]. unfold pctree. cbn zeta.
      apply loserb_true in El as (s' & Hr' & He & Hc).
      destruct (child_eq l s' s b Hr' Hr He Hb) as (E1 & E2 & E3).
      destruct (Z.eqb_spec (fst (get_child sp s l b)) 0); [done|].
      pose proof (cmp_lt _ _ _ _ (E3 ltac:(lia)) Hc) as Hc'.
      destruct (Z.ltb_spec (fst (get_child sp s l b)) 0).
      + unfold gtree. rewrite goodb_false_cheaper; [done|]. exists (snd (get_child sp s' l b)). split; [|done].
        exists l, s', b. split_and!; try done. lia.
      + unfold ptr. replace (loserb _ _) with true; [done|]. symmetry. apply loserb_true.
        exists (snd (get_child sp s' l b)). rewrite E1 in E2. destruct (E2 ltac:(lia)) as (? & ? & ?). done.
    - rewrite (stree_node psp psp_ok) by (first [done|by apply reach_psp]). cbn [nz]. f_equal.
      cbn [psp ar]. rewrite map_map. apply map_ext_in. intros b Hb. apply in_seq in Hb.
      cbn [psp get_child fst snd]. unfold pctree, prune. cbn zeta.
      destruct (Z.eqb_spec (fst (get_child sp s l b)) 0) as [->|].
      { cbn. by destruct (loserb 0 _). }
      destruct (Z.ltb_spec (fst (get_child sp s l b)) 0).
      + unfold gtree. destruct (goodb _); [|done]. rewrite stree_neg by done. done.
      + unfold ptr. by destruct (loserb (fst (get_child sp s l b)) (snd (get_child sp s l b))).
  Qed.

  Lemma ptr_eq l s s' : reach sp l s -> reach sp l s' -> equal_to sp l s s' = true -> cost s = cost s' -> ptr l s = ptr l s'.
  Proof.
    intros Hr Hr' He Ec. unfold ptr. rewrite <- (loserb_congr l s s' Hr Hr' He Ec). destruct (loserb l s) eqn:El; [done|].
    f_equal. apply (equal_tree psp psp_ok); [by apply reach_psp| |done]. apply reach_psp; [done|].
    by rewrite <- (loserb_congr l s s' Hr Hr' He Ec).
  Qed.

  Lemma ptr_loser l s s' : reach sp l s' -> equal_to sp l s' s = true -> cost s' < cost s -> ptr l s = T0.
  Proof. intros Hr He Hc. unfold ptr. replace (loserb l s) with true; [done|]. symmetry. apply loserb_true. by exists s'. Qed.

  Lemma gtree_eq s s' : cost s = cost s' -> gtree s = gtree s'.
  Proof. intros E. unfold gtree. by rewrite (goodb_congr s s'). Qed.
  Lemma gtree_cheaper s s' : final_state sp s' -> cost s' < cost s -> gtree s = T0.
  Proof. intros H E. unfold gtree. rewrite goodb_false_cheaper; [done|]. by exists s'. Qed.

  Lemma min_final s : final_state sp s -> exists s', final_state sp s' /\ goodb s' = true.
  Proof.
    intros Hs.
    assert (forall L : list (St sp), L <> [] -> exists x, x ∈ L /\ forall y, y ∈ L -> cost x <= cost y) as Hmin.
    { clear. induction L as [|x L IH]; intros Hne; [done|]. destruct L as [|y L].
      - exists x. split; [left|]. intros y Hy. apply elem_of_list_singleton in Hy as ->. lia.
      - destruct IH as (z & Hz & H); [done|]. destruct (Z.leb_spec (cost x) (cost z)).
        + exists x. split; [left|]. intros u Hu. apply elem_of_cons in Hu as [->|Hu]; [lia|]. specialize (H u Hu). lia.
        + exists z. split; [by right|]. intros u Hu. apply elem_of_cons in Hu as [->|Hu]; [lia|]. by apply H. }
    destruct (Hmin all_finals) as (x & Hx & H).
    { intros E. apply all_finals_final in Hs. rewrite E in Hs. by apply elem_of_nil in Hs. }
    exists x. split; [by apply all_finals_final|]. apply goodb_true. intros s' Hs'. by apply H, all_finals_final.
  Qed.

  (** an accepting specification keeps something *)
  Lemma ptr_root s : 0 < fst (get_root sp) -> final_state sp s -> ptr (fst (get_root sp)) (snd (get_root sp)) <> T0.
  Proof.
    intros Hp Hs E. destruct (min_final s Hs) as (s' & Hs' & Hg). destruct (final_vec s' Hs') as (v & Hv & H).
    destruct (H (Z.to_nat (fst (get_root sp))) ltac:(lia)) as [Hz _].
    pose proof (zdd_sem_psp (Z.to_nat (fst (get_root sp))) v Hp Hv) as HS. rewrite Hz in HS. cbn [ogood] in HS.
    rewrite Hg in HS. rewrite (zdd_sem_tree psp psp_ok) in HS by done. rewrite <- tzdd_nz in HS.
    unfold ptr in E. rewrite root_winner in E by done. change (nz (root_tree psp)) with (nz (stree psp (fst (get_root sp)) (snd (get_root sp)))) in HS. rewrite E in HS.
    by rewrite tzdd_T0 in HS.
  Qed.
End prune.
