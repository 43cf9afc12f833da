(** LinearConstraints::getChild follows the sums of the kept constraints. *)
From stdpp Require Import sorting.
From Verif Require Import Base Sem M_Size M_Linear S_Spec P_Size P_Linear P_Linear2.
Local Open Scope nat_scope.

Section child.
Context (n : nat) (K : list lcon) (L : lin) (M : nat -> nat).
Hypothesis HK : Forall (fun c => lin_wf n c /\ ce c <> []) K.
Hypothesis Hlist : forall l, 1 <= l <= n -> checklists L !! l = Some (map (relab M) (items 0 K l)).
Hypothesis Hrange : forall l i, 1 <= l <= n -> spans K l i -> M i < arraySize L.
Hypothesis Hdist : forall l i j, 1 <= l <= n -> spans K l i -> spans K l j -> M i = M j -> i = j.
Hypothesis Hn : lin_n L = n.

(** the array value stands for the partial sum as far as the rest of the constraint can tell *)
Definition eqv (v : vec) (c : lcon) (t : nat) (x : Z) : Prop :=
  forall u, (snd (fst c) <= x + lin_value u (below t (ce c)) <= snd c <->
             snd (fst c) <= lin_value v (above t (ce c)) + lin_value u (below t (ce c)) <= snd c)%Z.
Definition alive (t : nat) (c : lcon) : Prop := has_above t c /\ has_below t c.

(** th i: the keys >= th i of constraint i have been processed *)
Record sound (v : vec) (th : nat -> nat) (value : list Z) : Prop := {
  so_len : length value = arraySize L;
  so_val : forall i c, K !! i = Some c -> alive (th i) c -> exists x, value !! M i = Some x /\ eqv v c (th i) x;
  so_zero : forall k, k < arraySize L -> (forall i c, K !! i = Some c -> alive (th i) c -> M i <> k) -> value !! k = Some 0%Z;
  so_done : forall i c, K !! i = Some c -> ~ has_below (th i) c -> lin_sat v c
}.

Lemma above_cons l k w e : above l ((k, w) :: e) = if l <=? k then (k, w) :: above l e else above l e.
Proof.
  unfold above. destruct (Nat.leb_spec l k).
  - by rewrite filter_cons_True.
  - rewrite filter_cons_False; [done|simpl; lia].
Qed.
Lemma below_cons l k w e : below l ((k, w) :: e) = if k <? l then (k, w) :: below l e else below l e.
Proof.
  unfold below. destruct (Nat.ltb_spec k l).
  - by rewrite filter_cons_True.
  - rewrite filter_cons_False; [done|simpl; lia].
Qed.
Lemma at_cons l k w e : at_ l ((k, w) :: e) = if k =? l then (k, w) :: at_ l e else at_ l e.
Proof.
  unfold at_. destruct (Nat.eqb_spec k l).
  - by rewrite filter_cons_True.
  - rewrite filter_cons_False; [done|simpl; lia].
Qed.
Lemma value_split v t e : lin_value v e = (lin_value v (above t e) + lin_value v (below t e))%Z.
Proof.
  induction e as [|[k w] e IH]; [done|]. rewrite above_cons, below_cons. cbn [lin_value].
  destruct (Nat.leb_spec t k), (Nat.ltb_spec k t); cbn [lin_value]; lia.
Qed.
Lemma above_S v l e :
  lin_value v (above l e) = (lin_value v (at_ l e) + lin_value v (above (S l) e))%Z /\
  lin_value v (below (S l) e) = (lin_value v (at_ l e) + lin_value v (below l e))%Z.
Proof.
  induction e as [|[k w] e [IH1 IH2]]; [done|]. rewrite !above_cons, !below_cons, !at_cons.
  destruct (Nat.leb_spec l k), (Nat.leb_spec (S l) k), (Nat.ltb_spec k l), (Nat.ltb_spec k (S l)), (Nat.eqb_spec k l);
    cbn [lin_value]; lia.
Qed.
Lemma at_none l e : at_ l e = [] -> above l e = above (S l) e /\ below l e = below (S l) e.
Proof.
  induction e as [|[k w] e IH]; [done|]. rewrite !above_cons, !below_cons, !at_cons.
  destruct (Nat.eqb_spec k l); [done|]. intros H. destruct (IH H) as [-> ->].
  destruct (Nat.leb_spec l k), (Nat.leb_spec (S l) k), (Nat.ltb_spec k l), (Nat.ltb_spec k (S l)); try lia; done.
Qed.
Lemma below_upd (u : vec) l x e : lin_value (fun k => if k =? l then x else u k) (below l e) = lin_value u (below l e).
Proof.
  induction e as [|[k w] e IH]; [done|]. unfold below in *. destruct (decide (k < l)).
  - rewrite filter_cons_True by done. cbn [lin_value]. rewrite IH. destruct (Nat.eqb_spec k l); [lia|done].
  - by rewrite filter_cons_False.
Qed.
Lemma above_none t c : ~ has_above t c -> above t (ce c) = [].
Proof.
  intros H. destruct (above t (ce c)) as [|kw r] eqn:E; [done|]. exfalso. apply H. exists kw.
  assert (kw ∈ above t (ce c)) as Hin by (rewrite E; left). unfold above in Hin. by apply elem_of_list_filter in Hin as [].
Qed.
Lemma below_none t c : ~ has_below t c <-> below t (ce c) = [].
Proof.
  split.
  - intros H. destruct (below t (ce c)) as [|kw r] eqn:E; [done|]. exfalso. apply H. exists kw.
    assert (kw ∈ below t (ce c)) as Hin by (rewrite E; left). unfold below in Hin. by apply elem_of_list_filter in Hin as [].
  - intros E (kw & H1 & H2). assert (kw ∈ below t (ce c)) as Hin by (unfold below; by apply elem_of_list_filter).
    rewrite E in Hin. by apply elem_of_nil in Hin.
Qed.

Lemma Kwf i c : K !! i = Some c -> StronglySorted (fun a b : nat * Z => fst a < fst b) (ce c) /\
  Forall (fun kw => 1 <= fst kw <= n) (ce c) /\ ce c <> [].
Proof.
  intros Hc. apply elem_of_list_lookup_2 in Hc. rewrite Forall_forall in HK. destruct (HK c Hc) as [[H1 H2] H3]. done.
Qed.

(** one item of the checklist *)
Lemma item_step v l th value i c w :
  1 <= l <= n -> sound v th value -> (forall j, th j = l \/ th j = S l) -> th i = S l ->
  K !! i = Some c -> at_ l (ce c) = [(l, w)] ->
  let th' := fun j => if j =? i then l else th j in
  exists x, value !! M i = Some x /\
  let x1 := if negb (v l =? 0) then (x + w)%Z else x in
  let mn := fst (bnd (below l (ce c))) in let mx := snd (bnd (below l (ce c))) in
  let lb := snd (fst c) in let ub := snd c in
  if ((x1 + mx <? lb)%Z || (ub <? x1 + mn)%Z) then ~ lin_sat v c
  else sound v th' (<[M i := if bool_decide (below l (ce c) = []) then 0%Z
                     else if ((lb <=? x1 + mn)%Z && (x1 + mx <=? ub)%Z) then (lb - mn)%Z else x1]> value).
Proof.
  intros Hl HS Hth Hthi Hc Hat th'. destruct (Kwf i c Hc) as (Hs & Hr & _).
  assert (Hatl : has_at l c).
  { exists (l, w). split; [|done]. assert ((l, w) ∈ at_ l (ce c)) as H by (rewrite Hat; left).
    unfold at_ in H. by apply elem_of_list_filter in H as []. }
  assert (Hbel : has_below (S l) c). { destruct Hatl as (kw & H1 & H2). exists kw. split; [done|lia]. }
  assert (Hspi : spans K l i).
  { exists c. split_and!; [done|done|]. apply has_above_split. by left. }
  assert (Hspj : forall j c', K !! j = Some c' -> (alive (th j) c' \/ alive (th' j) c') -> spans K l j).
  { intros j c' Hc' Ha. exists c'. split; [done|]. unfold th' in Ha.
    assert (exists t, (t = l \/ t = S l) /\ alive t c') as (t & Ht & (k1 & H1 & H2) & (k2 & H3 & H4)).
    { destruct Ha as [Ha|Ha]; [by exists (th j)|]. destruct (j =? i); [exists l; tauto|by exists (th j)]. }
    split; [exists k2|exists k1]; (split; [done|lia]). }
  assert (exists x, value !! M i = Some x /\ eqv v c (S l) x) as (x & Hx & He).
  { destruct (above (S l) (ce c)) as [|kw r] eqn:Ea.
    - exists 0%Z. split.
      + apply HS; [by apply Hrange with l|]. intros j c' Hc' Ha E.
        assert (j = i) as -> by (eapply (Hdist l); [done|by eapply Hspj; [|left]|done|done]).
        assert (c' = c) as -> by congruence. rewrite Hthi in Ha. destruct Ha as [(kw & H1 & H2) _].
        assert (kw ∈ above (S l) (ce c)) as Hin by (unfold above; by apply elem_of_list_filter).
        rewrite Ea in Hin. by apply elem_of_nil in Hin.
      + intros u. rewrite Ea. cbn [lin_value]. lia.
    - destruct (so_val _ _ _ HS i c Hc) as (x & Hx & He).
      + rewrite Hthi. split; [|done]. exists kw. assert (kw ∈ above (S l) (ce c)) as Hin by (rewrite Ea; left).
        unfold above in Hin. by apply elem_of_list_filter in Hin as [].
      + exists x. by rewrite Hthi in He. }
  exists x. split; [done|]. cbn zeta. set (x1 := if negb (v l =? 0) then (x + w)%Z else x).
  assert (He1 : eqv v c l x1).
  { intros u. specialize (He (fun k => if k =? l then v l else u k)).
    destruct (above_S v l (ce c)) as [-> _].
    destruct (above_S (fun k => if k =? l then v l else u k) l (ce c)) as [_ E2]. rewrite E2, below_upd in He.
    rewrite Hat in *. cbn [lin_value] in *. rewrite Nat.eqb_refl in He. unfold x1.
    destruct (v l =? 0); cbn [negb]; lia. }
  set (bl := below l (ce c)) in *. set (lb := snd (fst c)) in *. set (ub := snd c) in *.
  assert (Hsat : lin_sat v c <-> (lb <= x1 + lin_value v bl <= ub)%Z).
  { unfold lin_sat. fold lb ub. rewrite (value_split v l (ce c)). fold bl. symmetry. apply He1. }
  pose proof (bnd_range v bl) as Hbv.
  destruct ((x1 + snd (bnd bl) <? lb)%Z || (ub <? x1 + fst (bnd bl))%Z) eqn:E1.
  { rewrite orb_true_iff, !Z.ltb_lt in E1. rewrite Hsat. lia. }
  rewrite orb_false_iff, !Z.ltb_ge in E1.
  set (x2 := if ((lb <=? x1 + fst (bnd bl))%Z && (x1 + snd (bnd bl) <=? ub)%Z) then (lb - fst (bnd bl))%Z else x1).
  assert (He2 : eqv v c l x2).
  { unfold x2. destruct ((lb <=? x1 + fst (bnd bl))%Z && (x1 + snd (bnd bl) <=? ub)%Z) eqn:E2; [|done].
    rewrite andb_true_iff, !Z.leb_le in E2. intros u. fold lb ub bl. pose proof (bnd_range u bl) as Hbu.
    specialize (He1 u). fold lb ub bl in He1. lia. }
  assert (HMi : M i < length value) by (by eapply lookup_lt_Some).
  assert (Hoth : forall j c', j <> i -> K !! j = Some c' -> alive (th j) c' -> M j <> M i).
  { intros j c' NE Hc' Ha E. apply NE. eapply (Hdist l); [done|by eapply Hspj; [|left]|done|done]. }
  constructor.
  - rewrite insert_length. apply HS.
  - intros j c' Hc' Ha. unfold th' in Ha |- *. destruct (Nat.eqb_spec j i) as [->|NE].
    + assert (c' = c) as -> by congruence. destruct Ha as [_ Hb]. rewrite list_lookup_insert by done.
      rewrite bool_decide_eq_false_2; [by exists x2|]. intros E. fold bl in Hb. by apply below_none in E.
    + rewrite list_lookup_insert_ne by (intros E; by eapply (Hoth j c' NE)). by apply HS.
  - intros k Hk Hno. destruct (decide (k = M i)) as [->|NE].
    + rewrite list_lookup_insert by done. f_equal. destruct (decide (bl = [])) as [E|NE].
      { by rewrite bool_decide_eq_true_2. }
      exfalso. apply (Hno i c Hc); [|done]. unfold th'. rewrite Nat.eqb_refl. split.
      * apply has_above_split. by left.
      * destruct bl as [|kw r] eqn:E; [done|]. exists kw. assert (kw ∈ below l (ce c)) as Hin by (subst bl; rewrite E; left).
        unfold below in Hin. by apply elem_of_list_filter in Hin as [].
    + rewrite list_lookup_insert_ne by done. apply HS; [done|]. intros j c' Hc' Ha E.
      destruct (decide (j = i)) as [->|NE']; [done|]. apply (Hno j c' Hc'); [|done]. unfold th'.
      by destruct (Nat.eqb_spec j i).
  - intros j c' Hc' Hb. unfold th' in Hb. destruct (Nat.eqb_spec j i) as [->|NE].
    + assert (c' = c) as -> by congruence. apply below_none in Hb. fold bl in Hb. apply Hsat.
      rewrite Hb in *. unfold bnd in E1. cbn [foldl fst snd lin_value] in *. lia.
    + by eapply HS.
Qed.

Lemma item_of_single i c l w : at_ l (ce c) = [(l, w)] ->
  item_of i c (ce c) l = [CheckItem i w (fst (bnd (below l (ce c)))) (snd (bnd (below l (ce c)))) (snd (fst c)) (snd c)
     (bool_decide (below l (ce c) = []))].
Proof. unfold item_of. by intros ->. Qed.

Lemma relab_eq i w a b c d f : relab M (CheckItem i w a b c d f) = CheckItem (M i) w a b c d f.
Proof. done. Qed.

(** the whole checklist of a level, from constraint j on *)
Lemma items_run v l : 1 <= l <= n ->
  forall K2 K1 value, K = K1 ++ K2 ->
  sound v (fun j => if j <? length K1 then l else S l) value ->
  exists ok value', lin_items (map (relab M) (items (length K1) K2 l)) value (negb (v l =? 0)) = Some (ok, value') /\
    if ok : bool then sound v (fun _ => l) value' else ~ Forall (lin_sat v) K.
Proof.
  intros Hl. induction K2 as [|c K2 IH]; intros K1 value HKe HS.
  - exists true, value. split; [done|]. rewrite app_nil_r in HKe. destruct HS as [S1 S2 S3 S4].
    assert (Hth : forall i c, K !! i = Some c -> (if i <? length K1 then l else S l) = l).
    { intros i c Hc. apply lookup_lt_Some in Hc. rewrite HKe in Hc. destruct (Nat.ltb_spec i (length K1)); [done|lia]. }
    constructor; [done| | |].
    + intros i c Hc Ha. specialize (S2 i c Hc). rewrite (Hth i c Hc) in S2. by apply S2.
    + intros k Hk Hno. apply S3; [done|]. intros i c Hc Ha. rewrite (Hth i c Hc) in Ha. by eapply Hno.
    + intros i c Hc Hb. specialize (S4 i c Hc). rewrite (Hth i c Hc) in S4. by apply S4.
  - assert (Hc : K !! length K1 = Some c). { rewrite HKe. by rewrite lookup_app_r, Nat.sub_diag by lia. }
    destruct (Kwf _ _ Hc) as (Hs & Hr & _).
    assert (HKe' : K = (K1 ++ [c]) ++ K2) by (by rewrite <- app_assoc).
    specialize (IH (K1 ++ [c])). rewrite app_length in IH. cbn [length] in IH. rewrite Nat.add_1_r in IH.
    cbn [items]. rewrite map_app.
    destruct (at_single l (ce c) Hs) as [Hat|[w Hat]].
    + (* the constraint has no key l: nothing happens *)
      unfold item_of. rewrite Hat. cbn [map app]. apply (IH value HKe'). destruct HS as [S1 S2 S3 S4].
      destruct (at_none l (ce c) Hat) as [Ea Eb].
      assert (Hal : alive l c <-> alive (S l) c).
      { unfold alive. rewrite has_above_split. split.
        - intros [[(kw & H1 & H2)|Ha] (kw' & H3 & H4)].
          + exfalso. assert (kw ∈ at_ l (ce c)) as H by (unfold at_; by apply elem_of_list_filter).
            rewrite Hat in H. by apply elem_of_nil in H.
          + split; [done|]. exists kw'. split; [done|lia].
        - intros [Ha Hb]. split; [by right|]. destruct (decide (below l (ce c) = [])) as [E|NE].
          + rewrite Eb in E. by apply below_none in E.
          + destruct (below l (ce c)) as [|kw r] eqn:E; [done|]. exists kw.
            assert (kw ∈ below l (ce c)) as Hin by (rewrite E; left). unfold below in Hin. by apply elem_of_list_filter in Hin as []. }
      assert (Hth : forall j, j <> length K1 -> (if j <? S (length K1) then l else S l) = if j <? length K1 then l else S l).
      { intros j NE. destruct (Nat.ltb_spec j (length K1)), (Nat.ltb_spec j (S (length K1))); [done|lia|lia|done]. }
      assert (Hthc : (if length K1 <? S (length K1) then l else S l) = l) by (destruct (Nat.ltb_spec (length K1) (S (length K1))); [done|lia]).
      assert (Hthd : (if length K1 <? length K1 then l else S l) = S l) by (by rewrite Nat.ltb_irrefl).
      constructor; [done| | |].
      * intros j c' Hc' Ha. destruct (decide (j = length K1)) as [->|NE].
        -- assert (c' = c) as -> by congruence. rewrite Hthc in Ha |- *. specialize (S2 _ _ Hc'). rewrite Hthd in S2.
           destruct S2 as (x & Hx & He); [by apply Hal|]. exists x. split; [done|]. unfold eqv in *. by rewrite Ea, Eb.
        -- rewrite Hth in Ha |- * by done. by apply S2.
      * intros k Hk Hno. apply S3; [done|]. intros j c' Hc' Ha. apply (Hno j c' Hc').
        destruct (decide (j = length K1)) as [->|NE].
        -- assert (c' = c) as -> by congruence. rewrite Hthc. rewrite Hthd in Ha. by apply Hal.
        -- by rewrite Hth.
      * intros j c' Hc' Hb. apply (S4 j c' Hc'). destruct (decide (j = length K1)) as [->|NE].
        -- assert (c' = c) as -> by congruence. rewrite Hthc in Hb. rewrite Hthd. apply below_none. rewrite <- Eb. by apply below_none.
        -- by rewrite <- Hth.
    + rewrite (item_of_single _ _ _ _ Hat). cbn [map app]. rewrite relab_eq.
      destruct (item_step v l _ value (length K1) c w Hl HS) as (x & Hx & Hstep); [| |done|done|].
      { intros j. destruct (j <? length K1); tauto. }
      { by rewrite Nat.ltb_irrefl. }
      cbn [lin_items ci_index ci_weight ci_addMin ci_addMax ci_lb ci_ub ci_final]. rewrite Hx. cbn [mbind option_bind].
      cbn zeta in Hstep. destruct (_ || _) eqn:E1.
      * eexists false, _. split; [reflexivity|]. intros HF. apply Hstep. rewrite Forall_forall in HF. apply HF.
        by eapply elem_of_list_lookup_2.
      * apply (IH _ HKe'). destruct Hstep as [S1 S2 S3 S4].
        assert (Hth : forall j, (if j =? length K1 then l else if j <? length K1 then l else S l) = if j <? S (length K1) then l else S l).
        { intros j. destruct (Nat.eqb_spec j (length K1)), (Nat.ltb_spec j (length K1)), (Nat.ltb_spec j (S (length K1))); try done; lia. }
        constructor; [done| | |].
        -- intros j c'. rewrite <- Hth. apply S2.
        -- intros k Hk Hno. apply S3; [done|]. intros j c'. rewrite Hth. apply Hno.
        -- intros j c'. rewrite <- Hth. apply S4.
Qed.

Lemma level_run v l value : 1 <= l <= n -> sound v (fun _ => S l) value ->
  exists ok value', lin_child L value l (negb ((v l) =? 0)%nat) = Some (if ok : bool then (if 1 <=? Z.of_nat l - 1 then Z.of_nat l - 1 else -1)%Z else 0%Z, value') /\
    if ok then sound v (fun _ => l) value' else ~ Forall (lin_sat v) K.
Proof.
  intros Hl HS. destruct (items_run v l Hl K [] value) as (ok & value' & Hrun & HP); [done|done|].
  exists ok, value'. split; [|done]. unfold lin_child. rewrite Hlist by done. cbn [mbind option_bind].
  cbn [length] in Hrun. rewrite Hrun. done.
Qed.

Lemma sound_init v : sound v (fun _ => S n) (replicate (arraySize L) 0%Z).
Proof.
  assert (Hno : forall i c, K !! i = Some c -> ~ has_above (S n) c).
  { intros i c Hc (kw & H1 & H2). destruct (Kwf i c Hc) as (_ & Hr & _). rewrite Forall_forall in Hr.
    specialize (Hr kw H1). lia. }
  constructor.
  - by rewrite replicate_length.
  - intros i c Hc [Ha _]. by apply Hno in Hc.
  - intros k Hk _. by apply lookup_replicate_2.
  - intros i c Hc Hb. exfalso. destruct (Kwf i c Hc) as (_ & Hr & Hne). destruct (ce c) as [|kw r] eqn:E; [done|].
    apply Hb. exists kw. split; [rewrite E; left|]. rewrite Forall_forall in Hr. specialize (Hr kw ltac:(left)). lia.
Qed.
Lemma sound_end v value : sound v (fun _ => 1) value -> Forall (lin_sat v) K.
Proof.
  intros HS. apply Forall_forall. intros c Hc. apply elem_of_list_lookup in Hc as [i Hc].
  apply (so_done _ _ _ HS i c Hc). intros (kw & H1 & H2). destruct (Kwf i c Hc) as (_ & Hr & _).
  rewrite Forall_forall in Hr. specialize (Hr kw H1). lia.
Qed.

(** the value depends only on the levels already decided *)
Lemma sound_agree v v' t value : (forall k, t <= k -> v k = v' k) -> sound v (fun _ => t) value -> sound v' (fun _ => t) value.
Proof.
  intros Hv [S1 S2 S3 S4].
  assert (Hval : forall e, lin_value v (above t e) = lin_value v' (above t e)).
  { induction e as [|[k w] e IH]; [done|]. rewrite above_cons. destruct (Nat.leb_spec t k); [|done].
    cbn [lin_value]. by rewrite Hv, IH. }
  constructor; [done| |done|].
  - intros i c Hc Ha. destruct (S2 i c Hc Ha) as (x & Hx & He). exists x. split; [done|]. unfold eqv in *. by rewrite <- Hval.
  - intros i c Hc Hb. specialize (S4 i c Hc Hb). unfold lin_sat in *. apply below_none in Hb.
    rewrite (value_split v t), Hb in S4. rewrite (value_split v' t), Hb, <- Hval. done.
Qed.

Lemma lin_eval v : forall l value, 0 < l <= n -> sound v (fun _ => S l) value ->
  (zdd_eval (lin_spec L) l (Z.of_nat l) value v = true <-> Forall (lin_sat v) K) /\
  bdd_eval (lin_spec L) l (Z.of_nat l) value v = zdd_eval (lin_spec L) l (Z.of_nat l) value v.
Proof.
  induction l as [|l IH]; intros value Hl HS; [lia|]. cbn [zdd_eval bdd_eval]. rewrite Z.eqb_refl.
  cbn [lin_spec get_child]. fold (lin_spec L). rewrite Nat2Z.id.
  destruct (level_run v (S l) value ltac:(lia) HS) as (ok & value' & -> & HP). cbn [default fst snd id].
  destruct ok.
  - destruct (Z.leb_spec 1 (Z.of_nat (S l) - 1)).
    + replace (Z.of_nat (S l) - 1)%Z with (Z.of_nat l) by lia. apply IH; [lia|done].
    + assert (l = 0) as -> by lia. cbn [zdd_eval bdd_eval]. split; [|done].
      split; [|done]. intros _. by eapply sound_end.
  - rewrite zdd_eval_zero, bdd_eval_zero. split; [|done]. split; [done|]. by intros H.
Qed.

Lemma lin_reach : isFalse L = false -> forall l s, reach (lin_spec L) l s ->
  (1 <= Z.to_nat l <= n) /\ (0 < l)%Z /\ exists v, sound v (fun _ => S (Z.to_nat l)) s.
Proof.
  intros HF l s Hr. induction Hr as [Hp|l s b Hr IH Hb Hp].
  - cbn [lin_spec get_root lin_root fst snd] in *. rewrite HF, Hn in *. rewrite Nat2Z.id.
    split_and!; [lia|lia|lia|]. exists (fun _ => 0). apply sound_init.
  - destruct IH as (Hl & Hl0 & v & HS). cbn [lin_spec get_child] in *.
    set (v' := fun k => if k =? Z.to_nat l then b else v k).
    assert (Hb' : b = v' (Z.to_nat l)) by (unfold v'; by rewrite Nat.eqb_refl).
    assert (HS' : sound v' (fun _ => S (Z.to_nat l)) s).
    { eapply sound_agree; [|done]. intros k Hk. unfold v'. destruct (Nat.eqb_spec k (Z.to_nat l)); [lia|done]. }
    destruct (level_run v' (Z.to_nat l) s Hl HS') as (ok & value' & E & HP). rewrite <- Hb' in E. rewrite E in *.
    cbn [default id fst snd] in *. destruct ok; [|lia].
    destruct (Z.leb_spec 1 (Z.of_nat (Z.to_nat l) - 1)); [|lia].
    split_and!; [lia|lia|lia|]. exists v'. by replace (S (Z.to_nat (Z.of_nat (Z.to_nat l) - 1))) with (Z.to_nat l) by lia.
Qed.

(** no access out of range *)
Lemma lin_safe : isFalse L = false -> forall l s b, reach (lin_spec L) l s ->
  is_Some (lin_child L s (Z.to_nat l) (negb (b =? 0))).
Proof.
  intros HF l s b Hr. destruct (lin_reach HF l s Hr) as (Hl & Hl0 & v & HS).
  set (v' := fun k => if k =? Z.to_nat l then b else v k).
  assert (Hb' : b = v' (Z.to_nat l)) by (unfold v'; by rewrite Nat.eqb_refl).
  assert (HS' : sound v' (fun _ => S (Z.to_nat l)) s).
  { eapply sound_agree; [|done]. intros k Hk. unfold v'. destruct (Nat.eqb_spec k (Z.to_nat l)); [lia|done]. }
  destruct (level_run v' (Z.to_nat l) s Hl HS') as (ok & value' & E & HP). rewrite <- Hb' in E. rewrite E. by eexists.
Qed.

End child.
