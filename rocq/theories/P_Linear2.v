(** LinearConstraints::update assigns array cells so that constraints alive at the same level never share one. *)
From stdpp Require Import sorting.
From Verif Require Import Base Sem M_Size M_Linear S_Spec P_Size P_Linear.
Local Open Scope nat_scope.

Definition ix (im : list (option nat)) (i k : nat) : Prop := im !! i = Some (Some k).
Definition mf (im : list (option nat)) (i : nat) : nat := match im !! i with Some (Some k) => k | _ => 0 end.
Lemma ix_mf im i k : ix im i k -> mf im i = k.
Proof. unfold ix, mf. by intros ->. Qed.
Lemma ix_det im i k k' : ix im i k -> ix im i k' -> k = k'.
Proof. unfold ix. intros -> H. by injection H. Qed.
Definition assigned im i := exists k, ix im i k.

Section update.
Context (n : nat) (K : list lcon).
Hypothesis HK : Forall (fun c => lin_wf n c /\ ce c <> []) K.

Record alloc (act : nat -> Prop) (im : list (option nat)) (free : list nat) (size : nat) : Prop := {
  al_len : length im = length K;
  al_act : forall i, act i -> exists k, ix im i k /\ k < size /\ k ∉ free;
  al_inj : forall i j k, act i -> act j -> ix im i k -> ix im j k -> i = j;
  al_nodup : NoDup free;
  al_range : Forall (fun k => k < size) free
}.

Definition live (l i : nat) : Prop := exists c, K !! i = Some c /\ has_above (S l) c /\ has_below (S l) c.

Lemma relab_ext (im im' : list (option nat)) (ts : list check_item) :
  (forall i k, ix im i k -> ix im' i k) -> (forall t, t ∈ ts -> assigned im (ci_index t)) ->
  map (relab (mf im)) ts = map (relab (mf im')) ts.
Proof.
  intros He Ha. induction ts as [|t ts IH]; [done|]. cbn [map]. f_equal.
  - unfold relab. f_equal. destruct (Ha t) as [k Hk]; [left|]. rewrite (ix_mf _ _ _ Hk). symmetry. apply ix_mf. by apply He.
  - apply IH. intros t' Ht. apply Ha. by right.
Qed.

Lemma relabel_ok l im free size :
  (forall i, assigned im i <-> exists c, K !! i = Some c /\ has_above (S l) c) ->
  alloc (live l) im free size ->
  exists im' free' size',
    ofold lin_relabel (items 0 K l) ([], im, free, size) = Some (map (relab (mf im')) (items 0 K l), im', free', size') /\
    (forall i k, ix im i k -> ix im' i k) /\ size <= size' /\
    (forall i, assigned im' i <-> assigned im i \/ i ∈ map ci_index (items 0 K l)) /\
    alloc (fun i => live l i \/ i ∈ map ci_index (items 0 K l)) im' free' size'.
Proof.
  intros Has HA.
  destruct (ofold_inv lin_relabel (fun pre st => exists im' free' size',
      st = (map (relab (mf im')) pre, im', free', size') /\
      (forall i k, ix im i k -> ix im' i k) /\ size <= size' /\
      (forall i, assigned im' i <-> assigned im i \/ i ∈ map ci_index pre) /\
      alloc (fun i => live l i \/ i ∈ map ci_index pre) im' free' size') (items 0 K l) ([], im, free, size))
    as (st & Hrun & im' & free' & size' & -> & HP).
  - exists im, free, size. split_and!; [done|done|done| |].
    + intros i. simpl. split; [by left|]. intros [H|H]; [done|by apply elem_of_nil in H].
    + destruct HA as [A1 A2 A3 A4 A5]. constructor; [done| | |done|done].
      * intros i [H|H]; [by apply A2|by apply elem_of_nil in H].
      * intros i j k [H|H] [H'|H']; try (by apply elem_of_nil in H); try (by apply elem_of_nil in H'). by apply A3.
  - intros pre t post st Hit (im1 & free1 & size1 & -> & He & Hsz & Has1 & HA1).
    assert (Ht : t ∈ items 0 K l) by (rewrite Hit; set_solver).
    destruct (items_index 0 K l t Ht) as (i & c & Ei & Hc & Hat & _). rewrite Nat.add_0_l in Ei.
    assert (Hil : i < length im1). { rewrite (al_len _ _ _ _ HA1). by eapply lookup_lt_Some. }
    destruct (lookup_lt_is_Some_2 im1 i Hil) as [m Hm]. cbn [lin_relabel]. rewrite Ei, Hm. cbn [mbind option_bind].
    destruct m as [k|].
    + (* already has a cell *)
      eexists. split; [reflexivity|]. exists im1, free1, size1.
      assert (<[i:=Some k]> im1 = im1) as -> by (by apply list_insert_id).
      assert (Hacti : live l i \/ i ∈ map ci_index pre).
      { destruct (proj1 (Has1 i)) as [H|H]; [by exists k| |by right]. apply Has in H as (c' & Hc' & Ha). left. exists c'.
        split_and!; [done|done|]. rewrite Hc in Hc'. injection Hc' as <-. destruct Hat as (kw & Hin & <-).
        exists kw. split; [done|lia]. }
      split_and!; [|done|done| |].
      * rewrite map_app. cbn [map]. unfold relab at 3. rewrite Ei, (ix_mf _ _ _ Hm). done.
      * intros j. rewrite Has1, map_app, elem_of_app. cbn [map]. rewrite Ei, elem_of_list_singleton.
        split; [tauto|]. intros [H|[H| ->]]; [tauto|tauto|]. apply Has1. by exists k.
      * destruct HA1 as [A1 A2 A3 A4 A5]. constructor; [done| | |done|done].
        -- intros j Hj. apply A2. rewrite map_app, elem_of_app in Hj. cbn [map] in Hj. rewrite Ei, elem_of_list_singleton in Hj.
           destruct Hj as [H|[H| ->]]; tauto.
        -- intros j j' k' Hj Hj'. apply A3.
           ++ rewrite map_app, elem_of_app in Hj. cbn [map] in Hj. rewrite Ei, elem_of_list_singleton in Hj.
              destruct Hj as [H|[H| ->]]; tauto.
           ++ rewrite map_app, elem_of_app in Hj'. cbn [map] in Hj'. rewrite Ei, elem_of_list_singleton in Hj'.
              destruct Hj' as [H|[H| ->]]; tauto.
    + (* a new cell *)
      assert (Hna : ~ assigned im1 i). { intros [k Hk]. unfold ix in Hk. rewrite Hm in Hk. done. }
      assert (exists k free2 size2,
        match free1 with [] => (size1, free1, S size1) | k :: free' => (k, free', size1) end = (k, free2, size2) /\
        size1 <= size2 /\ k < size2 /\ k ∉ free2 /\ NoDup free2 /\ Forall (fun k => k < size2) free2 /\
        (forall j, j ∈ free2 -> j ∈ free1) /\ (k ∈ free1 \/ k = size1)) as (k & free2 & size2 & -> & Hs2 & Hk & Hkf & Hnd & Hfr & Hsub & Hkk).
      { destruct HA1 as [_ _ _ A4 A5]. destruct free1 as [|k free2].
        - exists size1, [], (S size1). split_and!; [done|lia|lia| |constructor|constructor|done|by right]. apply not_elem_of_nil.
        - exists k, free2, size1. apply NoDup_cons in A4 as [A4 A4']. apply Forall_cons in A5 as [A5 A5'].
          split_and!; [done|lia|done|done|done|done| |left; left]. intros j Hj. by right. }
      eexists. split; [reflexivity|]. exists (<[i:=Some k]> im1), free2, size2.
      assert (Hself : ix (<[i:=Some k]> im1) i k). { unfold ix. by apply list_lookup_insert. }
      assert (Hoth : forall j k', j <> i -> ix (<[i:=Some k]> im1) j k' <-> ix im1 j k').
      { intros j k' NE. unfold ix. by rewrite list_lookup_insert_ne. }
      assert (Hext : forall j k', ix im1 j k' -> ix (<[i:=Some k]> im1) j k').
      { intros j k' H. destruct (decide (j = i)) as [->|NE]; [destruct Hna; by exists k'|]. by apply Hoth. }
      assert (Hnew : forall j, (live l j \/ j ∈ map ci_index pre) -> j <> i /\ exists k', ix im1 j k' /\ k' < size1 /\ k' ∉ free1).
      { intros j Hj. destruct (al_act _ _ _ _ HA1 j Hj) as (k' & H1 & H2 & H3). split; [|by exists k'].
        intros ->. apply Hna. by exists k'. }
      split_and!.
      * rewrite map_app. cbn [map]. unfold relab at 3. rewrite Ei, (ix_mf _ _ _ Hself). f_equal. f_equal. f_equal. f_equal.
        apply relab_ext; [done|]. intros t' Ht'. apply Has1. right. apply elem_of_list_fmap. by exists t'.
      * intros j k' H. apply Hext. by apply He.
      * lia.
      * intros j. rewrite map_app, elem_of_app. cbn [map]. rewrite Ei, elem_of_list_singleton. split.
        -- intros [k' Hk']. destruct (decide (j = i)) as [->|NE]; [tauto|]. apply Hoth in Hk'; [|done].
           assert (assigned im1 j) as H by (by exists k'). apply Has1 in H. tauto.
        -- intros [H|[H| ->]]; [| |by exists k].
           ++ destruct H as [k' Hk']. exists k'. apply Hext. by apply He.
           ++ assert (assigned im1 j) as [k' Hk'] by (apply Has1; by right). exists k'. by apply Hext.
      * constructor; [rewrite insert_length; apply HA1| | |done|done].
        -- intros j Hj. rewrite map_app, elem_of_app in Hj. cbn [map] in Hj. rewrite Ei, elem_of_list_singleton in Hj.
           destruct (decide (j = i)) as [->|NE]; [by exists k|].
           destruct (Hnew j) as (_ & k' & H1 & H2 & H3); [tauto|]. exists k'. split_and!; [by apply Hoth|lia|].
           intros H. by apply H3, Hsub.
        -- intros j j' k' Hj Hj' H H'. rewrite map_app, elem_of_app in Hj, Hj'. cbn [map] in Hj, Hj'.
           rewrite Ei, elem_of_list_singleton in Hj, Hj'.
           destruct (decide (j = i)) as [->|NE]; destruct (decide (j' = i)) as [->|NE']; [done| | |].
           ++ exfalso. rewrite (ix_det _ _ _ _ H Hself) in *. apply Hoth in H'; [|done].
              destruct (Hnew j') as (_ & k1 & H1 & H2 & H3); [tauto|]. rewrite (ix_det _ _ _ _ H' H1) in *.
              destruct Hkk as [?| ->]; [done|lia].
           ++ exfalso. rewrite (ix_det _ _ _ _ H' Hself) in *. apply Hoth in H; [|done].
              destruct (Hnew j) as (_ & k1 & H1 & H2 & H3); [tauto|]. rewrite (ix_det _ _ _ _ H H1) in *.
              destruct Hkk as [?| ->]; [done|lia].
           ++ apply Hoth in H, H'; [|done|done]. eapply (al_inj _ _ _ _ HA1); [| |done|done]; tauto.
  - exists im', free', size'. tauto.
Qed.

Lemma release_ok (act : nat -> Prop) im free size (ts : list check_item) :
  NoDup (map ci_index ts) -> (forall t, t ∈ ts -> act (ci_index t)) -> alloc act im free size ->
  alloc (fun i => act i /\ forall t, t ∈ ts -> ci_index t = i -> ci_final t = false) im
    (lin_release free (map (relab (mf im)) ts)) size.
Proof.
  revert act free. induction ts as [|t ts IH]; intros act free Hnd Ha HA.
  - cbn [lin_release foldl map]. destruct HA as [A1 A2 A3 A4 A5]. constructor; [done| | |done|done].
    + intros i [Hi _]. by apply A2.
    + intros i j k [Hi _] [Hj _]. by apply A3.
  - cbn [map lin_release foldl]. cbn [map] in Hnd. apply NoDup_cons in Hnd as [Hni Hnd].
    change (foldl _ ?f ?x) with (lin_release f x). cbn [relab ci_final ci_index].
    destruct (ci_final t) eqn:Ef.
    + destruct (al_act _ _ _ _ HA (ci_index t)) as (k & Hk & Hks & Hkf); [apply Ha; left|].
      rewrite (ix_mf _ _ _ Hk).
      assert (HA' : alloc (fun i => act i /\ i <> ci_index t) im (k :: free) size).
      { destruct HA as [A1 A2 A3 A4 A5]. constructor; [done| | |by constructor|by constructor].
        - intros i [Hi NE]. destruct (A2 i Hi) as (k' & H1 & H2 & H3). exists k'. split_and!; [done|done|].
          rewrite elem_of_cons. intros [->|H]; [|done]. apply NE. eapply A3; [done|apply Ha; left|done|done].
        - intros i j k' [Hi _] [Hj _]. by apply A3. }
      specialize (IH (fun i => act i /\ i <> ci_index t) (k :: free) Hnd).
      destruct IH as [A1 A2 A3 A4 A5]; [|done|].
      { intros t' Ht'. split; [apply Ha; by right|]. intros E. apply Hni. rewrite <- E. apply elem_of_list_fmap. by exists t'. }
      constructor; [done| | |done|done].
      * intros i [Hi Hf]. apply A2. split; [split; [done|]|].
        -- intros ->. specialize (Hf t ltac:(left) eq_refl). congruence.
        -- intros t' Ht'. apply Hf. by right.
      * intros i j k' [Hi Hf] [Hj Hf']. apply A3; (split; [split; [done|]|]).
        -- intros ->. specialize (Hf t ltac:(left) eq_refl). congruence.
        -- intros t' Ht'. apply Hf. by right.
        -- intros ->. specialize (Hf' t ltac:(left) eq_refl). congruence.
        -- intros t' Ht'. apply Hf'. by right.
    + destruct (IH act free Hnd) as [A1 A2 A3 A4 A5]; [intros t' Ht'; apply Ha; by right|done|].
      constructor; [done| | |done|done].
      * intros i [Hi Hf]. apply A2. split; [done|]. intros t' Ht'. apply Hf. by right.
      * intros i j k' [Hi Hf] [Hj Hf']. apply A3; (split; [done|]).
        -- intros t' Ht'. apply Hf. by right.
        -- intros t' Ht'. apply Hf'. by right.
Qed.

Definition same_at (im : list (option nat)) (size l : nat) : Prop :=
  (forall i, spans K l i -> exists k, ix im i k /\ k < size) /\
  (forall i j k, spans K l i -> spans K l j -> ix im i k -> ix im j k -> i = j).

Record done_to (lo : nat) (lists : list (list check_item)) (im : list (option nat)) (free : list nat) (size : nat) : Prop := {
  dt_len : length lists = S n;
  dt_old : forall l, l <= lo -> lists !! l = Some (items 0 K l);
  dt_new : forall l, lo < l <= n -> lists !! l = Some (map (relab (mf im)) (items 0 K l));
  dt_as : forall i, assigned im i <-> exists c, K !! i = Some c /\ has_above (S lo) c;
  dt_al : alloc (live lo) im free size;
  dt_sp : forall l, lo < l <= n -> same_at im size l
}.

Lemma has_above_split l c : has_above l c <-> has_at l c \/ has_above (S l) c.
Proof.
  split.
  - intros (kw & H1 & H2). destruct (decide (fst kw = l)); [left|right]; exists kw; split; [done|done|done|lia].
  - intros [(kw & H1 & H2)|(kw & H1 & H2)]; exists kw; (split; [done|lia]).
Qed.
Lemma items_has_at j l i c : K !! i = Some c -> has_at l c -> j + i ∈ map ci_index (items j K l).
Proof.
  clear HK. revert j i. induction K as [|c' K' IH]; intros j i Hi Hat; [done|]. cbn [items]. rewrite map_app, elem_of_app.
  destruct i as [|i]; simpl in Hi.
  - injection Hi as ->. left. destruct Hat as (kw & Hin & E). unfold item_of. rewrite map_map. apply elem_of_list_fmap.
    exists kw. cbn [ci_index]. split; [lia|]. unfold at_. apply elem_of_list_filter. done.
  - right. rewrite Nat.add_succ_r, <- Nat.add_succ_l. by apply IH.
Qed.

Lemma level_ok lo lists im free size : S lo <= n -> done_to (S lo) lists im free size ->
  exists lists' im' free' size', lin_level (lists, im, free, size) (S lo) = Some (lists', im', free', size') /\
    done_to lo lists' im' free' size'.
Proof.
  intros Hlo [D1 D2 D3 D4 D5 D6]. unfold lin_level. rewrite D2 by lia. cbn [mbind option_bind].
  destruct (relabel_ok (S lo) im free size D4 D5) as (im' & free' & size' & -> & He & Hsz & Has & HA).
  cbn [mbind option_bind]. do 4 eexists. split; [reflexivity|].
  pose proof (items_nodup n 0 K (S lo) HK) as Hnd.
  assert (Hspan : forall i, spans K (S lo) i -> live (S lo) i \/ i ∈ map ci_index (items 0 K (S lo))).
  { intros i (c & Hc & Hb & Ha). apply has_above_split in Ha as [Ha|Ha].
    - right. by apply (items_has_at 0 (S lo) i c).
    - left. by exists c. }
  constructor.
  - by rewrite insert_length.
  - intros l Hl. rewrite list_lookup_insert_ne by lia. apply D2. lia.
  - intros l Hl. destruct (decide (l = S lo)) as [->|NE].
    + rewrite list_lookup_insert by lia. done.
    + rewrite list_lookup_insert_ne by lia. rewrite D3 by lia. f_equal. apply relab_ext; [done|].
      intros t Ht. apply D4. apply items_index in Ht as (i & c & E & Hc & (kw & Hin & Hat) & _). exists c.
      rewrite Nat.add_0_l in E. rewrite E. split; [done|]. exists kw. split; [done|lia].
  - intros i. rewrite Has, D4. split.
    + intros [(c & Hc & Ha)|Hi].
      * exists c. split; [done|]. apply has_above_split. by right.
      * apply elem_of_list_fmap in Hi as (t & -> & Ht). apply items_index in Ht as (i & c & E & Hc & Hat & _).
        rewrite Nat.add_0_l in E. rewrite E. exists c. split; [done|]. apply has_above_split. by left.
    + intros (c & Hc & Ha). apply has_above_split in Ha as [Ha|Ha]; [right|left; by exists c].
      by apply (items_has_at 0 (S lo) i c).
  - destruct (release_ok (fun i => live (S lo) i \/ i ∈ map ci_index (items 0 K (S lo))) im' free' size' (items 0 K (S lo)) Hnd) as [A1 A2 A3 A4 A5].
    { intros t Ht. right. apply elem_of_list_fmap. by exists t. }
    { done. }
    assert (Hact : forall i, live lo i -> (live (S lo) i \/ i ∈ map ci_index (items 0 K (S lo))) /\
              forall t, t ∈ items 0 K (S lo) -> ci_index t = i -> ci_final t = false).
    { intros i (c & Hc & Ha & Hb). split.
      - apply Hspan. exists c. split_and!; [done| |done]. destruct Hb as (kw & H1 & H2). exists kw. split; [done|lia].
      - intros t Ht E. apply items_index in Ht as (i' & c' & E' & Hc' & _ & ->). rewrite Nat.add_0_l in E'.
        assert (c' = c) as -> by congruence. apply bool_decide_eq_false. destruct Hb as (kw & H1 & H2).
        intros H. assert (kw ∈ below (S lo) (ce c)) as Hin by (unfold below; by apply elem_of_list_filter).
        rewrite H in Hin. by apply elem_of_nil in Hin. }
    constructor; [done| | |done|done].
    + intros i Hi. by apply A2, Hact.
    + intros i j k Hi Hj. apply A3; by apply Hact.
  - intros l Hl. destruct (decide (l = S lo)) as [->|NE].
    + split.
      * intros i Hi. destruct (al_act _ _ _ _ HA i (Hspan i Hi)) as (k & H1 & H2 & _). by exists k.
      * intros i j k Hi Hj. apply (al_inj _ _ _ _ HA); by apply Hspan.
    + destruct (D6 l ltac:(lia)) as [S1 S2]. split.
      * intros i Hi. destruct (S1 i Hi) as (k & H1 & H2). exists k. split; [by apply He|lia].
      * intros i j k Hi Hj Hk Hk'. destruct (S1 i Hi) as (k1 & H1 & _), (S1 j Hj) as (k2 & H2 & _).
        rewrite (ix_det _ _ _ _ Hk (He _ _ H1)) in *. rewrite (ix_det _ _ _ _ Hk' (He _ _ H2)) in *. by eapply S2.
Qed.

End update.

Lemma update_ok n K L : adds n K L ->
  exists L' M, lin_update L = Some L' /\ lin_n L' = n /\ isFalse L' = isFalse L /\ length (checklists L') = S n /\
    podSize L' = Some (arraySize L') /\
    (forall l, 1 <= l <= n -> checklists L' !! l = Some (map (relab M) (items 0 K l))) /\
    (forall l i, 1 <= l <= n -> spans K l i -> M i < arraySize L') /\
    (forall l i j, 1 <= l <= n -> spans K l i -> spans K l j -> M i = M j -> i = j).
Proof.
  intros HA. pose proof (ad_wf _ _ _ HA) as HK. unfold lin_update.
  destruct (ofold_inv lin_level (fun pre st => let '(lists, im, free, size) := st in
              length pre <= n /\ done_to n K (n - length pre) lists im free size)
              (reverse (seq 1 n)) (checklists L, replicate (constraintId L) None, [], arraySize L))
    as ([[[lists im] free] size] & Hrun & HP).
  - split; [simpl; lia|]. rewrite Nat.sub_0_r. constructor.
    + apply HA.
    + apply HA.
    + intros l Hl. lia.
    + assert (Hrep : forall i k, ~ ix (replicate (constraintId L) None) i k).
      { intros i k H. apply lookup_replicate_1 in H as [H _]. done. }
      intros i. split.
      * intros [k Hk]. by apply Hrep in Hk.
      * intros (c & Hc & kw & Hin & Hge). exfalso. apply elem_of_list_lookup_2 in Hc.
        rewrite Forall_forall in HK. destruct (HK c Hc) as [[_ Hr] _]. rewrite Forall_forall in Hr.
        specialize (Hr kw Hin). lia.
    + constructor; [by rewrite replicate_length, (ad_id _ _ _ HA)| | |constructor|constructor].
      * intros i (c & Hc & (kw & Hin & Hge) & _). exfalso. apply elem_of_list_lookup_2 in Hc.
        rewrite Forall_forall in HK. destruct (HK c Hc) as [[_ Hr] _]. rewrite Forall_forall in Hr.
        specialize (Hr kw Hin). lia.
      * intros i j k _ _ H. apply lookup_replicate_1 in H as [H _]. done.
    + intros l Hl. lia.
  - intros pre i post [[[lists im] free] size] Hl [Hlp HD].
    assert (length pre < n /\ i = n - length pre) as [Hlt ->].
    { assert (length pre < n) as Hlt.
      { apply (f_equal length) in Hl. rewrite reverse_length, seq_length, app_length in Hl. simpl in Hl. lia. }
      split; [done|]. assert (reverse (seq 1 n) !! length pre = Some i) as Hx.
      { rewrite Hl. rewrite lookup_app_r by lia. by rewrite Nat.sub_diag. }
      rewrite reverse_lookup in Hx by (rewrite seq_length; lia).
      rewrite seq_length in Hx. apply lookup_seq in Hx. lia. }
    destruct (level_ok n K HK (n - length pre - 1) lists im free size) as (lists' & im' & free' & size' & Hs & HD').
    { lia. } { by replace (S (n - length pre - 1)) with (n - length pre) by lia. }
    replace (S (n - length pre - 1)) with (n - length pre) in Hs by lia. rewrite Hs. eexists. split; [reflexivity|].
    cbv beta iota. rewrite app_length. cbn [length]. split; [lia|].
    by replace (n - (length pre + 1)) with (n - length pre - 1) by lia.
  - destruct HP as [_ HP]. rewrite reverse_length, seq_length, Nat.sub_diag in HP.
    rewrite (ad_n _ _ _ HA), Hrun. cbn [mbind option_bind]. rewrite (ad_pod _ _ _ HA).
    eexists _, (mf im). split; [reflexivity|]. cbn [lin_n isFalse checklists arraySize podSize].
    destruct HP as [D1 D2 D3 D4 D5 D6]. split_and!; [done|done|done|done| | |].
    + intros l Hl. apply D3. lia.
    + intros l i Hl Hi. destruct (D6 l ltac:(lia)) as [S1 _]. destruct (S1 i Hi) as (k & Hk & Hlt).
      by rewrite (ix_mf _ _ _ Hk).
    + intros l i j Hl Hi Hj E. destruct (D6 l ltac:(lia)) as [S1 S2].
      destruct (S1 i Hi) as (k & Hk & _), (S1 j Hj) as (k' & Hk' & _).
      rewrite (ix_mf _ _ _ Hk), (ix_mf _ _ _ Hk') in E. subst. by eapply S2.
Qed.
