(** Proofs about CnfToBdd with -c. *)
From stdpp Require Import gmap sorting.
From Verif Require Import Base Sem M_Table M_Engine M_Builder M_Eval Props_Reduce S_Api M_Cnf S_Cnf P_Cnf1 M_CnfBdd.
Local Open Scope Z_scope.

(** ** lists of numbers *)
Lemma numbered_elem j0 cnf j c : (j, c) ∈ numbered_from j0 cnf <-> exists i : nat, cnf !! i = Some c /\ j = j0 + Z.of_nat i.
Proof.
  revert j0. induction cnf as [|c0 cnf IH]; intros j0; cbn [numbered_from].
  - split; [by intros ?%elem_of_nil|]. by intros (i & ? & _).
  - rewrite elem_of_cons, IH. split.
    + intros [[= -> ->]|(i & H & ->)]; [exists 0%nat; split; [done|lia]|]. exists (S i). split; [done|lia].
    + intros ([|i] & H & ->); [left; injection H as ->; f_equal; lia|]. right. exists i. split; [done|lia].
Qed.
Lemma collect_elem cnf g j : j ∈ collect cnf g <-> exists c, (j, c) ∈ numbered_from 1 cnf /\ (0 < g c)%nat.
Proof.
  unfold collect. rewrite elem_of_list_In, in_flat_map. split.
  - intros ([j' c] & H1 & H2). cbn [fst snd] in H2. pose proof (repeat_spec _ _ _ H2) as ->. exists c. split; [by apply elem_of_list_In|]. destruct (g c); [done|lia].
  - intros (c & H1 & H2). exists (j, c). split; [by apply elem_of_list_In|]. cbn [fst snd]. destruct (g c); [lia|]. by left.
Qed.
Lemma numbered_above j0 cnf p : p ∈ numbered_from j0 cnf -> j0 <= fst p.
Proof. destruct p as [j c]. rewrite numbered_elem. intros (i & _ & ->). cbn. lia. Qed.
Lemma flat_sorted (R : Z -> Z -> Prop) (g : list Z -> nat) cnf j0 : (forall a b, a < b -> R a b) -> (forall c j, StronglySorted R (repeat j (g c))) ->
  StronglySorted R (flat_map (fun p => repeat (fst p) (g (snd p))) (numbered_from j0 cnf)).
Proof.
  intros HR Hg. revert j0. induction cnf as [|c cnf IH]; intros j0; cbn [numbered_from flat_map]; [constructor|]. cbn [fst snd].
  assert (forall x, x ∈ flat_map (fun p => repeat (fst p) (g (snd p))) (numbered_from (j0 + 1) cnf) -> j0 < x) as HA.
  { intros x Hx. apply elem_of_list_In, in_flat_map in Hx as (p & H1 & H2). apply repeat_spec in H2 as ->. apply elem_of_list_In, numbered_above in H1. lia. }
  specialize (Hg c j0). induction (g c) as [|k IHk]; cbn [repeat]; [apply IH|]. cbn [repeat] in Hg. inversion_clear Hg as [|? ? Hg1 Hg2]. cbn [app]. constructor; [by apply IHk|].
  apply Forall_app. split; [done|]. apply Forall_forall. intros x Hx. apply HR. by apply HA.
Qed.
Lemma collect_le cnf g : StronglySorted Z.le (collect cnf g).
Proof. apply flat_sorted; [intros; lia|]. intros c j. induction (g c) as [|k IH]; cbn [repeat]; constructor; [done|]. apply Forall_forall. intros x Hx. apply elem_of_list_In, repeat_spec in Hx. lia. Qed.
Lemma collect_lt cnf g : (forall c, g c <= 1)%nat -> StronglySorted Z.lt (collect cnf g).
Proof. intros Hg. apply flat_sorted; [done|]. intros c j. specialize (Hg c). destruct (g c) as [|[|k]]; [constructor|cbn; repeat constructor|lia]. Qed.

(** ** {a} + {b} - {c} *)
Lemma skip_spec c x : StronglySorted Z.le c -> StronglySorted Z.le (skip c x) /\ Forall (fun y => x <= y) (skip c x) /\ forall y, x <= y -> y ∈ skip c x <-> y ∈ c.
Proof.
  induction 1 as [|y c Hs IH Hf]; cbn [skip]; [split; [constructor|done]|]. destruct (Z.ltb_spec y x) as [Hy|Hy].
  - destruct IH as (I1 & I2 & I3). split; [done|]. split; [done|]. intros z Hz. rewrite I3, elem_of_cons by done. split; [by right|]. intros [->|?]; [lia|done].
  - split; [by constructor|]. split; [|done]. constructor; [done|]. eapply Forall_impl; [exact Hf|]. cbn. intros; lia.
Qed.
Lemma keep_spec c x kept c' : StronglySorted Z.le c -> Forall (fun y => x <= y) c -> keep_or_drop c x = (kept, c') ->
  (kept = true <-> x ∉ c) /\ StronglySorted Z.le c' /\ forall y, x < y -> y ∈ c' <-> y ∈ c.
Proof.
  intros Hs Hf. unfold keep_or_drop. destruct c as [|y c0]; [intros [= <- <-]; split; [split; [|done]; intros _; apply not_elem_of_nil|done]|].
  destruct (Z.eqb_spec y x) as [->|Hne]; intros [= <- <-].
  - split; [split; [done|]; intros H; exfalso; apply H; left|]. inversion_clear Hs. split; [done|]. intros z Hz. rewrite elem_of_cons. split; [by right|]. intros [->|?]; [lia|done].
  - split; [|done]. split; [|done]. intros _ H. apply elem_of_cons in H as [->|H]; [done|]. inversion_clear Hs as [|? ? H1 H2]. inversion_clear Hf as [|? ? H3 H4]. rewrite Forall_forall in H2. specialize (H2 x H). lia.
Qed.
Definition small (x : Z) : Prop := 0 <= x < 65536.
Lemma merge_ok fuel a b c : (length a + length b <= fuel)%nat -> StronglySorted Z.lt a -> StronglySorted Z.lt b -> StronglySorted Z.le c -> Forall small a -> Forall small b ->
  StronglySorted Z.lt (merge fuel a b c) /\ forall x, x ∈ merge fuel a b c <-> (x ∈ a \/ x ∈ b) /\ x ∉ c.
Proof.
  revert a b c. induction fuel as [|f IH]; intros a b c Hl Ha Hb Hc Hsa Hsb.
  - destruct a, b; cbn in Hl; try lia. cbn [merge]. split; [constructor|]. intros x. rewrite !elem_of_nil. tauto.
  - assert (forall x a' b', (length a' + length b' <= f)%nat -> StronglySorted Z.lt a' -> StronglySorted Z.lt b' -> Forall small a' -> Forall small b' -> small x ->
      Forall (fun y => x < y) a' -> Forall (fun y => x < y) b' ->
      let r := (let '(kept, c') := keep_or_drop (skip c x) x in (if kept then [to_work x] else []) ++ merge f a' b' c') in
      StronglySorted Z.lt r /\ forall z, z ∈ r <-> (z = x \/ z ∈ a' \/ z ∈ b') /\ z ∉ c) as Hstep.
    { intros x a' b' H1 H2 H3 H4 H5 H6 H7 H8. destruct (skip_spec c x Hc) as (S1 & S2 & S3). destruct (keep_or_drop (skip c x) x) as [kept c'] eqn:E. destruct (keep_spec _ _ _ _ S1 S2 E) as (K1 & K2 & K3).
      destruct (IH a' b' c' H1 H2 H3 K2 H4 H5) as [M1 M2]. intros r. subst r. cbv beta iota.
      assert (forall z, z ∈ merge f a' b' c' <-> (z ∈ a' \/ z ∈ b') /\ z ∉ c) as M3.
      { intros z. rewrite M2. rewrite Forall_forall in H7, H8. split; intros [Hz Hn]; (split; [done|]); assert (x < z) as Hlt by (destruct Hz as [Hz|Hz]; [by apply H7|by apply H8]); intros Hin; apply Hn.
        - apply K3; [done|]. apply S3; [lia|done].
        - apply K3 in Hin; [|done]. apply S3 in Hin; [done|lia]. }
      assert (Forall (fun y => x < y) (merge f a' b' c')) as M4.
      { apply Forall_forall. intros z Hz. apply M3 in Hz as [[Hz|Hz] _]; rewrite Forall_forall in H7, H8; [by apply H7|by apply H8]. }
      assert (x ∈ skip c x <-> x ∈ c) as S4 by (apply S3; lia). unfold to_work. rewrite Z.mod_small by (unfold small in H6; lia).
      destruct kept; cbn [app].
      - split; [by constructor|]. intros z. rewrite elem_of_cons, M3. assert (x ∉ c) as Hx by (rewrite <- S4; by apply K1). split; [intros [->|[? ?]]; tauto|]. intros [[->|Hz] Hn]; [by left|right; tauto].
      - split; [done|]. intros z. rewrite M3. assert (x ∈ c) as Hx. { destruct (decide (x ∈ c)) as [|Hn]; [done|]. rewrite <- S4 in Hn. apply K1 in Hn. done. }
        split; [tauto|]. intros [[->|Hz] Hn]; [done|tauto]. }
    assert (forall x y l, StronglySorted Z.lt (y :: l) -> x < y -> Forall (fun z => x < z) (y :: l)) as Hup.
    { intros x y l H Hxy. inversion_clear H as [|? ? _ H2]. constructor; [done|]. eapply Forall_impl; [exact H2|]. cbn. intros; lia. }
    cbn [merge]. cbv zeta. destruct a as [|x a'], b as [|y b'].
    + split; [constructor|]. intros x. rewrite !elem_of_nil. tauto.
    + inversion_clear Hb as [|? ? Hb1 Hb2]. inversion_clear Hsb as [|? ? Hsb1 Hsb2]. destruct (Hstep y [] b') as [R1 R2]; try done; [cbn in *; lia|]. split; [exact R1|]. intros z. rewrite R2, elem_of_cons. tauto.
    + inversion_clear Ha as [|? ? Ha1 Ha2]. inversion_clear Hsa as [|? ? Hsa1 Hsa2]. destruct (Hstep x a' []) as [R1 R2]; try done; [cbn in *; lia|]. split; [exact R1|]. intros z. rewrite R2, elem_of_cons. tauto.
    + pose proof Ha as Ha0. pose proof Hb as Hb0. inversion_clear Ha as [|? ? Ha1 Ha2]. inversion_clear Hb as [|? ? Hb1 Hb2]. pose proof Hsa as Hsa0. pose proof Hsb as Hsb0. inversion_clear Hsa as [|? ? Hsa1 Hsa2]. inversion_clear Hsb as [|? ? Hsb1 Hsb2].
      destruct (Z.ltb_spec x y) as [Hxy|Hxy].
      * destruct (Hstep x a' (y :: b')) as [R1 R2]; try done; [cbn in *; lia|by apply Hup|]. split; [exact R1|]. intros z. rewrite R2, !elem_of_cons. tauto.
      * destruct (Z.eqb_spec x y) as [->|Hne].
        -- destruct (Hstep y a' b') as [R1 R2]; try done; [cbn in *; lia|]. split; [exact R1|]. intros z. rewrite R2, !elem_of_cons. tauto.
        -- destruct (Hstep y (x :: a') b') as [R1 R2]; try done; [cbn in *; lia|apply Hup; [done|lia]|]. split; [exact R1|]. intros z. rewrite R2, !elem_of_cons. tauto.
Qed.
Lemma set_add_last s e : Forall (fun x => x < e) s -> set_add s e = s ++ [e].
Proof. induction 1 as [|x s Hx Hs IH]; [done|]. cbn [set_add app]. destruct (Z.ltb_spec e x); [lia|]. destruct (Z.eqb_spec e x); [lia|]. by rewrite IH. Qed.
Lemma new_set_sorted l : StronglySorted Z.lt l -> new_set l = l.
Proof.
  intros H. unfold new_set. change l with ([] ++ l) in H at 1. change l with ([] ++ l) at 2. revert H. generalize (@nil Z). induction l as [|e l IH]; intros acc H; cbn [foldl]; [by rewrite app_nil_r|].
  rewrite set_add_last, IH; [by rewrite <- app_assoc|by rewrite <- app_assoc|]. clear IH. induction acc as [|x acc IHa]; [constructor|]. cbn in H. inversion_clear H as [|? ? H1 H2]. constructor; [|by apply IHa].
  apply Forall_app in H2 as [_ H2]. by inversion_clear H2.
Qed.

(** ** badState *)
Lemma rev_sorted l : StronglySorted Z.lt l -> StronglySorted Z.gt (reverse l).
Proof.
  induction 1 as [|x l Hs IH Hf]; [constructor|]. rewrite reverse_cons. assert (Forall (fun y => y > x) (reverse l)) as HF. { apply Forall_forall. intros y Hy. rewrite elem_of_reverse in Hy. rewrite Forall_forall in Hf. specialize (Hf y Hy). lia. }
  revert IH HF. generalize (reverse l). clear. induction 1 as [|y l Hs IH Hf]; intros HF; cbn; [repeat constructor|]. inversion_clear HF. constructor; [by apply IH|]. apply Forall_app. split; [done|]. by repeat constructor.
Qed.
Lemma skip_above_spec i ts ts1 : skip_above i ts = Some ts1 -> exists pre x ts', ts = pre ++ ts1 /\ Forall (fun y => i < y) pre /\ ts1 = x :: ts' /\ x <= i.
Proof.
  induction ts as [|x ts IH]; cbn [skip_above]; [done|]. destruct (Z.ltb_spec i x).
  - intros E. destruct (IH E) as (pre & y & ts' & -> & HF & -> & Hy). exists (x :: pre), y, ts'. split; [done|]. split; [by constructor|]. done.
  - intros [= <-]. exists [], x, ts. done.
Qed.
Lemma sorted_app_r (ts ts' : list Z) : StronglySorted Z.gt (ts ++ ts') -> StronglySorted Z.gt ts'.
Proof. induction ts as [|x ts IH]; [done|]. cbn. inversion_clear 1. by apply IH. Qed.
Lemma bad_sound g above ts a : cordered above g -> StronglySorted Z.gt ts -> (forall j, j < above -> a j = bool_decide (j ∈ ts)) -> bad_state g ts = Some true -> cden g a = false.
Proof.
  revert above ts. induction g as [b|i t IHt e IHe]; intros above ts Ho Hs Ha; cbn [bad_state cden].
  - by intros [= ->%negb_true_iff].
  - destruct Ho as (Hi & Ht & He). destruct ts as [|y ts0]; [done|]. set (ts := y :: ts0) in *. destruct (skip_above i ts) as [ts1|] eqn:E; [|done]. cbn [mbind option_bind].
    destruct (skip_above_spec i ts ts1 E) as (pre & x & ts' & Ets & HF & -> & Hx). rewrite Ets in Hs. apply sorted_app_r in Hs. rewrite Forall_forall in HF. inversion Hs as [|? ? Hs' HF']; subst. rewrite Forall_forall in HF'.
    rewrite (Ha i Hi), Ets. destruct (Z.eqb_spec x i) as [->|Hne].
    + rewrite bool_decide_eq_true_2 by (apply elem_of_app; right; left). apply (IHt i); [done|done|]. intros j Hj. rewrite (Ha j) by lia. rewrite Ets. apply bool_decide_ext. rewrite elem_of_app, elem_of_cons. split; [|tauto]. intros [H|[->|H]]; [specialize (HF j H); lia|lia|done].
    + rewrite bool_decide_eq_false_2; [|rewrite elem_of_app, elem_of_cons; intros [H|[->|H]]; [specialize (HF i H); lia|done|specialize (HF' i H); lia]].
      apply (IHe i); [done|done|]. intros j Hj. rewrite (Ha j) by lia. rewrite Ets. apply bool_decide_ext. rewrite elem_of_app. split; [|tauto]. intros [H|H]; [specialize (HF j H); lia|done].
Qed.

(** ** the specification *)
Section cb.
  Context (nv : nat) (cnf : list (list Z)).
  Context (Hcan : Forall (fun c => canon nv c /\ c <> []) cnf) (Hsm : Z.of_nat (length cnf) <= 65535).
  Definition lit_level (x : Z) : Z := Z.of_nat nv - Z.abs x + 1.
  Definition lit_true (w : vec) (x : Z) : Prop := if 0 <? x then w (Z.to_nat (lit_level x)) <> 0%nat else w (Z.to_nat (lit_level x)) = 0%nat.
  Notation number j c := ((j, c) ∈ numbered_from 1 cnf).
  Lemma number_c j c : number j c -> canon nv c /\ c <> [].
  Proof. intros H. apply numbered_elem in H as (i & H & _). rewrite Forall_forall in Hcan. apply Hcan. by eapply elem_of_list_lookup_2. Qed.
  Lemma number_small j c : number j c -> small j.
  Proof. intros H. apply numbered_elem in H as (i & H & ->). apply lookup_lt_Some in H. unfold small. lia. Qed.
  Lemma number_fun j c c' : number j c -> number j c' -> c = c'.
  Proof. intros (i & H & E)%numbered_elem (i' & H' & E')%numbered_elem. assert (i = i') as <- by lia. congruence. Qed.
  Lemma lit_range j c x : number j c -> x ∈ c -> x <> 0 /\ 1 <= lit_level x <= enter_level nv c /\ enter_level nv c <= Z.of_nat nv.
  Proof.
    intros Hj Hx. destruct (number_c j c Hj) as [[Hr Hs] _]. destruct c as [|y c]; [by apply elem_of_nil in Hx|]. rewrite Forall_forall in Hr. pose proof (Hr x Hx) as [H0 H1]. pose proof (Hr y ltac:(left)) as [H2 H3].
    split; [done|]. unfold lit_level, enter_level. cbn [hd]. inversion_clear Hs as [|? ? _ Hf]. apply elem_of_cons in Hx as [->|Hx]; [lia|]. rewrite Forall_forall in Hf. specialize (Hf x Hx). lia.
  Qed.
  Lemma posi_elem j c l : number j c -> j ∈ posi nv cnf l <-> exists x, x ∈ c /\ 0 < x /\ lit_level x = l.
  Proof.
    intros Hj. unfold posi. rewrite collect_elem. split.
    - intros (c' & H1 & H2). rewrite (number_fun j c c') by done. destruct (List.filter _ c') as [|x r] eqn:E; [cbn in H2; lia|]. assert (In x (x :: r)) as Hin by (by left). rewrite <- E in Hin. apply filter_In in Hin as [Hin Hb].
      apply andb_prop in Hb as [B1 B2]. apply Z.ltb_lt in B1. apply Z.eqb_eq in B2. exists x. split; [by apply elem_of_list_In|]. split; [done|]. unfold lit_level. lia.
    - intros (x & H1 & H2 & H3). exists c. split; [done|]. assert (In x (List.filter (fun t => (0 <? t) && (Z.of_nat nv - t + 1 =? l)) c)) as Hin.
      { apply filter_In. split; [by apply elem_of_list_In|]. apply andb_true_intro. split; [by apply Z.ltb_lt|]. apply Z.eqb_eq. unfold lit_level in H3. lia. }
      destruct (List.filter _ c); [done|cbn; lia].
  Qed.
  Lemma nega_elem j c l : number j c -> j ∈ nega nv cnf l <-> exists x, x ∈ c /\ x < 0 /\ lit_level x = l.
  Proof.
    intros Hj. unfold nega. rewrite collect_elem. split.
    - intros (c' & H1 & H2). rewrite (number_fun j c c') by done. destruct (List.filter _ c') as [|x r] eqn:E; [cbn in H2; lia|]. assert (In x (x :: r)) as Hin by (by left). rewrite <- E in Hin. apply filter_In in Hin as [Hin Hb].
      apply andb_prop in Hb as [B1 B2]. apply Z.eqb_eq in B2. apply elem_of_list_In in Hin. destruct (lit_range j c' x H1 Hin) as [H0 _]. destruct (Z.ltb_spec 0 x); [done|]. exists x. split; [done|]. split; [lia|]. unfold lit_level. lia.
    - intros (x & H1 & H2 & H3). exists c. split; [done|]. assert (In x (List.filter (fun t => negb (0 <? t) && (Z.of_nat nv + t + 1 =? l)) c)) as Hin.
      { apply filter_In. split; [by apply elem_of_list_In|]. apply andb_true_intro. split; [destruct (Z.ltb_spec 0 x); [lia|done]|]. apply Z.eqb_eq. unfold lit_level in H3. lia. }
      destruct (List.filter _ c); [done|cbn; lia].
  Qed.
  Lemma enter_elem j l : j ∈ enter nv cnf l <-> exists c, number j c /\ enter_level nv c = l.
  Proof.
    unfold enter. rewrite collect_elem. split; intros (c & H1 & H2); exists c; (split; [done|]).
    - destruct (Z.eqb_spec (enter_level nv c) l); [done|lia].
    - rewrite (proj2 (Z.eqb_eq _ _) H2). lia.
  Qed.
  Lemma completing_le j c : number j c -> completing nv cnf <= enter_level nv c - 1.
  Proof.
    intros (i & H & _)%numbered_elem. apply elem_of_list_lookup_2 in H. unfold completing. clear Hcan Hsm. generalize (Z.of_nat nv) at 1. induction cnf as [|c0 l IH]; intros m; [by apply elem_of_nil in H|]. cbn [foldl].
    apply elem_of_cons in H as [->|H]; [|by apply IH]. clear IH. assert (forall m, foldl (fun m c => Z.min m (enter_level nv c - 1)) m l <= m) as HM.
    { induction l as [|c1 l IHl]; intros m'; cbn [foldl]; [lia|]. etransitivity; [apply IHl|lia]. }
    etransitivity; [apply HM|lia].
  Qed.
  Lemma completing_ge : 0 <= completing nv cnf.
  Proof.
    unfold completing. assert (Forall (fun c => 0 <= enter_level nv c - 1) cnf) as HF.
    { apply Forall_forall. intros c Hc. apply elem_of_list_lookup in Hc as [i Hi]. assert (number (1 + Z.of_nat i) c) as Hj by (apply numbered_elem; eauto). destruct c as [|x c]; [by destruct (number_c _ _ Hj)|]. destruct (lit_range _ _ x Hj ltac:(left)). lia. }
    assert (0 <= Z.of_nat nv) as H0 by lia. revert H0 HF. generalize (Z.of_nat nv) at 1 2. clear. induction cnf as [|c l IH]; intros m Hm HF; cbn [foldl]; [done|]. inversion_clear HF. apply IH; [lia|done].
  Qed.

  (** the states that occur at a level *)
  Definition sinv (l : Z) (s : list Z) : Prop := StronglySorted Z.lt s /\ forall j, j ∈ s -> exists c, number j c /\ l < enter_level nv c.
  (** what is left to satisfy *)
  Definition left_over (w : vec) (l : Z) (s : list Z) : Prop :=
    forall j c, number j c -> j ∈ s \/ enter_level nv c <= l -> exists x, x ∈ c /\ lit_level x <= l /\ lit_true w x.
  Lemma child_work s l take : sinv l s -> 1 <= l ->
    let work := cb_work nv cnf s l take in
    sinv (l - 1) work /\ forall j, j ∈ work <-> (j ∈ s \/ j ∈ enter nv cnf l) /\ j ∉ (match take with O => nega nv cnf l | _ => posi nv cnf l end).
  Proof.
    intros [HS HI] Hl work. destruct (merge_ok (length s + length (enter nv cnf l)) s (enter nv cnf l) (match take with O => nega nv cnf l | _ => posi nv cnf l end)) as [M1 M2]; [lia|done| | | | |].
    - apply collect_lt. intros c. destruct (_ =? _); lia.
    - destruct take; apply collect_le.
    - apply Forall_forall. intros j Hj. destruct (HI j Hj) as (c & Hc & _). by eapply number_small.
    - apply Forall_forall. intros j Hj. apply enter_elem in Hj as (c & Hc & _). by eapply number_small.
    - split; [|done]. split; [done|]. intros j Hj. apply M2 in Hj as [[Hj|Hj] _].
      + destruct (HI j Hj) as (c & Hc & H). exists c. split; [done|lia].
      + apply enter_elem in Hj as (c & Hc & H). exists c. split; [done|lia].
  Qed.
  Lemma sat_iff w l j c : number j c ->
    j ∈ (match w (Z.to_nat l) with O => nega nv cnf l | _ => posi nv cnf l end) <-> exists x, x ∈ c /\ lit_level x = l /\ lit_true w x.
  Proof.
    intros Hj. destruct (w (Z.to_nat l)) as [|k] eqn:E.
    - rewrite (nega_elem j c l Hj). split; intros (x & H1 & H2 & H3); exists x; (split; [done|]).
      + split; [done|]. unfold lit_true. rewrite H3, E. by destruct (Z.ltb_spec 0 x); [lia|].
      + split; [|done]. unfold lit_true in H3. rewrite H2, E in H3. destruct (Z.ltb_spec 0 x); [done|]. destruct (lit_range j c x Hj H1). lia.
    - rewrite (posi_elem j c l Hj). split; intros (x & H1 & H2 & H3); exists x; (split; [done|]).
      + split; [done|]. unfold lit_true. rewrite H3, E. by destruct (Z.ltb_spec 0 x); [|lia].
      + split; [|done]. unfold lit_true in H3. rewrite H2, E in H3. by destruct (Z.ltb_spec 0 x).
  Qed.
  Lemma left_step w s l : sinv l s -> 1 <= l ->
    let work := cb_work nv cnf s l (w (Z.to_nat l)) in left_over w (l - 1) work <-> left_over w l s.
  Proof.
    intros HI Hl work. destruct (child_work s l (w (Z.to_nat l)) HI Hl) as [_ HE]. fold work in HE. pose proof (sat_iff w l) as Hsat.
    unfold left_over. split.
    - intros H j c Hj Hs. destruct (decide (j ∈ (match w (Z.to_nat l) with O => nega nv cnf l | _ => posi nv cnf l end))) as [Hin|Hn].
      + apply (Hsat j c Hj) in Hin as (x & H1 & H2 & H3). exists x. split; [done|]. split; [lia|done].
      + destruct (H j c Hj) as (x & H1 & H2 & H3); [|exists x; split; [done|split; [lia|done]]]. destruct Hs as [Hs|Hs]; [left; apply HE; auto|].
        destruct (decide (enter_level nv c = l)) as [El|El]; [left; apply HE; split; [|done]; right; apply enter_elem; eauto|right; lia].
    - intros H j c Hj Hs. destruct Hs as [Hs|Hs].
      + apply HE in Hs as [Hs Hn]. destruct (H j c Hj) as (x & H1 & H2 & H3).
        * destruct Hs as [Hs|Hs]; [by left|]. apply enter_elem in Hs as (c' & Hc' & E). right. rewrite (number_fun j c c') by done. lia.
        * exists x. split; [done|]. split; [|done]. destruct (decide (lit_level x = l)) as [E|E]; [|lia]. exfalso. apply Hn, (Hsat j c Hj). eauto.
      + destruct (H j c Hj) as (x & H1 & H2 & H3); [right; lia|]. exists x. split; [done|]. split; [|done]. destruct (lit_range j c x Hj H1). lia.
  Qed.
  Context (T : Z -> cdd).
  Lemma child_ok s l take r : sinv l s -> 1 <= l -> cb_child nv cnf T s l take = Some r ->
    let work := cb_work nv cnf s l take in
    r = (0, s) /\ bad_state (T (l - 1)) (reverse work) = Some true \/
    r = (-1, s) /\ l - 1 <= completing nv cnf /\ work = [] \/
    r = (l - 1, work) /\ sinv (l - 1) work /\ (l = 1 -> work <> []).
  Proof.
    intros HI Hl. unfold cb_child. cbv zeta. destruct (child_work s l take HI Hl) as [HW _]. cbv zeta in HW. set (work := cb_work nv cnf s l take) in *. rewrite (new_set_sorted work) by apply HW.
    destruct (bad_state _ _) as [[]|]; cbn [mbind option_bind]; [intros [= <-]; by left| |done]. intros Hr. right. revert Hr.
    destruct (Z.leb_spec (l - 1) (completing nv cnf)) as [Hc|Hc], (bool_decide_reflect (work = [])) as [E|E]; cbn [andb]; intros [= <-]; [by left|right; done|right|right; done].
    split; [done|]. split; [done|]. intros ->. pose proof completing_ge. lia.
  Qed.
  Lemma child_cases s l take : sinv l s -> 1 <= l ->
    let r := get_child (cb_spec nv cnf T) s l take in let work := cb_work nv cnf s l take in
    fst r = 0 /\ (is_Some (cb_child nv cnf T s l take) -> bad_state (T (l - 1)) (reverse work) = Some true) \/
    fst r = -1 /\ l - 1 <= completing nv cnf /\ work = [] \/
    r = (l - 1, work) /\ sinv (l - 1) work /\ (l = 1 -> work <> []).
  Proof.
    intros HI Hl r work. unfold r. cbn [cb_spec get_child]. destruct (cb_child nv cnf T s l take) as [r'|] eqn:E; unfold default, id.
    - destruct (child_ok s l take r' HI Hl E) as [(-> & H)|[(-> & H)|(-> & H)]]; [left; split; [done|by intros _]|right; left; done|right; right; done].
    - left. split; [done|]. by intros [].
  Qed.
  Lemma cb_eval_neg l s w : bdd_eval (cb_spec nv cnf T) l (-1) s w = true.
  Proof. induction l as [|l IH]; [done|]. cbn [bdd_eval]. destruct (Z.eqb_spec (-1) (Z.of_nat (S l))); [lia|done]. Qed.
  Lemma cb_eval_zero l s w : bdd_eval (cb_spec nv cnf T) l 0 s w = false.
  Proof. induction l as [|l IH]; [done|]. cbn [bdd_eval]. destruct (Z.eqb_spec 0 (Z.of_nat (S l))); [lia|done]. Qed.
  (** what is accepted satisfies the clauses *)
  Lemma cb_eval_sound w l s : sinv (Z.of_nat l) s -> bdd_eval (cb_spec nv cnf T) l (Z.of_nat l) s w = true -> left_over w (Z.of_nat l) s.
  Proof.
    revert s. induction l as [|l IH]; intros s HI; [done|]. cbn [bdd_eval]. rewrite Z.eqb_refl. pose proof (left_step w s (Z.of_nat (S l)) HI ltac:(lia)) as HS. rewrite Nat2Z.id in HS. cbv zeta in HS. rewrite <- HS.
    destruct (child_cases s (Z.of_nat (S l)) (w (S l)) HI ltac:(lia)) as [(E & _)|[(E & Hc & Ew)|(E & HI' & _)]].
    - rewrite E, cb_eval_zero. done.
    - rewrite Ew. intros _ j c Hj [Hin|Hle]; [by apply elem_of_nil in Hin|]. pose proof (completing_le j c Hj). lia.
    - rewrite E. cbn [fst snd]. replace (Z.of_nat (S l) - 1) with (Z.of_nat l) in * by lia. by apply IH.
  Qed.
  Lemma sinv_root : sinv (Z.of_nat nv) [].
  Proof. split; [constructor|]. intros j Hj. by apply elem_of_nil in Hj. Qed.
  Lemma cb_reach l s : reach (cb_spec nv cnf T) l s -> sinv l s /\ 1 <= l <= Z.of_nat nv.
  Proof.
    induction 1 as [H|l s b Hr IH Hb Hc].
    - cbn [cb_spec get_root] in *. unfold cb_root in *. destruct (Nat.eqb_spec nv 0); cbn [fst snd] in *; [lia|]. split; [apply sinv_root|lia].
    - destruct IH as [HI Hl]. destruct (child_cases s l b HI ltac:(lia)) as [(E & _)|[(E & _)|(E & HI' & _)]]; [lia|lia|]. rewrite E in *. cbn [fst snd] in *. split; [done|lia].
  Qed.
  Lemma cb_contract : (1 <= nv)%nat -> spec_ok (cb_spec nv cnf T) /\ spec_congr (cb_spec nv cnf T) /\ one_code (cb_spec nv cnf T) /\ (top_level (cb_spec nv cnf T) <= nv)%nat.
  Proof.
    intros Hnv. assert (forall l s b, reach (cb_spec nv cnf T) l s -> -1 <= fst (get_child (cb_spec nv cnf T) s l b) < l) as Hlev.
    { intros l s b Hr. destruct (cb_reach l s Hr) as [HI Hl]. destruct (child_cases s l b HI ltac:(lia)) as [(E & _)|[(E & _)|(E & _)]]; rewrite E; cbn [fst]; lia. }
    split_and!.
    - constructor; [cbn; lia|intros l s b Hr _; by apply Hlev|]. intros l s s' _ _ E. cbn [cb_spec equal_to] in E. apply bool_decide_eq_true in E. subst s'. intros bs _. done.
    - constructor; cbn [cb_spec equal_to].
      + intros l s _. by apply bool_decide_eq_true.
      + intros l s s' _ _. apply bool_decide_ext. split; congruence.
      + intros l s s' s'' _ _ _ E E'. apply bool_decide_eq_true in E, E'. apply bool_decide_eq_true. congruence.
      + intros l s s' b _ _ _ E. apply bool_decide_eq_true in E. subst s'. split; [done|]. intros _. by apply bool_decide_eq_true.
    - split; [cbn [cb_spec get_root]; unfold cb_root; destruct (nv =? 0)%nat; cbn [fst]; lia|]. intros l s b Hr _. apply Hlev, Hr.
    - unfold top_level. cbn [cb_spec get_root]. unfold cb_root. destruct (nv =? 0)%nat; cbn [fst]; lia.
  Qed.

  (** ** the analysis does not remove the states of satisfying assignments *)
  Section path.
    Context (w : vec) (Hmod : forall j c, number j c -> exists x, x ∈ c /\ lit_true w x).
    (** clause c is not satisfied by the variables above level l *)
    Definition pending (l : Z) (c : list Z) : Prop := forall x, x ∈ c -> l < lit_level x -> ~ lit_true w x.
    Definition agrees (l : Z) (a : Z -> bool) : Prop := forall j c, number j c -> l < enter_level nv c -> a j = true <-> pending l c.
    Notation sat l := (match w (Z.to_nat l) with O => nega nv cnf l | _ => posi nv cnf l end).
    Lemma leave_elem j l : j ∈ leave nv cnf l <-> exists c, number j c /\ leave_level nv c = l.
    Proof.
      unfold leave. rewrite collect_elem. split; intros (c & H1 & H2); exists c; (split; [done|]).
      - destruct (Z.eqb_spec (leave_level nv c) l); [done|lia].
      - rewrite (proj2 (Z.eqb_eq _ _) H2). lia.
    Qed.
    Lemma leave_lit j c x : number j c -> x ∈ c -> leave_level nv c <= lit_level x.
    Proof.
      intros Hj Hx. destruct (number_c j c Hj) as [[_ Hs] _]. unfold leave_level, lit_level. assert (Z.abs x <= Z.abs (List.last c 0)); [|lia]. clear -Hs Hx. induction Hs as [|y c Hs IH Hf]; [by apply elem_of_nil in Hx|].
      apply elem_of_cons in Hx as [->|Hx].
      - destruct c as [|z c]; [done|]. assert (List.last (z :: c) 0 ∈ z :: c) as Hin. { clear. revert z. induction c as [|u c IH]; intros z; [by left|]. right. apply IH. }
        rewrite Forall_forall in Hf. specialize (Hf _ Hin). change (List.last (y :: z :: c) 0) with (List.last (z :: c) 0). lia.
      - destruct c as [|z c]; [by apply elem_of_nil in Hx|]. by apply IH.
    Qed.
    Lemma leave_done j c l : number j c -> l < leave_level nv c -> ~ pending l c.
    Proof. intros Hj Hl HP. destruct (Hmod j c Hj) as (x & Hx & Ht). apply (HP x Hx); [|done]. pose proof (leave_lit j c x Hj Hx). lia. Qed.
    Lemma leave_enter j c : number j c -> leave_level nv c <= enter_level nv c.
    Proof. intros Hj. destruct c as [|x c]; [by destruct (number_c _ _ Hj)|]. pose proof (leave_lit j _ x Hj ltac:(left)). destruct (lit_range j _ x Hj ltac:(left)) as (_ & H1 & _). lia. Qed.
    (** one level down *)
    Lemma pending_step j c l : number j c -> pending (l - 1) c <-> pending l c /\ j ∉ sat l.
    Proof.
      intros Hj. rewrite (sat_iff w l j c Hj). split.
      - intros HP. split; [intros x Hx Hl; apply HP; [done|lia]|]. intros (x & Hx & El & Ht). by apply (HP x Hx); [lia|].
      - intros [HP Hn] x Hx Hl Ht. destruct (decide (lit_level x = l)) as [E|E]; [apply Hn; by exists x|]. apply (HP x Hx); [lia|done].
    Qed.
    Lemma pending_enter j c : number j c -> pending (enter_level nv c) c.
    Proof. intros Hj x Hx Hl. destruct (lit_range j c x Hj Hx). lia. Qed.
    Lemma all_false_ok vs a : (forall j, j ∈ vs -> a j = false) -> all_are false vs a = true.
    Proof. intros H. unfold all_are. apply forallb_forall. intros j Hj. apply elem_of_list_In in Hj. by rewrite (H j Hj). Qed.
    Lemma all_true_ok vs a : (forall j, j ∈ vs -> a j = true) -> all_are true vs a = true.
    Proof. intros H. unfold all_are. apply forallb_forall. intros j Hj. apply elem_of_list_In in Hj. by rewrite (H j Hj). Qed.
    Lemma abstract_ok (f : cfun) vs a b : (forall j, j ∉ vs -> b j = a j) -> (forall b', (forall j, b' j = b j) -> f b' = true) -> abstract f vs a = true.
    Proof.
      revert a. induction vs as [|v vs IH]; intros a Hb Hf; cbn [abstract]; [apply Hf; intros j; symmetry; apply Hb, not_elem_of_nil|].
      assert (abstract f vs (cput a [v] (b v)) = true) as H.
      { apply IH; [|done]. intros j Hj. unfold cput. case_bool_decide as Hd; [apply elem_of_list_singleton in Hd; by subst j|]. apply Hb. rewrite elem_of_cons. rewrite elem_of_list_singleton in Hd. tauto. }
      destruct (b v); rewrite H; [done|apply orb_true_r].
    Qed.
    Lemma agrees_ext l a b : (forall j, b j = a j) -> agrees l a -> agrees l b.
    Proof. intros E H j c Hj Hl. rewrite E. by apply H. Qed.
    Lemma agrees_false l a j c : agrees l a -> number j c -> l < enter_level nv c -> ~ pending l c -> a j = false.
    Proof. intros HA Hj Hl Hn. destruct (a j) eqn:E; [|done]. exfalso. apply Hn. by apply (HA j c Hj Hl). Qed.
    Lemma leave_false l a : agrees l a -> all_are false (leave nv cnf (l + 1)) a = true.
    Proof. intros HA. apply all_false_ok. intros j Hj. apply leave_elem in Hj as (c & Hc & E). pose proof (leave_enter j c Hc). apply (agrees_false l a j c HA Hc); [lia|]. apply (leave_done j c); [done|lia]. Qed.
    Lemma sat_number l j : j ∈ sat l -> exists c, number j c /\ l <= enter_level nv c.
    Proof.
      intros Hj. assert (exists c, number j c) as [c Hc]. { destruct (w (Z.to_nat l)); apply collect_elem in Hj as (c & Hc & _); by exists c. }
      exists c. split; [done|]. destruct (proj1 (sat_iff w l j c Hc) Hj) as (x & Hx & E & _). destruct (lit_range j c x Hc Hx) as (_ & H1 & _). lia.
    Qed.
    (** traverseTD *)
    Lemma down_ok cut k a : (k <= nv)%nat -> agrees (Z.of_nat nv - Z.of_nat k) a -> down nv cnf cut k a = true.
    Proof.
      revert a. induction k as [|k IH]; intros a Hk HA; cbn [down]; [done|]. cbv zeta. set (i := Z.of_nat nv - Z.of_nat (S k)) in *.
      set (f := fun a => (if i + 2 <=? Z.of_nat nv then cofactor (down nv cnf cut k) (leave nv cnf (i + 2)) false else down nv cnf cut k) a && all_are true (enter nv cnf (i + 1)) a).
      apply (abstract_ok _ _ a a); [done|]. intros a' Ea. apply (agrees_ext i a a' Ea) in HA. clear a Ea. rename a' into a.
      assert (abstract f (sat (i + 1)) a && (all_are false (sat (i + 1)) a && all_are false (leave nv cnf (i + 1)) a) = true) as H.
      { apply andb_true_intro. split; [|apply andb_true_intro; split; [|by apply leave_false]].
        - set (b := fun j => if bool_decide (j ∈ sat (i + 1)) then bool_decide (j ∈ enter nv cnf (i + 1)) || existsb (fun p => bool_decide (fst p = j) && forallb (fun x => negb (i + 1 <? lit_level x) || negb (if 0 <? x then negb (w (Z.to_nat (lit_level x)) =? 0)%nat else (w (Z.to_nat (lit_level x)) =? 0)%nat)) (snd p)) (numbered_from 1 cnf) else a j).
          assert (forall j c, number j c -> i + 1 < enter_level nv c -> b j = true <-> pending (i + 1) c) as Hb1.
          { intros j c Hj Hl. unfold b. destruct (bool_decide_reflect (j ∈ sat (i + 1))) as [Hs|Hs].
            - assert (bool_decide (j ∈ enter nv cnf (i + 1)) = false) as ->. { apply bool_decide_eq_false_2. rewrite enter_elem. intros (c' & Hc' & E). rewrite (number_fun j c c') in Hl by done. lia. }
              cbn [orb]. rewrite existsb_exists. unfold pending, lit_true. split.
              + intros ([j' c'] & Hin & Hb). cbn [fst snd] in Hb. apply andb_prop in Hb as [Hb1 Hb2]. apply bool_decide_eq_true in Hb1 as ->. apply elem_of_list_In in Hin. rewrite <- (number_fun j c c' Hj Hin) in Hb2. rewrite forallb_forall in Hb2.
                intros x Hx Hlx. apply elem_of_list_In in Hx. specialize (Hb2 x Hx). rewrite (proj2 (Z.ltb_lt _ _) Hlx) in Hb2. cbn [negb orb] in Hb2. destruct (0 <? x), (Nat.eqb_spec (w (Z.to_nat (lit_level x))) 0); cbn in Hb2; try done; tauto.
              + intros HP. exists (j, c). split; [by apply elem_of_list_In|]. cbn [fst snd]. rewrite bool_decide_eq_true_2 by done. cbn [andb]. apply forallb_forall. intros x Hx. apply elem_of_list_In in Hx. specialize (HP x Hx). destruct (Z.ltb_spec (i + 1) (lit_level x)) as [Hlx|]; [|done]. specialize (HP Hlx). cbn [negb orb].
                destruct (0 <? x), (Nat.eqb_spec (w (Z.to_nat (lit_level x))) 0); cbn; try done; tauto.
            - rewrite (HA j c Hj) by lia. replace i with (i + 1 - 1) at 1 by lia. rewrite (pending_step j c (i + 1) Hj). tauto. }
          apply (abstract_ok f _ a b); [intros j Hj; unfold b; by rewrite bool_decide_eq_false_2|]. intros b' Eb. unfold f. apply andb_true_intro. split.
          + assert (agrees (Z.of_nat nv - Z.of_nat k) b') as HB. { replace (Z.of_nat nv - Z.of_nat k) with (i + 1) by lia. intros j c Hj Hl. rewrite Eb. by apply Hb1. }
            destruct (i + 2 <=? Z.of_nat nv); [|apply IH; [lia|done]]. unfold cofactor. apply IH; [lia|]. intros j c Hj Hl. unfold cput. case_bool_decide as Hlv; [|by apply HB]. split; [done|]. intros HP. exfalso. apply leave_elem in Hlv as (c' & Hc' & El). rewrite <- (number_fun j c c' Hj Hc') in El. revert HP. apply (leave_done j c); [done|lia].
          + apply all_true_ok. intros j Hj. rewrite Eb. unfold b. pose proof Hj as Hj'. apply enter_elem in Hj as (c & Hc & El). case_bool_decide as Hs; [by rewrite bool_decide_eq_true_2|]. apply (HA j c Hc); [lia|]. replace i with (i + 1 - 1) by lia. apply (pending_step j c (i + 1) Hc). split; [|done]. rewrite <- El. by eapply pending_enter.
        - apply all_false_ok. intros j Hj. destruct (sat_number _ _ Hj) as (c & Hc & Hl). apply (agrees_false i a j c HA Hc); [lia|]. replace i with (i + 1 - 1) by lia. rewrite (pending_step j c (i + 1) Hc). tauto. }
      fold f. destruct (w (Z.to_nat (i + 1))); rewrite H; [apply orb_true_r|done].
    Qed.
    (** traverseBU *)
    Lemma up_ok td i a : (i <= nv)%nat -> (forall i a, (1 <= i <= nv)%nat -> agrees (Z.of_nat i) a -> td i a = true) -> agrees (Z.of_nat i) a -> up nv cnf td i a = true.
    Proof.
      intros Hi Htd. revert a Hi. induction i as [|i IH]; intros a Hi HA; cbn [up]; [by apply (leave_false 0)|]. cbv zeta. apply andb_true_intro. split; [apply Htd; [lia|done]|].
      assert (cofactor (cofactor (up nv cnf td i) (sat (Z.of_nat (S i))) false) (enter nv cnf (Z.of_nat (S i))) true a && (if Z.of_nat (S i) <? Z.of_nat nv then all_are false (leave nv cnf (Z.of_nat (S i) + 1)) a else true) = true) as H.
      { apply andb_true_intro. split; [|destruct (_ <? _); [by apply leave_false|done]]. unfold cofactor. apply IH; [lia|]. intros j c Hj Hl. unfold cput.
        replace (Z.of_nat i) with (Z.of_nat (S i) - 1) in * by lia. rewrite (pending_step j c (Z.of_nat (S i)) Hj). case_bool_decide as Hs; [split; [done|tauto]|].
        case_bool_decide as He.
        - split; [|done]. intros _. split; [|done]. apply enter_elem in He as (c' & Hc' & El). rewrite <- El, (number_fun j c c' Hj Hc'). by eapply pending_enter.
        - rewrite (HA j c Hj); [tauto|]. destruct (decide (enter_level nv c = Z.of_nat (S i))) as [E|E]; [|lia]. exfalso. apply He, enter_elem. by exists c. }
      rewrite Nat2Z.id in H. destruct (w (S i)); rewrite H; [apply orb_true_r|done].
    Qed.
    Lemma frontier_ok m i a : (i <= nv)%nat -> agrees (Z.of_nat i) a -> frontier nv cnf m i a = true.
    Proof.
      intros Hi HA. destruct m as [| |cut]; cbn [frontier]; [done|by apply up_ok|]. apply up_ok; [done| |done]. intros i' a' Hi' HA'. apply down_ok; [lia|]. replace (Z.of_nat nv - Z.of_nat (nv - i')) with (Z.of_nat i') by lia. done.
    Qed.
    (** a satisfying assignment is accepted *)
    Context (m : analysis) (HT : diagrams nv cnf m T) (Hin : inside nv cnf T) (Hw : vec_ok 2 w).
    Lemma cb_eval_complete l s : (l <= nv)%nat -> (l <> 0%nat -> reach (cb_spec nv cnf T) (Z.of_nat l) s) -> sinv (Z.of_nat l) s -> agrees (Z.of_nat l) (fun j => bool_decide (j ∈ s)) -> (l = 0%nat -> s <> []) ->
      bdd_eval (cb_spec nv cnf T) l (Z.of_nat l) s w = true.
    Proof.
      revert s. induction l as [|l IH]; intros s Hl Hr HI HA H0.
      - exfalso. destruct s as [|j s]; [by apply H0|]. destruct HI as [_ HI]. destruct (HI j ltac:(left)) as (c & Hc & Hlc). assert (pending 0 c) as HP by (apply (HA j c Hc Hlc); apply bool_decide_eq_true_2; left).
        destruct (Hmod j c Hc) as (x & Hx & Ht). apply (HP x Hx); [|done]. destruct (lit_range j c x Hc Hx). lia.
      - specialize (Hr ltac:(lia)). cbn [bdd_eval]. rewrite Z.eqb_refl. set (work := cb_work nv cnf s (Z.of_nat (S l)) (w (S l))).
        destruct (child_work s (Z.of_nat (S l)) (w (S l)) HI ltac:(lia)) as [HWI HWE]. fold work in HWI, HWE.
        assert (agrees (Z.of_nat l) (fun j => bool_decide (j ∈ work))) as HA'.
        { intros j c Hj Hlc. rewrite bool_decide_eq_true, HWE. replace (Z.of_nat l) with (Z.of_nat (S l) - 1) by lia. rewrite (pending_step j c (Z.of_nat (S l)) Hj), Nat2Z.id.
          assert (j ∈ s \/ j ∈ enter nv cnf (Z.of_nat (S l)) <-> pending (Z.of_nat (S l)) c) as ->; [|done]. rewrite enter_elem. destruct (decide (enter_level nv c = Z.of_nat (S l))) as [E|E].
          - split; [intros _; rewrite <- E; by eapply pending_enter|]. intros _. right. by exists c.
          - rewrite <- (HA j c Hj) by lia. rewrite bool_decide_eq_true. split; [|by left]. intros [?|(c' & Hc' & E')]; [done|]. rewrite (number_fun j c c' Hj Hc') in E. done. }
        destruct (child_cases s (Z.of_nat (S l)) (w (S l)) HI ltac:(lia)) as [(_ & Hb)|[(E & _)|(E & HI' & Hne)]].
        + exfalso. specialize (Hb (Hin _ _ _ Hr (Hw (S l)))). fold work in Hb. replace (Z.of_nat (S l) - 1) with (Z.of_nat l) in Hb by lia. destruct (HT l ltac:(lia)) as [(above & Ho) Hd].
          assert (cden (T (Z.of_nat l)) (fun j => bool_decide (j ∈ work)) = true) as Ht by (rewrite Hd; apply frontier_ok; [lia|done]).
          rewrite (bad_sound (T (Z.of_nat l)) above (reverse work) (fun j => bool_decide (j ∈ work))) in Ht; [done|done| | |done].
          * apply rev_sorted, HWI.
          * intros j _. apply bool_decide_ext. by rewrite elem_of_reverse.
        + rewrite E. apply cb_eval_neg.
        + assert (reach (cb_spec nv cnf T) (Z.of_nat l) work \/ l = 0%nat) as Hr'.
          { destruct l as [|l]; [by right|]. left. fold work in E. pose proof (reach_child (cb_spec nv cnf T) _ _ (w (S (S l))) Hr (Hw (S (S l)))) as Hc. rewrite E in Hc. cbn [fst snd] in Hc. replace (Z.of_nat (S (S l)) - 1) with (Z.of_nat (S l)) in Hc by lia. apply Hc. lia. }
          rewrite E. cbn [fst snd]. fold work in HI', Hne |- *. replace (Z.of_nat (S l) - 1) with (Z.of_nat l) in * by lia. apply IH; [lia| |done|done|intros ->; by apply Hne]. intros Hl0. by destruct Hr'.
    Qed.
  End path.
  Lemma cb_sem_ok m w : (1 <= nv)%nat -> diagrams nv cnf m T -> inside nv cnf T -> vec_ok 2 w -> bdd_sem (cb_spec nv cnf T) nv w = true <-> forall c, c ∈ cnf -> exists x, x ∈ c /\ lit_true w x.
  Proof.
    intros Hnv HT Hin Hw. unfold bdd_sem. cbn [cb_spec get_root]. assert (cb_root nv = (Z.of_nat nv, [])) as ER by (unfold cb_root; destruct (Nat.eqb_spec nv 0); [lia|done]). rewrite ER. cbn [fst snd]. split.
    - intros H c Hc. apply cb_eval_sound in H; [|apply sinv_root]. apply elem_of_list_lookup in Hc as [i Hi]. assert (number (1 + Z.of_nat i) c) as Hj by (apply numbered_elem; eauto). destruct (H _ c Hj) as (x & H1 & _ & H3); [|eauto].
      right. destruct c as [|y c]; [by destruct (number_c _ _ Hj)|]. destruct (lit_range _ _ y Hj ltac:(left)). lia.
    - intros H. assert (forall j c, number j c -> exists x, x ∈ c /\ lit_true w x) as Hmod. { intros j c Hj. apply H. apply numbered_elem in Hj as (i & Hi & _). by eapply elem_of_list_lookup_2. }
      apply (cb_eval_complete w Hmod m HT Hin Hw); [lia| |apply sinv_root| |lia].
      + intros _. pose proof (reach_root (cb_spec nv cnf T)) as Hr. cbn [cb_spec get_root] in Hr. rewrite ER in Hr. cbn [fst snd] in Hr. apply Hr. lia.
      + intros j c Hj Hl. destruct c as [|y c]; [by destruct (number_c _ _ Hj)|]. destruct (lit_range _ _ y Hj ltac:(left)). lia.
  Qed.
End cb.
