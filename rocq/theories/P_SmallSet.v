(** Proofs about small sets. *)
From stdpp Require Import gmap.
From Coq Require Import Sorted.
From Verif Require Import Base M_Set S_Set.

(** ** ascending lists *)
Lemma asc_lookup l i j x y : ascending l -> l !! i = Some x -> l !! j = Some y -> i < j -> (x < y)%Z.
Proof.
  intros HS. revert i j. induction HS as [|a l HS IH HF]; intros i j Ei Ej Hij; [done|]. destruct j as [|j]; [lia|]. destruct i as [|i].
  - injection Ei as ->. by eapply Forall_lookup_1 in HF.
  - cbn in Ei, Ej. eapply IH; [done..|lia].
Qed.
Lemma asc_app l1 l2 : ascending (l1 ++ l2) <-> ascending l1 /\ ascending l2 /\ forall x y, x ∈ l1 -> y ∈ l2 -> (x < y)%Z.
Proof.
  unfold ascending. induction l1 as [|a l1 IH]; cbn [app].
  - split; [|tauto]. intros H. split; [constructor|]. split; [done|]. intros x y Hx. by apply elem_of_nil in Hx.
  - split.
    + intros H. apply StronglySorted_inv in H as [H1 H2]. apply IH in H1 as (H1 & H3 & H4). apply Forall_app in H2 as [H2 H5]. split; [by constructor|]. split; [done|].
      intros x y Hx Hy. apply elem_of_cons in Hx as [->|Hx]; [by eapply Forall_forall in H5|by apply H4].
    + intros (H1 & H2 & H3). apply StronglySorted_inv in H1 as [H1 H4]. constructor.
      * apply IH. split; [done|]. split; [done|]. intros x y Hx Hy. apply H3; [by right|done].
      * apply Forall_app. split; [done|]. apply Forall_forall. intros y Hy. apply H3; [left|done].
Qed.
Lemma asc_nodup l : ascending l -> NoDup l.
Proof.
  intros HS. induction HS as [|a l HS IH HF]; constructor; [|done]. intros H. eapply Forall_forall in HF; [|done]. lia.
Qed.
Lemma asc_ext l1 : forall l2, ascending l1 -> ascending l2 -> (forall x, x ∈ l1 <-> x ∈ l2) -> l1 = l2.
Proof.
  induction l1 as [|a l1 IH]; intros [|b l2] H1 H2 H.
  - done.
  - exfalso. apply (not_elem_of_nil b). apply H. left.
  - exfalso. apply (not_elem_of_nil a). apply H. left.
  - apply StronglySorted_inv in H1 as [H1 F1]. apply StronglySorted_inv in H2 as [H2 F2].
    assert (a = b) as ->.
    { destruct (proj1 (elem_of_cons _ _ _) (proj1 (H a) ltac:(left))) as [|Ha]; [done|]. destruct (proj1 (elem_of_cons _ _ _) (proj2 (H b) ltac:(left))) as [|Hb]; [done|].
      eapply Forall_forall in F1; [|exact Hb]. eapply Forall_forall in F2; [|exact Ha]. lia. }
    f_equal. apply IH; [done..|]. intros x. specialize (H x). rewrite !elem_of_cons in H. split; intros Hx.
    + destruct (proj1 H (or_intror Hx)) as [->|]; [|done]. eapply Forall_forall in F1; [|exact Hx]. lia.
    + destruct (proj2 H (or_intror Hx)) as [->|]; [|done]. eapply Forall_forall in F2; [|exact Hx]. lia.
Qed.
Lemma asc_take_drop l k : ascending l -> ascending (take k l) /\ ascending (drop k l) /\ forall x y, x ∈ take k l -> y ∈ drop k l -> (x < y)%Z.
Proof. intros H. rewrite <- (take_drop k l) in H. by apply asc_app in H. Qed.
Lemma lb_le l e : lower_bound l e <= length l.
Proof. induction l as [|x l IH]; cbn; [lia|]. destruct (x <? e)%Z; lia. Qed.
Lemma lb_ok l e : ascending l -> forall i x, l !! i = Some x -> (x < e)%Z <-> i < lower_bound l e.
Proof.
  intros HS. induction HS as [|a l HS IH HF]; intros i x E; [done|]. cbn [lower_bound]. destruct (Z.ltb_spec a e) as [Hl|Hl].
  - destruct i as [|i]; [injection E as <-; split; [lia|done]|]. cbn in E. rewrite (IH _ _ E). lia.
  - split; [|lia]. destruct i as [|i]; [injection E as <-; lia|]. cbn in E. eapply Forall_lookup_1 in HF; [|done]. lia.
Qed.

(** ** arrays *)
Definition holds (a : list (option Z)) (i : nat) (xs : list Z) : Prop := forall k x, xs !! k = Some x -> a !! (i + k) = Some (Some x).
Lemma holds_cons a i x xs : holds a i (x :: xs) <-> a !! i = Some (Some x) /\ holds a (S i) xs.
Proof.
  split.
  - intros H. split; [rewrite <- (Nat.add_0_r i); by apply H|]. intros k y E. replace (S i + k) with (i + S k) by lia. by apply H.
  - intros [H1 H2] [|k] y E; [injection E as <-; by rewrite Nat.add_0_r|]. replace (i + S k) with (S i + k) by lia. by apply H2.
Qed.
Lemma holds_app a i xs ys : holds a i (xs ++ ys) <-> holds a i xs /\ holds a (i + length xs) ys.
Proof.
  revert i. induction xs as [|x xs IH]; intros i; cbn [app length].
  - rewrite Nat.add_0_r. split; [|tauto]. intros H. split; [intros k x; done|done].
  - rewrite !holds_cons, IH. replace (S i + length xs) with (i + S (length xs)) by lia. tauto.
Qed.
Lemma holds_keep a a' i xs : holds a i xs -> (forall k, i <= k -> k < i + length xs -> a' !! k = a !! k) -> holds a' i xs.
Proof. intros H Hk k x E. pose proof (lookup_lt_Some _ _ _ E). rewrite Hk by lia. by apply H. Qed.
Lemma a_get_ok a i x : a !! i = Some (Some x) -> a_get a i = Some x.
Proof. unfold a_get. by intros ->. Qed.
Lemma a_set_ok a i x : i < length a -> a_set a i x = Some (<[i := Some x]> a).
Proof. intros H. unfold a_set. by rewrite (proj2 (Nat.ltb_lt _ _) H). Qed.
(** moving xs down by one place *)
Lemma down_ok xs : forall a p, holds a (S p) xs ->
  exists a', ofold (fun a q => y ← a_get a (q + 1); a_set a q y) (seq p (length xs)) a = Some a' /\ holds a' p xs /\ length a' = length a /\ forall i, i < p -> a' !! i = a !! i.
Proof.
  induction xs as [|x xs IH]; intros a p H; cbn [length seq ofold].
  - exists a. split; [done|]. split; [intros k x; done|]. done.
  - apply holds_cons in H as [H1 H2]. rewrite Nat.add_1_r, (a_get_ok _ _ _ H1). cbn [mbind option_bind]. pose proof (lookup_lt_Some _ _ _ H1) as Hl. rewrite a_set_ok by lia.
    destruct (IH (<[p := Some x]> a) (S p)) as (a' & E & A1 & A2 & A3).
    + eapply holds_keep; [done|]. intros k Hk _. apply list_lookup_insert_ne. lia.
    + exists a'. split; [done|]. split; [|split].
      * apply holds_cons. split; [|done]. rewrite A3 by lia. apply list_lookup_insert. lia.
      * by rewrite A2, insert_length.
      * intros i Hi. rewrite A3 by lia. apply list_lookup_insert_ne. lia.
Qed.
Definition shape (a : list (option Z)) (r : nat) (xs : list Z) : Prop := holds a 0 (take r xs) /\ holds a (S r) (drop r xs).
Lemma add_loop_ok xs e (Hxs : ascending xs) : forall r a, r <= length xs -> length xs < length a -> holds a 0 (take r xs) -> (r < length xs -> holds a (S r) (drop r xs)) ->
  (forall y, y ∈ drop r xs -> (e < y)%Z) ->
  exists ys a', add_loop r (length xs) a e = Some (length ys, a') /\ ascending ys /\ (forall y, y ∈ ys <-> y = e \/ y ∈ xs) /\ holds a' 0 ys /\ length a' = length a.
Proof.
  assert (forall r (a : list (option Z)), r <= length xs -> length xs < length a -> holds a 0 (take r xs) -> (r < length xs -> holds a (S r) (drop r xs)) ->
    (forall y, y ∈ take r xs -> (y < e)%Z) -> (forall y, y ∈ drop r xs -> (e < y)%Z) ->
    exists ys a', (a' ← a_set a r e; Some (length xs + 1, a')) = Some (length ys, a') /\ ascending ys /\ (forall y, y ∈ ys <-> y = e \/ y ∈ xs) /\ holds a' 0 ys /\ length a' = length a) as Hstop.
  { intros r a Hr Hl H1 H2 Hb Ha. rewrite a_set_ok by lia. cbn [mbind option_bind]. exists (take r xs ++ e :: drop r xs), (<[r := Some e]> a).
    destruct (asc_take_drop xs r Hxs) as (S1 & S2 & S3). assert (length (take r xs) = r) as Hlr by (rewrite take_length; lia). split; [|split; [|split; [|split]]].
    - do 2 f_equal. rewrite app_length. cbn [length]. rewrite drop_length. lia.
    - apply asc_app. split; [done|]. split.
      + constructor; [done|]. apply Forall_forall. done.
      + intros x y Hx Hy. apply elem_of_cons in Hy as [->|Hy]; [by apply Hb|by apply S3].
    - intros y. rewrite elem_of_app, elem_of_cons. rewrite <- (take_drop r xs) at 3. rewrite elem_of_app. tauto.
    - apply holds_app. split.
      + eapply holds_keep; [done|]. intros k _ Hk. apply list_lookup_insert_ne. lia.
      + cbn [Nat.add]. rewrite Hlr. apply holds_cons. split; [apply list_lookup_insert; lia|]. destruct (decide (r < length xs)) as [Hlt|Hge].
        * eapply holds_keep; [by apply H2|]. intros k Hk _. apply list_lookup_insert_ne. lia.
        * rewrite drop_ge by lia. intros k x; done.
    - apply insert_length. }
  induction r as [|r IH]; intros a Hr Hl H1 H2 Hd; cbn [add_loop].
  - apply Hstop; try done. intros y Hy. by apply elem_of_nil in Hy.
  - assert (r < length xs) as Hr' by lia. destruct (lookup_lt_is_Some_2 _ _ Hr') as [x Ex].
    assert (a !! r = Some (Some x)) as Ea. { rewrite <- (Nat.add_0_l r). apply H1. rewrite lookup_take by lia. done. }
    rewrite (a_get_ok _ _ _ Ea). cbn [mbind option_bind]. destruct (Z.leb_spec e x) as [Hle|Hlt]; [destruct (Z.eqb_spec e x) as [->|Hne]|].
    + (* present: undo *)
      replace (length xs - S r) with (length (drop (S r) xs)) by (rewrite drop_length; lia).
      destruct (down_ok (drop (S r) xs) a (S r)) as (a' & E & A1 & A2 & A3).
      { destruct (decide (S r < length xs)); [by apply H2|]. rewrite drop_ge by lia. intros k y; done. }
      rewrite E. cbn [mbind option_bind]. exists xs, a'. split; [done|]. split; [done|]. split; [|split; [|done]].
      * intros y. split; [tauto|]. intros [->|]; [|done]. by eapply elem_of_list_lookup_2.
      * rewrite <- (take_drop (S r) xs). apply holds_app. split; [|rewrite take_length; cbn [Nat.add]; by replace (S r `min` length xs) with (S r) by lia].
        eapply holds_keep; [done|]. intros k _ Hk. rewrite take_length in Hk. apply A3. lia.
    + rewrite a_set_ok by lia. cbn [mbind option_bind]. destruct (IH (<[S r := Some x]> a)) as (ys & a' & E & A1 & A2 & A3 & A4).
      * lia.
      * by rewrite insert_length.
      * eapply holds_keep. { intros k y Ek. apply H1. apply lookup_take_Some in Ek as [Ek Hk]. apply lookup_take_Some. split; [done|lia]. }
        intros k _ Hk. rewrite take_length in Hk. apply list_lookup_insert_ne. lia.
      * intros _. rewrite (drop_S _ _ _ Ex). apply holds_cons. split; [apply list_lookup_insert; lia|]. destruct (decide (S r < length xs)).
        -- eapply holds_keep; [by apply H2|]. intros k Hk _. apply list_lookup_insert_ne. lia.
        -- rewrite drop_ge by lia. intros k y; done.
      * intros y Hy. rewrite (drop_S _ _ _ Ex) in Hy. apply elem_of_cons in Hy as [->|Hy]; [lia|by apply Hd].
      * exists ys, a'. rewrite insert_length in A4. done.
    + apply Hstop; try done. intros y Hy. rewrite (take_S_r _ _ _ Ex) in Hy. apply elem_of_app in Hy as [Hy|Hy]; [|apply elem_of_list_singleton in Hy as ->; done].
      apply elem_of_take in Hy as (i & Ei & Hi). pose proof (asc_lookup _ _ _ _ _ Hxs Ei Ex Hi). lia.
Qed.

(** ** sets *)
Definition srep (s : sset) (cN cap : nat) (xs : list Z) : Prop :=
  s_N s = cN /\ (cN = 0 \/ cN = cap) /\ length (s_arr s) = cap /\ s_size s = length xs /\ holds (s_arr s) 0 xs /\ ascending xs.
Definition sinv (s : sset) (cN cap : nat) (S : gset Z) : Prop := exists xs, srep s cN cap xs /\ forall x, x ∈ S <-> x ∈ xs.
Lemma sinv_set (S : gset Z) xs : (forall x, x ∈ S <-> x ∈ xs) -> ascending xs -> size S = length xs.
Proof.
  intros H Hs. assert (S = list_to_set xs) as ->. { apply set_eq. intros x. rewrite elem_of_list_to_set. apply H. } apply size_list_to_set. by apply asc_nodup.
Qed.
Lemma sadd_ok s cN cap S e r : sinv s cN cap S -> sv_exec cN cap S (SAdd e) = Some r -> exists s', s_add s e = Some (fst r, s') /\ sinv s' cN cap (snd r).
Proof.
  intros (xs & (HN & Hc & Hl & Hs & Hh & Ha) & HS) E. pose proof (sinv_set _ _ HS Ha) as Hsz. cbn [sv_exec] in E. unfold s_add. rewrite HN, Hs.
  assert ((0 <? cN) && (cN - 1 <=? length xs) = true -> r = (true, S)) as Ht.
  { intros H. apply andb_prop in H as [H1 H2]. apply Nat.ltb_lt in H1. rewrite (proj2 (Nat.eqb_neq cN 0)) in E by lia. rewrite Hsz, H2 in E. by injection E as <-. }
  assert ((0 <? cN) && (cN - 1 <=? length xs) = false -> r = (false, {[e]} ∪ S) /\ length xs < cap) as Hf.
  { intros H. destruct (Nat.eqb_spec cN 0) as [->|Hne].
    - rewrite Hsz in E. destruct (Nat.ltb_spec (length xs) cap); [|done]. by injection E as <-.
    - rewrite (proj2 (Nat.ltb_lt 0 cN)) in H by lia. cbn [andb] in H. rewrite Hsz, H in E. injection E as <-. apply Nat.leb_gt in H. split; [done|]. lia. }
  destruct ((0 <? cN) && (cN - 1 <=? length xs)).
  - rewrite Ht by done. cbn. exists s. split; [done|]. by exists xs.
  - destruct Hf as [-> Hlt]; [done|].
    assert (exists ys a', add_loop (length xs) (length xs) (s_arr s) e = Some (length ys, a') /\ ascending ys /\ (forall y, y ∈ ys <-> y = e \/ y ∈ xs) /\ holds a' 0 ys /\ length a' = length (s_arr s)) as (ys & a' & E' & A1 & A2 & A3 & A4).
    { apply add_loop_ok; [done|done|lia|by rewrite firstn_all|intros; lia|]. rewrite drop_all. intros y Hy. by apply elem_of_nil in Hy. }
    rewrite E'. cbn [mbind option_bind fst snd]. eexists. split; [done|]. exists ys. split; [split_and!; cbn; try done; lia|]. intros x. rewrite elem_of_union, elem_of_singleton, A2, HS. done.
Qed.
Lemma slist_ok s cN cap xs : srep s cN cap xs -> s_list s = Some xs /\ s_rlist s = Some (reverse xs).
Proof.
  intros (HN & Hc & Hl & Hs & Hh & Ha). unfold s_list, s_rlist. rewrite Hs. split; apply mapM_Some_2, Forall2_same_length_lookup; (split; [by rewrite ?reverse_length, seq_length|]).
  - intros i a x Ea Ex. apply lookup_seq in Ea as [-> _]. unfold s_get. pose proof (Hh _ _ Ex) as E. cbn [Nat.add] in *. rewrite E. done.
  - intros i a x Ea Ex. pose proof (lookup_lt_Some _ _ _ Ex) as Hi. rewrite reverse_length in Hi. rewrite reverse_lookup in Ea by (rewrite seq_length; done). rewrite seq_length in Ea. rewrite reverse_lookup in Ex by done.
    apply lookup_seq in Ea as [-> _]. unfold s_get. cbn [Nat.add]. pose proof (Hh _ _ Ex) as E. cbn [Nat.add] in E. rewrite E. done.
Qed.
Lemma sget_ok s cN cap xs i x : srep s cN cap xs -> xs !! i = Some x -> s_get s i = Some x.
Proof. intros (HN & Hc & Hl & Hs & Hh & Ha) E. unfold s_get. pose proof (Hh _ _ E) as E'. cbn [Nat.add] in E'. by rewrite E'. Qed.
Lemma lb_find xs e : ascending xs -> (lower_bound xs e = length xs /\ e ∉ xs) \/ exists x, xs !! lower_bound xs e = Some x /\ (e <= x)%Z /\ (e ∈ xs <-> x = e).
Proof.
  intros Ha. pose proof (lb_le xs e) as Hle. destruct (decide (lower_bound xs e = length xs)) as [E|E].
  - left. split; [done|]. intros Hin. apply elem_of_list_lookup in Hin as [i Ei]. pose proof (proj2 (lb_ok _ e Ha _ _ Ei)) as H. rewrite E in H. apply lookup_lt_Some in Ei. specialize (H Ei). lia.
  - right. assert (lower_bound xs e < length xs) as Hlt by lia. destruct (lookup_lt_is_Some_2 _ _ Hlt) as [x Ex]. exists x. split; [done|].
    assert (e <= x)%Z as Hx. { destruct (Z.leb_spec e x) as [|H]; [done|]. apply (lb_ok _ _ Ha _ _ Ex) in H. lia. } split; [done|]. split.
    + intros Hin. apply elem_of_list_lookup in Hin as [i Ei]. destruct (decide (x = e)) as [|Hne]; [done|]. destruct (decide (i < lower_bound xs e)) as [Hi|Hi]; [apply (lb_ok _ _ Ha _ _ Ei) in Hi; lia|].
      destruct (decide (i = lower_bound xs e)) as [->|]; [congruence|]. pose proof (asc_lookup _ _ _ _ _ Ha Ex Ei). lia.
    + intros ->. by eapply elem_of_list_lookup_2.
Qed.
Lemma sremove_ok s cN cap S e : sinv s cN cap S -> exists s', s_remove s e = Some s' /\ sinv s' cN cap (S ∖ {[e]}).
Proof.
  intros (xs & HR & HS). pose proof HR as (HN & Hc & Hl & Hs & Hh & Ha). unfold s_remove. destruct (slist_ok _ _ _ _ HR) as [-> _]. cbn [mbind option_bind]. rewrite Hs.
  assert (e ∉ xs -> sinv s cN cap (S ∖ {[e]})) as Hno.
  { intros Hn. exists xs. split; [done|]. intros x. rewrite elem_of_difference, elem_of_singleton, HS. split; [tauto|]. intros Hx. split; [done|]. by intros ->. }
  destruct (lb_find xs e Ha) as [[-> Hn]|(x & Ex & Hx & Hin)].
  - rewrite Nat.eqb_refl. exists s. split; [done|by apply Hno].
  - set (p := lower_bound xs e) in *. pose proof (lookup_lt_Some _ _ _ Ex) as Hp. rewrite (proj2 (Nat.eqb_neq _ _)) by lia. rewrite (sget_ok _ _ _ _ _ _ HR Ex). cbn [mbind option_bind].
    destruct (Z.eqb_spec x e) as [->|Hne]; cbn [negb].
    2:{ exists s. split; [done|]. apply Hno. tauto. }
    replace (length xs - 1 - p) with (length (drop (Datatypes.S p) xs)) by (rewrite drop_length; lia).
    assert (xs = take p xs ++ e :: drop (Datatypes.S p) xs) as Exs by (by rewrite take_drop_middle).
    pose proof Hh as Hh'. rewrite Exs in Hh'. apply holds_app in Hh' as [H1 H2]. rewrite take_length in H2. replace (p `min` length xs) with p in H2 by lia. apply holds_cons in H2 as [_ H2].
    destruct (down_ok (drop (Datatypes.S p) xs) (s_arr s) p H2) as (a' & -> & A1 & A2 & A3). cbn [mbind option_bind]. eexists. split; [done|].
    exists (take p xs ++ drop (Datatypes.S p) xs). split.
    + split_and!; cbn [s_N s_size s_arr]; try done; [lia|rewrite app_length, take_length, drop_length; lia| |].
      * apply holds_app. split; [|rewrite take_length; cbn [Nat.add]; by replace (p `min` length xs) with p by lia].
        eapply holds_keep; [done|]. intros k _ Hk. rewrite take_length in Hk. apply A3. lia.
      * rewrite Exs in Ha. apply asc_app in Ha as (B1 & B2 & B3). apply StronglySorted_inv in B2 as [B2 _]. apply asc_app. split; [done|]. split; [done|]. intros y z Hy Hz. apply B3; [done|by right].
    + intros y. rewrite elem_of_difference, elem_of_singleton, HS. rewrite Exs at 1. rewrite !elem_of_app, elem_of_cons.
      rewrite Exs in Ha. apply asc_app in Ha as (_ & B2 & B3). apply StronglySorted_inv in B2 as [_ B2]. split; [tauto|]. intros Hy. split; [tauto|]. intros ->. destruct Hy as [Hy|Hy].
      * specialize (B3 e e Hy ltac:(left)). lia.
      * eapply Forall_forall in B2; [|done]. lia.
Qed.
Lemma sexec_ok s cN cap S c r : sinv s cN cap S -> sv_exec cN cap S c = Some r -> exists s', sexec s c = Some (fst r, s') /\ sinv s' cN cap (snd r).
Proof.
  intros HI E. destruct c as [e|e|]; cbn [sexec].
  - by eapply sadd_ok.
  - injection E as <-. destruct (sremove_ok s cN cap S e HI) as (s' & -> & H). cbn. by exists s'.
  - injection E as <-. cbn. eexists. split; [done|]. destruct HI as (xs & (HN & Hc & Hl & Hs & Hh & Ha) & HS). exists []. split; [|set_solver]. split_and!; cbn; try done; constructor.
Qed.
Lemma sexec_all_ok cN cap l : forall s S ts S', sinv s cN cap S -> sv_run cN cap S l = Some (ts, S') -> exists s', sexec_all s l = Some (ts, s') /\ sinv s' cN cap S'.
Proof.
  induction l as [|c l IH]; intros s S ts S' HI E; cbn [sv_run sexec_all] in *; [injection E as <- <-; by exists s|].
  destruct (sv_exec cN cap S c) as [[t S1]|] eqn:E1; [|done]. cbn [mbind option_bind] in E. destruct (sv_run cN cap S1 l) as [[ts2 S2]|] eqn:E2; [|done]. cbn [mbind option_bind] in E. injection E as <- <-.
  destruct (sexec_ok _ _ _ _ _ _ HI E1) as (s1 & E3 & HI1). cbn [fst snd] in *. rewrite E3. cbn [mbind option_bind]. destruct (IH _ _ _ _ HI1 E2) as (s2 & E4 & HI2). rewrite E4. cbn. by exists s2.
Qed.
Lemma snew_ok cN cap raw : (cN = 0 \/ cN = cap) -> length raw = cap -> sinv (s_new cN raw) cN cap ∅.
Proof. intros H1 H2. exists []. split; [|set_solver]. split_and!; cbn; try done; constructor. Qed.
(** observers *)
Lemma sincludes_ok s cN cap S e : sinv s cN cap S -> s_includes s e = Some (bool_decide (e ∈ S)).
Proof.
  intros (xs & HR & HS). pose proof HR as (HN & Hc & Hl & Hs & Hh & Ha). unfold s_includes. destruct (slist_ok _ _ _ _ HR) as [-> _]. cbn [mbind option_bind]. rewrite Hs.
  destruct (lb_find xs e Ha) as [[-> Hn]|(x & Ex & Hx & Hin)].
  - rewrite Nat.eqb_refl. rewrite bool_decide_eq_false_2; [done|]. by rewrite HS.
  - pose proof (lookup_lt_Some _ _ _ Ex) as Hp. rewrite (proj2 (Nat.eqb_neq _ _)) by lia. rewrite (sget_ok _ _ _ _ _ _ HR Ex). cbn [mbind option_bind]. f_equal. rewrite <- HS in Hin.
    destruct (bool_decide_reflect (e ∈ S)) as [H|H].
    + apply Hin in H as ->. rewrite Z.ltb_irrefl. done.
    + destruct (Z.ltb_spec e x); [done|]. destruct H. apply Hin. lia.
Qed.
Lemma eq_loop_ok l : forall c, eq_loop l c = bool_decide (l = c).
Proof.
  induction l as [|x l IH]; intros [|y c]; cbn [eq_loop]; try done; try (by rewrite bool_decide_eq_false_2). destruct (Z.eqb_spec x y) as [->|Hne]; cbn [negb].
  - rewrite IH. apply bool_decide_ext. split; [by intros ->|by injection 1].
  - rewrite bool_decide_eq_false_2; [done|]. by injection 1.
Qed.
Lemma sequals_ok s cN cap S c : sinv s cN cap S -> ascending c -> s_equals s c = Some (bool_decide (S = list_to_set c)).
Proof.
  intros (xs & HR & HS) Hc. pose proof HR as (_ & _ & _ & _ & _ & Ha). unfold s_equals. destruct (slist_ok _ _ _ _ HR) as [-> _]. cbn [mbind option_bind]. rewrite eq_loop_ok. f_equal. apply bool_decide_ext. split.
  - intros ->. apply set_eq. intros x. by rewrite elem_of_list_to_set.
  - intros ->. apply asc_ext; [done..|]. intros x. rewrite <- HS. apply elem_of_list_to_set.
Qed.
Lemma int_loop_ok fuel : forall l c, ascending l -> StronglySorted Z.le c -> length l + length c <= fuel -> (int_loop fuel l c = true <-> exists x, x ∈ l /\ x ∈ c).
Proof.
  induction fuel as [|f IH]; intros l c Hl Hc Hf.
  - destruct l, c; cbn in Hf; try lia. cbn. split; [done|]. intros (x & Hx & _). by apply elem_of_nil in Hx.
  - destruct l as [|x l]; [cbn; split; [done|]; intros (z & Hz & _); by apply elem_of_nil in Hz|]. destruct c as [|y c]; [cbn; split; [done|]; intros (z & _ & Hz); by apply elem_of_nil in Hz|].
    cbn [int_loop]. destruct (Z.eqb_spec x y) as [->|Hne]; [split; [|done]; intros _; exists y; split; left|]. pose proof Hl as Hl'. pose proof Hc as Hc'.
    apply StronglySorted_inv in Hl' as [L1 L2]. apply StronglySorted_inv in Hc' as [C1 C2]. cbn [length] in Hf. destruct (Z.ltb_spec x y) as [Hlt|Hge].
    + rewrite IH by (done || cbn; lia). split; intros (z & H1 & H2); exists z.
      * split; [by right|done].
      * split; [|done]. apply elem_of_cons in H1 as [->|H1]; [|done]. apply elem_of_cons in H2 as [->|H2]; [done|]. eapply Forall_forall in C2; [|done]. lia.
    + rewrite IH by (done || cbn; lia). split; intros (z & H1 & H2); exists z.
      * split; [done|by right].
      * split; [done|]. apply elem_of_cons in H2 as [->|H2]; [|done]. apply elem_of_cons in H1 as [->|H1]; [done|]. eapply Forall_forall in L2; [|done]. lia.
Qed.
Lemma sintersects_ok s cN cap S c : sinv s cN cap S -> StronglySorted Z.le c -> s_intersects s c = Some (bool_decide (exists x, x ∈ S /\ x ∈ c)).
Proof.
  intros (xs & HR & HS) Hc. pose proof HR as (_ & _ & _ & _ & _ & Ha). unfold s_intersects. destruct (slist_ok _ _ _ _ HR) as [-> _]. cbn [mbind option_bind]. f_equal.
  pose proof (int_loop_ok _ xs c Ha Hc (le_n _)) as H. destruct (bool_decide_reflect (exists x, x ∈ S /\ x ∈ c)) as [(x & H1 & H2)|Hn].
  - apply H. exists x. by rewrite <- HS.
  - destruct (int_loop _ xs c); [|done]. destruct Hn. destruct (proj1 H eq_refl) as (x & H1 & H2). exists x. by rewrite HS.
Qed.
Lemma all_loop_ok fuel : forall l c, ascending l -> ascending c -> length l + length c <= fuel -> (all_loop fuel l c = true <-> forall x, x ∈ c -> x ∈ l).
Proof.
  induction fuel as [|f IH]; intros l c Hl Hc Hf.
  - destruct l, c; cbn in Hf; try lia. cbn. split; [|done]. intros _ x. done.
  - destruct c as [|y c]; [destruct l; cbn; (split; [|done]); intros _ zz Hz; by apply elem_of_nil in Hz|].
    destruct l as [|x l]; [cbn; split; [done|]; intros H; specialize (H y ltac:(left)); by apply elem_of_nil in H|].
    cbn [all_loop]. pose proof Hl as Hl'. pose proof Hc as Hc'. apply StronglySorted_inv in Hl' as [L1 L2]. apply StronglySorted_inv in Hc' as [C1 C2]. cbn [length] in Hf.
    destruct (Z.ltb_spec y x) as [Hlt|Hge].
    + split; [done|]. intros H. specialize (H y ltac:(left)). apply elem_of_cons in H as [->|H]; [lia|]. eapply Forall_forall in L2; [|done]. lia.
    + destruct (Z.ltb_spec x y) as [Hlt|Hge'].
      * rewrite IH by (done || cbn; lia). split; intros H z Hz; specialize (H z Hz).
        -- by right.
        -- apply elem_of_cons in H as [->|H]; [|done]. apply elem_of_cons in Hz as [->|Hz]; [lia|]. eapply Forall_forall in C2; [|done]. lia.
      * assert (x = y) as -> by lia. rewrite IH by (done || cbn; lia). split; intros H z Hz.
        -- apply elem_of_cons in Hz as [->|Hz]; [left|right; by apply H].
        -- specialize (H z ltac:(by right)). apply elem_of_cons in H as [->|H]; [|done]. eapply Forall_forall in C2; [|done]. lia.
Qed.
Lemma scontains_ok s cN cap S c : sinv s cN cap S -> ascending c -> s_containsAll s c = Some (bool_decide (list_to_set c ⊆ S)).
Proof.
  intros (xs & HR & HS) Hc. pose proof HR as (_ & _ & _ & _ & _ & Ha). unfold s_containsAll. destruct (slist_ok _ _ _ _ HR) as [-> _]. cbn [mbind option_bind]. f_equal.
  pose proof (all_loop_ok _ xs c Ha Hc (le_n _)) as H. destruct (bool_decide_reflect (list_to_set c ⊆ S)) as [Hs|Hn].
  - apply H. intros x Hx. apply HS, Hs. by apply elem_of_list_to_set.
  - destruct (all_loop _ xs c); [|done]. destruct Hn. intros x Hx. apply HS. apply (proj1 H eq_refl). by apply elem_of_list_to_set in Hx.
Qed.
Lemma seq_ok s o cN cap cN' cap' S S' : sinv s cN cap S -> sinv o cN' cap' S' -> s_eq s o = Some (bool_decide (S = S')).
Proof.
  intros (xs & HR & HS) (ys & HO & HS'). pose proof HR as (_ & _ & _ & Hs & _ & Ha). pose proof HO as (_ & _ & _ & Hs' & _ & Ha'). unfold s_eq. rewrite Hs, Hs'.
  assert (S = S' <-> xs = ys) as Heq. { split; [intros ->; apply asc_ext; [done..|]; intros x; rewrite <- HS, <- HS'; done|]. intros ->. apply set_eq. intros x. by rewrite HS, HS'. }
  destruct (Nat.eqb_spec (length xs) (length ys)) as [Hl|Hl]; cbn [negb].
  2:{ rewrite bool_decide_eq_false_2; [done|]. rewrite Heq. by intros ->. }
  assert (forall k i, i + k = length xs -> elems_eq s o i k = Some (bool_decide (drop i xs = drop i ys))) as G.
  { induction k as [|k IH]; intros i Hi; cbn [elems_eq].
    - rewrite !drop_ge by lia. done.
    - assert (i < length xs) as H1 by lia. assert (i < length ys) as H2 by lia. destruct (lookup_lt_is_Some_2 _ _ H1) as [w Ew], (lookup_lt_is_Some_2 _ _ H2) as [v Ev].
      rewrite (sget_ok _ _ _ _ _ _ HR Ew), (sget_ok _ _ _ _ _ _ HO Ev). cbn [mbind option_bind]. rewrite (drop_S _ _ _ Ew), (drop_S _ _ _ Ev). destruct (Z.eqb_spec w v) as [->|Hne]; cbn [negb].
      + rewrite IH by lia. f_equal. rewrite Nat.add_1_r. apply bool_decide_ext. split; [by intros ->|by injection 1].
      + rewrite bool_decide_eq_false_2; [done|]. by injection 1. }
  rewrite G by lia. rewrite !drop_0. f_equal. by apply bool_decide_ext.
Qed.
Lemma shash_ok ehash s o cN cap cN' cap' S : sinv s cN cap S -> sinv o cN' cap' S -> exists h, s_hash ehash s = Some h /\ s_hash ehash o = Some h.
Proof.
  intros (xs & HR & HS) (ys & HO & HS'). assert (xs = ys) as <-. { apply asc_ext; [by apply HR|by apply HO|]. intros x. by rewrite <- HS, <- HS'. }
  exists (foldl (fun h x => (h * 271828171 + ehash x) mod 2 ^ 64)%N 0%N xs).
  assert (forall s cN cap, srep s cN cap xs -> s_hash ehash s = Some (foldl (fun h x => (h * 271828171 + ehash x) mod 2 ^ 64)%N 0%N xs)) as G; [|by erewrite !G].
  intros b' ? ? HB'. unfold s_hash. pose proof HB' as (_ & _ & _ & -> & _).
  destruct (ofor_inv (fun h k => x ← s_get b' k; Some ((h * 271828171 + ehash x) mod 2 ^ 64)%N) (fun i h => h = foldl (fun h x => (h * 271828171 + ehash x) mod 2 ^ 64)%N 0%N (take i xs)) (length xs) 0%N) as (h & -> & ->).
  - done.
  - intros i h Hi ->. destruct (lookup_lt_is_Some_2 _ _ Hi) as [w Ew]. rewrite (sget_ok _ _ _ _ _ _ HB' Ew). cbn [mbind option_bind]. eexists. split; [done|]. by rewrite (take_S_r _ _ _ Ew), foldl_app.
  - by rewrite firstn_all.
Qed.
(** copying a container *)
Lemma scopy_ok raw c : length raw = length c -> exists s, s_copy raw c = Some s /\ sinv s 0 (length c) (list_to_set c).
Proof.
  intros Hl. unfold s_copy. rewrite Hl, Nat.eqb_refl.
  assert (forall l s (S : gset Z), sinv s 0 (length c) S -> size S + length l <= length c -> exists s', ofold (fun s e => '(_, s') ← s_add s e; Some s') l s = Some s' /\ sinv s' 0 (length c) (list_to_set l ∪ S)) as G.
  { induction l as [|e l IH]; intros s S HI Hsz; cbn [ofold length] in *.
    - exists s. split; [done|]. replace (list_to_set [] ∪ S) with S; [done|]. apply set_eq. set_solver.
    - assert (sv_exec 0 (length c) S (SAdd e) = Some (false, {[e]} ∪ S)) as E. { cbn [sv_exec Nat.eqb]. rewrite (proj2 (Nat.ltb_lt _ _)) by lia. done. }
      destruct (sadd_ok _ _ _ _ _ _ HI E) as (s1 & E1 & HI1). rewrite E1. cbn [mbind option_bind]. destruct (IH s1 ({[e]} ∪ S) HI1) as (s' & E' & HI').
      + pose proof (size_union_alt ({[e]} : gset Z) S) as Hu. pose proof (size_singleton (C := gset Z) e) as H1. assert (size (S ∖ {[e]}) <= size S) by (apply subseteq_size; set_solver). rewrite H1 in Hu. assert (size ({[e]} ∪ S) + length l <= length c) as Hq by (rewrite Hu; lia). exact Hq.
      + exists s'. split; [done|]. replace (list_to_set (e :: l) ∪ S) with (list_to_set l ∪ ({[e]} ∪ S)); [done|]. apply set_eq. set_solver. }
  destruct (G c (s_new 0 raw) ∅) as (s & E & HI).
  - apply snew_ok; [by left|done].
  - rewrite size_empty. lia.
  - exists s. split; [done|]. replace (list_to_set c) with (list_to_set c ∪ (∅ : gset Z)); [done|]. apply set_eq. set_solver.
Qed.
