(** Proofs about vectors. *)
From stdpp Require Import gmap.
From Verif Require Import Base M_Vector S_Vector.

Section vector.
Context {T : Type} (dflt : T) (alloc : omem T -> nat) (Halloc : forall h, h !! alloc h = None).
Implicit Types (h : omem T) (xs ys : list T) (v : vec).

Definition stored xs (k : nat) : list (option T) := (Some <$> xs) ++ replicate k None.
Lemma stored_length xs k : length (stored xs k) = length xs + k.
Proof. unfold stored. by rewrite app_length, fmap_length, replicate_length. Qed.
Lemma stored_in xs k i x : xs !! i = Some x -> stored xs k !! i = Some (Some x).
Proof. intros E. unfold stored. apply lookup_app_l_Some. by rewrite list_lookup_fmap, E. Qed.
Lemma stored_raw xs k i : length xs <= i -> i < length xs + k -> stored xs k !! i = Some None.
Proof. intros H1 H2. unfold stored. rewrite lookup_app_r by (by rewrite fmap_length). rewrite fmap_length. apply lookup_replicate_2. lia. Qed.
Lemma stored_eq xs k (c : list (option T)) : length c = length xs + k -> (forall i x, xs !! i = Some x -> c !! i = Some (Some x)) ->
  (forall i, length xs <= i -> i < length xs + k -> c !! i = Some None) -> c = stored xs k.
Proof.
  intros Hl H1 H2. apply list_eq. intros i. destruct (decide (i < length xs)) as [Hi|Hi].
  - destruct (lookup_lt_is_Some_2 _ _ Hi) as [x E]. by rewrite (H1 _ _ E), (stored_in _ _ _ _ E).
  - destruct (decide (i < length xs + k)) as [Hk|Hk].
    + by rewrite H2, stored_raw by lia.
    + rewrite !lookup_ge_None_2; [done|rewrite stored_length; lia|lia].
Qed.
Lemma cons1 h b xs k x i : h !! b = Some (stored xs (S k)) -> i = length xs -> o_cons h (Some b) i x = Some (<[b := stored (xs ++ [x]) k]> h).
Proof.
  intros E ->. unfold o_cons. cbn [mbind option_bind]. rewrite E. cbn [mbind option_bind]. rewrite stored_raw by lia. do 2 f_equal. apply stored_eq.
  - rewrite insert_length, stored_length, app_length. cbn. lia.
  - intros i y Ei. apply lookup_app_Some in Ei as [Ei|[Hi Ei]].
    + pose proof (lookup_lt_Some _ _ _ Ei). rewrite list_lookup_insert_ne by lia. by apply stored_in.
    + apply list_lookup_singleton_Some in Ei as [Hi' <-]. replace i with (length xs) by lia. apply list_lookup_insert. rewrite stored_length. lia.
  - intros i. rewrite app_length. cbn [length]. intros H1 H2. rewrite list_lookup_insert_ne by lia. apply stored_raw; lia.
Qed.
Lemma dest1 h b xs x k i : h !! b = Some (stored (xs ++ [x]) k) -> i = length xs -> o_dest h (Some b) i = Some (<[b := stored xs (S k)]> h).
Proof.
  intros E ->. unfold o_dest. cbn [mbind option_bind]. rewrite E. cbn [mbind option_bind]. rewrite (stored_in _ _ _ x) by (by apply list_lookup_middle).
  do 2 f_equal. apply stored_eq.
  - rewrite insert_length, stored_length, app_length. cbn. lia.
  - intros i y Ei. pose proof (lookup_lt_Some _ _ _ Ei). rewrite list_lookup_insert_ne by lia. apply stored_in. by apply lookup_app_l_Some.
  - intros i H1 H2. destruct (decide (i = length xs)) as [->|].
    + apply list_lookup_insert. rewrite stored_length, app_length. cbn. lia.
    + rewrite list_lookup_insert_ne by lia. apply stored_raw; rewrite app_length; cbn; lia.
Qed.
Lemma get1 h b xs k i x : h !! b = Some (stored xs k) -> xs !! i = Some x -> o_get h (Some b) i = Some x.
Proof. intros E Ei. unfold o_get. cbn [mbind option_bind]. rewrite E. cbn [mbind option_bind]. by rewrite (stored_in _ _ _ _ Ei). Qed.
Lemma set1 h b xs k i x : h !! b = Some (stored xs k) -> i < length xs -> o_set h (Some b) i x = Some (<[b := stored (<[i := x]> xs) k]> h).
Proof.
  intros E Hi. destruct (lookup_lt_is_Some_2 _ _ Hi) as [y Ei]. unfold o_set. cbn [mbind option_bind]. rewrite E. cbn [mbind option_bind]. rewrite (stored_in _ _ _ _ Ei).
  do 2 f_equal. unfold stored. rewrite list_fmap_insert. rewrite insert_app_l; [done|]. by rewrite fmap_length.
Qed.

(** loops *)
Lemma destroy_ok h b xs k n : h !! b = Some (stored xs k) -> n <= length xs ->
  destroy_down h (Some b) (length xs) n = Some (<[b := stored (take n xs) (length xs - n + k)]> h).
Proof.
  unfold destroy_down. revert h k. induction xs as [|x xs IH] using rev_ind; intros h k E Hn.
  - cbn. rewrite insert_id; [done|]. rewrite E. cbn in *. by replace n with 0 by lia.
  - rewrite app_length in *. cbn [length] in *. destruct (decide (n = length xs + 1)) as [->|Hne].
    + rewrite Nat.sub_diag. cbn. rewrite insert_id; [done|]. rewrite E. by rewrite take_ge by (rewrite app_length; cbn; lia).
    + replace (length xs + 1 - n) with (S (length xs - n)) by lia. rewrite seq_S, reverse_app. cbn [ofold reverse rev_append app].
      replace (n + (length xs - n)) with (length xs) by lia. rewrite (dest1 _ _ _ _ _ _ E eq_refl).
      rewrite (IH _ (S k)) by (try apply lookup_insert; lia). rewrite insert_insert, take_app_le by lia. do 3 f_equal. lia.
Qed.
Lemma construct_ok h b xs k n : h !! b = Some (stored xs k) -> length xs <= n -> n <= length xs + k ->
  construct_up dflt h (Some b) (length xs) n = Some (<[b := stored (xs ++ replicate (n - length xs) dflt) (length xs + k - n)]> h).
Proof.
  unfold construct_up. intros E H1 H2. remember (n - length xs) as d eqn:Ed. revert h xs k E H1 H2 Ed. induction d as [|d IH]; intros h xs k E H1 H2 Ed.
  - cbn. rewrite insert_id; [done|]. rewrite E, app_nil_r. do 2 f_equal. lia.
  - cbn [seq ofold]. destruct k as [|k]; [lia|]. rewrite (cons1 _ _ _ _ _ _ E eq_refl).
    specialize (IH (<[b := stored (xs ++ [dflt]) k]> h) (xs ++ [dflt]) k). rewrite app_length in IH. cbn [length] in IH.
    rewrite Nat.add_1_r in IH. rewrite IH by (try apply lookup_insert; lia). rewrite insert_insert, <- app_assoc. do 3 f_equal. lia.
Qed.
(** constructing copies of given values in an own block *)
Lemma fill_ok h b k (val : omem T -> nat -> option T) xs : h !! b = Some (replicate k None) -> length xs <= k ->
  (forall h' i x, (forall b', b' <> b -> h' !! b' = h !! b') -> xs !! i = Some x -> val h' i = Some x) ->
  ofor (length xs) (fun h i => x ← val h i; o_cons h (Some b) i x) h = Some (<[b := stored xs (k - length xs)]> h).
Proof.
  intros E Hk Hv.
  destruct (ofor_inv (fun h i => x ← val h i; o_cons h (Some b) i x) (fun i h' => h' = <[b := stored (take i xs) (k - i)]> h) (length xs) h) as (h' & -> & ->).
  - rewrite insert_id; [done|]. rewrite E, Nat.sub_0_r. done.
  - intros i h' Hi ->. destruct (lookup_lt_is_Some_2 _ _ Hi) as [x Ei]. rewrite (Hv _ i x); [|intros; by rewrite lookup_insert_ne|done]. cbn [mbind option_bind].
    destruct (k - i) as [|d] eqn:Ed; [lia|]. rewrite (cons1 _ _ (take i xs) d); [|apply lookup_insert|rewrite take_length; lia].
    eexists. split; [done|]. rewrite insert_insert, (take_S_r _ _ _ Ei). do 2 f_equal. lia.
  - by rewrite firstn_all.
Qed.
Lemma move_ok h p q xs k n : p <> q -> h !! p = Some (stored xs k) -> h !! q = Some (replicate n None) -> length xs <= n ->
  move_all h (Some p) (Some q) (length xs) = Some (<[p := replicate (length xs + k) None]> (<[q := stored xs (n - length xs)]> h)).
Proof.
  intros Hpq Ep Eq Hn. unfold move_all.
  destruct (ofor_inv (fun h i => moveElement h (Some p) i (Some q) i)
    (fun i h' => h' = <[p := replicate i None ++ stored (drop i xs) k]> (<[q := stored (take i xs) (n - i)]> h)) (length xs) h) as (h' & -> & ->).
  - rewrite (insert_id _ q) by (by rewrite Eq, Nat.sub_0_r). by rewrite insert_id.
  - intros i h' Hi ->. destruct (lookup_lt_is_Some_2 _ _ Hi) as [x Ei]. unfold moveElement.
    rewrite bool_decide_eq_false_2 by congruence. cbn [andb]. unfold o_get at 1. cbn [mbind option_bind]. rewrite lookup_insert. cbn [mbind option_bind].
    rewrite lookup_app_r by (rewrite replicate_length; lia). rewrite replicate_length, Nat.sub_diag. rewrite (stored_in _ _ _ x) by (by rewrite lookup_drop, Nat.add_0_r). cbn [mbind option_bind].
    destruct (n - i) as [|d] eqn:Ed; [lia|]. rewrite (cons1 _ _ (take i xs) d); [|rewrite lookup_insert_ne by done; apply lookup_insert|rewrite take_length; lia]. cbn [mbind option_bind].
    unfold o_dest. cbn [mbind option_bind]. rewrite lookup_insert_ne, lookup_insert by done. cbn [mbind option_bind].
    rewrite lookup_app_r by (rewrite replicate_length; lia). rewrite replicate_length, Nat.sub_diag. rewrite (stored_in _ _ _ x) by (by rewrite lookup_drop, Nat.add_0_r).
    eexists. split; [done|]. rewrite (take_S_r _ _ _ Ei). replace (n - S i) with d by lia.
    assert (<[i := None]> (replicate i None ++ stored (drop i xs) k) = replicate (S i) None ++ stored (drop (S i) xs) k) as ->.
    { rewrite (drop_S _ _ _ Ei). rewrite insert_app_r_alt by (rewrite replicate_length; lia). rewrite replicate_length, Nat.sub_diag. unfold stored at 1. cbn [fmap list_fmap app insert list_insert].
      rewrite replicate_S_end, <- app_assoc. done. }
    rewrite (insert_commute _ q p) by done. rewrite insert_insert. by rewrite insert_insert.
  - rewrite drop_all, firstn_all. unfold stored. cbn. by rewrite <- replicate_add.
Qed.
Lemma del_raw h b n : h !! b = Some (replicate n None) -> o_del h (Some b) n = Some (delete b h).
Proof.
  intros E. unfold o_del. rewrite E. cbn [mbind option_bind]. rewrite replicate_length, Nat.eqb_refl. cbn [andb].
  assert (forallb is_raw (replicate n (@None T)) = true) as ->; [|done]. apply forallb_forall. intros s Hs. apply elem_of_list_In, elem_of_replicate in Hs as [-> _]. done.
Qed.

(** a vector holding a sequence *)
Definition vrep h v xs : Prop :=
  v_size v = length xs /\
  match v_arr v with
  | None => v_cap v = 0 /\ xs = []
  | Some b => 0 < v_cap v /\ length xs <= v_cap v /\ h !! b = Some (stored xs (v_cap v - length xs))
  end.
(** what an operation may do to the storage of others *)
Definition step h v h' v' : Prop :=
  (forall b, v_arr v <> Some b -> v_arr v' <> Some b -> h' !! b = h !! b) /\
  (forall b, v_arr v = Some b -> v_arr v' <> Some b -> h' !! b = None) /\
  (forall b, v_arr v' = Some b -> v_arr v <> Some b -> h !! b = None).
Lemma step_refl h v : step h v h v.
Proof. split_and!; [done|intros b H1 H2; done|intros b H1 H2; done]. Qed.
Lemma step_trans h v h1 v1 h2 v2 : step h v h1 v1 -> step h1 v1 h2 v2 -> step h v h2 v2.
Proof.
  intros (A1 & A2 & A3) (B1 & B2 & B3). split_and!; intros b H1 H2; destruct (decide (v_arr v1 = Some b)) as [E|E].
  - by rewrite B2, (A3 b).
  - by rewrite B1, A1.
  - by apply B2.
  - rewrite B1 by done. by apply A2.
  - by apply A3.
  - rewrite <- A1 by done. by apply B3.
Qed.
Lemma step_same h v h' v' b c : v_arr v = Some b -> v_arr v' = Some b -> h' = <[b := c]> h -> step h v h' v'.
Proof.
  intros E1 E2 ->. split_and!; intros b' H1 H2; try congruence. rewrite lookup_insert_ne; [done|]. congruence.
Qed.

Lemma vrep0 h : vrep h vec0 []. Proof. by split. Qed.
Lemma vrep_arr h v xs b : vrep h v xs -> v_arr v = Some b -> is_Some (h !! b).
Proof. intros (_ & H) E. rewrite E in H. destruct H as (_ & _ & ->). done. Qed.

Lemma reserve_ok h v xs c : vrep h v xs -> exists h' v', reserve alloc h v c = Some (h', v') /\ vrep h' v' xs /\ step h v h' v' /\ c <= v_cap v' /\ v_cap v <= v_cap v'.
Proof.
  intros HV. unfold reserve. destruct (Nat.ltb_spec (v_cap v) c) as [Hc|Hc].
  2:{ exists h, v. split_and!; try done; apply step_refl. }
  unfold o_new. set (b := alloc h). pose proof (Halloc h) as Hb. fold b in Hb. destruct HV as (Hs & HV). destruct (v_arr v) as [p|] eqn:Ep.
  - destruct HV as (Hp & Hl & E). assert (p <> b) as Hpb by congruence. rewrite (proj2 (Nat.leb_le _ _)) by lia. rewrite Hs.
    rewrite (move_ok _ p b xs (v_cap v - length xs) c); [|done|rewrite lookup_insert_ne by done; done|apply lookup_insert|lia]. cbn [mbind option_bind].
    rewrite (del_raw _ _ (v_cap v)) by (rewrite lookup_insert; do 2 f_equal; lia). cbn [mbind option_bind]. eexists _, _. split; [done|]. rewrite delete_insert_delete. split; [|split; [|split; cbn; lia]].
    + split; [done|]. cbn [v_arr v_cap]. split; [lia|]. split; [lia|]. rewrite lookup_delete_ne by done. by rewrite lookup_insert.
    + split_and!; cbn [v_arr]; intros b' H1 H2.
      * rewrite lookup_delete_ne by congruence. rewrite !lookup_insert_ne by congruence. done.
      * rewrite Ep in H1. injection H1 as <-. by rewrite lookup_delete.
      * injection H1 as <-. done.
  - destruct HV as (Hp & ->). cbn [mbind option_bind]. eexists _, _. split; [done|]. split; [|split; [|split; cbn; lia]].
    + split; [done|]. cbn [v_arr v_cap length]. split; [lia|]. split; [lia|]. rewrite lookup_insert, Nat.sub_0_r. done.
    + split_and!; cbn [v_arr]; intros b' H1 H2; try congruence. rewrite lookup_insert_ne by congruence. done.
Qed.
Lemma ensure_ok h v xs c : vrep h v xs -> exists h' v', ensureCapacity alloc h v c = Some (h', v') /\ vrep h' v' xs /\ step h v h' v' /\ c <= v_cap v'.
Proof.
  intros HV. unfold ensureCapacity. destruct (Nat.ltb_spec (v_cap v) c) as [Hc|Hc].
  - destruct (reserve_ok h v xs (c * 2) HV) as (h' & v' & E & H1 & H2 & H3 & _). exists h', v'. split_and!; try done. lia.
  - exists h, v. split_and!; try done; apply step_refl.
Qed.
Lemma clear_ok h v xs : vrep h v xs -> exists h' v', clear h v = Some (h', v') /\ vrep h' v' [] /\ step h v h' v' /\ v' = vec0.
Proof.
  intros (Hs & HV). unfold clear. destruct (v_arr v) as [p|] eqn:Ep.
  - destruct HV as (Hp & Hl & E). rewrite (proj2 (Nat.ltb_lt _ _)) by lia. rewrite Hs, (destroy_ok _ _ _ _ _ E) by lia. cbn [mbind option_bind].
    rewrite (del_raw _ _ (v_cap v)) by (rewrite lookup_insert; replace (length xs - 0 + (v_cap v - length xs)) with (v_cap v) by lia; done). cbn [mbind option_bind]. rewrite delete_insert_delete.
    eexists _, _. split; [done|]. split; [done|]. split; [|done]. split_and!; cbn [v_arr]; intros b H1 H2; try done.
    + rewrite lookup_delete_ne by congruence. done.
    + rewrite Ep in H1. injection H1 as <-. by rewrite lookup_delete.
  - destruct HV as (Hp & ->). eexists _, _. split; [done|]. rewrite Hs. cbn [length]. split; [done|]. split; [|done]. split_and!; cbn [v_arr]; intros b H1 H2; try done; congruence.
Qed.
Lemma resize_ok h v xs n : vrep h v xs -> exists h' v', resize dflt alloc h v n = Some (h', v') /\ vrep h' v' (resized dflt n xs) /\ step h v h' v' /\ (n = 0 -> v' = vec0).
Proof.
  intros HV. unfold resize. destruct (Nat.eqb_spec n 0) as [->|Hn].
  { destruct (clear_ok _ _ _ HV) as (h' & v' & E & H1 & H2 & H3). exists h', v'. by split_and!. }
  assert (forall k, length (take n xs) + k = length xs `min` n + k) as Htk by (intros; rewrite take_length; lia).
  assert (forall xs, xs = take n xs ++ drop n xs) as Htd by (intros; by rewrite take_drop).
  destruct (Nat.leb_spec (v_cap v * 10) (n * 11)) as [_|_]; cbn [andb].
  1: destruct (Nat.leb_spec n (v_cap v)) as [Hc|Hc].
  1:{ (* in place *)
    destruct HV as (Hs & HV). destruct (v_arr v) as [p|] eqn:Ep; [|lia]. destruct HV as (Hp & Hl & E). rewrite Hs.
    assert (exists h1, destroy_down h (Some p) (length xs) n = Some h1 /\ h1 = <[p := stored (take n xs) (v_cap v - length (take n xs))]> h) as (h1 & -> & ->).
    { destruct (decide (n <= length xs)) as [Hle|Hle].
      - rewrite (destroy_ok _ _ _ _ _ E Hle). eexists. split; [done|]. do 2 f_equal. rewrite take_length. lia.
      - unfold destroy_down. replace (length xs - n) with 0 by lia. cbn. eexists. split; [done|]. symmetry. apply insert_id. rewrite E, take_ge by lia. done. }
    cbn [mbind option_bind]. replace (length xs `min` n) with (length (take n xs)) by (rewrite take_length; lia).
    assert (length (take n xs) <= n) as Hln by (rewrite take_length; lia).
    rewrite (construct_ok _ _ (take n xs) (v_cap v - length (take n xs))); [|apply lookup_insert|lia|lia]. cbn [mbind option_bind]. rewrite insert_insert.
    replace (n - length (take n xs)) with (n - length xs) by (rewrite take_length; lia). fold (resized dflt n xs).
    eexists _, _. split; [done|]. assert (length (resized dflt n xs) = n) as Hr. { unfold resized. rewrite app_length, replicate_length, take_length. lia. } split; [|split; [|done]].
    - split; cbn [v_size v_arr v_cap]; [done|]. split; [done|]. split; [lia|]. rewrite lookup_insert. do 2 f_equal. lia.
    - by eapply step_same. }
  all: assert (exists h1, destroy_down h (v_arr v) (v_size v) n = Some h1 /\ (forall b, v_arr v = Some b -> h1 !! b = Some (stored (take n xs) (v_cap v - length (take n xs)))) /\
      (forall b, v_arr v <> Some b -> h1 !! b = h !! b)) as (h1 & -> & F1 & F2).
  1,3: destruct HV as (Hs & HV); destruct (v_arr v) as [p|] eqn:Ep;
    [destruct HV as (Hp & Hl & E); rewrite Hs; destruct (decide (n <= length xs)) as [Hle|Hle];
     [rewrite (destroy_ok _ _ _ _ _ E Hle); eexists; split; [done|]; split; intros b Hb;
       [injection Hb as <-; rewrite lookup_insert; do 2 f_equal; rewrite take_length; lia|rewrite lookup_insert_ne by congruence; done]
     |unfold destroy_down; replace (length xs - n) with 0 by lia; cbn; exists h; split; [done|]; split; [intros b Hb; injection Hb as <-; rewrite E, take_ge by lia; done|done]]
    |destruct HV as (_ & ->); rewrite Hs; unfold destroy_down; cbn; exists h; done].
  all: cbn [mbind option_bind]; unfold o_new; set (b := alloc h1); pose proof (Halloc h1) as Hb; fold b in Hb;
    pose proof HV as (Hs & HV'); replace (v_size v `min` n) with (length (take n xs)) by (rewrite take_length; lia);
    assert (length (take n xs) <= n) as Hln by (rewrite take_length; lia).
  all: assert (exists h3, move_all (<[b := replicate n None]> h1) (v_arr v) (Some b) (length (take n xs)) = Some h3 /\
      h3 !! b = Some (stored (take n xs) (n - length (take n xs))) /\ (forall b', v_arr v = Some b' -> b' <> b /\ h3 !! b' = Some (replicate (v_cap v) None)) /\
      (forall b', v_arr v <> Some b' -> b' <> b -> h3 !! b' = h !! b')) as (h3 & -> & G1 & G2 & G3).
  1,3: destruct (v_arr v) as [p|] eqn:Ep;
    [assert (p <> b) as Hpb by (intros ->; rewrite (F1 b eq_refl) in Hb; done); destruct HV' as (Hp & Hl & E);
     rewrite (move_ok _ p b (take n xs) (v_cap v - length (take n xs)) n); [|done|rewrite lookup_insert_ne by done; by apply F1|apply lookup_insert|lia];
     eexists; split; [done|]; split; [rewrite lookup_insert_ne by done; by rewrite lookup_insert|]; split;
     [intros b' Hb'; injection Hb' as <-; split; [done|]; rewrite lookup_insert; do 2 f_equal; rewrite take_length; lia
     |intros b' H1 H2; rewrite !lookup_insert_ne by congruence; apply F2; congruence]
    |destruct HV' as (_ & ->); rewrite take_nil in *; cbn; eexists; split; [done|]; split; [rewrite lookup_insert, Nat.sub_0_r; done|]; split;
     [done|intros b' _ H2; rewrite lookup_insert_ne by done; apply F2; done]].
  all: cbn [mbind option_bind]; rewrite (construct_ok _ _ (take n xs) (n - length (take n xs))) by (try done; lia); cbn [mbind option_bind];
    set (h4 := <[b := _]> h3);
    assert (length (resized dflt n xs) = n) as Hr by (unfold resized; rewrite app_length, replicate_length, take_length; lia).
  all: assert (exists h5, o_del h4 (v_arr v) (v_cap v) = Some h5 /\ h5 !! b = Some (stored (resized dflt n xs) 0) /\ (forall b', v_arr v = Some b' -> h5 !! b' = None) /\
      (forall b', v_arr v <> Some b' -> b' <> b -> h5 !! b' = h !! b')) as (h5 & -> & K1 & K2 & K3).
  1,3: assert (h4 !! b = Some (stored (resized dflt n xs) 0)) as Hh4 by (unfold h4; rewrite lookup_insert; do 2 f_equal; [unfold resized; do 2 f_equal|]; rewrite take_length; lia);
    destruct (v_arr v) as [p|] eqn:Ep;
    [destruct (G2 p eq_refl) as [Hpb Hp3]; rewrite (del_raw _ _ (v_cap v)) by (unfold h4; by rewrite lookup_insert_ne);
     eexists; split; [done|]; split; [by rewrite lookup_delete_ne|]; split; [intros b' Hb'; injection Hb' as <-; apply lookup_delete|];
     intros b' H1 H2; rewrite lookup_delete_ne by congruence; unfold h4; rewrite lookup_insert_ne by congruence; by apply G3
    |exists h4; split; [done|]; split; [done|]; split; [done|]; intros b' H1 H2; unfold h4; rewrite lookup_insert_ne by congruence; by apply G3].
  all: cbn [mbind option_bind]; eexists _, _; split; [done|]; split; [|split; [|done]].
  1,3: split; cbn [v_size v_arr v_cap]; [done|]; split; [lia|]; split; [lia|]; rewrite K1; do 2 f_equal; lia.
  all: split_and!; cbn [v_arr]; intros b' H1 H2; [apply K3; congruence|by apply K2|injection H1 as <-; rewrite <- F2 by done; done].
Qed.
Lemma init_ok h v xs n : vrep h v xs -> exists h' v', init dflt alloc h v n = Some (h', v') /\ vrep h' v' (replicate n dflt) /\ step h v h' v'.
Proof.
  intros (Hs & HV). unfold init. set (v1 := Vec (v_cap v) 0 (v_arr v)).
  assert (exists h1, destroy_down h (v_arr v) (v_size v) 0 = Some h1 /\ vrep h1 v1 [] /\ step h v h1 v1) as (h1 & -> & H1 & S1).
  { destruct (v_arr v) as [p|] eqn:Ep.
    - destruct HV as (Hp & Hl & E). rewrite Hs, (destroy_ok _ _ _ _ _ E) by lia. eexists. split; [done|]. split.
      + split; cbn [v1 v_size v_arr v_cap length]; [done|]. split; [done|]. split; [lia|]. rewrite lookup_insert. replace (length xs - 0 + (v_cap v - length xs)) with (v_cap v - 0) by lia. done.
      + eapply step_same; [done|done|]. done.
    - destruct HV as (Hp & ->). rewrite Hs. cbn. exists h. split; [done|]. split; [by split; cbn|]. split_and!; intros b; rewrite Ep; cbn; done. }
  cbn [mbind option_bind]. destruct (resize_ok h1 v1 [] n H1) as (h' & v' & E & H2 & S2 & _). exists h', v'. split; [done|]. split; [|by eapply step_trans].
  unfold resized in H2. cbn [length] in H2. rewrite take_nil, Nat.sub_0_r in H2. done.
Qed.
Lemma push_ok h v xs a : vrep h v xs -> exists h' v', push_back alloc h v a = Some (h', v') /\ vrep h' v' (xs ++ [a]) /\ step h v h' v'.
Proof.
  intros HV. unfold push_back. destruct (ensure_ok _ _ _ (v_size v + 1) HV) as (h1 & v1 & -> & HV1 & S1 & Hc). cbn [mbind option_bind].
  destruct HV as (Hs & _). destruct HV1 as (Hs1 & HV1). rewrite Hs in Hc. destruct (v_arr v1) as [p|] eqn:Ep; [|lia]. destruct HV1 as (Hp & Hl & E).
  destruct (v_cap v1 - length xs) as [|k] eqn:Ek; [lia|]. rewrite (cons1 _ _ _ _ _ _ E) by done. cbn [mbind option_bind]. eexists _, _. split; [done|]. split.
  - split; cbn [v_size v_arr v_cap]; rewrite app_length; cbn [length]; [lia|]. split; [done|]. split; [lia|]. rewrite lookup_insert. do 2 f_equal. lia.
  - eapply step_trans; [exact S1|]. by eapply step_same.
Qed.
Lemma pop_ok h v xs : vrep h v xs -> exists h' v', pop_back h v = Some (h', v') /\ vrep h' v' (take (length xs - 1) xs) /\ step h v h' v'.
Proof.
  intros HV. pose proof HV as (Hs & HV'). unfold pop_back. destruct (Nat.ltb_spec 0 (v_size v)) as [Hl|Hl].
  - destruct xs as [|x xs _] using rev_ind; [cbn in Hs; lia|]. rewrite app_length in *. cbn [length] in *. destruct (v_arr v) as [p|] eqn:Ep; [|by destruct HV' as (_ & ?); destruct xs].
    destruct HV' as (Hp & Hle & E). rewrite (dest1 _ _ _ _ _ _ E) by lia. cbn [mbind option_bind]. eexists _, _. split; [done|]. replace (length xs + 1 - 1) with (length xs) by lia. rewrite take_app.
    split; [|by eapply step_same]. split; cbn [v_size v_arr v_cap]; [lia|]. split; [done|]. split; [lia|]. rewrite lookup_insert. do 2 f_equal. lia.
  - exists h, v. split; [done|]. split; [|apply step_refl]. destruct xs; [done|cbn in Hs; lia].
Qed.
Lemma set_ok h v xs i a : vrep h v xs -> i < length xs -> exists h', vec_set h v i a = Some h' /\ vrep h' v (<[i := a]> xs) /\ step h v h' v.
Proof.
  intros (Hs & HV) Hi. unfold vec_set. rewrite Hs, (proj2 (Nat.ltb_lt _ _)) by done. destruct (v_arr v) as [p|] eqn:Ep; [|destruct HV as (_ & ->); cbn in Hi; lia]. destruct HV as (Hp & Hl & E).
  rewrite (set1 _ _ _ _ _ _ E Hi). eexists. split; [done|]. split; [|by eapply step_same].
  split; rewrite insert_length; [done|]. rewrite Ep. split; [done|]. split; [lia|]. by rewrite lookup_insert.
Qed.
Lemma step_fresh h h1 (v : vec) b : v_arr v = Some b -> h !! b = None -> (forall b', b' <> b -> h1 !! b' = h !! b') -> step h vec0 h1 v.
Proof.
  intros E Hb Hf. split_and!; cbn [v_arr vec0]; intros b' H1 H2; try done.
  - apply Hf. congruence.
  - rewrite E in H1. injection H1 as <-. done.
Qed.
Lemma copy_all_ok h h1 o xs b n : vrep h o xs -> (forall b', v_arr o = Some b' -> b' <> b /\ h1 !! b' = h !! b') -> h1 !! b = Some (replicate n None) -> length xs <= n ->
  copy_all h1 (Some b) o (length xs) = Some (<[b := stored xs (n - length xs)]> h1).
Proof.
  intros (Hs & HV) Hf Hb Hn. unfold copy_all. apply (fill_ok _ _ _ (fun h i => if i <? v_size o then o_get h (v_arr o) i else None)); [done|done|].
  intros h' i x Hh' Ei. pose proof (lookup_lt_Some _ _ _ Ei). rewrite Hs, (proj2 (Nat.ltb_lt _ _)) by done. destruct (v_arr o) as [p|] eqn:Ep.
  - destruct (Hf p eq_refl) as [Hpb E1]. destruct HV as (_ & _ & E). eapply get1; [|done]. rewrite Hh' by done. rewrite E1. done.
  - destruct HV as (_ & ->). done.
Qed.
Lemma copy_ok h o xs : vrep h o xs -> exists h' v', vec_copy alloc h o = Some (h', v') /\ vrep h' v' xs /\ step h vec0 h' v'.
Proof.
  intros HV. pose proof HV as (Hs & _). unfold vec_copy. rewrite Hs. destruct (Nat.eqb_spec (length xs) 0) as [H0|H0].
  - apply nil_length_inv in H0 as ->. cbn. eexists _, _. split; [done|]. split; [done|apply step_refl].
  - unfold o_new. set (b := alloc h). pose proof (Halloc h) as Hb. fold b in Hb.
    rewrite (copy_all_ok h _ o xs b (length xs) HV); [|intros b' Hb'; assert (b' <> b) by (destruct (vrep_arr _ _ _ _ HV Hb'); congruence); split; [done|by rewrite lookup_insert_ne]|apply lookup_insert|done].
    cbn [mbind option_bind]. rewrite insert_insert. eexists _, _. split; [done|]. split.
    + split; cbn; [done|]. split; [lia|]. split; [lia|]. by rewrite lookup_insert.
    + eapply step_fresh; [done|done|]. intros b' Hb'. by rewrite lookup_insert_ne.
Qed.
Lemma assign_ok h v o xs ys : vrep h v xs -> vrep h o ys -> (forall b, v_arr v = Some b -> v_arr o <> Some b) ->
  exists h' v', vec_assign dflt alloc h v o false = Some (h', v') /\ vrep h' v' ys /\ step h v h' v'.
Proof.
  intros HV HO Hd. unfold vec_assign. destruct (resize_ok _ _ _ 0 HV) as (h1 & v1 & -> & HV1 & S1 & E1). cbn [mbind option_bind]. rewrite (E1 eq_refl) in *. clear E1 v1.
  unfold resized in HV1. cbn [take app] in HV1. rewrite Nat.sub_0_l in HV1. destruct (reserve_ok h1 vec0 [] (v_size o)) as (h2 & v2 & -> & HV2 & S2 & Hc & _); [done|]. cbn [mbind option_bind v_arr v_size].
  pose proof HO as (Hs & HO'). rewrite Hs in *. destruct HV2 as (Hs2 & HV2).
  assert (forall b, v_arr o = Some b -> h1 !! b = h !! b /\ h2 !! b = h !! b /\ v_arr v2 <> Some b) as Hob.
  { intros b Hb. destruct S1 as (A1 & _ & _). assert (h1 !! b = h !! b) as E1 by (apply A1; [intros Hx; by apply (Hd b)|done]).
    destruct S2 as (B1 & _ & B3). destruct (decide (v_arr v2 = Some b)) as [E2|E2].
    - rewrite (B3 b E2) in E1 by done. destruct (vrep_arr _ _ _ _ HO Hb). congruence.
    - split; [done|]. split; [|done]. by rewrite B1. }
  destruct (v_arr v2) as [p|] eqn:Ep.
  - destruct HV2 as (Hp & _ & E2). cbn [length] in E2. rewrite Nat.sub_0_r in E2.
    rewrite (copy_all_ok h _ o ys p (v_cap v2) HO); [|intros b' Hb'; destruct (Hob b' Hb') as (_ & X1 & X2); split; [congruence|done]|done|lia]. cbn [mbind option_bind].
    eexists _, _. split; [done|]. split.
    + split; cbn [v_size v_arr v_cap]; [done|]. split; [done|]. split; [lia|]. by rewrite lookup_insert.
    + eapply step_trans; [exact S1|]. eapply step_trans; [exact S2|]. eapply step_same; [done|done|]. done.
  - destruct HV2 as (Hp & _). assert (ys = []) as ->. { destruct ys; [done|cbn in Hc; lia]. } cbn. eexists _, _. split; [done|]. split.
    + split; cbn; done.
    + eapply step_trans; [exact S1|]. eapply step_trans; [exact S2|]. split_and!; rewrite ?Ep; cbn; intros b H1 H2; congruence.
Qed.
Lemma fillv_ok h n a : exists h' v', vec_fill alloc h n a = Some (h', v') /\ vrep h' v' (replicate n a) /\ step h vec0 h' v'.
Proof.
  unfold vec_fill. destruct (reserve_ok h vec0 [] n (vrep0 h)) as (h1 & v1 & -> & HV1 & S1 & _). cbn [mbind option_bind].
  destruct (ofor_inv (fun '(h, v) _ => push_back alloc h v a) (fun i '(h', v') => vrep h' v' (replicate i a) /\ step h vec0 h' v') n (h1, v1)) as ([h' v'] & -> & H1 & H2).
  - done.
  - intros i [h' v'] Hi (A1 & A2). destruct (push_ok _ _ _ a A1) as (h2 & v2 & E & B1 & B2). exists (h2, v2). split; [done|]. rewrite replicate_S_end. split; [done|by eapply step_trans].
  - exists h', v'. done.
Qed.
Lemma erase_ok h v xs i j : vrep h v xs -> i <= j -> j <= length xs -> i = 0 \/ j = length xs ->
  exists h' v', erase_range h v i j = Some (h', v') /\ vrep h' v' (take i xs ++ drop j xs) /\ step h v h' v'.
Proof.
  intros (Hs & HV) Hij Hj Hor. unfold erase_range. rewrite Hs, (proj2 (Nat.leb_le i j)), (proj2 (Nat.leb_le j _)) by lia. cbn [andb].
  set (ns := length xs - (j - i)).
  assert (length (take i xs ++ drop j xs) = ns) as Hns. { unfold ns. rewrite app_length, take_length, drop_length. lia. }
  destruct (v_arr v) as [p|] eqn:Ep.
  2:{ destruct HV as (Hp & ->). cbn [length] in *. assert (j = 0) as -> by lia. assert (i = 0) as -> by lia. cbn. eexists _, _. split; [done|]. split; [by split; cbn|]. split_and!; rewrite Ep; cbn; intros; done. }
  destruct HV as (Hp & Hl & E).
  assert (exists h1, ofold (fun h k => x ← o_get h (Some p) (j + k); o_set h (Some p) k x) (seq i (ns - i)) h = Some h1 /\
    exists zs, length zs = length xs /\ take ns zs = take i xs ++ drop j xs /\ h1 = <[p := stored zs (v_cap v - length xs)]> h) as (h1 & -> & zs & Z1 & Z2 & ->).
  { destruct Hor as [-> | ->].
    - cbn [take app]. rewrite Nat.sub_0_r. change (seq 0 ns) with (seq 0 ns). fold (ofor ns (fun h k => x ← o_get h (Some p) (j + k); o_set h (Some p) k x) h).
      destruct (ofor_inv (fun h k => x ← o_get h (Some p) (j + k); o_set h (Some p) k x)
        (fun k h1 => h1 = <[p := stored (take k (drop j xs) ++ drop k xs) (v_cap v - length xs)]> h) ns h) as (h1 & E1 & ->).
      + rewrite insert_id; [done|]. done.
      + intros k h1 Hk ->. assert (j + k < length xs) as Hjk by (unfold ns in *; lia). destruct (lookup_lt_is_Some_2 _ _ Hjk) as [x Ex].
        assert (length (take k (drop j xs)) = k) as Hlk by (rewrite take_length, drop_length; lia).
        rewrite (get1 _ _ (take k (drop j xs) ++ drop k xs) (v_cap v - length xs) _ x); [|apply lookup_insert|].
        2:{ rewrite lookup_app_r by lia. rewrite Hlk, lookup_drop. rewrite <- Ex. f_equal. lia. }
        cbn [mbind option_bind]. rewrite (set1 _ _ (take k (drop j xs) ++ drop k xs) (v_cap v - length xs)); [|apply lookup_insert|rewrite app_length, drop_length; lia].
        eexists. split; [done|]. rewrite insert_insert. do 2 f_equal. rewrite insert_app_r_alt by lia. rewrite Hlk, Nat.sub_diag.
        assert (k < length xs) as Hk' by lia. destruct (lookup_lt_is_Some_2 _ _ Hk') as [y Ey]. rewrite (drop_S _ _ _ Ey). cbn [insert list_insert].
        rewrite (take_S_r (drop j xs) k x) by (by rewrite lookup_drop). by rewrite <- app_assoc.
      + exists (<[p := stored (take ns (drop j xs) ++ drop ns xs) (v_cap v - length xs)]> h). split; [exact E1|].
        assert (ns = length (drop j xs)) as Hnd by (rewrite drop_length; unfold ns; lia). exists (drop j xs ++ drop ns xs). split; [rewrite app_length, drop_length, drop_length; unfold ns; lia|].
        split; [by rewrite Hnd, take_app|]. rewrite Hnd at 1. by rewrite firstn_all.
    - replace (ns - i) with 0 by (unfold ns; lia). cbn. exists h. split; [done|]. exists xs. split; [done|]. split; [|by rewrite insert_id].
      rewrite drop_all, app_nil_r. f_equal. unfold ns. lia. }
  cbn [mbind option_bind]. rewrite <- Z1. rewrite (destroy_ok _ _ zs (v_cap v - length zs)) by (try apply lookup_insert; unfold ns; lia). cbn [mbind option_bind]. rewrite insert_insert, Z2.
  eexists _, _. split; [done|]. split; [|by eapply step_same]. split; cbn [v_size v_arr v_cap]; [done|]. split; [done|]. rewrite Hns. split; [unfold ns; lia|].
  rewrite lookup_insert. do 2 f_equal. unfold ns. lia.
Qed.

(** ** programs *)
Definition vinv (w : vworld T) (m : gmap nat (list T)) : Prop :=
  (forall x, match vvars w !! x, m !! x with Some v, Some xs => vrep (vmem w) v xs | None, None => True | _, _ => False end) /\
  (forall x y v v' b, x <> y -> vvars w !! x = Some v -> vvars w !! y = Some v' -> v_arr v = Some b -> v_arr v' <> Some b) /\
  (forall b, is_Some (vmem w !! b) -> exists x v, vvars w !! x = Some v /\ v_arr v = Some b).
Lemma vrep_keep h h' v xs : vrep h v xs -> (forall b, v_arr v = Some b -> h' !! b = h !! b) -> vrep h' v xs.
Proof. intros (H1 & H2) Hf. split; [done|]. destruct (v_arr v) as [b|]; [|done]. by rewrite Hf. Qed.
(** a variable gets a new value: [v] is the old vector, or an empty one *)
Lemma vinv_upd (w : vworld T) (m : gmap nat (list T)) (x : nat) (v : vec) (h' : omem T) (v' : vec) xs' : vinv w m ->
  (vvars w !! x = Some v \/ vvars w !! x = None /\ v = vec0) -> step (vmem w) v h' v' -> vrep h' v' xs' ->
  vinv (VWorld h' (<[x := v']> (vvars w))) (<[x := xs']> m).
Proof.
  intros (I1 & I2 & I3) Hx (S1 & S2 & S3) HV. 
  assert (forall y vy b, y <> x -> vvars w !! y = Some vy -> v_arr vy = Some b -> v_arr v <> Some b) as Hd.
  { intros y vy b Hy Ey Eb Hv. destruct Hx as [Ex|[_ ->]]; [|done]. by apply (I2 x y v vy b). }
  assert (forall y vy b, y <> x -> vvars w !! y = Some vy -> v_arr vy = Some b -> v_arr v' <> Some b) as Hd'.
  { intros y vy b Hy Ey Eb Hv. pose proof (Hd _ _ _ Hy Ey Eb) as Hne. pose proof (S3 b Hv Hne) as Hn. specialize (I1 y). rewrite Ey in I1. destruct (m !! y) as [ys|]; [|done].
    destruct (vrep_arr _ _ _ _ I1 Eb). congruence. }
  split_and!; cbn [vvars vmem].
  - intros y. destruct (decide (y = x)) as [->|Hy]; [by rewrite !lookup_insert|]. rewrite !lookup_insert_ne by done. specialize (I1 y).
    destruct (vvars w !! y) as [vy|] eqn:Ey, (m !! y) as [ys|]; try done. eapply vrep_keep; [done|]. intros b Hb. apply S1; [by eapply Hd|by eapply Hd'].
  - intros y z vy vz b Hyz Ey Ez Eb. destruct (decide (y = x)) as [->|Hy].
    + rewrite lookup_insert in Ey. injection Ey as <-. rewrite lookup_insert_ne in Ez by done. intros Eb'. by apply (Hd' z vz b).
    + rewrite lookup_insert_ne in Ey by done. destruct (decide (z = x)) as [->|Hz].
      * rewrite lookup_insert in Ez. injection Ez as <-. by eapply Hd'.
      * rewrite lookup_insert_ne in Ez by done. by apply (I2 y z vy vz b).
  - intros b Hb. destruct (decide (v_arr v' = Some b)) as [E|E]; [exists x, v'; by rewrite lookup_insert|]. destruct (decide (v_arr v = Some b)) as [E'|E'].
    { rewrite (S2 b E' E) in Hb. by destruct Hb. }
    rewrite S1 in Hb by done. destruct (I3 b Hb) as (y & vy & Ey & Eb). exists y, vy. destruct (decide (y = x)) as [->|Hy]; [|by rewrite lookup_insert_ne].
    destruct Hx as [Ex|[Ex _]]; congruence.
Qed.
Lemma vinv_old (w : vworld T) (m : gmap nat (list T)) x xs : vinv w m -> m !! x = Some xs -> exists v, vvars w !! x = Some v /\ vrep (vmem w) v xs.
Proof. intros (I1 & _) E. specialize (I1 x). rewrite E in I1. destruct (vvars w !! x) as [v|]; [|done]. by exists v. Qed.
Lemma vinv_new (w : vworld T) (m : gmap nat (list T)) x : vinv w m -> m !! x = None -> vvars w !! x = None.
Proof. intros (I1 & _) E. specialize (I1 x). rewrite E in I1. by destruct (vvars w !! x). Qed.
Lemma old_ok (w : vworld T) (m : gmap nat (list T)) x xs ys f : vinv w m -> m !! x = Some xs ->
  (forall v, vvars w !! x = Some v -> vrep (vmem w) v xs -> exists h' v', f v = Some (h', v') /\ vrep h' v' ys /\ step (vmem w) v h' v') ->
  exists w', bind_old w x f = Some w' /\ vinv w' (<[x := ys]> m).
Proof.
  intros HI E Hf. destruct (vinv_old _ _ _ _ HI E) as (v & Ev & HV). destruct (Hf v Ev HV) as (h' & v' & E' & H1 & H2). unfold bind_old. rewrite Ev. cbn [mbind option_bind]. rewrite E'. cbn [mbind option_bind].
  eexists. split; [done|]. eapply vinv_upd; [done|by left|done|done].
Qed.
Lemma new_ok (w : vworld T) (m : gmap nat (list T)) x ys r : vinv w m -> m !! x = None ->
  (exists h' v', r = Some (h', v') /\ vrep h' v' ys /\ step (vmem w) vec0 h' v') -> exists w', bind_new w x r = Some w' /\ vinv w' (<[x := ys]> m).
Proof.
  intros HI E (h' & v' & -> & H1 & H2). pose proof (vinv_new _ _ _ HI E) as Ev. unfold bind_new. rewrite Ev. cbn [mbind option_bind]. eexists. split; [done|].
  eapply vinv_upd; [done|by right|done|done].
Qed.
Lemma vexec_ok (w : vworld T) (m m' : gmap nat (list T)) c : vinv w m -> vv_exec dflt m c = Some m' -> exists w', vexec dflt alloc w c = Some w' /\ vinv w' m'.
Proof.
  intros HI E. unfold vexec. destruct c as [x|x n|x n a|x y|x y|x y|x n|x n|x n|x i j|x i|x|x a|x i|x|x i a|x]; cbn [vv_exec] in E.
  - destruct (m !! x) eqn:Ex; [done|]. injection E as <-. apply new_ok; [done..|]. exists (vmem w), vec0. split; [done|]. split; [apply vrep0|apply step_refl].
  - destruct (m !! x) eqn:Ex; [done|]. injection E as <-. apply new_ok; [done..|]. destruct (resize_ok (vmem w) vec0 [] n (vrep0 _)) as (h' & v' & E & H1 & H2 & _).
    exists h', v'. split_and!; try done. unfold resized in H1. cbn [length] in H1. rewrite take_nil, Nat.sub_0_r in H1. done.
  - destruct (m !! x) eqn:Ex; [done|]. injection E as <-. apply new_ok; [done..|]. apply fillv_ok.
  - destruct (m !! y) as [ys|] eqn:Ey; [|done]. cbn [mbind option_bind] in E. destruct (m !! x) eqn:Ex; [done|]. injection E as <-.
    destruct (vinv_old _ _ _ _ HI Ey) as (o & -> & HO). cbn [mbind option_bind]. apply new_ok; [done..|]. by apply copy_ok.
  - destruct (Nat.eqb_spec x y) as [|Hxy]; [done|]. destruct (m !! y) as [ys|] eqn:Ey; [|done]. cbn [mbind option_bind] in E. destruct (m !! x) as [xs|] eqn:Ex; [|done]. cbn [mbind option_bind] in E. injection E as <-.
    destruct (vinv_old _ _ _ _ HI Ey) as (o & Eo & HO). rewrite Eo. cbn [mbind option_bind]. eapply old_ok; [done..|]. intros v Ev HV. apply (assign_ok _ _ _ xs); [done..|]. intros b Hb. destruct HI as (_ & I2 & _). by eapply (I2 x y).
  - destruct (m !! x) as [xs|] eqn:Ex; [|done]. cbn [mbind option_bind] in E. destruct (m !! y) as [ys|] eqn:Ey; [|done]. cbn [mbind option_bind] in E. injection E as <-.
    destruct (vinv_old _ _ _ _ HI Ey) as (o & Eo & HO). destruct (vinv_old _ _ _ _ HI Ex) as (v & Ev & HV). rewrite Ev, Eo. cbn [mbind option_bind]. eexists. split; [done|].
    destruct HI as (I1 & I2 & I3).
    assert (forall z, exists z', (<[x := o]> (<[y := v]> (vvars w))) !! z = vvars w !! z' /\ (<[x := ys]> (<[y := xs]> m)) !! z = m !! z' /\
      z' = (if decide (z = x) then y else if decide (z = y) then x else z)) as Hsw.
    { intros z. eexists. split; [|split; [|done]]; destruct (decide (z = x)) as [->|Hzx]; rewrite ?lookup_insert, ?lookup_insert_ne by done; try done;
        (destruct (decide (z = y)) as [->|Hzy]; rewrite ?lookup_insert, ?lookup_insert_ne by done; done). }
    split_and!; cbn [vvars vmem].
    + intros z. destruct (Hsw z) as (z' & -> & -> & _). apply I1.
    + intros z1 z2 v1 v2 b Hne E1 E2 Eb. destruct (Hsw z1) as (z1' & A1 & _ & A2), (Hsw z2) as (z2' & B1 & _ & B2). rewrite A1 in E1. rewrite B1 in E2.
      apply (I2 z1' z2' v1 v2 b); try done. subst z1' z2'. repeat destruct (decide _); congruence.
    + intros b Hb. destruct (I3 b Hb) as (z & vz & Ez & Eb). destruct (Hsw (if decide (z = x) then y else if decide (z = y) then x else z)) as (z' & A1 & _ & A2).
      eexists _, vz. rewrite A1. split; [|done]. rewrite <- Ez. f_equal. subst z'. repeat destruct (decide _); congruence.
  - destruct (m !! x) as [xs|] eqn:Ex; [|done]. cbn [mbind option_bind] in E. injection E as <-. eapply old_ok; [done..|]. intros v Ev HV. destruct (reserve_ok _ _ _ n HV) as (h' & v' & E & H1 & H2 & _). by exists h', v'.
  - destruct (m !! x) as [xs|] eqn:Ex; [|done]. cbn [mbind option_bind] in E. injection E as <-. eapply old_ok; [done..|]. intros v Ev HV. by eapply init_ok.
  - destruct (m !! x) as [xs|] eqn:Ex; [|done]. cbn [mbind option_bind] in E. injection E as <-. eapply old_ok; [done..|]. intros v Ev HV. destruct (resize_ok _ _ _ n HV) as (h' & v' & E & H1 & H2 & _). by exists h', v'.
  - destruct (m !! x) as [xs|] eqn:Ex; [|done]. cbn [mbind option_bind] in E.
    destruct ((i <=? j) && (j <=? length xs) && ((i =? 0) || (j =? length xs))) eqn:Ec; [|done]. cbn [mbind option_bind] in E. injection E as <-.
    apply andb_prop in Ec as [Ec E3]. apply andb_prop in Ec as [E1 E2]. apply Nat.leb_le in E1, E2. apply orb_prop in E3. rewrite !Nat.eqb_eq in E3.
    eapply old_ok; [done..|]. intros v Ev HV. by apply erase_ok.
  - done.
  - destruct (m !! x) as [xs|] eqn:Ex; [|done]. cbn [mbind option_bind] in E. injection E as <-. eapply old_ok; [done..|]. intros v Ev HV. destruct (clear_ok _ _ _ HV) as (h' & v' & E & H1 & H2 & _). by exists h', v'.
  - destruct (m !! x) as [xs|] eqn:Ex; [|done]. cbn [mbind option_bind] in E. injection E as <-. eapply old_ok; [done..|]. intros v Ev HV. by apply push_ok.
  - done.
  - destruct (m !! x) as [xs|] eqn:Ex; [|done]. cbn [mbind option_bind] in E. injection E as <-. eapply old_ok; [done..|]. intros v Ev HV. by apply pop_ok.
  - destruct (m !! x) as [xs|] eqn:Ex; [|done]. cbn [mbind option_bind] in E. destruct (Nat.ltb_spec i (length xs)) as [Hi|]; [|done]. cbn [mbind option_bind] in E. injection E as <-.
    eapply old_ok; [done..|]. intros v Ev HV. destruct (set_ok _ _ _ i a HV Hi) as (h' & -> & H1 & H2). cbn [mbind option_bind]. by exists h', v.
  - destruct (m !! x) as [xs|] eqn:Ex; [|done]. cbn [mbind option_bind] in E. injection E as <-. destruct (vinv_old _ _ _ _ HI Ex) as (v & Ev & HV). rewrite Ev. cbn [mbind option_bind].
    destruct (clear_ok _ _ _ HV) as (h' & v' & -> & _ & (S1 & S2 & _) & ->). cbn [mbind option_bind]. eexists. split; [done|]. destruct HI as (I1 & I2 & I3). split_and!; cbn [vvars vmem].
    + intros y. destruct (decide (y = x)) as [->|Hy]; [by rewrite !lookup_delete|]. rewrite !lookup_delete_ne by done. specialize (I1 y). destruct (vvars w !! y) as [vy|] eqn:Ey, (m !! y) as [ys|]; try done.
      eapply vrep_keep; [done|]. intros b Hb. apply S1; [|done]. by eapply (I2 y x).
    + intros y z vy vz b Hne Ey Ez. apply lookup_delete_Some in Ey as [_ Ey]. apply lookup_delete_Some in Ez as [_ Ez]. by apply (I2 y z).
    + intros b Hb. destruct (decide (v_arr v = Some b)) as [E|E]; [rewrite S2 in Hb by done; by destruct Hb|]. rewrite S1 in Hb by done. destruct (I3 b Hb) as (y & vy & Ey & Eb). exists y, vy.
      split; [|done]. rewrite lookup_delete_ne; [done|]. intros ->. congruence.
Qed.
Lemma vexec_all_ok l : forall (w : vworld T) (m m' : gmap nat (list T)), vinv w m -> vv_run dflt m l = Some m' -> exists w', vexec_all dflt alloc w l = Some w' /\ vinv w' m'.
Proof.
  induction l as [|c l IH]; intros w m m' HI E; cbn [vv_run vexec_all] in *; [injection E as <-; by exists w|].
  destruct (vv_exec dflt m c) as [m1|] eqn:E1; [|done]. cbn [mbind option_bind] in E. destruct (vexec_ok _ _ _ _ HI E1) as (w1 & -> & HI1). cbn [mbind option_bind]. by eapply IH.
Qed.
Lemma vinv0 : vinv vworld0 ∅.
Proof. split_and!; cbn; intros *; rewrite ?lookup_empty; try done. intros [? ?]. done. Qed.
(** observers *)
Lemma get_ok h v xs i x : vrep h v xs -> xs !! i = Some x -> o_get h (v_arr v) i = Some x.
Proof. intros (Hs & HV) E. destruct (v_arr v) as [b|]; [|by destruct HV as (_ & ->)]. destruct HV as (_ & _ & Eb). by eapply get1. Qed.
Lemma list_ok h v xs : vrep h v xs -> vec_list h v = Some xs /\ vec_rlist h v = Some (reverse xs).
Proof.
  intros HV. pose proof HV as (Hs & _). unfold vec_list, vec_rlist. rewrite Hs. split; apply mapM_Some_2, Forall2_same_length_lookup; (split; [by rewrite ?reverse_length, seq_length|]).
  - intros i a x Ea Ex. apply lookup_seq in Ea as [-> _]. by eapply get_ok.
  - intros i a x Ea Ex. pose proof (lookup_lt_Some _ _ _ Ex) as Hi. rewrite reverse_length in Hi. rewrite reverse_lookup in Ea by (rewrite seq_length; done). rewrite seq_length in Ea. rewrite reverse_lookup in Ex by done. apply lookup_seq in Ea as [-> _]. by eapply get_ok.
Qed.
Lemma eq_ok teq h v o xs ys : vrep h v xs -> vrep h o ys -> exists r, vec_eq teq h v o = Some r /\ (r = true <-> Forall2 (fun x y => teq x y = true) xs ys).
Proof.
  intros HV HO. unfold vec_eq. pose proof HV as (Hs & _). pose proof HO as (Ho & _). rewrite Hs, Ho. destruct (Nat.eqb_spec (length xs) (length ys)) as [Hl|Hl]; cbn [negb].
  2:{ exists false. split; [done|]. split; [done|]. intros HF. by apply Forall2_length in HF. }
  assert (forall n i, i + n = length xs -> exists r, (fix go (n : nat) (i : nat) : option bool :=
          match n with
          | 0 => Some true
          | S n' => x ← o_get h (v_arr v) i; y ← o_get h (v_arr o) i; if teq x y then go n' (i + 1) else Some false
          end) n i = Some r /\ (r = true <-> Forall2 (fun x y => teq x y = true) (drop i xs) (drop i ys))) as G.
  { induction n as [|n IH]; intros i Hi.
    - exists true. split; [done|]. rewrite !drop_ge by lia. split; [constructor|done].
    - assert (i < length xs) as Hx by lia. assert (i < length ys) as Hy by lia. destruct (lookup_lt_is_Some_2 _ _ Hx) as [x Ex], (lookup_lt_is_Some_2 _ _ Hy) as [y Ey].
      rewrite (get_ok _ _ _ _ _ HV Ex), (get_ok _ _ _ _ _ HO Ey). cbn [mbind option_bind]. rewrite (drop_S _ _ _ Ex), (drop_S _ _ _ Ey). destruct (teq x y) eqn:Et.
      + destruct (IH (i + 1) ltac:(lia)) as (r & -> & Hr). exists r. split; [done|]. rewrite Hr, Nat.add_1_r. split; [by constructor|by inversion 1].
      + exists false. split; [done|]. split; [done|]. inversion 1. congruence. }
  destruct (G (length xs) 0 eq_refl) as (r & E & Hr). exists r. split; [exact E|]. rewrite Hr. by rewrite !drop_0.
Qed.
Definition hash_of (thash : T -> N) xs : N := foldl (fun c x => (c * 31 + thash x) mod 2 ^ 64)%N (N.of_nat (length xs) mod 2 ^ 64)%N xs.
Lemma hash_ok thash h v xs : vrep h v xs -> vec_hash thash h v = Some (hash_of thash xs).
Proof.
  intros HV. unfold vec_hash. pose proof HV as (Hs & _). rewrite Hs.
  destruct (ofor_inv (fun c i => x ← o_get h (v_arr v) i; Some ((c * 31 + thash x) mod 2 ^ 64)%N) (fun i c => c = foldl (fun c x => (c * 31 + thash x) mod 2 ^ 64)%N (N.of_nat (length xs) mod 2 ^ 64)%N (take i xs))
    (length xs) (N.of_nat (length xs) mod 2 ^ 64)%N) as (c & -> & ->); [done| |by rewrite firstn_all].
  intros i c Hi ->. destruct (lookup_lt_is_Some_2 _ _ Hi) as [x Ex]. rewrite (get_ok _ _ _ _ _ HV Ex). cbn [mbind option_bind]. eexists. split; [done|]. rewrite (take_S_r _ _ _ Ex), foldl_app. done.
Qed.
End vector.
