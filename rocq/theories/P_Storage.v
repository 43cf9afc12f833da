From Verif Require Import Base Sem M_Storage.
Local Open Scope nat_scope.

(** ** Bytes *)
Definition bytes_ok (p : bytes) : Prop := Forall (fun b => (b < 256)%N) p.
Lemma le_bytes_length k x : length (le_bytes k x) = k.
Proof. revert x. induction k; intros x; cbn; [done|]. by rewrite IHk. Qed.
Lemma le_bytes_ok k x : bytes_ok (le_bytes k x).
Proof. revert x. induction k; intros x; cbn; constructor; [by apply N.mod_lt|apply IHk]. Qed.
Lemma le_bytes_val bs : bytes_ok bs -> le_bytes (length bs) (le_val bs) = bs.
Proof.
  induction 1 as [|b bs Hb _ IH]; [done|]. cbn [length le_bytes le_val foldr]. fold (le_val bs).
  replace (b + 256 * le_val bs)%N with (b + le_val bs * 256)%N by lia.
  rewrite N.mod_add, N.mod_small, N.div_add, N.div_small by lia. by rewrite N.add_0_l, IH.
Qed.
Lemma le_bytes_val' k bs : length bs = k -> bytes_ok bs -> le_bytes k (le_val bs) = bs.
Proof. intros <-. apply le_bytes_val. Qed.
Lemma le_val_bytes k x : (x < 256 ^ N.of_nat k)%N -> le_val (le_bytes k x) = x.
Proof.
  revert x. induction k as [|k IH]; intros x Hx; [cbn in Hx |- *; lia|]. cbn [le_bytes le_val foldr]. fold (le_val (le_bytes k (x / 256))).
  rewrite IH; [pose proof (N.div_mod x 256); lia|]. apply N.div_lt_upper_bound; [lia|]. rewrite Nat2N.inj_succ, N.pow_succ_r' in Hx. lia.
Qed.
Lemma le_val_inj p q : bytes_ok p -> bytes_ok q -> length p = length q -> le_val p = le_val q -> p = q.
Proof. intros Hp Hq Hl E. rewrite <- (le_bytes_val p), <- (le_bytes_val q) by done. by rewrite Hl, E. Qed.
Lemma bytes_take k p : bytes_ok p -> bytes_ok (take k p).
Proof. apply Forall_take. Qed.
Lemma bytes_drop k p : bytes_ok p -> bytes_ok (drop k p).
Proof. apply Forall_drop. Qed.

Lemma read_some k p i : k * i + k <= length p -> read_at k p i = Some (le_val (take k (drop (k * i) p))).
Proof. intros H. unfold read_at. by apply Nat.leb_le in H as ->. Qed.
Lemma write_some k p i x : k * i + k <= length p -> write_at k p i x = Some (take (k * i) p ++ le_bytes k x ++ drop (k * i + k) p).
Proof. intros H. unfold write_at. by apply Nat.leb_le in H as ->. Qed.

(** ** Arrays *)
Definition flat (k : nat) (a : list N) : bytes := concat (map (le_bytes k) a).
Lemma flat_length k a : length (flat k a) = k * length a.
Proof. induction a as [|x a IH]; [cbn; lia|]. cbn [flat map concat length]. rewrite app_length, le_bytes_length. fold (flat k a). lia. Qed.
Lemma flat_ok k a : bytes_ok (flat k a).
Proof. induction a as [|x a IH]; [constructor|]. cbn. apply Forall_app. split; [apply le_bytes_ok|done]. Qed.
Lemma flat_app k a b : flat k (a ++ b) = flat k a ++ flat k b.
Proof. unfold flat. by rewrite map_app, concat_app. Qed.
Definition array_ok (k n : nat) (a : list N) : Prop := length a = n /\ Forall (fun x => (x < 256 ^ N.of_nat k)%N) a.
Lemma read_flat k a rest i x : Forall (fun x => (x < 256 ^ N.of_nat k)%N) a -> a !! i = Some x -> read_at k (flat k a ++ rest) i = Some x.
Proof.
  intros Ha Hi. pose proof (lookup_lt_Some _ _ _ Hi) as Hl. rewrite read_some; [|rewrite app_length, flat_length; nia].
  destruct (elem_of_list_split_length _ _ _ Hi) as (l1 & l2 & -> & ->). rewrite flat_app, <- app_assoc, drop_app_ge by (rewrite flat_length; lia).
  rewrite flat_length, Nat.sub_diag, drop_0. cbn [flat map concat]. rewrite <- app_assoc, take_app_le, take_ge by (rewrite le_bytes_length; lia).
  f_equal. apply le_val_bytes. rewrite Forall_forall in Ha. apply Ha. apply elem_of_app. right. left.
Qed.
Lemma get_flat k a rest : Forall (fun x => (x < 256 ^ N.of_nat k)%N) a -> get_array k (length a) (flat k a ++ rest) = Some a.
Proof.
  intros Ha. unfold get_array. apply mapM_Some. apply Forall2_same_length_lookup. split; [by rewrite seq_length|].
  intros i x y Hx Hy. apply lookup_seq in Hx as [-> _]. by apply read_flat.
Qed.
Lemma put_flat k a p : k * length a <= length p -> put_array k p a = Some (flat k a ++ drop (k * length a) p).
Proof.
  intros Hl. unfold put_array.
  assert (forall b a, b ++ a = a \/ True -> k * (length b + length a) <= length p ->
    ofold (fun p '(i, x) => write_at k p i x) (zip (seq (length b) (length a)) a) (flat k b ++ drop (k * length b) p) =
    Some (flat k (b ++ a) ++ drop (k * length (b ++ a)) p)) as G.
  { clear. intros b a _. revert b. induction a as [|x a IH]; intros b Hl; [cbn; by rewrite app_nil_r|].
    cbn [length seq zip zip_with ofold]. cbn [length] in Hl.
    rewrite write_some by (rewrite app_length, flat_length, drop_length; nia).
    rewrite take_app_le, take_ge, drop_app_ge, drop_drop, flat_length by (rewrite flat_length; nia).
    specialize (IH (b ++ [x])). rewrite app_length in IH. cbn [length] in IH. replace (length b + 1) with (S (length b)) in IH by lia.
    rewrite <- app_assoc in IH. cbn [app] in IH. rewrite <- IH by lia. f_equal. rewrite flat_app, <- app_assoc. f_equal. cbn [flat map concat]. rewrite app_nil_r. f_equal. f_equal. nia. }
  specialize (G [] a). cbn in G. rewrite Nat.mul_0_r, drop_0 in G. apply G; [by right|lia].
Qed.
(** every block starts with an array *)
Lemma block_array k n p : bytes_ok p -> k * n <= length p -> exists a, array_ok k n a /\ p = flat k a ++ drop (k * n) p.
Proof.
  intros Hp. induction n as [|n IH]; intros Hl.
  - exists []. split; [split; [done|constructor]|]. by rewrite Nat.mul_0_r, drop_0.
  - destruct IH as (a & [Ha1 Ha2] & E); [nia|]. set (x := take k (drop (k * n) p)).
    assert (Hx : length x = k) by (unfold x; rewrite take_length, drop_length; nia).
    exists (a ++ [le_val x]). split; [split; [rewrite app_length; cbn; lia|]|].
    + apply Forall_app. split; [done|]. constructor; [|constructor].
      assert (bytes_ok x) as Hb by (apply bytes_take, bytes_drop; done). clearbody x. subst k. clear - Hb.
      induction Hb as [|b bs Hb _ IH]; [cbn; lia|]. cbn [length le_val foldr]. fold (le_val bs). rewrite Nat2N.inj_succ, N.pow_succ_r'. lia.
    + rewrite flat_app, <- app_assoc. rewrite E at 1. f_equal. cbn [flat map concat]. rewrite app_nil_r.
      rewrite (le_bytes_val' k _ Hx) by (apply bytes_take, bytes_drop; done). unfold x.
      replace (k * S n) with (k * n + k) by lia. rewrite <- drop_drop. symmetry. apply take_drop.
Qed.
Lemma flat_inj k a b r : array_ok k (length a) a -> array_ok k (length b) b -> length a = length b -> flat k a ++ r = flat k b ++ r -> a = b.
Proof.
  intros [_ Ha] [_ Hb] Hl E. pose proof (get_flat k a r Ha) as G. rewrite E, Hl, get_flat in G by done. by injection G.
Qed.

(** ** The loops *)
Lemma copy_words_ok w0 w1 to from : bytes_ok from -> w0 <= w1 -> length to = 8 * w1 -> length from = 8 * w1 ->
  copy_words w0 w1 to from = Some (take (8 * w0) to ++ drop (8 * w0) from).
Proof.
  intros Hb Hw Ht Hf. unfold copy_words.
  assert (forall m w, w0 <= w -> w + m = w1 ->
    ofold (fun to i => x ← read_at 8 from i; write_at 8 to i x) (seq w m) (take (8 * w0) to ++ take (8 * w - 8 * w0) (drop (8 * w0) from) ++ drop (8 * w) to) =
    Some (take (8 * w0) to ++ drop (8 * w0) from)) as G.
  { induction m as [|m IH]; intros w Hw0 Hw1; cbn [seq ofold].
    - rewrite (take_ge (drop (8 * w0) from)) by (rewrite drop_length; lia). rewrite (drop_ge to) by lia. by rewrite app_nil_r.
    - rewrite read_some by lia. cbn [mbind option_bind].
      assert (L1 : length (take (8 * w0) to) = 8 * w0) by (rewrite take_length; lia).
      assert (L2 : length (take (8 * w - 8 * w0) (drop (8 * w0) from)) = 8 * w - 8 * w0) by (rewrite take_length, drop_length; lia).
      rewrite write_some by (rewrite !app_length, L1, L2, drop_length; lia).
      rewrite <- (IH (S w)) by lia. f_equal.
      assert (L3 : length (take 8 (drop (8 * w) from)) = 8) by (rewrite take_length, drop_length; lia).
      rewrite (le_bytes_val' 8 _ L3) by (apply bytes_take, bytes_drop; done).
      set (A := take (8 * w0) to) in *. set (B := take (8 * w - 8 * w0) (drop (8 * w0) from)) in *. set (C := drop (8 * w) to).
      assert (LAB : length (A ++ B) = 8 * w) by (rewrite app_length; lia).
      assert (E1 : take (8 * w) (A ++ B ++ C) = A ++ B) by (rewrite app_assoc; by apply take_app_alt).
      assert (E2 : drop (8 * w + 8) (A ++ B ++ C) = drop 8 C) by (rewrite app_assoc, drop_app_ge, LAB by lia; f_equal; lia).
      rewrite E1, E2, <- app_assoc. f_equal. rewrite app_assoc. unfold C. rewrite drop_drop. f_equal; [|f_equal; lia].
      replace (8 * S w - 8 * w0) with ((8 * w - 8 * w0) + 8) by lia. rewrite <- take_take_drop. unfold B. f_equal. rewrite drop_drop. do 2 f_equal. lia. }
  specialize (G (w1 - w0) w0). rewrite Nat.sub_diag in G. rewrite take_0, app_nil_l in G. rewrite take_drop in G. apply G; lia.
Qed.

Lemma equal_units_ok k a m p q : bytes_ok p -> bytes_ok q -> k * (a + m) <= length p -> k * (a + m) <= length q ->
  exists e, equal_units k (seq a m) p q = Some e /\ (e = true <-> take (k * m) (drop (k * a) p) = take (k * m) (drop (k * a) q)).
Proof.
  intros Hp Hq. revert a. induction m as [|m IH]; intros a H1 H2; cbn [seq equal_units].
  - exists true. rewrite Nat.mul_0_r, !take_0. done.
  - rewrite !read_some by nia. cbn [mbind option_bind].
    assert (S1 : forall r : bytes, take (k * S m) (drop (k * a) r) = take k (drop (k * a) r) ++ take (k * m) (drop (k * S a) r)).
    { intros r. replace (k * S a) with (k * a + k) by lia. rewrite <- drop_drop. rewrite take_take_drop. f_equal. lia. }
    rewrite !S1.
    assert (L : forall r : bytes, k * (a + S m) <= length r -> length (take k (drop (k * a) r)) = k) by (intros r Hr; rewrite take_length, drop_length; nia).
    destruct (N.eqb_spec (le_val (take k (drop (k * a) p))) (le_val (take k (drop (k * a) q)))) as [E|E].
    + destruct (IH (S a)) as (e & -> & He); [nia|nia|]. exists e. split; [done|]. rewrite He.
      apply le_val_inj in E; [|by apply bytes_take, bytes_drop|by apply bytes_take, bytes_drop|by rewrite !L]. rewrite E. split; [by intros ->|apply app_inv_head].
    + exists false. split; [done|]. split; [done|]. intros H. exfalso. apply E. apply app_inj_1 in H as [-> _]; [done|]. by rewrite !L.
Qed.
Lemma hash_units_eq k a m p q h : k * (a + m) <= length p -> k * (a + m) <= length q ->
  take (k * m) (drop (k * a) p) = take (k * m) (drop (k * a) q) ->
  hash_units k (seq a m) p h = hash_units k (seq a m) q h /\ is_Some (hash_units k (seq a m) p h).
Proof.
  unfold hash_units. revert a h. induction m as [|m IH]; intros a h H1 H2 E; cbn [seq ofold]; [by split|].
  rewrite !read_some by nia. cbn [mbind option_bind].
  assert (S1 : forall r : bytes, take (k * S m) (drop (k * a) r) = take k (drop (k * a) r) ++ take (k * m) (drop (k * S a) r)).
  { intros r. replace (k * S a) with (k * a + k) by lia. rewrite <- drop_drop. rewrite take_take_drop. f_equal. lia. }
  rewrite !S1 in E. apply app_inj_1 in E as [-> E]; [|rewrite !take_length, !drop_length; nia]. apply IH; [nia|nia|done].
Qed.

(** ** Simulation between specifications *)
Section sim.
  Context (sp sa : spec) (Har : ar sp = ar sa) (rel : St sp -> St sa -> Prop).
  Context (Hroot : fst (get_root sp) = fst (get_root sa) /\ rel (snd (get_root sp)) (snd (get_root sa))).
  Context (Hchild : forall s a l b, rel s a -> b < ar sa ->
    fst (get_child sp s l b) = fst (get_child sa a l b) /\ rel (snd (get_child sp s l b)) (snd (get_child sa a l b))).
  Context (Heq : forall s a s' a' l, rel s a -> rel s' a' -> equal_to sp l s s' = equal_to sa l a a').

  Lemma sim_zdd_eval n c s a v : vec_ok (ar sa) v -> rel s a -> zdd_eval sp n c s v = zdd_eval sa n c a v.
  Proof using Hchild.
    intros Hv. revert c s a. induction n as [|n IH]; intros c s a Hr; cbn; [done|].
    destruct (c =? _)%Z; [|destruct (v (S n) =? 0); [by apply IH|done]].
    destruct (Hchild s a c (v (S n)) Hr (Hv _)) as [-> H]. by apply IH.
  Qed.
  Lemma sim_bdd_eval n c s a v : vec_ok (ar sa) v -> rel s a -> bdd_eval sp n c s v = bdd_eval sa n c a v.
  Proof using Hchild.
    intros Hv. revert c s a. induction n as [|n IH]; intros c s a Hr; cbn; [done|].
    destruct (c =? _)%Z; [|by apply IH]. destruct (Hchild s a c (v (S n)) Hr (Hv _)) as [-> H]. by apply IH.
  Qed.
  Lemma sim_sem n v : vec_ok (ar sa) v -> zdd_sem sp n v = zdd_sem sa n v /\ bdd_sem sp n v = bdd_sem sa n v.
  Proof using Hchild Hroot.
    intros Hv. unfold zdd_sem, bdd_sem. destruct Hroot as [-> H]. split; [by apply sim_zdd_eval|by apply sim_bdd_eval].
  Qed.
  Lemma sim_reach l s : reach sp l s -> exists a, rel s a /\ reach sa l a.
  Proof using Hchild Hroot Har.
    induction 1 as [H|l s b Hs (a & Hr & Ha) Hb Hc].
    - destruct Hroot as [E Hr]. rewrite E in H |- *. eexists. split; [done|]. by apply reach_root.
    - rewrite Har in Hb. destruct (Hchild s a l b Hr Hb) as [E Hr']. rewrite E in Hc |- *. eexists. split; [done|]. by apply reach_child.
  Qed.
  Lemma sim_reach' l a : reach sa l a -> exists s, rel s a /\ reach sp l s.
  Proof using Hchild Hroot Har.
    induction 1 as [H|l a b Ha (s & Hr & Hs) Hb Hc].
    - destruct Hroot as [E Hr]. rewrite <- E in H |- *. eexists. split; [done|]. by apply reach_root.
    - destruct (Hchild s a l b Hr Hb) as [E Hr']. rewrite <- E in Hc |- *. eexists. split; [done|]. apply reach_child; [done|by rewrite Har|done].
  Qed.
  Lemma sim_run c s a bs : rel s a -> Forall (fun b => b < ar sa) bs -> run sp c s bs = run sa c a bs.
  Proof using Hchild.
    intros Hr Hbs. revert c s a Hr. induction Hbs as [|b bs Hb _ IH]; intros c s a Hr; [done|]. cbn.
    destruct (0 <? c)%Z; [|done]. destruct (Hchild s a c b Hr Hb) as [-> H]. f_equal. by apply IH.
  Qed.
  Lemma sim_spec_ok : spec_ok sa -> spec_ok sp.
  Proof using All.
    intros [H1 H2 H3]. constructor; [by rewrite Har| |].
    - intros l s b Hs Hb. destruct (sim_reach l s Hs) as (a & Hr & Ha). rewrite Har in Hb. destruct (Hchild s a l b Hr Hb) as [-> _]. by apply H2.
    - intros l s s' Hs Hs' E bs Hbs. destruct (sim_reach l s Hs) as (a & Hr & Ha). destruct (sim_reach l s' Hs') as (a' & Hr' & Ha').
      rewrite (Heq s a s' a' l Hr Hr') in E. rewrite Har in Hbs. rewrite (sim_run l s a bs Hr Hbs), (sim_run l s' a' bs Hr' Hbs). by apply (H3 l).
  Qed.
  Lemma sim_one_code : one_code sa -> one_code sp.
  Proof using Hchild Hroot Har.
    intros [H1 H2]. split; [by destruct Hroot as [-> _]|]. intros l s b Hs Hb. destruct (sim_reach l s Hs) as (a & Hr & Ha). rewrite Har in Hb.
    destruct (Hchild s a l b Hr Hb) as [-> _]. by apply H2.
  Qed.
  Lemma sim_share l rs : (forall a, reach sa l a -> equal_to sa l a a = true) ->
    Forall (reach sp l) rs -> ForallOrdPairs (fun s s' => equal_to sp l s s' = false) rs ->
    exists al, length al = length rs /\ NoDup al /\ (forall a, a ∈ al -> reach sa l a) /\ Forall2 rel rs al.
  Proof using Hchild Hroot Har Heq.
    intros Hrefl HR HP. induction HP as [|s rs Hs HP IH]; [exists []; split_and!; [done|constructor|intros a Ha; by apply elem_of_nil in Ha|constructor]|].
    apply Forall_cons in HR as [Hr HR]. destruct (IH HR) as (al & Hl & Hnd & Hal & H2). destruct (sim_reach l s Hr) as (a & Ha & Hra).
    exists (a :: al). split_and!; [cbn; lia| |intros a' [->|?]%elem_of_cons; [done|by apply Hal]|by constructor].
    constructor; [|done]. intros Hin. apply elem_of_list_lookup in Hin as [j Hj]. destruct (Forall2_lookup_r _ _ _ _ _ H2 Hj) as (s' & Hs' & Hr').
    rewrite Forall_forall in Hs. specialize (Hs s' (elem_of_list_lookup_2 _ _ _ Hs')). cbn in Hs. rewrite (Heq s a s' a l Ha Hr'), Hrefl in Hs by done. done.
  Qed.
End sim.

Lemma equal_units_sym k is p q : equal_units k is p q = equal_units k is q p.
Proof.
  induction is as [|j is IH]; [done|]. cbn. destruct (read_at k p j) as [x|], (read_at k q j) as [y|]; cbn; try done. rewrite (N.eqb_sym x y). by rewrite IH.
Qed.
Lemma equal_units_hash k is p q h : equal_units k is p q = Some true -> hash_units k is p h = hash_units k is q h.
Proof.
  unfold hash_units. revert h. induction is as [|j is IH]; intros h; [done|]. cbn [equal_units ofold].
  destruct (read_at k p j) as [x|]; [|done]. destruct (read_at k q j) as [y|]; [|done]. cbn [mbind option_bind].
  destruct (N.eqb_spec x y) as [->|]; [|done]. apply IH.
Qed.
