From Verif Require Import Base Sem M_Storage S_Storage P_Storage.
Local Open Scope nat_scope.

Lemma ceil8 n : n <= 8 * ((n + 8 - 1) / 8) < n + 8.
Proof. pose proof (Nat.div_mod (n + 8 - 1) 8). pose proof (Nat.mod_upper_bound (n + 8 - 1) 8). lia. Qed.
Lemma zeros_array k n : 0 < k -> is_array k n (replicate n 0%N).
Proof. intros Hk. split; [by rewrite replicate_length|]. apply Forall_replicate. apply N.neq_0_lt_0, N.pow_nonzero. lia. Qed.

Lemma get_flat' k n a rest : is_array k n a -> get_array k n (flat k a ++ rest) = Some a.
Proof. intros [<- Ha]. by apply get_flat. Qed.

Section pod.
  Context (U : pod) (HU : pod_ok U) (Hsz : 0 < pa_size U) (mem0 : bytes) (Hmem : is_memory (pa_datasize U) mem0).
  Context (fresh : bytes -> Z -> nat -> bytes) (Hfresh : forall s l b, is_memory (pa_datasize U) (fresh s l b)).
  Notation k := (pa_size U). Notation n := (pa_n U).
  Definition pad : bytes := drop (k * n) mem0.
  Definition prel (s : bytes) (a : list N) : Prop := is_array k n a /\ s = flat k a ++ pad.

  Lemma pa_fits : k * n <= pa_datasize U.
  Proof using All. unfold pa_datasize, pa_words. pose proof (ceil8 (n * k)). lia. Qed.
  Lemma enc_length a : is_array k n a -> length (flat k a ++ pad) = pa_datasize U.
  Proof using All. intros [Ha _]. rewrite app_length, flat_length, Ha. unfold pad. rewrite drop_length. destruct Hmem as [-> _]. pose proof pa_fits. lia. Qed.
  Lemma enc_ok a : bytes_ok (flat k a ++ pad).
  Proof using All. apply Forall_app. split; [apply flat_ok|]. apply bytes_drop, Hmem. Qed.
  Lemma enc_put a a' : is_array k n a -> is_array k n a' -> put_array k (flat k a ++ pad) a' = Some (flat k a' ++ pad).
  Proof using All.
    intros Ha Ha'. rewrite put_flat by (rewrite (enc_length a Ha); destruct Ha' as [-> _]; apply pa_fits). f_equal. f_equal.
    destruct Ha as [Ha _], Ha' as [-> _]. rewrite drop_app_alt; [done|]. by rewrite flat_length, Ha.
  Qed.
  Lemma pod_root : exists l s, pa_get_root U mem0 = Some (l, s) /\ l = fst (get_root (array_spec U)) /\ prel s (snd (get_root (array_spec U))).
  Proof using All.
    destruct Hmem as [Hl Hb]. destruct (block_array k n mem0 Hb) as (a & Ha & E); [rewrite Hl; apply pa_fits|].
    unfold pa_get_root. rewrite E. fold pad. rewrite (get_flat' _ _ _ _ Ha). cbn [mbind option_bind].
    pose proof (po_root U HU a Ha) as Hr. rewrite (po_root_writes U HU a (replicate n 0%N) Ha) in Hr |- * by by apply zeros_array.
    cbn [array_spec get_root]. destruct (pa_root U (replicate n 0%N)) as [l a'] eqn:Er. cbn [snd fst] in *. rewrite (enc_put a a' Ha Hr). cbn [mbind option_bind].
    eexists _, _. split; [done|]. split; [done|]. by split.
  Qed.
  Lemma pod_copy s a l b : prel s a -> pa_get_copy U (fresh s l b) s = Some s.
  Proof using All.
    intros [Ha ->]. unfold pa_get_copy. rewrite copy_words_ok.
    - done.
    - apply enc_ok.
    - lia.
    - destruct (Hfresh (flat k a ++ pad) l b) as [-> _]. unfold pa_datasize. lia.
    - rewrite (enc_length a Ha). unfold pa_datasize. lia.
  Qed.
  Lemma pod_child s a l b : prel s a -> b < pa_ar U ->
    exists c s', pa_get_child U s l b = Some (c, s') /\ c = fst (pa_child U a l b) /\ prel s' (snd (pa_child U a l b)).
  Proof using All.
    intros [Ha ->] Hb. unfold pa_get_child. rewrite (get_flat' _ _ _ _ Ha). cbn [mbind option_bind].
    pose proof (po_child U HU a l b Ha Hb) as Hc. destruct (pa_child U a l b) as [c a']. cbn [snd fst] in *. rewrite (enc_put a a' Ha Hc). cbn [mbind option_bind].
    eexists _, _. split; [done|]. split; [done|]. by split.
  Qed.
  Lemma enc_whole a : is_array k n a -> take (8 * pa_words U) (drop (8 * 0) (flat k a ++ pad)) = flat k a ++ pad.
  Proof using All. intros Ha. rewrite Nat.mul_0_r, drop_0. apply take_ge. rewrite (enc_length a Ha). unfold pa_datasize. lia. Qed.
  Lemma pod_equal s a s' a' : prel s a -> prel s' a' -> exists e, pa_equal_to U s s' = Some e /\ (e = true <-> a = a').
  Proof using All.
    intros [Ha ->] [Ha' ->]. unfold pa_equal_to.
    destruct (equal_units_ok 8 0 (pa_words U) (flat k a ++ pad) (flat k a' ++ pad)) as (e & E & He);
      [apply enc_ok|apply enc_ok|rewrite (enc_length a Ha); unfold pa_datasize; lia|rewrite (enc_length a' Ha'); unfold pa_datasize; lia|].
    exists e. split; [done|]. rewrite He, (enc_whole a Ha), (enc_whole a' Ha'). split; [|by intros ->].
    apply flat_inj; destruct Ha as [Hl Ha], Ha' as [Hl' Ha']; [by split|by split|congruence].
  Qed.
  Lemma pod_hash s a : prel s a -> is_Some (pa_hash_code U s).
  Proof using All.
    intros [Ha ->]. unfold pa_hash_code. apply (hash_units_eq 8 0 (pa_words U) (flat k a ++ pad) (flat k a ++ pad) 0%N); [| |done];
      rewrite (enc_length a Ha); unfold pa_datasize; lia.
  Qed.
  Notation sp := (pod_spec U mem0 fresh).
  Lemma pod_sim_root : fst (get_root sp) = fst (get_root (array_spec U)) /\ prel (snd (get_root sp)) (snd (get_root (array_spec U))).
  Proof using All. destruct pod_root as (l & s & E & Hl & Hr). cbn [pod_spec get_root]. rewrite E. by split. Qed.
  Lemma pod_sim_child s a l b : prel s a -> b < pa_ar U ->
    fst (get_child sp s l b) = fst (get_child (array_spec U) a l b) /\ prel (snd (get_child sp s l b)) (snd (get_child (array_spec U) a l b)).
  Proof using All.
    intros Hr Hb. cbn [pod_spec get_child array_spec]. rewrite (pod_copy s a l b Hr). cbn [mbind option_bind].
    destruct (pod_child s a l b Hr Hb) as (c & s' & -> & -> & H). by split.
  Qed.
  Lemma pod_sim_equal s a s' a' l : prel s a -> prel s' a' -> equal_to sp l s s' = equal_to (array_spec U) l a a'.
  Proof using All.
    intros H H'. cbn [pod_spec equal_to array_spec]. destruct (pod_equal s a s' a' H H') as (e & -> & He). cbn.
    destruct e; [rewrite bool_decide_true; [done|by apply He]|rewrite bool_decide_false; [done|]]. intros E%He. done.
  Qed.
End pod.

Section hybrid.
  Context (U : hybrid) (HU : hybrid_ok U) (Hsz : 0 < hy_size U) (mem0 : bytes) (Hmem : is_memory (hy_datasize U) mem0).
  Context (fresh : bytes -> Z -> nat -> bytes) (Hfresh : forall s l b, is_memory (hy_datasize U) (fresh s l b)).
  Notation ks := (hy_ssize U). Notation k := (hy_size U). Notation n := (hy_n U). Notation W := (8 * hy_swords U).
  Notation scalar := (fun x => (x < 256 ^ N.of_nat ks)%N).
  Definition hpad : bytes := drop (k * n) (drop W mem0).
  (** scalar, gap, array, padding *)
  Definition hrel (s : bytes) (x : N * list N) : Prop :=
    scalar (fst x) /\ is_array k n (snd x) /\ exists gap, bytes_ok gap /\ ks + length gap = W /\ s = le_bytes ks (fst x) ++ gap ++ flat k (snd x) ++ hpad.

  Lemma hy_fits1 : ks <= W. Proof using All. unfold hy_swords. pose proof (ceil8 ks). lia. Qed.
  Lemma hy_size_eq : hy_datasize U = W + 8 * ((n * k + 8 - 1) / 8). Proof using All. unfold hy_datasize, hy_words. lia. Qed.
  Lemma hy_fits2 : W + k * n <= hy_datasize U. Proof using All. rewrite hy_size_eq. pose proof (ceil8 (n * k)). lia. Qed.
  Lemma hy_words_eq : 8 * hy_words U = hy_datasize U. Proof using All. unfold hy_datasize. lia. Qed.
  Lemma hpad_length : length hpad = hy_datasize U - W - k * n.
  Proof using All. unfold hpad. rewrite !drop_length. destruct Hmem as [-> _]. lia. Qed.
  Lemma henc_length x gap a : ks + length gap = W -> is_array k n a -> length (le_bytes ks x ++ gap ++ flat k a ++ hpad) = hy_datasize U.
  Proof using All. intros Hg [Ha _]. rewrite !app_length, le_bytes_length, flat_length, Ha, hpad_length. pose proof hy_fits2. lia. Qed.
  Lemma hpad_ok : bytes_ok hpad.
  Proof using All. apply bytes_drop, bytes_drop, Hmem. Qed.
  Lemma henc_ok x gap a : bytes_ok gap -> bytes_ok (le_bytes ks x ++ gap ++ flat k a ++ hpad).
  Proof using All. intros Hg. apply Forall_app. split; [apply le_bytes_ok|]. apply Forall_app. split; [done|]. apply Forall_app. split; [apply flat_ok|apply hpad_ok]. Qed.
  Lemma henc_drop x gap a : ks + length gap = W -> drop W (le_bytes ks x ++ gap ++ flat k a ++ hpad) = flat k a ++ hpad.
  Proof using All. intros Hg. rewrite app_assoc. apply drop_app_alt. rewrite app_length, le_bytes_length. lia. Qed.
  Lemma henc_take x gap a : ks + length gap = W -> take W (le_bytes ks x ++ gap ++ flat k a ++ hpad) = le_bytes ks x ++ gap.
  Proof using All. intros Hg. rewrite app_assoc. apply take_app_alt. rewrite app_length, le_bytes_length. lia. Qed.
  Lemma henc_read x rest : scalar x -> read_at ks (le_bytes ks x ++ rest) 0 = Some x.
  Proof using All. intros Hx. rewrite read_some by (rewrite app_length, le_bytes_length; lia). rewrite Nat.mul_0_r, drop_0, take_app_alt by by rewrite le_bytes_length. by rewrite le_val_bytes. Qed.
  Lemma henc_write x y rest : write_at ks (le_bytes ks x ++ rest) 0 y = Some (le_bytes ks y ++ rest).
  Proof using All. rewrite write_some by (rewrite app_length, le_bytes_length; lia). rewrite Nat.mul_0_r, take_0, app_nil_l, drop_app_alt; [done|by rewrite le_bytes_length]. Qed.
  (** any memory starts with a scalar *)
  Lemma mem_scalar p : bytes_ok p -> ks <= length p -> exists x, scalar x /\ p = le_bytes ks x ++ drop ks p.
  Proof using All.
    intros Hp Hl. destruct (block_array ks 1 p Hp) as (a & [Ha1 Ha2] & E); [lia|]. destruct a as [|x [|? ?]]; try done. exists x.
    split; [by apply Forall_cons in Ha2 as [? _]|]. rewrite E at 1. cbn [flat map concat]. by rewrite app_nil_r, Nat.mul_1_r.
  Qed.
  Lemma hy_get_rel s x : hrel s x -> hy_get U s = Some x.
  Proof using All.
    intros (Hx & Ha & gap & _ & Hg & ->). unfold hy_get. rewrite henc_read by done. cbn [mbind option_bind]. rewrite (henc_drop _ _ _ Hg).
    rewrite (get_flat' _ _ _ _ Ha). cbn [mbind option_bind]. by destruct x.
  Qed.
  Lemma hy_put_rel s x y a : hrel s x -> scalar y -> is_array k n a -> exists s', hy_put U s y a = Some s' /\ hrel s' (y, a).
  Proof using All.
    intros (Hx & Ha & gap & Hgb & Hg & ->) Hy Hb. unfold hy_put. rewrite henc_write. cbn [mbind option_bind]. rewrite (henc_drop _ _ _ Hg), (henc_take _ _ _ Hg).
    destruct Ha as [Ha1 Ha2], (Hb) as [Hb1 Hb2]. rewrite put_flat by (rewrite app_length, flat_length; nia). cbn [mbind option_bind].
    rewrite drop_app_alt by (rewrite flat_length; nia). eexists. split; [done|]. split; [done|]. split; [done|]. exists gap. split_and!; [done|done|]. cbn [fst snd]. by rewrite <- app_assoc.
  Qed.
  Lemma hy_root_ok : exists l s, hy_get_root U mem0 = Some (l, s) /\ l = fst (get_root (pair_spec U)) /\ hrel s (snd (get_root (pair_spec U))).
  Proof using All.
    destruct Hmem as [Hl Hb]. pose proof hy_fits1. pose proof hy_fits2. destruct (mem_scalar mem0 Hb) as (x & Hx & E); [lia|].
    unfold hy_get_root. rewrite E, henc_write. cbn [mbind option_bind].
    destruct (block_array k n (drop W mem0)) as (a & Ha & E2); [by apply bytes_drop|rewrite drop_length; lia|]. fold hpad in E2.
    assert (hrel (le_bytes ks (hy_init U) ++ drop ks mem0) (hy_init U, a)) as HR.
    { split; [apply HU|]. split; [done|]. exists (take (W - ks) (drop ks mem0)). split_and!; [by apply bytes_take, bytes_drop|rewrite take_length, drop_length; lia|].
      cbn [fst snd]. f_equal. rewrite <- E2. rewrite <- (take_drop (W - ks) (drop ks mem0)) at 1. f_equal. rewrite drop_drop. f_equal. lia. }
    rewrite (hy_get_rel _ _ HR). cbn [mbind option_bind]. pose proof (ho_root U HU a Ha) as Hr. cbv zeta in Hr.
    rewrite (ho_root_writes U HU a (replicate n 0%N) Ha) in Hr |- * by by apply zeros_array. cbn [pair_spec get_root].
    destruct (hy_root U (hy_init U) (replicate n 0%N)) as [l [y a']]. cbn [fst snd] in *. destruct Hr as [Hy Ha'].
    destruct (hy_put_rel _ _ y a' HR Hy Ha') as (s' & -> & HR'). cbn [mbind option_bind]. by eexists _, _.
  Qed.
  Lemma hy_copy_ok s x l b : hrel s x -> exists s', hy_get_copy U (fresh s l b) s = Some s' /\ hrel s' x.
  Proof using All.
    intros (Hx & Ha & gap & Hgb & Hg & ->). pose proof (henc_length (fst x) gap (snd x) Hg Ha) as Hl. pose proof (henc_ok (fst x) gap (snd x) Hgb) as Hok.
    pose proof hy_fits1. pose proof hy_fits2. pose proof hy_words_eq.
    unfold hy_get_copy. rewrite henc_read by done. cbn [mbind option_bind]. set (s := le_bytes ks (fst x) ++ _) in *.
    destruct (Hfresh s l b) as [Fl Fb]. destruct (mem_scalar (fresh s l b) Fb) as (y & Hy & E); [lia|]. rewrite E, henc_write. cbn [mbind option_bind].
    rewrite copy_words_ok; [|done|unfold hy_words; lia| |].
    - eexists. split; [done|]. split; [done|]. split; [done|]. exists (take (W - ks) (drop ks (fresh s l b))). split_and!.
      + by apply bytes_take, bytes_drop.
      + rewrite take_length, drop_length. lia.
      + unfold s at 2. rewrite (henc_drop _ _ _ Hg). rewrite (app_assoc (le_bytes ks (fst x)) (take _ _)). f_equal. rewrite take_app_ge by (rewrite le_bytes_length; lia). by rewrite le_bytes_length.
    - rewrite app_length, le_bytes_length, drop_length. lia.
    - lia.
  Qed.
  Lemma hy_child_ok s x l b : hrel s x -> b < hy_ar U ->
    exists c s', hy_get_child U s l b = Some (c, s') /\ c = fst (get_child (pair_spec U) x l b) /\ hrel s' (snd (get_child (pair_spec U) x l b)).
  Proof using All.
    intros HR Hb. unfold hy_get_child. rewrite (hy_get_rel _ _ HR). cbn [mbind option_bind]. destruct x as [x a]. destruct (HR) as (Hx & Ha & _). cbn [fst snd] in Hx, Ha.
    pose proof (ho_child U HU x a l b Hx Ha Hb) as Hr. cbv zeta in Hr. cbn [pair_spec get_child fst snd].
    destruct (hy_child U x a l b) as [c [y a']]. cbn [fst snd] in *. destruct Hr as [Hy Ha'].
    destruct (hy_put_rel _ _ y a' HR Hy Ha') as (s' & -> & HR'). cbn [mbind option_bind]. by eexists _, _.
  Qed.
  Lemma raw_unit_ok : 0 < raw_unit ks /\ raw_unit ks * (ks / raw_unit ks) = ks.
  Proof using All.
    unfold raw_unit. destruct (Nat.eqb_spec (ks mod 8) 0); [|destruct (Nat.eqb_spec (ks mod 4) 0); [|destruct (Nat.eqb_spec (ks mod 2) 0)]].
    - pose proof (Nat.div_mod ks 8). lia.
    - pose proof (Nat.div_mod ks 4). lia.
    - pose proof (Nat.div_mod ks 2). lia.
    - rewrite Nat.div_1_r. lia.
  Qed.
  Lemma henc_array_units x gap a : ks + length gap = W -> is_array k n a ->
    take (8 * (hy_words U - hy_swords U)) (drop W (le_bytes ks x ++ gap ++ flat k a ++ hpad)) = flat k a ++ hpad.
  Proof using All. intros Hg Ha. rewrite (henc_drop _ _ _ Hg). apply take_ge. pose proof (henc_length x gap a Hg Ha) as Hl. rewrite !app_length, le_bytes_length in Hl. rewrite app_length. pose proof hy_words_eq. lia. Qed.
  Lemma henc_scalar_units x rest : take (raw_unit ks * (ks / raw_unit ks)) (drop (raw_unit ks * 0) (le_bytes ks x ++ rest)) = le_bytes ks x.
  Proof using All. destruct raw_unit_ok as [_ ->]. rewrite Nat.mul_0_r, drop_0. apply take_app_alt. by rewrite le_bytes_length. Qed.
  Lemma hy_equal_ok s x s' x' : hrel s x -> hrel s' x' -> exists e, hy_equal_to U s s' = Some e /\ (e = true <-> x = x').
  Proof using All.
    intros (Hx & Ha & gap & Hgb & Hg & ->) (Hx' & Ha' & gap' & Hgb' & Hg' & ->).
    pose proof (henc_length (fst x) gap (snd x) Hg Ha) as Hl. pose proof (henc_length (fst x') gap' (snd x') Hg' Ha') as Hl'.
    pose proof hy_fits1. pose proof hy_fits2. pose proof hy_words_eq. destruct raw_unit_ok as [Hu0 Hu]. unfold hy_equal_to, raw_units.
    destruct (equal_units_ok (raw_unit ks) 0 (ks / raw_unit ks) (le_bytes ks (fst x) ++ gap ++ flat k (snd x) ++ hpad) (le_bytes ks (fst x') ++ gap' ++ flat k (snd x') ++ hpad))
      as (e & -> & He); [by apply henc_ok|by apply henc_ok|lia|lia|]. cbn [mbind option_bind]. rewrite !henc_scalar_units in He.
    assert (Hs : e = true <-> fst x = fst x').
    { rewrite He. split; [|by intros ->]. intros E. rewrite <- (le_val_bytes ks (fst x)), <- (le_val_bytes ks (fst x')) by done. by rewrite E. }
    destruct e; cbn [negb].
    - destruct (equal_units_ok 8 (hy_swords U) (hy_words U - hy_swords U) (le_bytes ks (fst x) ++ gap ++ flat k (snd x) ++ hpad) (le_bytes ks (fst x') ++ gap' ++ flat k (snd x') ++ hpad))
        as (e & -> & He'); [by apply henc_ok|by apply henc_ok|unfold hy_words in *; lia|unfold hy_words in *; lia|]. exists e. split; [done|]. rewrite He'.
      rewrite (henc_array_units _ _ _ Hg Ha), (henc_array_units _ _ _ Hg' Ha'). destruct x as [x a], x' as [x' a']. cbn [fst snd] in *. split.
      + intros E. apply flat_inj in E; [|by split; [|apply Ha]|by split; [|apply Ha']|destruct Ha as [-> _], Ha' as [-> _]; done]. rewrite E. f_equal. by apply Hs.
      + by intros [= -> ->].
    - exists false. split; [done|]. split; [done|]. intros ->. by apply Hs.
  Qed.
  Lemma hy_hash_eq s s' x : hrel s x -> hrel s' x -> hy_hash_code U s = hy_hash_code U s' /\ is_Some (hy_hash_code U s).
  Proof using All.
    intros (Hx & Ha & gap & Hgb & Hg & ->) (_ & _ & gap' & Hgb' & Hg' & ->).
    pose proof (henc_length (fst x) gap (snd x) Hg Ha) as Hl. pose proof (henc_length (fst x) gap' (snd x) Hg' Ha) as Hl'.
    pose proof hy_fits1. pose proof hy_fits2. pose proof hy_words_eq. destruct raw_unit_ok as [Hu0 Hu]. unfold hy_hash_code, raw_units.
    destruct (hash_units_eq (raw_unit ks) 0 (ks / raw_unit ks) (le_bytes ks (fst x) ++ gap ++ flat k (snd x) ++ hpad) (le_bytes ks (fst x) ++ gap' ++ flat k (snd x) ++ hpad) 0%N)
      as [<- [h ->]]; [lia|lia|by rewrite !henc_scalar_units|]. cbn [mbind option_bind].
    apply hash_units_eq; [unfold hy_words in *; lia|unfold hy_words in *; lia|]. by rewrite (henc_array_units _ _ _ Hg Ha), (henc_array_units _ _ _ Hg' Ha).
  Qed.
  Notation sp := (hybrid_spec U mem0 fresh).
  Lemma hy_sim_root : fst (get_root sp) = fst (get_root (pair_spec U)) /\ hrel (snd (get_root sp)) (snd (get_root (pair_spec U))).
  Proof using All. destruct hy_root_ok as (l & s & E & Hl & Hr). cbn [hybrid_spec get_root]. rewrite E. by split. Qed.
  Lemma hy_sim_child s a l b : hrel s a -> b < hy_ar U ->
    fst (get_child sp s l b) = fst (get_child (pair_spec U) a l b) /\ hrel (snd (get_child sp s l b)) (snd (get_child (pair_spec U) a l b)).
  Proof using All.
    intros Hr Hb. cbn [hybrid_spec get_child]. destruct (hy_copy_ok s a l b Hr) as (s1 & -> & Hr1). cbn [mbind option_bind].
    destruct (hy_child_ok s1 a l b Hr1 Hb) as (c & s' & -> & -> & H). by split.
  Qed.
  Lemma hy_sim_equal s a s' a' l : hrel s a -> hrel s' a' -> equal_to sp l s s' = equal_to (pair_spec U) l a a'.
  Proof using All.
    intros H H'. cbn [hybrid_spec equal_to pair_spec]. destruct (hy_equal_ok s a s' a' H H') as (e & -> & He). cbn.
    destruct e; [rewrite bool_decide_true; [done|by apply He]|rewrite bool_decide_false; [done|]]. intros E%He. done.
  Qed.
End hybrid.
