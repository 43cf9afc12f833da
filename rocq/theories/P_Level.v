From Verif Require Import Base M_Table Tree M_Hash P_Hash M_Sweeper M_Engine P_Sweep P_Pass P_Pass2 P_Core P_Upd.
Local Open Scope nat_scope.

Global Instance src_eq_dec : EqDecision src.
Proof. solve_decision. Defined.

Lemma NoDup_concat_map {A B} (h : A -> list B) ks :
  NoDup ks -> (forall k, k ∈ ks -> NoDup (h k)) ->
  (forall k k' x, k ∈ ks -> k' ∈ ks -> x ∈ h k -> x ∈ h k' -> k = k') -> NoDup (concat (map h ks)).
Proof.
  induction ks as [|k ks IH]; intros Hnd Hh Hx; simpl; [constructor|].
  apply NoDup_cons in Hnd as [Hk Hnd]. apply NoDup_app. split_and!.
  - apply Hh. left.
  - intros x H1 H2. apply elem_of_list_In, in_concat in H2 as (l & Hl & Hxl).
    apply in_map_iff in Hl as (k' & <- & Hk'). apply Hk.
    rewrite (Hx k k' x); [by apply elem_of_list_In|left|right; by apply elem_of_list_In|done|by apply elem_of_list_In].
  - apply IH; [done| |]; intros; [apply Hh; by right|]. eapply Hx; [by right..|done|done].
Qed.

Lemma elem_of_concat_map {A B} (h : A -> list B) ks x : x ∈ concat (map h ks) <-> exists k, k ∈ ks /\ x ∈ h k.
Proof.
  rewrite elem_of_list_In, in_concat. split.
  - intros (l & Hl & Hx). apply in_map_iff in Hl as (k & <- & Hk). exists k. by rewrite !elem_of_list_In.
  - intros (k & Hk & Hx). exists (h k). rewrite !elem_of_list_In in *. split; [by apply in_map|done].
Qed.

Lemma elem_of_lfilter {A} (P : A -> bool) l x : x ∈ List.filter P l <-> x ∈ l /\ P x = true.
Proof. rewrite !elem_of_list_In. apply filter_In. Qed.

Lemma Permutation_lfilter {A} (P : A -> bool) l l' : l ≡ₚ l' -> List.filter P l ≡ₚ List.filter P l'.
Proof.
  induction 1 as [|x l l' _ IH|x y l|]; simpl; [done| | |by etrans].
  - destruct (P x); by rewrite IH.
  - destruct (P x), (P y); try done. constructor.
Qed.

Lemma NoDup_lfilter {A} (P : A -> bool) l : NoDup l -> NoDup (List.filter P l).
Proof. rewrite !NoDup_ListNoDup. apply List.NoDup_filter. Qed.

Lemma NoDup_map_inj {A B} (f : A -> B) l :
  NoDup l -> (forall x y, x ∈ l -> y ∈ l -> f x = f y -> x = y) -> NoDup (map f l).
Proof.
  induction 1 as [|x l Hx Hl IH]; intros Hinj; simpl; [constructor|]. constructor.
  - intros Hin. apply elem_of_list_fmap in Hin as (y & E & Hy).
    rewrite (Hinj x y) in Hx; [done|left|by right|done].
  - apply IH. intros y z Hy Hz. apply Hinj; by right.
Qed.

Lemma NoDup_map_1 {A B} (f : A -> B) l : NoDup (map f l) -> NoDup l.
Proof. rewrite !NoDup_ListNoDup. apply NoDup_map_inv. Qed.

Lemma NoDup_map_eq {A B} (f : A -> B) l x y : NoDup (map f l) -> x ∈ l -> y ∈ l -> f x = f y -> x = y.
Proof.
  induction l as [|z l IH]; intros Hnd Hx Hy E; [by apply elem_of_nil in Hx|].
  simpl in Hnd. apply NoDup_cons in Hnd as [Hz Hnd].
  apply elem_of_cons in Hx as [->|Hx], Hy as [->|Hy]; try done.
  - exfalso. apply Hz. rewrite E. by apply elem_of_list_fmap_1.
  - exfalso. apply Hz. rewrite <- E. by apply elem_of_list_fmap_1.
  - by apply IH.
Qed.

Lemma elem_of_zip_lookup {A B} (l : list A) (k : list B) x y :
  (x, y) ∈ zip l k <-> exists j, l !! j = Some x /\ k !! j = Some y.
Proof.
  rewrite elem_of_list_lookup. split.
  - intros [j Hj]. exists j. apply lookup_zip_with_Some in Hj as (? & ? & E & ? & ?). inversion E; subst. done.
  - intros (j & H1 & H2). exists j. apply lookup_zip_with_Some. eauto.
Qed.

(** two tables of the same shape with the same branches in a row have the same row *)
Lemma row_ext t t' r : shape t = shape t' -> (forall c b, child t (mk r c) b = child t' (mk r c) b) ->
  t !! r = t' !! r.
Proof.
  intros Hs Hc. destruct (t !! r) as [x|] eqn:E.
  - destruct (shape_row t t' r x Hs E) as (x' & E' & Hl). rewrite E'. f_equal.
    assert (length x' = length x) as Hl' by (apply (f_equal length) in Hl; by rewrite !fmap_length in Hl).
    apply list_eq. intros c. destruct (x !! c) as [p|] eqn:Ep.
    + assert ((length <$> x') !! c = Some (length p)) as Elp by (rewrite Hl, list_lookup_fmap, Ep; done).
      rewrite list_lookup_fmap in Elp. destruct (x' !! c) as [p'|] eqn:Ep'; [|done]. f_equal.
      apply list_eq. intros b. specialize (Hc c b). unfold child, tget in Hc. simpl in Hc.
      rewrite E, E' in Hc. simpl in Hc. by rewrite Ep, Ep' in Hc.
    + symmetry. apply lookup_ge_None in Ep. apply lookup_ge_None. lia.
  - symmetry. apply lookup_ge_None in E. apply lookup_ge_None. rewrite <- (shape_length _ _ Hs). done.
Qed.

Lemma child_is_Some t f b p : tget t f = Some p -> b < length p -> is_Some (child t f b).
Proof. intros H Hb. unfold child. rewrite H. simpl. by apply lookup_lt_is_Some_2. Qed.

Lemma shape_is_Some t t' f : shape t = shape t' -> is_Some (tget t f) -> is_Some (tget t' f).
Proof. intros Hs [p Hp]. destruct (shape_get t t' f p Hs Hp) as (? & ? & _). by eexists. Qed.

Section level.
  Context {S : Type} (a : nat) (nt : nat) (ngr : nat -> nat).
  Context (eqbf : nat -> S -> S -> bool) (hashf : nat -> S -> N).
  Context (ch : nat -> nat -> S -> nat -> option (Z * nat * S)).
  Context (sched : nat -> list (nat * nat)) (single : bool).
  Context (R : nat -> nat -> S -> Prop) (tr : nat -> nat -> S -> tree).
  Context (n g0 : nat) (s0 : S).
  Notation core := (core T1 a nt ngr eqbf hashf R tr n g0 s0).
  Notation den := (den T1 a tr).

  Definition ctree (i g : nat) (s : S) (b : nat) : tree :=
    match ch i g s b with
    | Some (c, g', s') => if (c =? 0)%Z then T0 else if (c <? 0)%Z then T1 else tr (Z.to_nat c) g' s'
    | None => T0
    end.

  Context (Hch : forall i g s b, R i g s -> b < a -> exists c g' s', ch i g s b = Some (c, g', s') /\
     (c < Z.of_nat i)%Z /\ ((0 < c)%Z -> g' < ngr (Z.to_nat c) /\ R (Z.to_nat c) g' s')).
  Context (Htr : forall i g s, R i g s -> tr i g s = nzN i (map (ctree i g s) (seq 0 a))).
  Context (Heq : forall i g s s', R i g s -> R i g s' -> eqbf i s s' = true -> tr i g s = tr i g s').
  Context (Hs1 : forall i, map fst (sched i) ≡ₚ seq 0 (ngr i)).
  Context (Hs2 : forall i x, x ∈ sched i -> snd x < nt).

  Lemma elem_pgroup i g (w : list (pnode S)) p :
    p ∈ pgroup nt i g w <-> p ∈ w /\ p_lv p = i /\ p_gr p = g /\ p_th p < nt.
  Proof.
    unfold pgroup. rewrite elem_of_concat_map. unfold plist. setoid_rewrite elem_of_lfilter.
    setoid_rewrite elem_of_seq. split.
    - intros (y & Hy & Hp & HP). apply andb_prop in HP as [HP HP3]. apply andb_prop in HP as [HP1 HP2].
      apply Nat.eqb_eq in HP1, HP2, HP3. split_and!; try done; lia.
    - intros (Hp & E1 & E2 & E3). exists (p_th p). split; [lia|]. split; [done|].
      rewrite E1, E2, !Nat.eqb_refl. done.
  Qed.

  Lemma NoDup_pgroup i g (w : list (pnode S)) : NoDup w -> NoDup (pgroup nt i g w).
  Proof.
    intros Hw. unfold pgroup. apply NoDup_concat_map.
    - apply NoDup_seq.
    - intros y _. by apply NoDup_lfilter.
    - intros y y' x _ _ H1 H2. unfold plist in *. apply elem_of_lfilter in H1 as [_ H1], H2 as [_ H2].
      apply andb_prop in H1 as [_ H1], H2 as [_ H2]. apply Nat.eqb_eq in H1, H2. congruence.
  Qed.

  Lemma pgroup_src i g (w : list (pnode S)) : NoDup (map p_src w) -> NoDup (map p_src (pgroup nt i g w)).
  Proof.
    intros Hw. apply NoDup_map_inj; [apply NoDup_pgroup; by eapply NoDup_map_1|].
    intros x y Hx Hy E. apply elem_pgroup in Hx as [Hx _], Hy as [Hy _]. by eapply NoDup_map_eq.
  Qed.

  (** pass 1 over all the groups of a level *)
  Record p1all (i : nat) (w : list (pnode S)) (x m0 : nat) (t0 : table) (root0 : nid)
      (idss : list (list nid)) (m : nat) (t : table) (root : nid) : Prop := {
    pa_len : length idss = x;
    pa_m : m0 <= m;
    pa_live : live (concat idss) = map (mk i) (seq m0 (m - m0));
    pa_ids : forall g ids, idss !! g = Some ids -> length ids = length (pgroup nt i g w) /\
       (eq_hash_ok hashf eqbf i -> ForallOrdPairs (fun s s' => eqbf i s s' = false) (reps (pgroup nt i g w) ids));
    pa_tgt : forall g ids j p, idss !! g = Some ids -> pgroup nt i g w !! j = Some p ->
       exists j0 p0 c, pgroup nt i g w !! j0 = Some p0 /\ ids !! j0 = Some (mk i c) /\
        (j0 = j \/ eqbf i (p_st p0) (p_st p) = true) /\ read_src t root (p_src p) = Some (mk i c);
    pa_own : forall g ids j p c, idss !! g = Some ids -> pgroup nt i g w !! j = Some p -> ids !! j = Some (mk i c) ->
       read_src t root (p_src p) = Some (mk i c);
    pa_frame : forall y, (forall g p, g < x -> p ∈ pgroup nt i g w -> p_src p <> y) -> read_src t root y = read_src t0 root0 y;
    pa_shape : shape t = shape t0
  }.

  Lemma pass1_ok i w m0 t0 root0 : 0 < i ->
    NoDup (map p_src w) -> (forall p, p ∈ w -> p_lv p = i -> is_Some (read_src t0 root0 (p_src p))) ->
    exists idss m t root, pass1 hashf eqbf nt ngr single i w m0 (t0, root0) = Some (idss, m, (t, root)) /\
      p1all i w (ngr i) m0 t0 root0 idss m t root.
  Proof.
    intros Hi Hnd Hsrc. unfold pass1.
    destruct (ofold_inv (fun '(idss, m, tr) g =>
             '(ids, m', tr') ← pass1_group hashf eqbf single i (pgroup nt i g w) m tr;
             Some (idss ++ [ids], m', tr'))
      (fun pre '(idss, m, (t, root)) => p1all i w (length pre) m0 t0 root0 idss m t root)
      (seq 0 (ngr i)) ([], m0, (t0, root0))) as ([[idss m] [t root]] & E & HP).
    - constructor; try done. by rewrite Nat.sub_diag.
    - intros pre g post [[idss m] [t root]] Hl HP.
      assert (g = length pre) as Hg.
      { assert (seq 0 (ngr i) !! length pre = Some g) as Hlk.
        { rewrite Hl. rewrite lookup_app_r by lia. by rewrite Nat.sub_diag. }
        apply lookup_seq in Hlk. lia. }
      assert (forall p g', p ∈ pgroup nt i g w -> g' < length pre -> forall q, q ∈ pgroup nt i g' w -> p_src q <> p_src p) as Hdis.
      { intros p g' Hp Hg' q Hq E. apply elem_pgroup in Hp as (Hp & _ & Hgp & _), Hq as (Hq & _ & Hgq & _).
        assert (q = p) as -> by (by eapply NoDup_map_eq). lia. }
      destruct (pass1_group_ok hashf eqbf i Hi single (pgroup nt i g w) m t root) as (ids & m' & t' & root' & E & HG).
      { by apply pgroup_src. }
      { intros p Hp. rewrite (pa_frame _ _ _ _ _ _ _ _ _ _ HP).
        - apply Hsrc; by apply elem_pgroup in Hp as (? & ? & ? & ?).
        - intros g' q Hg' Hq. by eapply Hdis. }
      rewrite E. cbn [mbind option_bind]. eexists. split; [done|]. cbn beta iota.
      pose proof (pa_len _ _ _ _ _ _ _ _ _ _ HP) as Hlen. pose proof (pa_m _ _ _ _ _ _ _ _ _ _ HP) as Hm0.
      pose proof (p1_m _ _ _ _ _ _ _ _ _ _ _ HG) as Hm1.
      assert (forall g' ids', (idss ++ [ids]) !! g' = Some ids' ->
         idss !! g' = Some ids' /\ g' < length pre \/ g' = g /\ ids' = ids) as Hsplit.
      { intros g' ids' HH. apply lookup_app_Some in HH as [HH|[Hge HH]].
        - left. split; [done|]. apply lookup_lt_Some in HH. lia.
        - right. apply list_lookup_singleton_Some in HH as [? <-]. split; [lia|done]. }
      constructor.
      + rewrite !app_length. simpl. lia.
      + lia.
      + rewrite concat_app. unfold live. rewrite List.filter_app. simpl. rewrite app_nil_r.
        pose proof (pa_live _ _ _ _ _ _ _ _ _ _ HP) as HL1. pose proof (p1_live _ _ _ _ _ _ _ _ _ _ _ HG) as HL2.
        unfold live in HL1, HL2. etrans; [apply f_equal2; [exact HL1|exact HL2]|].
        rewrite <- map_app. f_equal. replace (m' - m0) with ((m - m0) + (m' - m)) by lia. rewrite seq_app.
        do 2 f_equal. lia.
      + intros g' ids' HH. destruct (Hsplit g' ids' HH) as [[HH' _]|[-> ->]].
        * by apply (pa_ids _ _ _ _ _ _ _ _ _ _ HP).
        * split; [apply HG|]. intros Hok. by apply (p1_reps _ _ _ _ _ _ _ _ _ _ _ HG).
      + intros g' ids' j p HH Hj. destruct (Hsplit g' ids' HH) as [[HH' Hg']|[-> ->]].
        * destruct (pa_tgt _ _ _ _ _ _ _ _ _ _ HP g' ids' j p HH' Hj) as (j0 & p0 & c & H1 & H2 & H3 & H4).
          exists j0, p0, c. split_and!; try done. rewrite (p1_frame _ _ _ _ _ _ _ _ _ _ _ HG); [done|].
          intros Hin. apply elem_of_list_fmap in Hin as (q & Eq & Hq).
          eapply (Hdis q g' Hq Hg' p); [by eapply elem_of_list_lookup_2|done].
        * by apply (p1_tgt _ _ _ _ _ _ _ _ _ _ _ HG).
      + intros g' ids' j p c HH Hj Hc. destruct (Hsplit g' ids' HH) as [[HH' Hg']|[-> ->]].
        * rewrite (p1_frame _ _ _ _ _ _ _ _ _ _ _ HG).
          -- by eapply (pa_own _ _ _ _ _ _ _ _ _ _ HP).
          -- intros Hin. apply elem_of_list_fmap in Hin as (q & Eq & Hq).
             eapply (Hdis q g' Hq Hg' p); [by eapply elem_of_list_lookup_2|done].
        * by eapply (p1_own _ _ _ _ _ _ _ _ _ _ _ HG).
      + intros y Hy. rewrite app_length in Hy. simpl in Hy. rewrite (p1_frame _ _ _ _ _ _ _ _ _ _ _ HG).
        * apply (pa_frame _ _ _ _ _ _ _ _ _ _ HP). intros g' p Hg' Hp. eapply Hy; [|done]. lia.
        * intros Hin. apply elem_of_list_fmap in Hin as (q & -> & Hq). eapply (Hy g q); [lia|done|done].
      + rewrite (p1_shape _ _ _ _ _ _ _ _ _ _ _ HG). apply HP.
    - rewrite seq_length in HP. exists idss, m, t, root. split; [exact E|done].
  Qed.

  Notation flatL i w idss := (concat (map (fun gy : nat * nat =>
      map (fun pf => (gy, pf)) (zip (pgroup nt i (fst gy) w) (default [] (idss !! fst gy)))) (sched i))).

  Lemma flat_ids i (w : list (pnode S)) (idss : list (list nid)) :
    (forall g ids, idss !! g = Some ids -> length ids = length (pgroup nt i g w)) ->
    length idss = ngr i ->
    map (fun x => snd (snd x)) (flatL i w idss) ≡ₚ concat idss.
  Proof.
    intros Hlen Hl. rewrite concat_map, map_map.
    assert (map (fun gy : nat * nat => map (fun x : nat * nat * (pnode S * nid) => snd (snd x))
       (map (fun pf => (gy, pf)) (zip (pgroup nt i (fst gy) w) (default [] (idss !! fst gy))))) (sched i)
      = map (fun g => default [] (idss !! g)) (map fst (sched i))) as ->.
    { rewrite map_map. apply map_ext. intros [g y]. rewrite map_map. simpl.
      destruct (idss !! g) as [ids|] eqn:E; simpl; [|by rewrite zip_with_nil_r].
      pose proof (Hlen g ids E) as Hl'. change (map (fun x : pnode S * nid => snd x) (zip (pgroup nt i g w) ids)) with (snd <$> zip (pgroup nt i g w) ids).
      apply snd_zip. lia. }
    rewrite <- !flat_map_concat_map. rewrite (Permutation_flat_map _ (Hs1 i)).
    rewrite flat_map_concat_map. rewrite <- Hl.
    assert (map (fun g => default [] (idss !! g)) (seq 0 (length idss)) = idss) as ->; [|done].
    apply list_eq. intros g. change (map (fun g => default [] (idss !! g)) (seq 0 (length idss))) with ((fun g => default [] (idss !! g)) <$> seq 0 (length idss)). rewrite list_lookup_fmap.
    destruct (decide (g < length idss)) as [Hg|Hg].
    - rewrite lookup_seq_lt by done. simpl. by destruct (lookup_lt_is_Some_2 idss g Hg) as [ids ->].
    - rewrite lookup_seq_ge by lia. simpl. symmetry. apply lookup_ge_None. lia.
  Qed.

  Lemma level_ok i t root w : 1 <= i <= n -> core i t root w ->
    exists idss m t1 root1 r1 t2 w2 low dead,
      pass1 hashf eqbf nt ngr single i w 0 (t, root) = Some (idss, m, (t1, root1)) /\ t1 !! i = Some r1 /\
      pass2 a nt ngr ch sched i w idss (<[i := take m r1 ++ replicate (m - length r1) (junk_node a)]> t1)
        = Some (t2, w2, low, dead) /\
      core (i - 1) t2 root1 w2 /\ low <= i - 1 /\
      (forall p c b, p ∈ w2 -> p_src p = SBr i c b -> low <= p_lv p) /\
      (forall r, t2 !! i = Some r -> dead <= length r) /\
      (forall j r, i < j -> t2 !! j = Some r -> exists r', t !! j = Some r' /\ length r' = length r) /\
      (forall p r c b, p ∈ w2 -> p_src p = SBr r c b -> p_lv p < i /\ (i < r -> p ∈ w)) /\
      (i < n -> root1 = root) /\ (i = n -> root1 <> n0 /\ forall p r c b, p ∈ w2 -> p_src p = SBr r c b -> r <= n).
  Proof.
    intros Hi HC.
    pose proof (c_len _ _ _ _ _ _ _ _ _ _ _ _ _ _ _ HC) as Hlen.
    pose proof (c_nodup _ _ _ _ _ _ _ _ _ _ _ _ _ _ _ HC) as Hnd.
    pose proof (c_pend _ _ _ _ _ _ _ _ _ _ _ _ _ _ _ HC) as Hpend.
    pose proof (c_ar _ _ _ _ _ _ _ _ _ _ _ _ _ _ _ HC) as Har.
    pose proof (c_empty _ _ _ _ _ _ _ _ _ _ _ _ _ _ _ HC i ltac:(lia)) as Hemp.
    destruct (pass1_ok i w 0 t root) as (idss & m & t1 & root1 & E1 & HP); [lia|done| |].
    { intros p Hp Hlv. destruct (Hpend p Hp) as (_ & _ & _ & _ & Hs). destruct (p_src p) as [|r c b]; [by eexists|].
      destruct Hs as (_ & Hb & q & Hq). simpl. eapply child_is_Some; [done|]. by rewrite (Har _ _ Hq). }
    pose proof (pa_shape _ _ _ _ _ _ _ _ _ _ HP) as Hsh1.
    destruct (shape_row t t1 i [] (eq_sym Hsh1) Hemp) as (r1 & Hr1 & Hr1l).
    assert (r1 = []) as -> by (destruct r1; done). clear Hr1l.
    exists idss, m, t1, root1, []. rewrite take_nil. cbn [app]. replace (m - length []) with m by (simpl; lia).
    set (t1' := <[i := replicate m (junk_node a)]> t1).
    pose proof (pa_live _ _ _ _ _ _ _ _ _ _ HP) as Hlive. rewrite Nat.sub_0_r in Hlive.
    pose proof (shape_length _ _ Hsh1) as Hlt1.
    (* facts on t1' *)
    assert (forall f, row f <> i -> tget t1' f = tget t1 f) as Hg1.
    { intros f Hf. unfold tget, t1'. by rewrite list_lookup_insert_ne. }
    assert (t1' !! i = Some (replicate m (junk_node a))) as Hrow1.
    { unfold t1'. apply list_lookup_insert. rewrite Hlt1, Hlen. lia. }
    assert (forall f, row f = i -> col f < m -> tget t1' f = Some (junk_node a)) as Hg1'.
    { intros f Hf Hc. unfold tget. rewrite Hf, Hrow1. simpl. by apply lookup_replicate_2. }
    (* the flattened list *)
    set (L := flatL i w idss).
    assert (Hidl : forall g ids, idss !! g = Some ids -> length ids = length (pgroup nt i g w)).
    { intros g ids Hg. by apply (pa_ids _ _ _ _ _ _ _ _ _ _ HP). }
    pose proof (pa_len _ _ _ _ _ _ _ _ _ _ HP) as Hli.
    pose proof (flat_ids i w idss Hidl Hli) as Hperm. fold L in Hperm.
    assert (forall g y p f, ((g, y), (p, f)) ∈ L <-> (g, y) ∈ sched i /\ exists ids j, idss !! g = Some ids /\
        pgroup nt i g w !! j = Some p /\ ids !! j = Some f) as HL.
    { intros g y p f. unfold L. rewrite elem_of_concat_map. split.
      - intros ([g' y'] & Hgy & Hin). apply elem_of_list_fmap in Hin as ([p' f'] & E & Hin). inversion E; subst.
        split; [done|]. simpl in Hin. apply elem_of_zip_lookup in Hin as (j & Hj1 & Hj2).
        destruct (idss !! g') as [ids|]; [|done]. simpl in Hj2. by exists ids, j.
      - intros (Hgy & ids & j & H1 & H2 & H3). exists (g, y). split; [done|]. apply elem_of_list_fmap.
        exists (p, f). split; [done|]. simpl. rewrite H1. simpl. apply elem_of_zip_lookup. by exists j. }
    assert (forall g y p f, ((g, y), (p, f)) ∈ L -> p ∈ w /\ p_lv p = i /\ p_gr p = g /\ R i g (p_st p)) as HLp.
    { intros g y p f Hin. apply HL in Hin as (_ & ids & j & _ & Hj & _). apply elem_of_list_lookup_2 in Hj.
      apply elem_pgroup in Hj as (Hp & El & Eg & _). destruct (Hpend p Hp) as (_ & _ & _ & HR & _). subst. done. }
    assert (map (fun x => col (snd (snd x))) (flat_live L) ≡ₚ seq 0 m) as Hcols.
    { assert (map (fun x : nat * nat * (pnode S * nid) => snd (snd x)) (flat_live L) ≡ₚ map (mk i) (seq 0 m)) as HH.
      { rewrite <- Hlive. unfold live. etrans; [|apply Permutation_lfilter, Hperm]. unfold flat_live. clear. induction L as [|x L IH]; simpl; [done|].
        destruct (neqb (snd (snd x)) n1); simpl; [done|by rewrite IH]. }
      apply (Permutation_map col) in HH. rewrite !map_map in HH. simpl in HH. by rewrite map_id in HH. }
    assert (forall g y p f, ((g, y), (p, f)) ∈ flat_live L -> ((g, y), (p, f)) ∈ L /\ row f = i /\ col f < m) as HLl.
    { intros g y p f Hin. pose proof Hin as Hin0. unfold flat_live in Hin. apply elem_of_lfilter in Hin as [Hin Hn1].
      split; [done|]. simpl in Hn1. split.
      - assert (f ∈ live (concat idss)) as Hf.
        { unfold live. apply elem_of_lfilter. split; [|done]. rewrite <- Hperm. apply elem_of_list_fmap. by exists (g, y, (p, f)). }
        rewrite Hlive in Hf. apply elem_of_list_fmap in Hf as (c & -> & _). done.
      - assert (col f ∈ seq 0 m) as Hc. { rewrite <- Hcols. apply elem_of_list_fmap. by exists (g, y, (p, f)). }
        apply elem_of_seq in Hc. lia. }
    assert (forall c, c < m -> exists g y p f, ((g, y), (p, f)) ∈ flat_live L /\ col f = c) as Hcover.
    { intros c Hc. assert (c ∈ seq 0 m) as Hin by (apply elem_of_seq; lia). rewrite <- Hcols in Hin.
      apply elem_of_list_fmap in Hin as ([[g y] [p f]] & -> & Hin). by exists g, y, p, f. }
    (* pass 2 *)
    destruct (pass2_flat a ngr ch R Hch i ltac:(lia) L t1' (List.filter (fun p => negb (p_lv p =? i)) w))
      as (t2 & news & low & dead & E2 & P1 & P2 & P3 & P4 & P5 & P6 & P7 & P8).
    { intros g y p f Hin. by apply (HLp g y p f). }
    { intros g y p f Hin. destruct (HLl g y p f Hin) as (_ & Hf & Hc). split; [done|]. intros b Hb.
      eapply child_is_Some; [by apply Hg1'|]. unfold junk_node. by rewrite replicate_length. }
    { rewrite Hcols. apply NoDup_seq. }
    set (w2 := news ++ List.filter (fun p => negb (p_lv p =? i)) w) in *.
    exists t2, w2, low, dead. split; [done|]. split; [done|].
    split.
    { unfold pass2. rewrite <- E2. unfold L. rewrite <- ofold_concat. apply ofold_ext.
      intros acc [g y] Hgy. assert (g < ngr i) as Hg.
      { assert (g ∈ map fst (sched i)) as Hin by (apply elem_of_list_fmap; by exists (g, y)).
        rewrite Hs1 in Hin. apply elem_of_seq in Hin. lia. }
      destruct (lookup_lt_is_Some_2 idss g ltac:(lia)) as [ids Hids]. cbn [fst snd].
      replace (default [] (idss !! g)) with ids by (by rewrite Hids).
      transitivity (ofold (pass2_node a ngr ch i g y) (zip (pgroup nt i g w) ids) acc).
      { by rewrite Hids. }
      rewrite ofold_map. done. }
    (* basic facts about w2 and t2 *)
    assert (forall p, p ∈ w2 -> p ∈ news \/ p ∈ w /\ p_lv p <> i) as Hw2.
    { intros p Hp. apply elem_of_app in Hp as [Hp|Hp]; [by left|right]. apply elem_of_lfilter in Hp as [Hp Hl].
      split; [done|]. destruct (Nat.eqb_spec (p_lv p) i); done. }
    assert (forall p, p ∈ w -> p_lv p <> i -> p ∈ w2) as Hw2'.
    { intros p Hp Hl. apply elem_of_app. right. apply elem_of_lfilter. split; [done|]. by destruct (Nat.eqb_spec (p_lv p) i). }
    assert (forall p, p ∈ news -> exists c b, c < m /\ b < a /\ p_src p = SBr i c b /\ 0 < p_lv p < i /\
       p_gr p < ngr (p_lv p) /\ p_th p < nt /\ R (p_lv p) (p_gr p) (p_st p)) as Hnews.
    { intros p Hp. destruct (P4 p Hp) as (g & y & q & f & b & Hin & Hb & cd & g' & s' & _ & Hcd & Hg' & HR' & ->).
      destruct (HLl g y q f Hin) as (HinL & Hf & Hc). apply HL in HinL as [Hgy _].
      exists (col f), b. simpl. split_and!; try done; try lia. by apply (Hs2 i (g, y)). }
    assert (shape t2 = shape t1') as Hsh2 by done.
    assert (length t2 = Datatypes.S n) as Hlt2.
    { rewrite (shape_length _ _ Hsh2). unfold t1'. rewrite insert_length. lia. }
    assert (forall f b, row f <> i -> child t2 f b = child t1 f b) as Hc2.
    { intros f b Hf. rewrite P2 by done. unfold child. by rewrite Hg1. }
    assert (forall f p, row f <> i -> tget t2 f = Some p -> exists p', tget t f = Some p' /\ length p' = length p) as Hget2.
    { intros f p Hf Hp. destruct (shape_get t2 t1' f p Hsh2 Hp) as (p' & Hp' & El). rewrite Hg1 in Hp' by done.
      destruct (shape_get t1 t f p' Hsh1 Hp') as (p'' & Hp'' & El'). exists p''. split; [done|lia]. }
    assert (forall f p, row f <> i -> tget t f = Some p -> exists p', tget t2 f = Some p' /\ length p' = length p) as Hget2'.
    { intros f p Hf Hp. destruct (shape_get t t1 f p (eq_sym Hsh1) Hp) as (p' & Hp' & El). rewrite <- Hg1 in Hp' by done.
      destruct (shape_get t1' t2 f p' (eq_sym Hsh2) Hp') as (p'' & Hp'' & El'). exists p''. split; [done|lia]. }
    assert (forall f p, row f = i -> tget t2 f = Some p -> col f < m /\ length p = a) as Hgeti.
    { intros f p Hf Hp. destruct (shape_get t2 t1' f p Hsh2 Hp) as (p' & Hp' & El). unfold tget in Hp'.
      rewrite Hf, Hrow1 in Hp'. simpl in Hp'. apply lookup_replicate in Hp' as [-> Hc]. split; [done|].
      unfold junk_node in El. rewrite replicate_length in El. lia. }
    assert (forall f, row f = i -> col f < m -> is_Some (tget t2 f)) as Hgeti'.
    { intros f Hf Hc. eapply (shape_is_Some t1' t2); [done|]. rewrite Hg1' by done. by eexists. }
    assert (forall j r, i < j -> t2 !! j = Some r -> exists r', t !! j = Some r' /\ length r' = length r) as Hrows.
    { intros j r Hj Hr. destruct (shape_row t2 t1' j r Hsh2 Hr) as (r' & Hr' & El). unfold t1' in Hr'.
      rewrite list_lookup_insert_ne in Hr' by lia. destruct (shape_row t1 t j r' Hsh1 Hr') as (r'' & Hr'' & El').
      exists r''. split; [done|]. apply (f_equal length) in El, El'. rewrite !fmap_length in El, El'. lia. }
    assert (forall r, r <> i -> r = 0 \/ t !! r = Some [] -> t2 !! r = t !! r) as Hrow_same.
    { intros r Hri [->|He].
      - transitivity (t1' !! 0).
        + apply row_ext; [done|]. intros c b. apply P2. simpl. lia.
        + unfold t1'. rewrite list_lookup_insert_ne by lia. apply row_ext; [done|]. intros c b.
          apply (pa_frame _ _ _ _ _ _ _ _ _ _ HP (SBr 0 c b)). intros g p _ Hp E.
          apply elem_pgroup in Hp as [Hp _]. destruct (Hpend p Hp) as (_ & _ & _ & _ & Hs). rewrite E in Hs. lia.
      - destruct (shape_row t t1 r [] (eq_sym Hsh1) He) as (x & Hx & Hxl).
        assert (t1' !! r = Some x) as Hx' by (unfold t1'; by rewrite list_lookup_insert_ne).
        destruct (shape_row t1' t2 r x (eq_sym Hsh2) Hx') as (x' & Hx2 & Hxl'). rewrite Hx2, He. f_equal.
        destruct x; [|done]. by destruct x'. }
    (* where the sources of level i point to *)
    assert (forall p, p ∈ w -> p_lv p = i -> exists p0 c y, c < m /\ ((p_gr p, y), (p0, mk i c)) ∈ flat_live L /\
        tr i (p_gr p) (p_st p0) = tr i (p_gr p) (p_st p) /\ read_src t1 root1 (p_src p) = Some (mk i c)) as Htgt.
    { intros p Hp El. destruct (Hpend p Hp) as (_ & Hg & Hth & HR & _). rewrite El in Hg, HR.
      assert (p ∈ pgroup nt i (p_gr p) w) as Hpg by (apply elem_pgroup; done).
      apply elem_of_list_lookup in Hpg as [j Hj].
      destruct (lookup_lt_is_Some_2 idss (p_gr p) ltac:(lia)) as [ids Hids].
      destruct (pa_tgt _ _ _ _ _ _ _ _ _ _ HP _ _ _ _ Hids Hj) as (j0 & p0 & c & Hj0 & Hc & Hor & Hrd).
      assert (exists y, (p_gr p, y) ∈ sched i) as [y Hy].
      { assert (p_gr p ∈ map fst (sched i)) as Hin by (rewrite Hs1; apply elem_of_seq; lia).
        apply elem_of_list_fmap in Hin as ([g y] & E & Hin). simpl in E. subst g. by exists y. }
      assert (((p_gr p, y), (p0, mk i c)) ∈ flat_live L) as Hfl.
      { unfold flat_live. apply elem_of_lfilter. split.
        - apply HL. split; [done|]. by exists ids, j0.
        - simpl. unfold neqb. simpl. destruct (Nat.eqb_spec i 0); [lia|done]. }
      exists p0, c, y. destruct (HLl _ _ _ _ Hfl) as (HinL & _ & Hcm). simpl in Hcm. split_and!; try done.
      destruct (HLp _ _ _ _ HinL) as (_ & _ & _ & HR0).
      destruct Hor as [->|He]; [|by apply Heq]. rewrite Hj in Hj0. by inversion Hj0. }
    (* new nodes *)
    assert (forall g y p f, ((g, y), (p, f)) ∈ flat_live L -> den t2 w2 f (tr i g (p_st p))) as Hden_new.
    { intros g y p f Hin. destruct (HLl _ _ _ _ Hin) as (HinL & Hf & Hc). destruct (HLp _ _ _ _ HinL) as (_ & _ & _ & HR).
      rewrite (Htr i g _ HR). replace (nzN i) with (nzN (row f)) by (by rewrite Hf). apply den_N.
      - lia.
      - by apply Hgeti'.
      - by rewrite map_length, seq_length.
      - intros b Hb. destruct (P3 g y p f b Hin Hb) as (cd & g' & s' & Ec & Hor).
        assert (nth b (map (ctree i g (p_st p)) (seq 0 a)) T0 = ctree i g (p_st p) b) as ->.
        { rewrite (nth_indep _ T0 (ctree i g (p_st p) 0)) by (by rewrite map_length, seq_length).
          rewrite map_nth, seq_nth by done. done. }
        assert (child t2 f b = child t2 (mk i (col f)) b) as Hcc by (apply child_code; unfold code; simpl; congruence).
        unfold ctree. rewrite Ec.
        assert (forall cd', cd = cd' -> (cd' <= 0)%Z -> SBr (row f) (col f) b ∉ map p_src w2) as Hnot.
        { intros cd' <- Hle Hin'. apply elem_of_list_fmap in Hin' as (q & Eq & Hq).
          destruct (Hw2 q Hq) as [Hq'|[Hq' _]].
          - destruct (P4 q Hq') as (g1 & y1 & q1 & f1 & b1 & Hin1 & Hb1 & cd1 & g1' & s1' & Ec1 & Hcd1 & _ & _ & ->).
            simpl in Eq. inversion Eq as [[E1' E2' E3']].
            assert (((g1, y1), (q1, f1)) = ((g, y), (p, f))) as E4.
            { eapply (NoDup_map_eq (fun x => col (snd (snd x))) (flat_live L)); [by rewrite Hcols; apply NoDup_seq|done|done|]. simpl. done. }
            inversion E4; subst g1 y1 q1 f1. subst b1. rewrite Ec in Ec1. inversion Ec1; subst. lia.
          - destruct (Hpend q Hq') as (_ & _ & _ & _ & Hs). rewrite <- Eq in Hs. lia. }
        destruct Hor as [[-> Hc0]|[[Hcd Hc1]|[Hcd Hpn]]].
        + right. split; [by eapply Hnot|]. exists n0. rewrite Hcc. split_and!; try done; [simpl; lia|].
          by apply den_0.
        + right. split; [eapply Hnot; [done|lia]|]. exists n1. rewrite Hcc. split_and!; try done; [simpl; lia|].
          destruct (Z.eqb_spec cd 0); [lia|]. destruct (Z.ltb_spec cd 0); [|lia]. by apply den_1.
        + left. eexists. split; [apply elem_of_app; left; exact Hpn|]. simpl. rewrite Hf. split; [done|].
          destruct (Z.eqb_spec cd 0); [lia|]. by destruct (Z.ltb_spec cd 0); [lia|]. }
    assert (forall f T, row f = 0 \/ i < row f -> den t w f T -> den t2 w2 f T) as Hden.
    { intros f. remember (row f) as rf eqn:Hrf. revert f Hrf.
      induction rf as [rf IH] using lt_wf_ind. intros f Hrf T Hrow HD.
      inversion HD as [? H1 H2|? H1 H2|? ts Hp Hg Hlts Hb]; subst; [by apply den_0|by apply den_1|].
      destruct Hrow as [|Hrow]; [lia|]. destruct Hg as [p Hg].
      destruct (Hget2' f p ltac:(lia) Hg) as (p2 & Hg2 & _). apply den_N; [lia|by eexists|done|].
      intros b Hba. destruct (Hb b Hba) as [(q & Hq & Eq & ET)|(Hnin & g & Hc & Hlt & HD')].
      - destruct (decide (p_lv q = i)) as [El|El].
        + right. destruct (Htgt q Hq El) as (p0 & c & y & Hcm & Hin & ETr & Hrd). split.
          * intros Hin'. apply elem_of_list_fmap in Hin' as (q' & Eq' & Hq'). destruct (Hw2 q' Hq') as [Hn'|[Ho' Hne]].
            -- destruct (Hnews q' Hn') as (? & ? & ? & ? & Es & _). rewrite Es in Eq'. inversion Eq'. lia.
            -- assert (q' = q) as -> by (eapply NoDup_map_eq; [exact Hnd|done|done|congruence]). done.
          * exists (mk i c). rewrite Eq in Hrd. simpl in Hrd. split_and!.
            -- rewrite Hc2 by lia. rewrite <- Hrd. apply child_code. done.
            -- simpl. lia.
            -- rewrite ET, El, <- ETr. by eapply Hden_new.
        + left. exists q. split_and!; try done. by apply Hw2'.
      - right. split.
        + intros Hin'. apply elem_of_list_fmap in Hin' as (q' & Eq' & Hq'). destruct (Hw2 q' Hq') as [Hn'|[Ho' Hne]].
          * destruct (Hnews q' Hn') as (? & ? & ? & ? & Es & _). rewrite Es in Eq'. inversion Eq'. lia.
          * apply Hnin. rewrite Eq'. by apply elem_of_list_fmap_1.
        + exists g. split_and!; try done.
          * rewrite Hc2 by lia. rewrite <- Hc.
            rewrite (child_code t1 f (mk (row f) (col f))), (child_code t f (mk (row f) (col f))) by done.
            apply (pa_frame _ _ _ _ _ _ _ _ _ _ HP (SBr (row f) (col f) b)). intros g' q _ Hq Eq.
            apply elem_pgroup in Hq as [Hq _]. apply Hnin. rewrite <- Eq. by apply elem_of_list_fmap_1.
          * eapply IH; [exact Hlt|done| |done].
            destruct (decide (row g = 0)); [by left|right].
            inversion HD' as [? H1 H2|? H1 H2|? ts' Hp' [pg Hg'] Hlts' Hb']; subst; try lia.
            destruct (decide (row g <= i)); [|lia].
            pose proof (c_empty _ _ _ _ _ _ _ _ _ _ _ _ _ _ _ HC (row g) ltac:(lia)) as He.
            unfold tget in Hg'. rewrite He in Hg'. done. }
    (* the root when i = n *)
    assert (i = n -> w = [Pn n g0 0 SRoot s0] /\ m = 1 /\ root1 = mk n 0 /\ den t2 w2 root1 (tr n g0 s0)) as Hrootn.
    { intros ->. pose proof (c_root _ _ _ _ _ _ _ _ _ _ _ _ _ _ _ HC) as Hrt. rewrite Nat.eqb_refl in Hrt.
      destruct (Htgt (Pn n g0 0 SRoot s0)) as (p0 & c & y & Hcm & Hin & ETr & Hrd); [rewrite Hrt; by left|done|].
      simpl in Hrd, ETr. inversion Hrd as [Hr]. split; [done|].
      assert (m <= 1) as Hm.
      { assert (length (live (concat idss)) = m) as Hll by (by rewrite Hlive, map_length, seq_length).
        assert (forall x y, x ∈ L -> y ∈ L -> fst (snd x) = fst (snd y)) as Hone.
        { intros [[g1 y1] [p1' f1]] [[g2 y2] [p2 f2]] Hx Hy. apply HLp in Hx as [Hx _], Hy as [Hy _]. simpl.
          rewrite Hrt in Hx, Hy. apply elem_of_list_singleton in Hx, Hy. congruence. }
        destruct (decide (2 <= m)) as [Hm2|]; [|lia]. exfalso.
        destruct (Hcover 0 ltac:(lia)) as (g1 & y1 & p1' & f1 & Hin1 & Hc1).
        destruct (Hcover 1 ltac:(lia)) as (g2 & y2 & p2 & f2 & Hin2 & Hc2').
        destruct (HLl _ _ _ _ Hin1) as (HL1 & Hf1 & _). destruct (HLl _ _ _ _ Hin2) as (HL2 & Hf2 & _).
        pose proof (Hone _ _ HL1 HL2) as Ep. simpl in Ep. subst p2.
        destruct (HLp _ _ _ _ HL1) as (_ & _ & Eg1 & _). destruct (HLp _ _ _ _ HL2) as (_ & _ & Eg2 & _). subst g1 g2.
        apply HL in HL1 as (_ & ids1 & j1 & Hi1 & Hj1 & Hd1). apply HL in HL2 as (_ & ids2 & j2 & Hi2 & Hj2 & Hd2).
        rewrite Hi1 in Hi2. inversion Hi2; subst ids2.
        assert (j1 = j2) as ->.
        { eapply NoDup_lookup; [|exact Hj1|exact Hj2]. apply NoDup_pgroup. by eapply NoDup_map_1. }
        rewrite Hd1 in Hd2. inversion Hd2; subst. congruence. }
      assert (c = 0) as -> by lia. split_and!; try done; [lia|]. rewrite <- ETr. eapply Hden_new. done. }
    split; [constructor|].
    - done.
    - rewrite (Hrow_same 0) by (first [lia|by left]). apply HC.
    - intros r Hr. pose proof (c_empty _ _ _ _ _ _ _ _ _ _ _ _ _ _ _ HC r ltac:(lia)) as He.
      rewrite (Hrow_same r); [done|lia|by right].
    - intros f p Hp. destruct (decide (row f = i)) as [Hf|Hf]; [by destruct (Hgeti f p Hf Hp)|].
      destruct (Hget2 f p Hf Hp) as (p' & Hp' & El). rewrite <- El. by eapply Har.
    - intros p Hp. destruct (Hw2 p Hp) as [Hn'|[Ho Hne]].
      + destruct (Hnews p Hn') as (c & b & Hc & Hb & Es & Hlv & Hg & Hth & HR). split_and!; try done; try lia.
        rewrite Es. split_and!; try done; [lia|]. by apply Hgeti'.
      + destruct (Hpend p Ho) as (Hlv & Hg & Hth & HR & Hs). split_and!; try done; try lia.
        destruct (p_src p) as [|r c b] eqn:Es.
        * pose proof (c_root _ _ _ _ _ _ _ _ _ _ _ _ _ _ _ HC) as Hrt. rewrite Hs, Nat.eqb_refl in Hrt.
          rewrite Hrt in Ho. apply elem_of_list_singleton in Ho. subst p. simpl in Hne. lia.
        * destruct Hs as (Hr & Hb & q & Hq). split_and!; try done; [lia|].
          destruct (Hget2' (mk r c) q) as (q' & ? & _); [simpl; lia|done|by eexists].
    - unfold w2. rewrite map_app. apply NoDup_app. split_and!; try done.
      + intros x Hx Hx'. apply elem_of_list_fmap in Hx as (p & -> & Hp), Hx' as (q & Eq & Hq).
        destruct (Hnews p Hp) as (c & b & _ & _ & Es & _). apply elem_of_lfilter in Hq as [Hq _].
        destruct (Hpend q Hq) as (_ & _ & _ & _ & Hs). rewrite <- Eq, Es in Hs. lia.
      + apply NoDup_map_inj; [apply NoDup_lfilter; by eapply NoDup_map_1|].
        intros x y Hx Hy E. apply elem_of_lfilter in Hx as [Hx _], Hy as [Hy _]. exact (NoDup_map_eq _ _ _ _ Hnd Hx Hy E).
    - intros f b g Hfp Hc Hnin. unfold child in Hc. destruct (tget t2 f) as [p|] eqn:Hg; [|done].
      assert (child t2 f b = Some g) as Hc' by (unfold child; by rewrite Hg).
      destruct (decide (row f = i)) as [Hf|Hf].
      + destruct (Hgeti f p Hf Hg) as [Hcm Hlp]. simpl in Hc.
        assert (b < a) as Hb by (rewrite <- Hlp; eapply lookup_lt_Some; done).
        destruct (Hcover (col f) Hcm) as (g' & y & q & f' & Hin & Hcf).
        destruct (HLl _ _ _ _ Hin) as (_ & Hf' & _).
        destruct (P3 _ _ _ _ b Hin Hb) as (cd & g1 & s1 & _ & Hor).
        rewrite (child_code t2 f (mk i (col f'))) in Hc' by (unfold code; simpl; congruence).
        destruct Hor as [[_ E0]|[[_ E0]|[_ Hpn]]].
        * rewrite E0 in Hc'. inversion Hc'; subst g. split; [simpl; lia|]. unfold valid. simpl. lia.
        * rewrite E0 in Hc'. inversion Hc'; subst g. split; [simpl; lia|]. unfold valid. simpl. lia.
        * exfalso. apply Hnin. apply elem_of_list_fmap. eexists. split; [|apply elem_of_app; left; exact Hpn].
          simpl. congruence.
      + assert (i < row f) as Hif.
        { destruct (decide (row f <= i)); [|lia]. exfalso. destruct (Hget2 f p Hf Hg) as (p' & Hp' & _).
          pose proof (c_empty _ _ _ _ _ _ _ _ _ _ _ _ _ _ _ HC (row f) ltac:(lia)) as He.
          unfold tget in Hp'. rewrite He in Hp'. done. }
        rewrite Hc2 in Hc' by done.
        destruct (decide (SBr (row f) (col f) b ∈ map p_src w)) as [Hin|Hnin'].
        * apply elem_of_list_fmap in Hin as (q & Eq & Hq). destruct (decide (p_lv q = i)) as [El|El].
          -- destruct (Htgt q Hq El) as (p0 & c & y & Hcm & _ & _ & Hrd). rewrite <- Eq in Hrd. simpl in Hrd.
             rewrite (child_code t1 f (mk (row f) (col f))) in Hc' by done. rewrite Hrd in Hc'. inversion Hc'; subst g.
             split; [done|]. unfold valid. simpl. destruct (Nat.eqb_spec i 0); [lia|]. by apply Hgeti'.
          -- exfalso. apply Hnin. rewrite Eq. apply elem_of_list_fmap_1. by apply Hw2'.
        * assert (child t f b = Some g) as Hct.
          { rewrite <- Hc'. rewrite (child_code t1 f (mk (row f) (col f))), (child_code t f (mk (row f) (col f))) by done.
            symmetry. apply (pa_frame _ _ _ _ _ _ _ _ _ _ HP (SBr (row f) (col f) b)). intros g' q _ Hq Eq.
            apply elem_pgroup in Hq as [Hq _]. apply Hnin'. rewrite <- Eq. by apply elem_of_list_fmap_1. }
          destruct (c_res _ _ _ _ _ _ _ _ _ _ _ _ _ _ _ HC f b g Hfp Hct Hnin') as [Hlt Hv]. split; [done|].
          unfold valid in *. destruct (Nat.eqb_spec (row g) 0); [done|]. destruct Hv as [pg Hpg].
          destruct (Hget2' g pg) as (? & ? & _); [|done|by eexists]. intros Eg. unfold tget in Hpg. by rewrite Eg, Hemp in Hpg.
    - destruct (Nat.eqb_spec (i - 1) n) as [?|_]; [lia|]. destruct (decide (i = n)) as [Ei|Ei].
      + destruct (Hrootn Ei) as (_ & Hm & Hr & HD). split; [|done]. right. split; [done|].
        destruct (shape_row t1' t2 i _ (eq_sym Hsh2) Hrow1) as (x & Hx & Hxl). rewrite Ei in Hx.
        assert (length x = 1) as Hl1 by (apply (f_equal length) in Hxl; rewrite !fmap_length, replicate_length in Hxl; lia).
        destruct x as [|q [|]]; try done. by exists q.
      + pose proof (c_root _ _ _ _ _ _ _ _ _ _ _ _ _ _ _ HC) as Hrt. destruct (Nat.eqb_spec i n) as [?|_]; [lia|].
        destruct Hrt as [Hrt HD].
        assert (root1 = root) as ->.
        { assert (read_src t1 root1 SRoot = read_src t root SRoot) as E.
          { apply (pa_frame _ _ _ _ _ _ _ _ _ _ HP). intros g p _ Hp Es. apply elem_pgroup in Hp as [Hp _].
            destruct (Hpend p Hp) as (_ & _ & _ & _ & Hs). rewrite Es in Hs. lia. }
          simpl in E. by inversion E. }
        split.
        * destruct Hrt as [[Hr He]|[Hr [q Hq]]].
          -- left. split; [done|]. rewrite (Hrow_same n); [done|lia|by right].
          -- right. split; [done|]. destruct (shape_row t t1 n _ (eq_sym Hsh1) Hq) as (x & Hx & Hxl).
             assert (t1' !! n = Some x) as Hx' by (unfold t1'; by rewrite list_lookup_insert_ne).
             destruct (shape_row t1' t2 n x (eq_sym Hsh2) Hx') as (x' & Hx2 & Hxl').
             apply (f_equal length) in Hxl, Hxl'. rewrite !fmap_length in Hxl, Hxl'. simpl in Hxl.
             destruct x' as [|q' [|]]; simpl in *; try lia. by exists q'.
        * apply Hden; [|done]. destruct Hrt as [[-> _]|[-> _]]; simpl; [by left|right; lia].
    - intros f Hf [p Hg]. destruct (decide (row f = i)) as [Hfi|Hfi].
      + destruct (Hgeti f p Hfi Hg) as [Hcm _].
        destruct (Hcover (col f) Hcm) as (g & y & q & f' & Hin & Hcf).
        destruct (HLl _ _ _ _ Hin) as (HinL & Hf' & _). pose proof HinL as HinL'.
        apply HL in HinL' as (_ & ids & j & Hids & Hj & Hidf). destruct (HLp _ _ _ _ HinL) as (Hq & El & Eg & _).
        destruct (Hpend q Hq) as (_ & _ & _ & _ & Hs).
        assert (f' = mk i (col f)) as ->.
        { assert (f' ∈ live (concat idss)) as Hlf.
          { unfold live. apply elem_of_lfilter. unfold flat_live in Hin. apply elem_of_lfilter in Hin as [_ Hn1]. split; [|done].
            rewrite <- Hperm. apply elem_of_list_fmap. by exists (g, y, (q, f')). }
          rewrite Hlive in Hlf. apply elem_of_list_fmap in Hlf as (c & -> & _). simpl in Hcf. by subst. }
        pose proof (pa_own _ _ _ _ _ _ _ _ _ _ HP g ids j q (col f) Hids Hj Hidf) as Hrd.
        destruct (p_src q) as [|r c b] eqn:Es; [lia|]. simpl in Hrd. destruct Hs as (Hr & Hb & _).
        exists (mk r c), b, (mk i (col f)). split_and!.
        * rewrite Hc2 by (simpl; lia). done.
        * unfold code. simpl. congruence.
        * simpl. lia.
        * simpl. intros Hin'. apply elem_of_list_fmap in Hin' as (q' & Eq' & Hq'). destruct (Hw2 q' Hq') as [Hn'|[Ho' Hne]].
          -- destruct (Hnews q' Hn') as (? & ? & ? & ? & Es' & _). rewrite Es' in Eq'. inversion Eq'. lia.
          -- assert (q' = q) as -> by (eapply NoDup_map_eq; [exact Hnd|done|done|congruence]). done.
      + destruct (Hget2 f p Hfi Hg) as (p' & Hp' & _).
        destruct (c_par _ _ _ _ _ _ _ _ _ _ _ _ _ _ _ HC f Hf) as (f' & b & g & Hc & Hcg & Hlt & Hnin); [by eexists|].
        assert (i < row f') as Hif.
        { destruct (decide (row f' <= i)); [|lia]. exfalso.
          pose proof (c_empty _ _ _ _ _ _ _ _ _ _ _ _ _ _ _ HC (row f') ltac:(lia)) as He.
          unfold child, tget in Hc. rewrite He in Hc. done. }
        exists f', b, g. split_and!; try done.
        * rewrite Hc2 by lia. rewrite <- Hc.
          rewrite (child_code t1 f' (mk (row f') (col f'))), (child_code t f' (mk (row f') (col f'))) by done.
          apply (pa_frame _ _ _ _ _ _ _ _ _ _ HP (SBr (row f') (col f') b)). intros g' q _ Hq Eq.
          apply elem_pgroup in Hq as [Hq _]. apply Hnin. rewrite <- Eq. by apply elem_of_list_fmap_1.
        * intros Hin'. apply elem_of_list_fmap in Hin' as (q' & Eq' & Hq'). destruct (Hw2 q' Hq') as [Hn'|[Ho' Hne]].
          -- destruct (Hnews q' Hn') as (? & ? & ? & ? & Es' & _). rewrite Es' in Eq'. inversion Eq'. lia.
          -- apply Hnin. rewrite Eq'. by apply elem_of_list_fmap_1.
    - intros r x Hr Hx. destruct (decide (r = i)) as [->|Hri].
      + destruct (shape_row t1' t2 i _ (eq_sym Hsh2) Hrow1) as (x' & Hx' & Hxl). rewrite Hx in Hx'. inversion Hx'; subst x'.
        assert (length x = m) as Hlx by (apply (f_equal length) in Hxl; rewrite !fmap_length, replicate_length in Hxl; lia).
        exists (concat (map (fun g => map (pair g) (reps (pgroup nt i g w) (default [] (idss !! g)))) (seq 0 (ngr i)))).
        split_and!.
        * rewrite Hlx. assert (length (live (concat idss)) = m) as <- by (by rewrite Hlive, map_length, seq_length).
          rewrite <- Hli. assert (forall k, (forall g ids, idss !! g = Some ids -> length ids = length (pgroup nt i (k + g) w)) ->
            length (live (concat idss)) <= length (concat (map (fun g => map (pair g) (reps (pgroup nt i g w) (default [] (idss !! (g - k))))) (seq k (length idss))))) as HH.
          { clear. induction idss as [|ids idss IH]; intros k Hk; simpl; [lia|].
            unfold live in *. rewrite List.filter_app, !app_length. apply Nat.add_le_mono.
            - rewrite map_length. unfold reps. rewrite Nat.sub_diag, map_length. simpl.
              specialize (Hk 0 ids eq_refl). rewrite Nat.add_0_r in Hk. clear IH. revert Hk. generalize (pgroup nt i k w) as l.
              induction ids as [|f ids IH]; intros [|p l] Hl; simpl in *; try lia.
              specialize (IH l ltac:(lia)). destruct (neqb f n1); simpl; lia.
            - etrans; [apply (IH (Datatypes.S k))|].
              + intros g ids' Hg. rewrite (Hk (Datatypes.S g) ids' Hg). do 2 f_equal. lia.
              + apply Nat.eq_le_incl. do 2 f_equal. apply map_ext_in. intros g Hg. apply in_seq in Hg.
                replace (g - k) with (Datatypes.S (g - Datatypes.S k)) by lia. done. }
          etrans; [exact (HH 0 Hidl)|]. apply Nat.eq_le_incl. do 2 f_equal. apply map_ext. intros g. by rewrite Nat.sub_0_r.
        * apply Forall_forall. intros [g s] Hin. apply elem_of_concat_map in Hin as (g' & Hg' & Hin).
          apply elem_of_list_fmap in Hin as (s' & E & Hin). inversion E; subst g s. apply elem_of_seq in Hg'. simpl. split; [lia|].
          unfold reps in Hin. apply elem_of_list_fmap in Hin as ([p f] & -> & Hin). apply elem_of_lfilter in Hin as [Hin _].
          apply elem_of_zip_lookup in Hin as (j & Hj & _). apply elem_of_list_lookup_2 in Hj. apply elem_pgroup in Hj as (Hp & El & Eg & _).
          destruct (Hpend p Hp) as (_ & _ & _ & HR & _). subst. done.
        * intros Hok. generalize (NoDup_seq 0 (ngr i)). 
          assert (Forall (fun g => g < ngr i) (seq 0 (ngr i))) as Hall by (apply Forall_forall; intros g Hg; apply elem_of_seq in Hg; lia).
          revert Hall. generalize (seq 0 (ngr i)) as ks. induction ks as [|k ks IH]; intros Hall Hndk; [constructor|]. simpl.
          apply Forall_cons in Hall as [Hk Hall]. apply NoDup_cons in Hndk as [Hnk Hndk].
          assert (forall l l' : list (nat * S), ForallOrdPairs (fun x y => fst x = fst y -> eqbf i (snd x) (snd y) = false) l ->
             ForallOrdPairs (fun x y => fst x = fst y -> eqbf i (snd x) (snd y) = false) l' ->
             (forall x y, x ∈ l -> y ∈ l' -> fst x <> fst y) ->
             ForallOrdPairs (fun x y => fst x = fst y -> eqbf i (snd x) (snd y) = false) (l ++ l')) as Happ.
          { clear. induction l as [|x l IH]; intros l' H1 H2 H3; simpl; [done|]. inversion H1; subst. constructor.
            - apply Forall_app. split; [done|]. apply Forall_forall. intros y Hy E. exfalso. eapply H3; [by left|done|done].
            - apply IH; [done|done|]. intros a' b' Ha Hb. apply H3; [by right|done]. }
          apply Happ.
          -- destruct (lookup_lt_is_Some_2 idss k ltac:(lia)) as [ids Hids]. rewrite Hids. simpl.
             destruct (pa_ids _ _ _ _ _ _ _ _ _ _ HP k ids Hids) as [_ Hre]. specialize (Hre Hok). revert Hre.
             clear. induction 1 as [|s l Hs Hl IH]; simpl; constructor; [|done]. clear - Hs.
             induction Hs; simpl; constructor; simpl; done.
          -- by apply IH.
          -- intros x0 y0 Hx0 Hy0. apply elem_of_list_fmap in Hx0 as (s1 & -> & _). simpl.
             apply elem_of_concat_map in Hy0 as (k' & Hk' & Hy0). apply elem_of_list_fmap in Hy0 as (s2 & -> & _). simpl.
             intros ->. done.
      + destruct (Hrows r x ltac:(lia) Hx) as (x' & Hx' & El). rewrite <- El. eapply (c_reps _ _ _ _ _ _ _ _ _ _ _ _ _ _ _ HC); [lia|done].
    - split_and!.
      + done.
      + intros p c b Hp Es. destruct (Hw2 p Hp) as [Hn'|[Ho _]]; [by apply P7|].
        destruct (Hpend p Ho) as (_ & _ & _ & _ & Hs). rewrite Es in Hs. lia.
      + intros r Hr. destruct (shape_row t1' t2 i _ (eq_sym Hsh2) Hrow1) as (x' & Hx' & Hxl). rewrite Hr in Hx'. inversion Hx'; subst x'.
        apply (f_equal length) in Hxl. rewrite !fmap_length, replicate_length in Hxl. rewrite Hxl.
        assert (length (flat_live L) = m) as <-; [|done].
        apply Permutation_length in Hcols. by rewrite map_length, seq_length in Hcols.
      + done.
      + intros p r c b Hp Es. destruct (Hw2 p Hp) as [Hn'|[Ho Hne]].
        * destruct (Hnews p Hn') as (? & ? & ? & ? & Es' & ? & _). rewrite Es in Es'. inversion Es'; subst. split; [lia|]. intros. lia.
        * destruct (Hpend p Ho) as (? & _). split; [lia|]. done.
      + intros Hin. assert (read_src t1 root1 SRoot = read_src t root SRoot) as E.
        { apply (pa_frame _ _ _ _ _ _ _ _ _ _ HP). intros g p _ Hp Es. apply elem_pgroup in Hp as [Hp _].
          destruct (Hpend p Hp) as (_ & _ & _ & _ & Hs). rewrite Es in Hs. lia. }
        simpl in E. by inversion E.
      + intros Ein. destruct (Hrootn Ein) as (Hw & _ & Hr & _). split; [rewrite Hr; intros E; inversion E; lia|].
        intros p r c b Hp Es. destruct (Hw2 p Hp) as [Hn'|[Ho Hne]].
        * destruct (Hnews p Hn') as (? & ? & ? & ? & Es' & _). rewrite Es in Es'. inversion Es'. lia.
        * rewrite Hw in Ho. apply elem_of_list_singleton in Ho. subst p. simpl in Hne. lia.
  Qed.
End level.
