(** Proofs about lists on a pool. *)
From Verif Require Import Base M_Mem P_Mem M_Pool S_Pool P_Pool M_PoolList S_PoolList.
From stdpp Require Import gmap.

Definition pfront (hs : list (ptr * nat)) (ks : list nat) : ptr := match ks with [] => None | k :: _ => match hs !! k with Some (q, _) => q | None => None end end.
(** the entries of a list are the allocations ks of the pool *)
Fixpoint prep (hs : list (ptr * nat)) (v : list (list cell)) (ks : list nat) (s : list (list cell)) : Prop :=
  match ks, s with
  | [], [] => True
  | k :: ks', vs :: s' => (exists b o, hs !! k = Some ((Some (b, o), S (length vs)) : ptr * nat)) /\ v !! k = Some (Ptr false (pfront hs ks') :: vs) /\ prep hs v ks' s'
  | _, _ => False
  end.
Definition hands_of (hs : list (ptr * nat)) (ks : list nat) : list (ptr * nat) :=
  (fun k => match hs !! k with Some (q, n) => (p_add q 1, n - 1) | None => (None, 0) end) <$> ks.

Lemma prep_lt hs v ks s k : prep hs v ks s -> k ∈ ks -> k < length hs.
Proof.
  revert s. induction ks as [|k' ks IH]; intros [|vs s]; cbn; try done; [intros _ H; by apply elem_of_nil in H|].
  intros ((b & o & E) & _ & H) Hin. apply elem_of_cons in Hin as [->|Hin]; [by eapply lookup_lt_Some|by eapply IH].
Qed.
Lemma prep_ext hs v hs' v' ks s : prep hs v ks s -> (forall k, k ∈ ks -> hs' !! k = hs !! k) -> (forall k, k ∈ ks -> v' !! k = v !! k) -> prep hs' v' ks s.
Proof.
  revert s. induction ks as [|k' ks IH]; intros [|vs s]; cbn [prep]; try done. intros ((b & o & E) & Ev & H) H1 H2.
  assert (forall k, k ∈ ks -> k ∈ k' :: ks) as Hs by (intros; apply elem_of_cons; by right).
  split; [exists b, o; rewrite H1; [done|apply elem_of_cons; by left]|]. split.
  - rewrite H2 by (apply elem_of_cons; by left). rewrite Ev. do 3 f_equal. destruct ks as [|k2 ks]; [done|]. cbn. rewrite H1; [done|]. apply Hs, elem_of_cons. by left.
  - apply IH; [done|..]; intros; [apply H1|apply H2]; by apply Hs.
Qed.
Lemma hands_ext hs hs' ks : (forall k, k ∈ ks -> hs' !! k = hs !! k) -> hands_of hs' ks = hands_of hs ks.
Proof. intros H. unfold hands_of. apply list_fmap_ext. intros i k E. rewrite H; [done|]. by eapply elem_of_list_lookup_2. Qed.
Lemma pfront_ext hs hs' ks : (forall k, k ∈ ks -> hs' !! k = hs !! k) -> pfront hs' ks = pfront hs ks.
Proof. intros H. destruct ks as [|k ks]; [done|]. cbn. rewrite H; [done|]. apply elem_of_cons. by left. Qed.

Section ops.
Context (BU ME : nat) (Hsz : ME + 1 <= BU) (alloc : mem -> nat) (Halloc : forall h : mem, h !! alloc h = None).
Definition pw (w : qworld) (hs : list (ptr * nat)) : pworld := PWorld (q_mem w) {[0 := (q_pool w, hs)]}.
Definition qinv (w : qworld) (m : stacks) : Prop := exists hs v (ix : nat -> list nat),
  winv BU (pw w hs) {[0 := v]} /\
  (forall x, match q_lists w !! x, m !! x with
             | Some (l, hd), Some s => l = PList (pfront hs (ix x)) (length s) /\ hd = hands_of hs (ix x) /\ prep hs (vallocs v) (ix x) s
             | None, None => ix x = []
             | _, _ => False end) /\
  (forall x, NoDup (ix x)) /\ (forall x y k, x <> y -> k ∈ ix x -> k ∉ ix y).

Lemma winv_hand w hs v : winv BU (pw w hs) {[0 := v]} -> length hs = length (vallocs v) /\
  forall k q n, hs !! k = Some (q, n) -> exists vs, vallocs v !! k = Some vs /\ n = length vs /\ m_read (q_mem w) q n = Some vs /\ (n <> 0 -> exists b o, q = Some (b, o)).
Proof.
  intros (blk & W1 & _). specialize (W1 0). cbn [pools pw] in W1. rewrite !lookup_singleton in W1. pose proof (i_hands _ _ _ _ _ _ W1) as HF. split; [by eapply Forall2_length|].
  intros k q n E. destruct (Forall2_lookup_l _ _ _ _ _ HF E) as (vs & Ev & A1 & A2 & A3). cbn [fst snd] in *. exists vs. split_and!; try done.
  intros Hn. destruct A3 as [?|(b & o & c & -> & _)]; [done|]. by exists b, o.
Qed.
Lemma set_same h q x : m_get h q = Some x -> m_set h q x = Some h.
Proof.
  unfold m_get, m_set. destruct q as [[b o]|]; [|done]. cbn [mbind option_bind]. destruct (h !! b) as [c|] eqn:E; [|done]. cbn [mbind option_bind]. intros Ec.
  rewrite (proj2 (Nat.ltb_lt _ _)) by (by eapply lookup_lt_Some). f_equal. rewrite (list_insert_id c o x Ec). by apply insert_id.
Qed.
Lemma units_work k : units (8 * workCells k) = workCells k.
Proof. unfold units. replace (8 * workCells k + 7) with (7 + workCells k * 8) by lia. rewrite Nat.div_add by done. done. Qed.

Lemma qexec_ok w m c m' : qinv w m -> qv_exec m c = Some m' -> exists w', qexec BU ME alloc w c = Some w' /\ qinv w' m'.
Proof.
  intros (hs & v & ix & HW & HL & HN & HD) E. destruct (winv_hand _ _ _ HW) as [Hlen Hhand]. unfold qexec. destruct c as [x|x k vs|x i vs|x|x|]; cbn [qv_exec] in E.
  - pose proof (HL x) as Hx. destruct (m !! x) eqn:Em; [done|]. injection E as <-. destruct (q_lists w !! x) as [[]|]; [done|].
    eexists. split; [done|]. exists hs, v, ix. split; [exact HW|]. split; [|done]. cbn [q_lists]. intros y. cbv beta. destruct (decide (y = x)) as [->|Hy].
    + rewrite !lookup_insert, Hx. done.
    + rewrite !lookup_insert_ne by done. apply HL.
  - pose proof (HL x) as Hx. destruct (m !! x) as [s|] eqn:Em; [|done]. cbn [mbind option_bind] in E. destruct (Nat.eqb_spec (length vs) ((k + 7) / 8)) as [Hvs|]; [|done]. injection E as <-.
    destruct (q_lists w !! x) as [[l hd]|] eqn:Ex; [|done]. destruct Hx as (-> & -> & Hp). cbn [mbind option_bind]. unfold pl_alloc_front. cbn [p_front p_size].
    set (full := Ptr false (pfront hs (ix x)) :: vs).
    destruct (exec_ok BU ME Hsz alloc Halloc (pw w hs) {[0 := v]} (PAlloc 0 (8 * workCells k) full)
      {[0 := VPool (vallocs v ++ [full]) (vsmall v && ((workCells k <=? ME) || (BU <=? workCells k + 1)))]} HW) as (w1 & E1 & HW1).
    { cbn [pv_exec]. rewrite lookup_singleton. cbn [mbind option_bind]. change ((8 * workCells k + 7) / 8) with (units (8 * workCells k)). rewrite units_work. rewrite (proj2 (Nat.leb_le _ _)) by (unfold full, workCells; cbn [length]; lia). by rewrite insert_singleton. }
    cbn [pexec pw pmem pools] in E1. rewrite lookup_singleton in E1. cbn [mbind option_bind] in E1.
    destruct (pool_alloc BU ME alloc (q_mem w) (q_pool w) (8 * workCells k)) as [[[h1 p1] q]|]; [|done]. cbn [mbind option_bind] in E1 |- *.
    unfold full in E1. cbn [m_write] in E1. destruct (m_set h1 q _) as [h2|]; [|done]. cbn [mbind option_bind] in E1 |- *.
    destruct (m_write h2 (p_add q 1) vs) as [h3|]; [|done]. cbn [mbind option_bind] in E1 |- *. injection E1 as <-. rewrite insert_singleton in HW1.
    set (hs' := hs ++ [(q, length full)]) in *. eexists. split; [done|].
    set (v' := VPool _ _) in HW1. set (n := length hs).
    assert (hs' !! n = Some (q, length full)) as En by (unfold hs', n; by rewrite lookup_app_r, Nat.sub_diag by lia).
    assert (forall y s', prep hs (vallocs v) (ix y) s' -> forall j, j ∈ ix y -> hs' !! j = hs !! j) as Hold.
    { intros y s' Hy j Hj. unfold hs'. apply lookup_app_l. by eapply prep_lt. }
    assert (forall y s', prep hs (vallocs v) (ix y) s' -> forall j, j ∈ ix y -> vallocs v' !! j = vallocs v !! j) as Hold'.
    { intros y s' Hy j Hj. cbn [vallocs v']. apply lookup_app_l. rewrite <- Hlen. by eapply prep_lt. }
    destruct (winv_hand (QWorld h3 p1 (q_lists w)) hs' v' HW1) as [_ Hhand1]. destruct (Hhand1 _ _ _ En) as (vs1 & _ & _ & _ & Hq). destruct (Hq ltac:(done)) as (b & o & ->).
    exists hs', v', (fun y => if decide (y = x) then n :: ix x else ix y). split; [exact HW1|]. split; [|split].
    + cbn [q_lists]. intros y. cbv beta. destruct (decide (y = x)) as [->|Hy].
      * rewrite !lookup_insert. split_and!.
        -- assert (pfront hs' (n :: ix x) = Some (b, o)) as -> by (cbn [pfront]; by rewrite En). f_equal. cbn [length]. lia.
        -- unfold hands_of. rewrite fmap_cons. f_equal; [rewrite En; cbn; f_equal; lia|]. symmetry. apply hands_ext. by eapply Hold.
        -- cbn [prep]. split; [exists b, o; done|]. split.
           ++ cbn [vallocs v']. unfold n. rewrite Hlen, lookup_app_r, Nat.sub_diag by lia. cbn. unfold full. do 3 f_equal. symmetry. apply pfront_ext. by eapply Hold.
           ++ eapply prep_ext; [done|by eapply Hold|by eapply Hold'].
      * rewrite !lookup_insert_ne by done. specialize (HL y). destruct (q_lists w !! y) as [[l hd]|], (m !! y) as [s'|]; try done.
        destruct HL as (-> & -> & Hp'). split_and!.
        -- f_equal. symmetry. apply pfront_ext. by eapply Hold.
        -- symmetry. apply hands_ext. by eapply Hold.
        -- eapply prep_ext; [done|by eapply Hold|by eapply Hold'].
    + intros y. cbv beta. destruct (decide (y = x)) as [->|Hy]; [|done]. apply NoDup_cons. split; [|done]. intros Hin. pose proof (prep_lt _ _ _ _ _ Hp Hin). unfold n in *. lia.
    + assert (forall y j, y <> x -> j ∈ ix y -> j <> n) as Hfresh.
      { intros y j Hy Hj ->. specialize (HL y). destruct (q_lists w !! y) as [[l hd]|], (m !! y) as [s'|]; try done; [|rewrite HL in Hj; by apply elem_of_nil in Hj].
        destruct HL as (_ & _ & Hp'). pose proof (prep_lt _ _ _ _ _ Hp' Hj). unfold n in *. lia. }
      intros y z j Hyz. cbv beta. intros Hj. destruct (decide (y = x)) as [->|Hy], (decide (z = x)) as [->|Hz]; try done.
      * apply elem_of_cons in Hj as [->|Hj]; [|by apply (HD x z)]. intros Hj'. by apply (Hfresh z n).
      * apply not_elem_of_cons. split; [by apply (Hfresh y)|by apply (HD y x)].
      * by apply (HD y z).
  - pose proof (HL x) as Hx. destruct (m !! x) as [s|] eqn:Em; [|done]. cbn [mbind option_bind] in E. destruct (s !! i) as [old|] eqn:Ei; [|done]. cbn [mbind option_bind] in E.
    destruct (Nat.eqb_spec (length vs) (length old)) as [Hvs|]; [|done]. injection E as <-.
    destruct (q_lists w !! x) as [[l hd]|] eqn:Ex; [|done]. destruct Hx as (-> & -> & Hp). cbn [mbind option_bind].
    assert (exists k b o tl, ix x !! i = Some k /\ hs !! k = Some ((Some (b, o), S (length old)) : ptr * nat) /\ vallocs v !! k = Some (Ptr false tl :: old) /\
      forall v', (forall j, j ∈ ix x -> j <> k -> v' !! j = vallocs v !! j) -> v' !! k = Some (Ptr false tl :: vs) -> NoDup (ix x) -> prep hs v' (ix x) (<[i := vs]> s)) as (k & b & o & tl & Ek & Eh & Ev & Hnew).
    { clear - Hp Ei Hvs. revert s i Hp Ei. induction (ix x) as [|k ks IH]; intros [|v0 s] i; cbn [prep]; try done. intros ((b & o & Eh) & Ev & Hp) Ei. destruct i as [|i]; cbn [lookup list_lookup] in Ei.
      - injection Ei as ->. exists k, b, o, (pfront hs ks). split_and!; try done. intros v' H1 H2 Hnd. cbn [insert list_insert]. cbn [prep]. split; [exists b, o; by rewrite Hvs|]. split; [done|].
        apply NoDup_cons in Hnd as [Hk Hnd]. eapply prep_ext; [done|done|]. intros j Hj. apply H1; [apply elem_of_cons; by right|]. by intros ->.
      - destruct (IH _ _ Hp Ei) as (k' & b' & o' & tl & A1 & A2 & A3 & A4). exists k', b', o', tl. split_and!; try done. intros v' H1 H2 Hnd. cbn [insert list_insert prep].
        apply NoDup_cons in Hnd as [Hk Hnd]. split; [by exists b, o|]. assert (k <> k') as Hkk by (intros ->; apply Hk; by eapply elem_of_list_lookup_2). split.
        + rewrite H1; [done|apply elem_of_cons; by left|done].
        + apply A4; [|done|done]. intros j Hj Hjk. apply H1; [apply elem_of_cons; by right|done]. }
    assert (hands_of hs (ix x) !! i = Some (p_add (Some (b, o)) 1, length old)) as ->.
    { unfold hands_of. rewrite list_lookup_fmap, Ek. cbn. rewrite Eh. cbn. do 2 f_equal. lia. }
    cbn [mbind option_bind].
    destruct (Hhand _ _ _ Eh) as (vs1 & Ev1 & _ & Hread & _). rewrite Ev in Ev1. injection Ev1 as <-.
    destruct (exec_ok BU ME Hsz alloc Halloc (pw w hs) {[0 := v]} (PWrite 0 k (Ptr false tl :: vs)) {[0 := VPool (<[k := Ptr false tl :: vs]> (vallocs v)) (vsmall v)]} HW) as (w1 & E1 & HW1).
    { cbn [pv_exec]. rewrite lookup_singleton. cbn [mbind option_bind]. rewrite Ev. cbn [mbind option_bind]. rewrite (proj2 (Nat.eqb_eq _ _)) by (cbn; lia). by rewrite insert_singleton. }
    cbn [pexec pw pmem pools] in E1. rewrite lookup_singleton in E1. cbn [mbind option_bind] in E1. rewrite Eh in E1. cbn [mbind option_bind m_write] in E1.
    cbn [m_read] in Hread. destruct (m_get (q_mem w) (Some (b, o))) as [c0|] eqn:Eg; [|done]. cbn [mbind option_bind] in Hread.
    destruct (m_read (q_mem w) (p_add (Some (b, o)) 1) (length old)) as [r0|]; [|done]. cbn [mbind option_bind] in Hread. injection Hread as -> ->.
    rewrite (set_same _ _ _ Eg) in E1. cbn [mbind option_bind] in E1.
    destruct (m_write (q_mem w) (p_add (Some (b, o)) 1) vs) as [h1|]; [|done]. cbn [mbind option_bind] in E1 |- *. injection E1 as <-.
    eexists. split; [done|]. eexists hs, _, ix. split; [exact HW1|]. split; [|done]. cbn [q_lists vallocs]. intros y. destruct (decide (y = x)) as [->|Hy].
    + rewrite lookup_insert, Ex. split_and!; [f_equal; by rewrite insert_length|done|]. apply Hnew; [|rewrite list_lookup_insert; [done|by eapply lookup_lt_Some]|done].
      intros j _ Hj. by rewrite list_lookup_insert_ne.
    + rewrite lookup_insert_ne by done. specialize (HL y). destruct (q_lists w !! y) as [[l hd]|], (m !! y) as [s'|]; try done.
      destruct HL as (-> & -> & Hp'). split_and!; try done. eapply prep_ext; [done|done|]. intros j Hj. rewrite list_lookup_insert_ne; [done|]. intros <-. apply (HD y x k Hy Hj). by eapply elem_of_list_lookup_2.
  - pose proof (HL x) as Hx. destruct (m !! x) as [s|] eqn:Em; [|done]. cbn [mbind option_bind] in E. destruct s as [|v0 s]; [done|]. injection E as <-.
    destruct (q_lists w !! x) as [[l hd]|] eqn:Ex; [|done]. destruct Hx as (-> & -> & Hp). cbn [mbind option_bind]. destruct (ix x) as [|k ks] eqn:Eix; [done|]. destruct Hp as ((b & o & Eh) & Ev & Hp).
    destruct (Hhand _ _ _ Eh) as (vs1 & Ev1 & _ & Hread & _). rewrite Ev in Ev1. injection Ev1 as <-.
    cbn [m_read] in Hread. unfold pl_pop, pl_next. cbn [p_front p_size pfront]. rewrite Eh. cbn [mbind option_bind fst]. destruct (m_get (q_mem w) (Some (b, o))) as [c0|] eqn:Eg; [|done]. cbn [mbind option_bind] in Hread |- *.
    destruct (m_read (q_mem w) (p_add (Some (b, o)) 1) (length v0)) as [r0|]; [|done]. cbn [mbind option_bind] in Hread. injection Hread as -> ->. cbn [c_ptr mbind option_bind].
    eexists. split; [done|]. exists hs, v, (fun y => if decide (y = x) then ks else ix y). split; [exact HW|]. split; [|split].
    + cbn [q_lists]. intros y. cbv beta. destruct (decide (y = x)) as [->|Hy].
      * rewrite !lookup_insert. cbn [length]. by replace (S (length s) - 1) with (length s) by lia.
      * rewrite !lookup_insert_ne by done. apply HL.
    + intros y. cbv beta. destruct (decide (y = x)) as [->|Hy]; [|done]. specialize (HN x). rewrite Eix in HN. by apply NoDup_cons in HN as [_ ?].
    + assert (forall j, j ∈ ks -> j ∈ ix x) as Hks by (intros; rewrite Eix; apply elem_of_cons; by right).
      intros y z j Hyz. cbv beta. intros Hj. destruct (decide (y = x)) as [->|Hy], (decide (z = x)) as [->|Hz]; try done.
      * by apply (HD x z); [|apply Hks].
      * intros Hj'. by apply (HD y x j); [| |apply Hks].
      * by apply (HD y z).
  - pose proof (HL x) as Hx. destruct (m !! x) as [s|] eqn:Em; [|done]. cbn [mbind option_bind] in E. injection E as <-. destruct (q_lists w !! x) as [[l hd]|] eqn:Ex; [|done]. cbn [mbind option_bind].
    eexists. split; [done|]. exists hs, v, (fun y => if decide (y = x) then [] else ix y). split; [exact HW|]. split; [|split].
    + cbn [q_lists]. intros y. cbv beta. destruct (decide (y = x)) as [->|Hy]; [by rewrite !lookup_insert|]. rewrite !lookup_insert_ne by done. apply HL.
    + intros y. cbv beta. destruct (decide (y = x)) as [->|Hy]; [apply NoDup_nil; done|done].
    + intros y z j Hyz. cbv beta. intros Hj. destruct (decide (y = x)) as [->|Hy]; [by apply elem_of_nil in Hj|]. destruct (decide (z = x)) as [->|Hz]; [by apply not_elem_of_nil|]. by apply (HD y z).
  - injection E as <-.
    destruct (exec_ok BU ME Hsz alloc Halloc (pw w hs) {[0 := v]} (PClear 0) {[0 := VPool [] true]} HW) as (w1 & E1 & HW1).
    { cbn [pv_exec]. rewrite lookup_singleton. cbn [mbind option_bind]. by rewrite insert_singleton. }
    cbn [pexec pw pmem pools] in E1. rewrite lookup_singleton in E1. cbn [mbind option_bind] in E1.
    destruct (pool_clear BU (q_mem w) (q_pool w)) as [[h1 p1]|]; [|done]. cbn [mbind option_bind] in E1 |- *. injection E1 as <-. rewrite insert_singleton in HW1.
    eexists. split; [done|]. eexists [], _, (fun _ => []). split; [exact HW1|]. split; [|split].
    + cbn [q_lists]. intros x. rewrite !lookup_fmap. specialize (HL x). by destruct (q_lists w !! x) as [[]|], (m !! x).
    + intros _. apply NoDup_nil; done.
    + intros y z j _ Hj. by apply elem_of_nil in Hj.
Qed.
Lemma qexec_all_ok l : forall w m m', qinv w m -> qv_run m l = Some m' -> exists w', qexec_all BU ME alloc w l = Some w' /\ qinv w' m'.
Proof.
  induction l as [|c l IH]; intros w m m' HI E; cbn [qv_run qexec_all] in *; [injection E as <-; by exists w|].
  destruct (qv_exec m c) as [m1|] eqn:E1; [|done]. cbn [mbind option_bind] in E. destruct (qexec_ok _ _ _ _ HI E1) as (w1 & -> & HI1). cbn [mbind option_bind]. by eapply IH.
Qed.
Lemma qinv0 : qinv (qworld0 BU) ∅.
Proof.
  exists [], (VPool [] true), (fun _ => []). split; [|split; [|split]].
  - destruct (exec_ok BU ME Hsz alloc Halloc pworld0 ∅ (PNew 0) {[0 := VPool [] true]} (winv0 BU)) as (w1 & E1 & HW1); [done|].
    cbn in E1. injection E1 as <-. exact HW1.
  - intros x. cbn. by rewrite !lookup_empty.
  - intros _. by apply NoDup_nil.
  - intros y z j _ Hj. by apply elem_of_nil in Hj.
Qed.
Lemma qinv_obs w m : qinv w m -> forall x, qview w x = m !! x /\
  forall l hd s, q_lists w !! x = Some (l, hd) -> m !! x = Some s -> p_size l = length s /\ (p_front l = None <-> s = []) /\ pl_iterate (p_size l) (q_mem w) (p_front l) = Some (fst <$> hd).
Proof.
  intros (hs & v & ix & HW & HL & HN & HD) x. destruct (winv_hand _ _ _ HW) as [Hlen Hhand]. specialize (HL x). unfold qview. destruct (q_lists w !! x) as [[l hd]|], (m !! x) as [s|]; try done.
  destruct HL as (-> & -> & Hp). cbn [mbind option_bind]. split.
  - revert s Hp. induction (ix x) as [|k ks IH]; intros [|v0 s]; cbn [prep]; try done. intros ((b & o & Eh) & Ev & Hp). unfold hands_of. rewrite fmap_cons, Eh. cbn [mapM].
    destruct (Hhand _ _ _ Eh) as (vs1 & Ev1 & _ & Hread & _). rewrite Ev in Ev1. injection Ev1 as <-. cbn [m_read] in Hread. replace (S (length v0) - 1) with (length v0) by lia.
    destruct (m_get (q_mem w) (Some (b, o))) as [c0|] eqn:Eg; [|done]. cbn [mbind option_bind] in Hread.
    destruct (m_read (q_mem w) (p_add (Some (b, o)) 1) (length v0)) as [r0|]; [|done]. cbn [mbind option_bind] in Hread |- *. injection Hread as -> ->.
    change (mapM _ (_ <$> ks)) with (mapM (fun '(q, n) => m_read (q_mem w) q n) (hands_of hs ks)). by rewrite (IH _ Hp).
  - intros l hd s' E E'. injection E as <- <-. injection E' as <-. cbn [p_size p_front]. split; [done|]. split.
    + destruct (ix x), s; try done. destruct Hp as ((b & o & Eh) & _). cbn. rewrite Eh. done.
    + revert s Hp. induction (ix x) as [|k ks IH]; intros [|v0 s]; cbn [prep]; try done. intros ((b & o & Eh) & Ev & Hp). cbn [length pfront]. rewrite Eh. cbn [mbind option_bind fst pl_iterate].
      destruct (Hhand _ _ _ Eh) as (vs1 & Ev1 & _ & Hread & _). rewrite Ev in Ev1. injection Ev1 as <-. cbn [m_read] in Hread. unfold pl_next.
      destruct (m_get (q_mem w) (Some (b, o))) as [c0|] eqn:Eg; [|done]. cbn [mbind option_bind] in Hread |- *.
      destruct (m_read (q_mem w) (p_add (Some (b, o)) 1) (length v0)) as [r0|]; [|done]. cbn [mbind option_bind] in Hread |- *. injection Hread as -> ->. cbn [c_ptr mbind option_bind].
      rewrite (IH _ Hp). cbn [mbind option_bind]. unfold hands_of. rewrite fmap_cons, Eh. done.
Qed.
End ops.
