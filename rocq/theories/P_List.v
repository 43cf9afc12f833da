(** Proofs about MyList. *)
From Verif Require Import Base M_Mem P_Mem M_List S_List.
From stdpp Require Import gmap.

(** an entry: block, offset of its link cell, data *)
Notation ent := (nat * nat * list cell)%type.
Definition e_blk (e : ent) : nat := e.1.1.
Definition blocks (es : list ent) : list nat := e_blk <$> es.
Definition frontp (es : list ent) : ptr := match es with [] => None | (b, o, _) :: _ => Some (b, o) end.
Fixpoint lrep (h : mem) (es : list ent) (hd : bool) : Prop :=
  match es with
  | [] => True
  | (b, o, vs) :: r =>
      1 <= o /\ (hd = true -> m_get h (Some (b, o - 1)) = Some (Ptr false (Some (b, 0)))) /\
      m_read h (Some (b, o + 1)) (length vs) = Some vs /\
      exists flag, m_get h (Some (b, o)) = Some (Ptr flag (frontp r)) /\
        if flag : bool then (exists c, h !! b = Some c /\ length c = o + 1 + length vs) /\ b ∉ blocks r /\ lrep h r true
        else (exists vs' r', r = (b, o + 1 + length vs, vs') :: r') /\ lrep h r false
  end.

Lemma lrep_frame h h' es hd : lrep h es hd -> (forall b, b ∈ blocks es -> h' !! b = h !! b) -> lrep h' es hd.
Proof.
  revert hd. induction es as [|[[b o] vs] r IH]; intros hd; [done|]. cbn [lrep]. intros (H1 & H2 & H3 & flag & H4 & H5) Hf.
  assert (h' !! b = h !! b) as Hb. { apply Hf. apply elem_of_cons. by left. }
  assert (forall b', b' ∈ blocks r -> h' !! b' = h !! b') as Hr. { intros b' Hb'. apply Hf. apply elem_of_cons. by right. }
  split; [done|]. split; [intros Hh; rewrite (get_frame h) by done; by apply H2|]. split; [by rewrite (read_frame h)|].
  exists flag. split; [by rewrite (get_frame h)|]. destruct flag.
  - destruct H5 as ((c & Hc & Hl) & Hn & Hr'). split; [exists c; by rewrite Hb|]. split; [done|]. by apply IH.
  - destruct H5 as (He & Hr'). split; [done|]. by apply IH.
Qed.
(** cells below the front entry do not matter, up to the header *)
Lemma lrep_low h h' b o vs r hd hd' : lrep h ((b, o, vs) :: r) hd -> (forall b', b' <> b -> b' ∈ blocks r -> h' !! b' = h !! b') ->
  length <$> (h' !! b) = length <$> (h !! b) -> (forall o1, o <= o1 -> m_get h' (Some (b, o1)) = m_get h (Some (b, o1))) ->
  (hd' = true -> m_get h' (Some (b, o - 1)) = Some (Ptr false (Some (b, 0)))) -> lrep h' ((b, o, vs) :: r) hd'.
Proof.
  revert o vs hd hd'. induction r as [|[[b1 o1] vs1] r IH]; intros o vs hd hd' (H1 & H2 & H3 & flag & H4 & H5) Hf Hs Hg Hh.
  - cbn [lrep]. split; [done|]. split; [done|]. split; [rewrite (read_ext h); [done|]; intros; apply Hg; lia|].
    exists flag. split; [rewrite Hg by lia; done|]. destruct flag; [|by destruct H5 as [(? & ? & ?) _]].
    destruct H5 as ((c & Hc & Hl) & Hn & _). rewrite Hc in Hs. destruct (h' !! b) as [c'|] eqn:E; [|done]. injection Hs as Hs.
    split; [|done]. exists c'. split; [done|lia].
  - assert (m_read h' (Some (b, o + 1)) (length vs) = Some vs) as Hread. { rewrite (read_ext h); [done|]. intros. apply Hg. lia. }
    remember ((b1, o1, vs1) :: r) as r1 eqn:Er1. cbn [lrep]. split; [done|]. split; [done|]. split; [done|].
    exists flag. split; [rewrite Hg by lia; done|]. destruct flag.
    + destruct H5 as ((c & Hc & Hl) & Hn & Hr). rewrite Hc in Hs. destruct (h' !! b) as [c'|] eqn:E; [|done]. injection Hs as Hs.
      split; [exists c'; split; [done|lia]|]. split; [done|]. eapply lrep_frame; [exact Hr|]. intros b' Hb'. apply Hf; [|done]. intros ->. done.
    + destruct H5 as ((vs' & r' & He) & Hr). split; [by exists vs', r'|]. rewrite Er1 in He. injection He as -> -> -> ->. subst r1.
      apply (IH _ _ _ false Hr); [|done| |done].
      * intros b' Hb' Hin. apply Hf; [done|]. apply elem_of_cons. by right.
      * intros. apply Hg. lia.
Qed.
Lemma lrep_any h es hd : lrep h es true -> lrep h es hd.
Proof. destruct es as [|[[b o] vs] r]; [done|]. cbn [lrep]. intros (H1 & H2 & H3). split; [done|]. split; [by intros; apply H2|done]. Qed.
Lemma lrep_above h b o vs r hd e : lrep h ((b, o, vs) :: r) hd -> e ∈ r -> e_blk e = b -> o + 1 + length vs <= e.1.2.
Proof.
  revert o vs hd. induction r as [|[[b1 o1] vs1] r IH]; intros o vs hd (H1 & H2 & H3 & flag & H4 & H5) Hin Hb; [by apply elem_of_nil in Hin|].
  destruct flag.
  - destruct H5 as (_ & Hn & _). destruct Hn. apply elem_of_list_fmap. by exists e.
  - destruct H5 as ((vs' & r' & He) & Hr). injection He as -> -> -> ->. apply elem_of_cons in Hin as [->|Hin]; [done|].
    specialize (IH _ _ _ Hr Hin Hb). lia.
Qed.
Lemma lrep_live h es hd b : lrep h es hd -> b ∈ blocks es -> is_Some (h !! b).
Proof.
  revert hd. induction es as [|[[b1 o1] vs1] r IH]; intros hd H Hin; [by apply elem_of_nil in Hin|]. destruct H as (H1 & H2 & H3 & flag & H4 & H5).
  apply elem_of_cons in Hin as [->|Hin].
  - unfold m_get in H4. cbn [mbind option_bind] in H4. cbn. by destruct (h !! b1).
  - destruct flag; [eapply IH; [apply H5|done]|eapply IH; [apply H5|done]].
Qed.
Lemma get_lt h b o x : m_get h (Some (b, o)) = Some x -> exists c, h !! b = Some c /\ o < length c.
Proof. unfold m_get. cbn [mbind option_bind]. destruct (h !! b) as [c|]; [|done]. cbn [mbind option_bind]. intros E. exists c. split; [done|]. by eapply lookup_lt_Some. Qed.
Lemma read_lt h b o n vs : m_read h (Some (b, o)) n = Some vs -> n <> 0 -> exists c, h !! b = Some c /\ o + n <= length c.
Proof.
  revert o vs. induction n as [|n IH]; intros o vs; [done|]. cbn [m_read p_add mbind option_bind]. destruct (m_get h (Some (b, o))) as [x|] eqn:E; [|done]. cbn [mbind option_bind].
  destruct (m_read h (Some (b, o + 1)) n) as [vs'|] eqn:E'; [|done]. intros _ _. destruct n as [|n].
  - destruct (get_lt _ _ _ _ E) as (c & Hc & Hl). exists c. split; [done|lia].
  - destruct (IH _ _ E' ltac:(lia)) as (c & Hc & Hl). exists c. split; [done|lia].
Qed.
Lemma lrep_in h es hd i b o vs : lrep h es hd -> es !! i = Some (b, o, vs) -> m_read h (Some (b, o + 1)) (length vs) = Some vs.
Proof.
  revert i hd. induction es as [|[[b1 o1] vs1] r IH]; intros i hd; [done|]. intros (H1 & H2 & H3 & flag & H4 & H5). destruct i as [|i]; cbn [lookup list_lookup].
  - intros E. injection E as -> -> ->. done.
  - destruct flag; (eapply IH; apply H5).
Qed.
Lemma frontp_insert es i b o vs old : es !! i = Some (b, o, old) -> frontp (<[i := (b, o, vs)]> es) = frontp es.
Proof. destruct es as [|[[b1 o1] vs1] r], i; cbn; [done..| |done]. intros E. by injection E as -> -> ->. Qed.
Lemma blocks_insert es i b o vs old : es !! i = Some (b, o, old) -> blocks (<[i := (b, o, vs)]> es) = blocks es.
Proof.
  intros E. unfold blocks. rewrite list_fmap_insert. cbn. apply list_insert_id. rewrite list_lookup_fmap, E. done.
Qed.
Lemma write_ok h es hd i b o old vs : lrep h es hd -> es !! i = Some (b, o, old) -> length vs = length old ->
  exists h', m_write h (Some (b, o + 1)) vs = Some h' /\ lrep h' (<[i := (b, o, vs)]> es) hd /\ forall b', b' <> b -> h' !! b' = h !! b'.
Proof.
  intros H E Hl.
  assert (exists h', m_write h (Some (b, o + 1)) vs = Some h') as [h' Ew].
  { pose proof (lrep_in _ _ _ _ _ _ _ H E) as Hr. destruct vs as [|v vs]; [by eexists|].
    destruct (read_lt _ _ _ _ _ Hr ltac:(cbn in Hl; lia)) as (c & Hc & Hlen). eapply write_total; [done|]. lia. }
  exists h'. split; [done|]. split; [|by eapply write_frame]. pose proof (write_sizes _ _ _ _ Ew) as Hs.
  revert i hd H E. induction es as [|[[b1 o1] vs1] r IH]; intros i hd H E; [done|]. destruct i as [|i]; cbn [lookup list_lookup] in E.
  - injection E as -> -> ->. cbn [insert list_insert]. pose proof H as (H1 & H2 & H3 & flag & H4 & H5). cbn [lrep]. split; [done|].
    split; [intros Hh; rewrite (write_other _ _ _ _ _ _ _ Ew) by lia; by apply H2|]. split; [by eapply read_write|].
    exists flag. split; [rewrite (write_other _ _ _ _ _ _ _ Ew) by lia; done|]. destruct flag.
    + destruct H5 as ((c & Hc & Hlc) & Hn & Hr). split.
      * specialize (Hs b). rewrite Hc in Hs. destruct (h' !! b) as [c'|]; [|done]. injection Hs as Hs. exists c'. split; [done|lia].
      * split; [done|]. eapply lrep_frame; [done|]. intros b' Hb'. eapply write_frame; [done|]. intros ->. done.
    + destruct H5 as ((vs' & r' & ->) & Hr). rewrite Hl. split; [by exists vs', r'|]. eapply lrep_low; [exact Hr|..|done].
      * intros b' Hb' _. by eapply write_frame.
      * apply Hs.
      * intros. eapply write_other; [done|]. lia.
  - cbn [insert list_insert]. change (list_insert i (b, o, vs) r) with (<[i := (b, o, vs)]> r). pose proof H as (H1 & H2 & H3 & flag & H4 & H5). cbn [lrep].
    assert (b1 = b -> o1 + 1 + length vs1 <= o) as Hab.
    { intros ->. apply (lrep_above _ _ _ _ _ _ (b, o, old) H); [|done]. by eapply elem_of_list_lookup_2. }
    split; [done|]. split; [intros Hh; rewrite (write_other _ _ _ _ _ _ _ Ew) by (intros Hx; specialize (Hab Hx); lia); by apply H2|].
    split. { rewrite (read_ext h); [done|]. intros o' Ho'. eapply write_other; [done|]. intros Hx. specialize (Hab Hx). lia. }
    exists flag. rewrite (frontp_insert _ _ _ _ _ _ E). split; [rewrite (write_other _ _ _ _ _ _ _ Ew) by (intros Hx; specialize (Hab Hx); lia); done|]. destruct flag.
    + destruct H5 as ((c & Hc & Hlc) & Hn & Hr). split.
      * specialize (Hs b1). rewrite Hc in Hs. destruct (h' !! b1) as [c'|]; [|done]. injection Hs as Hs. exists c'. split; [done|lia].
      * split; [by rewrite (blocks_insert _ _ _ _ _ _ E)|]. by apply IH.
    + destruct H5 as ((vs' & r' & ->) & Hr). split; [|by apply IH]. destruct i as [|i]; cbn [lookup list_lookup] in E.
      * injection E as <- <- <-. cbn [insert list_insert]. by eexists _, _.
      * cbn [insert list_insert]. by eexists _, _.
Qed.

(** the blocks of the list and nothing else *)
Definition linv (h0 h : mem) (es : list ent) : Prop :=
  lrep h es true /\ (forall b, b ∈ blocks es -> h0 !! b = None) /\ (forall b, b ∉ blocks es -> h !! b = h0 !! b).
Definition l_of (es : list ent) : mylist := MyList (frontp es) (length es).
Definition hands_of (es : list ent) : list (ptr * nat) := (fun '(b, o, vs) => (Some (b, o + 1), length vs)) <$> es.

Section ops.
Context (BE : nat) (HBE : 1 <= BE) (alloc : mem -> nat) (Halloc : forall h : mem, h !! alloc h = None).

Lemma bs_ok h b o vs r : lrep h ((b, o, vs) :: r) true -> blockStart h (Some (b, o)) = Some (Some (b, 0)).
Proof.
  intros (H1 & H2 & _). unfold blockStart, p_sub, l_next. cbn [mbind option_bind]. rewrite (proj2 (Nat.leb_le _ _) H1). cbn [mbind option_bind].
  rewrite H2 by done. done.
Qed.
Lemma alloc_front_ok h0 h es k vs : linv h0 h es -> length vs = numCells k ->
  exists h1 h2 b o, alloc_front BE alloc h (l_of es) k = Some (h1, l_of ((b, o, vs) :: es), Some (b, o + 1)) /\
    m_write h1 (Some (b, o + 1)) vs = Some h2 /\ linv h0 h2 ((b, o, vs) :: es).
Proof.
  intros (HR & H0 & H1) Hl. unfold alloc_front, l_of. cbn [l_front l_size].
  assert (exists full, (match frontp es with
             | None => Some true
             | Some _ => b ← blockStart h (frontp es); p_lt (frontp es) (p_add b (headerCells + (numCells k + 1)))
             end) = Some full /\ (full = false -> exists b o ws r, es = (b, o, ws) :: r /\ 1 + (numCells k + 1) <= o)) as (full & -> & Hfull).
  { destruct es as [|[[b o] ws] r]; [exists true; done|]. cbn [frontp]. rewrite (bs_ok _ _ _ _ _ HR). cbn [mbind option_bind p_add p_lt].
    rewrite Nat.eqb_refl. eexists. split; [done|]. intros Hf. exists b, o, ws, r. split; [done|]. apply Nat.ltb_ge in Hf. unfold headerCells in Hf. lia. }
  cbn [mbind option_bind]. destruct full.
  - (* a new block *)
    clear Hfull. unfold m_new. set (b := alloc h). set (n := numCells k + 1). set (m := headerCells + n * BE).
    assert (h !! b = None) as Hb by apply Halloc. set (h1 := <[b := replicate m Uninit]> h). cbn [p_add mbind option_bind p_sub].
    assert (n <= n * BE) as Hn by nia. assert (n <= m) as Hm by (unfold m, headerCells; lia). change (0 + m) with m. rewrite (proj2 (Nat.leb_le _ _) Hm). cbn [mbind option_bind].
    set (o := m - n). assert (1 <= o) as Ho by (unfold o, m, headerCells; lia). assert (o + 1 + length vs = m) as Hom by (unfold o; lia).
    unfold set_blockStart, p_sub. cbn [mbind option_bind]. rewrite (proj2 (Nat.leb_le _ _) Ho). cbn [mbind option_bind].
    assert (h1 !! b = Some (replicate m Uninit)) as Eb by apply lookup_insert.
    destruct (set_some h1 b (o - 1) (Ptr false (Some (b, 0))) _ Eb) as (h2 & E2 & F2 & G2); [rewrite replicate_length; lia|]. rewrite E2. cbn [mbind option_bind].
    destruct (set_some h2 b o (Ptr true (frontp es)) _ G2) as (h3 & E3 & F3 & G3); [rewrite insert_length, replicate_length; lia|]. rewrite E3. cbn [mbind option_bind].
    destruct (write_total h3 b (o + 1) vs _ G3) as (h4 & E4); [rewrite !insert_length, replicate_length; lia|].
    exists h3, h4, b, o. rewrite Nat.add_1_r. split; [done|]. split; [done|].
    assert (forall b', b' <> b -> h4 !! b' = h !! b') as Hfr.
    { intros b' Hb'. rewrite (write_frame _ _ _ _ _ E4 b' Hb'), F3, F2 by done. unfold h1. by rewrite lookup_insert_ne. }
    assert (b ∉ blocks es) as Hnb. { intros Hin. destruct (lrep_live _ _ _ _ HR Hin) as [c Hc]. congruence. }
    split; [|split].
    + cbn [lrep]. split; [done|]. split. { intros _. rewrite (write_other _ _ _ _ _ _ _ E4) by lia. rewrite (get_set_ne _ _ _ _ _ E3) by (intros E; injection E; lia). by apply (get_set _ _ _ _ E2). }
      split; [by eapply read_write|]. exists true. split. { rewrite (write_other _ _ _ _ _ _ _ E4) by lia. by apply (get_set _ _ _ _ E3). }
      split; [|split; [done|]].
      * destruct (write_length _ _ _ _ _ _ E4 G3) as (c' & Hc' & Hlc'). exists c'. split; [done|]. rewrite Hlc', !insert_length, replicate_length. lia.
      * eapply lrep_frame; [done|]. intros b' Hin. apply Hfr. intros ->. done.
    + intros b' Hin. apply elem_of_cons in Hin as [->|Hin]; [|by apply H0]. cbn. rewrite <- H1; done.
    + intros b' Hin. apply not_elem_of_cons in Hin as [Hb' Hin]. rewrite Hfr by done. by apply H1.
  - (* the same block *)
    destruct (Hfull eq_refl) as (b & o & ws & r & -> & Ho). clear Hfull. cbn [frontp]. set (n := numCells k + 1) in *.
    cbn [p_sub mbind option_bind]. rewrite (proj2 (Nat.leb_le n o)) by lia. cbn [mbind option_bind]. rewrite (bs_ok _ _ _ _ _ HR). cbn [mbind option_bind].
    unfold set_blockStart. cbn [p_sub mbind option_bind]. rewrite (proj2 (Nat.leb_le 1 (o - n))) by lia. cbn [mbind option_bind].
    pose proof HR as (R1 & R2 & R3 & flag & R4 & R5). destruct (get_lt _ _ _ _ R4) as (c & Hc & Hlt).
    destruct (set_some h b (o - n - 1) (Ptr false (Some (b, 0))) _ Hc) as (h2 & E2 & F2 & G2); [lia|]. rewrite E2. cbn [mbind option_bind].
    destruct (set_some h2 b (o - n) (Ptr false (Some (b, o))) _ G2) as (h3 & E3 & F3 & G3); [rewrite insert_length; lia|]. rewrite E3. cbn [mbind option_bind].
    destruct (write_total h3 b (o - n + 1) vs _ G3) as (h4 & E4); [rewrite !insert_length; lia|].
    exists h3, h4, b, (o - n). rewrite Nat.add_1_r. split; [done|]. split; [done|].
    assert (forall b', b' <> b -> h4 !! b' = h !! b') as Hfr.
    { intros b' Hb'. rewrite (write_frame _ _ _ _ _ E4 b' Hb'), F3, F2 by done. done. }
    split; [|split].
    + cbn [lrep]. split; [lia|]. split. { intros _. rewrite (write_other _ _ _ _ _ _ _ E4) by lia. rewrite (get_set_ne _ _ _ _ _ E3) by (intros E; injection E; lia). by apply (get_set _ _ _ _ E2). }
      split; [by eapply read_write|]. exists false. split. { rewrite (write_other _ _ _ _ _ _ _ E4) by lia. by apply (get_set _ _ _ _ E3). }
      split; [exists ws, r; repeat f_equal; lia|]. change (lrep h4 ((b, o, ws) :: r) false).
      eapply lrep_low; [exact HR|..|done].
      * intros b' Hb' _. by apply Hfr.
      * rewrite (write_sizes _ _ _ _ E4 b), (set_sizes _ _ _ _ E3 b). apply (set_sizes _ _ _ _ E2 b).
      * intros o1 Ho1. rewrite (write_other _ _ _ _ _ _ _ E4) by lia. rewrite (get_set_ne _ _ _ _ _ E3) by (intros E; injection E; lia).
        apply (get_set_ne _ _ _ _ _ E2). intros E; injection E; lia.
    + intros b' Hin. apply H0. apply elem_of_cons in Hin as [->|Hin]; [|done]. apply elem_of_cons. by left.
    + intros b' Hin. apply not_elem_of_cons in Hin as [Hb' Hin]. rewrite Hfr by done. by apply H1.
Qed.
Lemma pop_ok h0 h e es : linv h0 h (e :: es) -> exists h', pop_front h (l_of (e :: es)) = Some (h', l_of es) /\ linv h0 h' es.
Proof.
  intros (HR & H0 & H1). destruct e as [[b o] vs]. unfold pop_front, l_of. cbn [l_front l_size frontp length]. pose proof HR as (R1 & R2 & R3 & flag & R4 & R5).
  unfold l_next at 1. rewrite R4. cbn [mbind option_bind c_ptr]. rewrite (bs_ok _ _ _ _ _ HR). cbn [mbind option_bind]. replace (S (length es) - 1) with (length es) by lia.
  destruct flag.
  - destruct R5 as ((c & Hc & Hlc) & Hn & Hr). cbn [m_del]. rewrite Hc. cbn [mbind option_bind]. eexists. split; [done|]. split; [|split].
    + eapply lrep_frame; [done|]. intros b' Hin. rewrite lookup_delete_ne; [done|]. by intros ->.
    + intros b' Hin. apply H0. apply elem_of_cons. by right.
    + intros b' Hin. destruct (decide (b' = b)) as [->|Hb].
      * rewrite lookup_delete. symmetry. apply H0. apply elem_of_cons. by left.
      * rewrite lookup_delete_ne by done. apply H1. apply not_elem_of_cons. done.
  - destruct R5 as ((vs' & r' & ->) & Hr). cbn [frontp]. unfold set_blockStart. cbn [p_sub mbind option_bind]. rewrite (proj2 (Nat.leb_le 1 _)) by lia. cbn [mbind option_bind].
    pose proof Hr as (_ & _ & _ & flag' & R4' & _). destruct (get_lt _ _ _ _ R4') as (c & Hc & Hlt).
    destruct (set_some h b (o + 1 + length vs - 1) (Ptr false (Some (b, 0))) _ Hc) as (h2 & E2 & F2 & G2); [lia|]. rewrite E2. cbn [mbind option_bind].
    exists h2. split; [done|]. split; [|split].
    + eapply lrep_low; [exact Hr|..].
      * intros b' Hb' _. by apply F2.
      * apply (set_sizes _ _ _ _ E2 b).
      * intros o1 Ho1. apply (get_set_ne _ _ _ _ _ E2). intros E; injection E; lia.
      * intros _. by apply (get_set _ _ _ _ E2).
    + intros b' Hin. apply H0. apply elem_of_cons. by right.
    + intros b' Hin. rewrite F2; [|intros ->; apply Hin; apply elem_of_cons; by left]. apply H1. apply not_elem_of_cons. split; [|done].
      intros ->. apply Hin. apply elem_of_cons. by left.
Qed.
Lemma to_flag_ok h b o vs r hd n : lrep h ((b, o, vs) :: r) hd -> length r < n ->
  exists r1 r2, r = r1 ++ r2 /\ to_flag n h (Some (b, o)) = Some (frontp r2) /\ lrep h r2 true /\ b ∉ blocks r2 /\ forall b', b' ∈ blocks r1 -> b' = b.
Proof.
  revert o vs hd n. induction r as [|[[b1 o1] vs1] r IH]; intros o vs hd n (H1 & H2 & H3 & flag & H4 & H5) Hn; (destruct n as [|n]; [lia|]); cbn [to_flag];
    unfold l_next; rewrite H4; cbn [mbind option_bind c_ptr]; destruct flag.
  - exists [], []. split; [done|]. split; [done|]. split; [done|]. split; [apply not_elem_of_nil|]. intros b' Hin. by apply elem_of_nil in Hin.
  - by destruct H5 as [(? & ? & ?) _].
  - destruct H5 as (_ & Hnb & Hr). exists [], ((b1, o1, vs1) :: r). split_and!; try done. intros b' Hin. by apply elem_of_nil in Hin.
  - destruct H5 as ((vs' & r' & He) & Hr). injection He as -> -> -> ->. cbn [length] in Hn. destruct (IH _ _ _ n Hr ltac:(lia)) as (r1 & r2 & -> & E & Hr2 & Hnb & Hb).
    exists ((b, o + 1 + length vs, vs') :: r1), r2. split_and!; try done. intros b' Hin. apply elem_of_cons in Hin as [->|Hin]; [done|by apply Hb].
Qed.
Lemma lclear_ok h0 fuel n h es : linv h0 h es -> length es <= fuel -> length es <= n -> exists h', lclear_loop fuel n h (frontp es) = Some h' /\ linv h0 h' [].
Proof.
  revert h es. induction fuel as [|fuel IH]; intros h es HI Hf Hn.
  - destruct es; [|cbn in Hf; lia]. by exists h.
  - destruct es as [|[[b o] vs] r]; [by exists h|]. destruct HI as (HR & H0 & H1). cbn [frontp lclear_loop].
    destruct (to_flag_ok _ _ _ _ _ _ n HR ltac:(cbn in Hn; lia)) as (r1 & r2 & -> & -> & Hr2 & Hnb & Hb). cbn [mbind option_bind].
    rewrite (bs_ok _ _ _ _ _ HR). cbn [mbind option_bind m_del].
    destruct (lrep_live _ _ _ b HR) as [c Hc]; [apply elem_of_cons; by left|]. rewrite Hc. cbn [mbind option_bind].
    apply IH; [|cbn in Hf; rewrite app_length in Hf; lia|cbn in Hn; rewrite app_length in Hn; lia]. split; [|split].
    + eapply lrep_frame; [done|]. intros b' Hin. rewrite lookup_delete_ne; [done|]. by intros ->.
    + intros b' Hin. apply H0. unfold blocks in *. rewrite fmap_cons, fmap_app. apply elem_of_cons. right. apply elem_of_app. by right.
    + intros b' Hin. destruct (decide (b' = b)) as [->|Hbb].
      * rewrite lookup_delete. symmetry. apply H0. apply elem_of_cons. by left.
      * rewrite lookup_delete_ne by done. apply H1. unfold blocks in *. rewrite fmap_cons, fmap_app. apply not_elem_of_cons. split; [done|].
        intros Hin'. apply elem_of_app in Hin' as [Hin'|Hin']; [by apply Hbb, Hb|done].
Qed.
Lemma iterate_ok h es hd fuel : lrep h es hd -> length es <= fuel -> iterate fuel h (frontp es) = Some (fst <$> hands_of es).
Proof.
  revert hd fuel. induction es as [|[[b o] vs] r IH]; intros hd fuel; [by destruct fuel|]. intros (H1 & H2 & H3 & flag & H4 & H5) Hf.
  destruct fuel as [|fuel]; [cbn in Hf; lia|]. cbn [frontp iterate]. unfold l_next. rewrite H4. cbn [mbind option_bind c_ptr].
  assert (exists hd', lrep h r hd') as [hd' Hr] by (destruct flag; eexists; apply H5). rewrite (IH hd' fuel Hr) by (cbn in Hf; lia). cbn [mbind option_bind]. done.
Qed.

(** a program state and the entries it holds *)
Definition lok (h0 : mem) (w : lworld) (es : list ent) : Prop := linv h0 (l_mem w) es /\ l_list w = l_of es /\ l_hands w = hands_of es.
Lemma lexec_ok h0 w es c m' : lok h0 w es -> lv_exec (snd <$> es) c = Some m' -> exists w' es', lexec BE alloc w c = Some w' /\ lok h0 w' es' /\ snd <$> es' = m'.
Proof.
  intros (HI & HL & HH) E. destruct w as [h l hs]. cbn [l_mem l_list l_hands] in *. subst l hs. unfold lexec. cbn [l_mem l_list l_hands]. destruct c as [k vs|i vs| |]; cbn [lv_exec] in E.
  - destruct (Nat.eqb_spec (length vs) ((k + 7) / 8)) as [Hl|]; [|done]. injection E as <-.
    destruct (alloc_front_ok h0 h es k vs HI Hl) as (h1 & h2 & b & o & -> & Ew & HI'). cbn [mbind option_bind]. rewrite Ew. cbn [mbind option_bind].
    eexists _, _. split; [done|]. split; [split; [exact HI'|]|]; done.
  - rewrite list_lookup_fmap in E. destruct (es !! i) as [[[b o] old]|] eqn:Ei; [|done]. cbn [mbind option_bind fmap option_fmap option_map snd] in E.
    destruct (Nat.eqb_spec (length vs) (length old)) as [Hl|]; [|done]. injection E as <-.
    unfold hands_of. rewrite list_lookup_fmap, Ei. cbn [mbind option_bind fmap option_fmap option_map].
    destruct HI as (HR & H0 & H1). destruct (write_ok _ _ _ _ _ _ _ vs HR Ei Hl) as (h' & -> & HR' & Hf). cbn [mbind option_bind].
    eexists _, (<[i := (b, o, vs)]> es). split; [done|]. split; [split; [split; [exact HR'|split]|split]|].
    + by rewrite (blocks_insert _ _ _ _ _ _ Ei).
    + rewrite (blocks_insert _ _ _ _ _ _ Ei). cbn [l_mem]. intros b' Hin. rewrite Hf; [by apply H1|]. intros ->. apply Hin. apply elem_of_list_fmap. exists (b, o, old). split; [done|]. by eapply elem_of_list_lookup_2.
    + cbn [l_list]. unfold l_of. by rewrite (frontp_insert _ _ _ _ _ _ Ei), insert_length.
    + cbn [l_hands]. unfold hands_of. rewrite list_fmap_insert. symmetry. apply list_insert_id. rewrite list_lookup_fmap, Ei. cbn. by rewrite Hl.
    + by rewrite list_fmap_insert.
  - destruct es as [|e es]; [done|]. cbn [fmap list_fmap] in E. injection E as <-. destruct (pop_ok _ _ _ _ HI) as (h' & -> & HI'). cbn [mbind option_bind].
    eexists _, es. split; [done|]. split; [split; [exact HI'|]|]; done.
  - injection E as <-. unfold list_clear, l_of. cbn [l_size l_front]. destruct (lclear_ok h0 (length es) (length es) h es HI) as (h' & -> & HI'); [done..|]. cbn [mbind option_bind].
    eexists _, []. split; [done|]. split; [split; [exact HI'|]|]; done.
Qed.
Lemma lexec_all_ok h0 l : forall w es m', lok h0 w es -> lv_run (snd <$> es) l = Some m' -> exists w' es', lexec_all BE alloc w l = Some w' /\ lok h0 w' es' /\ snd <$> es' = m'.
Proof.
  induction l as [|c l IH]; intros w es m' HL E; cbn [lv_run lexec_all] in *; [injection E as <-; by exists w, es|].
  destruct (lv_exec _ c) as [m1|] eqn:E1; [|done]. cbn [mbind option_bind] in E. destruct (lexec_ok _ _ _ _ _ HL E1) as (w1 & es1 & -> & HL1 & <-). cbn [mbind option_bind]. by eapply IH.
Qed.
Lemma lok0 h : lok h (lworld0 h) [].
Proof. split; [|done]. split; [done|]. split; [intros b Hin; by apply elem_of_nil in Hin|done]. Qed.
End ops.
Lemma lok_view h0 w es : lok h0 w es -> lview w = Some (snd <$> es).
Proof.
  intros ((HR & _) & _ & HH). unfold lview. rewrite HH. apply mapM_Some_2. unfold hands_of. apply Forall2_fmap. apply Forall2_same_length_lookup. split; [done|].
  intros i e1 e2 E1 E2. rewrite E1 in E2. injection E2 as <-. destruct e1 as [[b o] vs]. cbn. by eapply lrep_in.
Qed.
