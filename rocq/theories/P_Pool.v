From Verif Require Import Base M_Mem P_Mem M_Pool S_Pool.
From stdpp Require Import gmap.

Section pool.
Context (BU ME : nat) (HME : ME + 1 <= BU) (alloc : mem -> nat) (Halloc : forall h : mem, h !! alloc h = None).
Notation pool_alloc := (pool_alloc BU ME alloc).

Fixpoint links (h : mem) (b : ptr) (bs : list nat) : Prop :=
  match bs with
  | [] => b = None
  | x :: bs' => b = Some (x, 0) /\ exists nx, m_get h b = Some (Ptr false nx) /\ links h nx bs'
  end.
Definition hand_ok (h : mem) (p : pool) (bs : list nat) (qn : ptr * nat) (vs : list cell) : Prop :=
  snd qn = length vs /\ m_read h (fst qn) (snd qn) = Some vs /\
  (snd qn = 0 \/ exists b o c, fst qn = Some (b, o) /\ b ∈ bs /\ 1 <= o /\ h !! b = Some c /\ o + snd qn <= length c /\
    (nextUnit p < BU -> head bs = Some b -> o + snd qn <= nextUnit p)).
Definition apart (hs : list (ptr * nat)) : Prop :=
  forall i j b o n o' n', i <> j -> hs !! i = Some (Some (b, o), n) -> hs !! j = Some (Some (b, o'), n') ->
    n = 0 \/ n' = 0 \/ o + n <= o' \/ o' + n' <= o.
Record pinv (h : mem) (p : pool) (v : vpool) (hs : list (ptr * nat)) (bs : list nat) : Prop := {
  i_links : links h (blockList p) bs;
  i_nodup : NoDup bs;
  i_next : nextUnit p <= BU;
  i_room : nextUnit p < BU -> 1 <= nextUnit p /\ exists b c, head bs = Some b /\ h !! b = Some c /\ BU <= length c;
  i_small : vsmall v = true -> forall b c, b ∈ bs -> h !! b = Some c -> BU <= length c;
  i_hands : Forall2 (hand_ok h p bs) hs (vallocs v);
  i_apart : apart hs }.

Lemma links_in h b bs x : links h b bs -> x ∈ bs -> exists nx, m_get h (Some (x, 0)) = Some (Ptr false nx).
Proof.
  revert b. induction bs as [|y bs IH]; intros b Hl Hx; [by apply elem_of_nil in Hx|]. destruct Hl as (-> & nx & E & Hl).
  apply elem_of_cons in Hx as [->|Hx]; [by exists nx|by eapply IH].
Qed.
Lemma get_block h x o c : m_get h (Some (x, o)) = Some c -> exists l, h !! x = Some l /\ o < length l.
Proof. unfold m_get. cbn. destruct (h !! x) as [l|]; [|done]. cbn. intros E. exists l. split; [done|]. by eapply lookup_lt_Some. Qed.
Lemma links_block h b bs x : links h b bs -> x ∈ bs -> exists c, h !! x = Some c /\ 0 < length c.
Proof. intros Hl Hx. destruct (links_in _ _ _ _ Hl Hx) as [nx E]. by apply get_block in E. Qed.
Lemma links_frame h h' b bs : (forall x, x ∈ bs -> m_get h' (Some (x, 0)) = m_get h (Some (x, 0))) -> links h b bs -> links h' b bs.
Proof.
  revert b. induction bs as [|y bs IH]; intros b Hf Hl; [done|]. destruct Hl as (-> & nx & E & Hl). split; [done|]. exists nx. split; [by rewrite Hf by left|].
  apply IH; [|done]. intros x Hx. apply Hf. by right.
Qed.
Lemma pinv_frame h h' p v hs bs : (forall x, x ∈ bs -> h' !! x = h !! x) -> pinv h p v hs bs -> pinv h' p v hs bs.
Proof.
  intros Hf [H1 H2 H3 H4 H5 H6 H7]. split; try done.
  - eapply links_frame; [|done]. intros x Hx. by apply get_frame, Hf.
  - intros Hn. destruct (H4 Hn) as (Hp & b & c & Hb & E & Hc). split; [done|]. exists b, c. split_and!; try done. rewrite Hf; [done|]. destruct bs; [done|]. injection Hb as ->. left.
  - intros Hs b c Hb E. rewrite Hf in E by done. by eapply H5.
  - eapply Forall2_impl; [exact H6|]. intros [q n] vs (A1 & A2 & A3). split; [done|]. cbn [fst snd] in *. destruct A3 as [->|(b & o & c & -> & Hb & Ho & E & Hl & Hn)].
    + split; [done|by left].
    + split; [rewrite (read_frame h h') by (by apply Hf); done|]. right. exists b, o, c. split_and!; try done. by rewrite Hf.
Qed.
(** nothing but the pool's blocks (before or after) changes *)
Definition touched (h h' : mem) (bs bs' : list nat) : Prop :=
  (forall b, b ∉ bs -> b ∉ bs' -> h' !! b = h !! b) /\ (forall b, b ∈ bs' -> b ∈ bs \/ h !! b = None) /\ (forall b, b ∈ bs -> b ∉ bs' -> h' !! b = None).
Lemma touched_refl h bs : touched h h bs bs.
Proof. split_and!; try done. intros. by left. Qed.
Lemma touched_set h h1 h2 bs bs' : touched h h1 bs bs' -> (forall b, b ∉ bs' -> h2 !! b = h1 !! b) -> touched h h2 bs bs'.
Proof. intros (T1 & T2 & T3) H. split_and!; [|done|]; intros b Hb Hb'; rewrite H by done; auto. Qed.

Lemma new_lookup h m : let '(h1, b) := m_new alloc h m in h !! b = None /\ h1 !! b = Some (replicate m Uninit) /\ forall x, x <> b -> h1 !! x = h !! x.
Proof. unfold m_new. split_and!; [apply Halloc|by rewrite lookup_insert|]. intros x Hx. by rewrite lookup_insert_ne. Qed.
Lemma hand_mono h h' p p' bs bs' qn vs : hand_ok h p bs qn vs -> (forall b, b ∈ bs -> b ∈ bs') ->
  (forall b o, b ∈ bs -> 1 <= o -> m_get h' (Some (b, o)) = m_get h (Some (b, o))) ->
  (forall b c, b ∈ bs -> h !! b = Some c -> exists c', h' !! b = Some c' /\ length c' = length c) ->
  (forall b, nextUnit p' < BU -> head bs' = Some b -> b ∈ bs -> nextUnit p < BU /\ head bs = Some b /\ nextUnit p <= nextUnit p') ->
  hand_ok h' p' bs' qn vs.
Proof.
  intros (A1 & A2 & A3) Hin Hg Hs Hh. split; [done|]. destruct qn as [q n]. cbn [fst snd] in *. destruct A3 as [->|(b & o & c & -> & Hb & Ho & E & Hl & Hn)].
  - split; [done|by left].
  - split; [rewrite (read_ext h h'); [done|]; intros; apply Hg; [done|lia]|]. right. destruct (Hs b c Hb E) as (c' & E' & Hc'). exists b, o, c'. split_and!; auto; [lia|].
    intros Hlt Hhd. destruct (Hh b Hlt Hhd Hb) as (K1 & K2 & K3). specialize (Hn K1 K2). lia.
Qed.
Lemma apart_snoc hs q n : apart hs -> (forall b o o' n', q = Some (b, o) -> (Some (b, o'), n') ∈ hs -> n = 0 \/ n' = 0 \/ o + n <= o' \/ o' + n' <= o) -> apart (hs ++ [(q, n)]).
Proof.
  intros Ha Hq i j b o k o' k' Hij Hi Hj. apply lookup_app_Some in Hi as [Hi|[Hi Hi']], Hj as [Hj|[Hj Hj']].
  - by eapply Ha.
  - apply list_lookup_singleton_Some in Hj' as [_ E]. injection E as -> ->. apply elem_of_list_lookup_2 in Hi. specialize (Hq b o' o k eq_refl Hi). lia.
  - apply list_lookup_singleton_Some in Hi' as [_ E]. injection E as -> ->. apply elem_of_list_lookup_2 in Hj. specialize (Hq b o o' k' eq_refl Hj). lia.
  - apply list_lookup_singleton_Some in Hi' as [? _], Hj' as [? _]. lia.
Qed.
(** memory that can be handed out *)
Definition region (h : mem) (p : pool) (hs : list (ptr * nat)) (bs : list nat) (q : ptr) (e : nat) : Prop :=
  e = 0 \/ exists b o c, q = Some (b, o) /\ b ∈ bs /\ 1 <= o /\ h !! b = Some c /\ o + e <= length c /\
    (nextUnit p < BU -> head bs = Some b -> o + e <= nextUnit p) /\
    (forall o' n', (Some (b, o'), n') ∈ hs -> n' = 0 \/ o' + n' <= o \/ o + e <= o').
(** writing to cells of one's own *)
Lemma write_inv h p v hs bs b o c vs : pinv h p v hs bs -> b ∈ bs -> 1 <= o -> h !! b = Some c -> o + length vs <= length c ->
  exists h', m_write h (Some (b, o)) vs = Some h' /\ (forall x, x <> b -> h' !! x = h !! x) /\
    links h' (blockList p) bs /\ (forall x y, x ∈ bs -> h !! x = Some y -> exists y', h' !! x = Some y' /\ length y' = length y) /\
    (forall x y, x ∈ bs -> h' !! x = Some y -> exists y', h !! x = Some y' /\ length y' = length y) /\
    m_read h' (Some (b, o)) (length vs) = Some vs /\
    (forall o', o' < o \/ o + length vs <= o' -> m_get h' (Some (b, o')) = m_get h (Some (b, o'))).
Proof.
  intros HI Hb Ho E Hl. destruct (write_total h b o vs c E Hl) as [h' Ew]. exists h'. split_and!; try done.
  - by eapply write_frame.
  - eapply links_frame; [|apply HI]. intros x Hx. eapply write_other; [exact Ew|]. intros _. lia.
  - intros x y Hx Ey. pose proof (write_sizes _ _ _ _ Ew x) as Hs. rewrite Ey in Hs. destruct (h' !! x) as [y'|]; [|done]. injection Hs as Hs. by exists y'.
  - intros x y Hx Ey. pose proof (write_sizes _ _ _ _ Ew x) as Hs. rewrite Ey in Hs. destruct (h !! x) as [y'|]; [|done]. injection Hs as Hs. by exists y'.
  - by eapply read_write.
  - intros o' Ho'. eapply write_other; [exact Ew|]. done.
Qed.
(** a handle whose cells are not written *)
Lemma hand_keep h h' p bs qn vs b o n : hand_ok h p bs qn vs ->
  (forall x, x <> b -> h' !! x = h !! x) -> (forall x y, x ∈ bs -> h !! x = Some y -> exists y', h' !! x = Some y' /\ length y' = length y) ->
  (forall o', o' < o \/ o + n <= o' -> m_get h' (Some (b, o')) = m_get h (Some (b, o'))) ->
  (forall o' n', qn = (Some (b, o'), n') -> n' = 0 \/ o' + n' <= o \/ o + n <= o') -> hand_ok h' p bs qn vs.
Proof.
  intros (A1 & A2 & A3) Hf Hs Hg Ha. split; [done|]. destruct qn as [q k]. cbn [fst snd] in *. destruct A3 as [->|(b' & o' & c & -> & Hb & Ho & E & Hl & Hn)].
  - split; [done|by left].
  - split.
    + rewrite (read_ext h h'); [done|]. intros j Hj. destruct (decide (b' = b)) as [->|Hne].
      * apply Hg. destruct (Ha o' k eq_refl); lia.
      * by apply get_frame, Hf.
    + right. destruct (Hs b' c Hb E) as (c' & E' & Hc). exists b', o', c'. split_and!; auto. lia.
Qed.
Lemma region_le h p hs bs q e e' : region h p hs bs q e -> e' <= e -> region h p hs bs q e'.
Proof.
  intros [->|(b & o & c & H1 & H2 & H3 & H4 & H5 & H6 & H7)] Hle; [left; lia|]. right. exists b, o, c. split_and!; try done; [lia|intros; specialize (H6 ltac:(done) ltac:(done)); lia|].
  intros o' n' Hin. specialize (H7 o' n' Hin). lia.
Qed.
Lemma fill_ok h p v sm hs bs q e vs : pinv h p (VPool v sm) hs bs -> region h p hs bs q e -> length vs = e ->
  exists h', m_write h q vs = Some h' /\ (forall x, x ∉ bs -> h' !! x = h !! x) /\ pinv h' p (VPool (v ++ [vs]) sm) (hs ++ [(q, e)]) bs.
Proof.
  intros HI [->|(b & o & c & -> & Hb & Ho & E & Hl & Hn & Ha)] Hlen.
  - apply nil_length_inv in Hlen as ->. exists h. split_and!; try done. destruct HI. split; try done.
    + cbn [vallocs]. apply Forall2_app; [done|]. repeat constructor.
    + apply apart_snoc; [done|]. intros. by left.
  - subst e. destruct (write_inv _ _ _ _ _ b o c vs HI Hb Ho E Hl) as (h' & Ew & W1 & W2 & W3 & W4 & W5 & W6).
    exists h'. split_and!; [done| |].
    + intros x Hx. apply W1. by intros ->.
    + destruct HI as [H1 H2 H3 H4 H5 H6 H7]. split; try done.
      * intros Hlt. destruct (H4 Hlt) as (K0 & b0 & c0 & K1 & K2 & K3). split; [done|]. destruct (W3 b0 c0) as (c1 & K4 & K5); [destruct bs; [done|]; injection K1 as ->; left|done|].
        exists b0, c1. split_and!; try done. lia.
      * intros Hs x y Hx Ey. destruct (W4 x y Hx Ey) as (y' & Ey' & <-). by eapply H5.
      * cbn [vallocs]. apply Forall2_app.
        -- apply Forall2_same_length_lookup. split; [by eapply Forall2_length|]. intros k qn w Hk Hw.
           pose proof (Forall2_lookup_lr _ _ _ _ _ _ H6 Hk Hw) as Hh. eapply hand_keep; try done.
           intros o' n' ->. apply elem_of_list_lookup_2 in Hk. destruct (Ha o' n' Hk); lia.
        -- constructor; [|constructor]. split; [done|]. cbn [fst snd]. split; [done|]. right. destruct (W3 b c Hb E) as (c' & E' & Hc). exists b, o, c'. split_and!; try done. lia.
      * apply apart_snoc; [done|]. intros b' o1 o' n' Hq Hin. injection Hq as <- <-. specialize (Ha o' n' Hin). lia.
Qed.
Lemma overwrite_ok h p v sm hs bs k q n vs old : pinv h p (VPool v sm) hs bs -> hs !! k = Some (q, n) -> v !! k = Some old -> length vs = length old ->
  exists h', m_write h q vs = Some h' /\ (forall x, x ∉ bs -> h' !! x = h !! x) /\ pinv h' p (VPool (<[k := vs]> v) sm) hs bs.
Proof.
  intros HI Hk Hv Hlen. pose proof (Forall2_lookup_lr _ _ _ _ _ _ (i_hands _ _ _ _ _ HI) Hk Hv) as (A1 & A2 & A3). cbn [fst snd] in *.
  destruct (decide (n = 0)) as [->|Hn0]; [|destruct A3 as [?|(b & o & c & -> & Hb & Ho & E & Hl & Hn)]; [done|]].
  - rewrite <- A1 in Hlen. apply nil_length_inv in Hlen as ->. symmetry in A1. apply nil_length_inv in A1 as ->. exists h. split_and!; try done.
    by rewrite list_insert_id.
  - assert (n = length vs) as -> by lia. destruct (write_inv _ _ _ _ _ b o c vs HI Hb Ho E Hl) as (h' & Ew & W1 & W2 & W3 & W4 & W5 & W6).
    exists h'. split_and!; [done| |].
    + intros x Hx. apply W1. by intros ->.
    + destruct HI as [H1 H2 H3 H4 H5 H6 H7]. split; try done.
      * intros Hlt. destruct (H4 Hlt) as (K0 & b0 & c0 & K1 & K2 & K3). split; [done|]. destruct (W3 b0 c0) as (c1 & K4 & K5); [destruct bs; [done|]; injection K1 as ->; left|done|].
        exists b0, c1. split_and!; try done. lia.
      * intros Hs x y Hx Ey. destruct (W4 x y Hx Ey) as (y' & Ey' & <-). by eapply H5.
      * cbn [vallocs]. apply Forall2_same_length_lookup. split; [rewrite insert_length; by eapply Forall2_length|]. intros j qn w Hj Hw.
        destruct (decide (j = k)) as [->|Hne].
        -- rewrite Hk in Hj. injection Hj as <-. rewrite list_lookup_insert in Hw by (by eapply lookup_lt_Some). injection Hw as <-.
           split; [done|]. cbn [fst snd]. split; [done|]. right. destruct (W3 b c Hb E) as (c' & E' & Hc). exists b, o, c'. split_and!; try done. lia.
        -- rewrite list_lookup_insert_ne in Hw by done. pose proof (Forall2_lookup_lr _ _ _ _ _ _ H6 Hj Hw) as Hh. eapply hand_keep; try done.
           intros o' n' ->. destruct (H7 j k b o' n' o (length vs) Hne Hj Hk) as [?|[?|[?|?]]]; [lia|lia|lia|lia].
Qed.

Definition okreq (n : nat) : bool := (units n <=? ME) || (BU <=? units n + 1).
Lemma links_head h b bs : links h b bs -> b = match bs with [] => None | x :: _ => Some (x, 0) end.
Proof. destruct bs; [done|]. by intros [-> _]. Qed.
Lemma links_live h b bs x : links h b bs -> x ∈ bs -> h !! x <> None.
Proof. intros Hl Hx. destruct (links_block _ _ _ _ Hl Hx) as (c & E & _). congruence. Qed.
Lemma hand_live h p bs b o n vs : hand_ok h p bs (Some (b, o), n) vs -> n <> 0 -> b ∈ bs.
Proof. intros (_ & _ & [?|(b' & ? & ? & E & ? & _)]) Hn; [done|]. by injection E as -> ->. Qed.
Lemma alloc_ok h p v hs bs n : pinv h p v hs bs ->
  exists h' p' q bs', pool_alloc h p n = Some (h', p', q) /\ touched h h' bs bs' /\
    pinv h' p' (VPool (vallocs v) (vsmall v && okreq n)) hs bs' /\ region h' p' hs bs' q (units n).
Proof.
  intros [H1 H2 H3 H4 H5 H6 H7]. unfold M_Pool.pool_alloc. set (e := units n). unfold okreq. fold e.
  destruct (Nat.ltb_spec ME e) as [Hbig|Hsml].
  - pose proof (new_lookup h (e + 1)) as HN. destruct (m_new alloc h (e + 1)) as [h1 b]. destruct HN as (N1 & N2 & N3).
    assert (b ∉ bs) as Hbb. { intros Hb. by apply (links_live _ _ _ _ H1 Hb). }
    destruct (Nat.leb_spec e ME); [lia|]. cbn [orb].
    destruct bs as [|b0 bs].
    + cbn [links] in H1. rewrite H1. destruct (set_some h1 b 0 (Ptr false None) _ N2) as (h2 & E2 & F2 & G2); [rewrite replicate_length; lia|].
      rewrite E2. cbn [mbind option_bind]. eexists h2, _, _, [b]. split; [done|]. split_and!.
      * split_and!; [|intros x ->%elem_of_list_singleton; by right|intros x Hx; by apply elem_of_nil in Hx].
        intros x _ Hx. rewrite F2, N3; [done| |]; intros ->; apply Hx; left.
      * assert (nextUnit p = BU) as Hnu. { destruct (decide (nextUnit p < BU)) as [Hlt|]; [|lia]. destruct (H4 Hlt) as (_ & ? & ? & ? & _). done. }
        split; cbn [blockList nextUnit vallocs vsmall].
        -- split; [done|]. exists None. split; [by apply (get_set h1)|done].
        -- apply NoDup_singleton.
        -- done.
        -- lia.
        -- intros Hs x y ->%elem_of_list_singleton Ey. rewrite G2 in Ey. injection Ey as <-. rewrite insert_length, replicate_length.
           apply andb_true_iff in Hs as [_ Hs]. apply Nat.leb_le in Hs. lia.
        -- eapply Forall2_impl; [exact H6|]. intros qn vs (A1 & A2 & A3). destruct qn as [q k]. cbn [fst snd] in *.
           destruct A3 as [->|(? & ? & ? & _ & Hin & _)]; [|by apply elem_of_nil in Hin]. split_and!; [done|done|by left].
        -- done.
      * right. exists b, 1, (<[0 := Ptr false None]> (replicate (e + 1) Uninit)). cbn [nextUnit]. split_and!; [done|left|lia|done|rewrite insert_length, replicate_length; lia| |].
        -- destruct (decide (nextUnit p < BU)) as [Hlt|]; [|lia]. destruct (H4 Hlt) as (_ & ? & ? & ? & _). done.
        -- intros o' n' Hin. apply elem_of_list_lookup in Hin as [k Hk]. destruct (Forall2_lookup_l _ _ _ _ _ H6 Hk) as (vs & _ & Hh).
           destruct (decide (n' = 0)); [by left|]. apply hand_live in Hh; [by apply elem_of_nil in Hh|done].
    + pose proof H1 as (Eb & nx & G0 & L0). rewrite Eb. cbn [links] in H1.
      assert (b0 <> b) as Hne by (intros ->; apply Hbb; left).
      assert (m_get h1 (Some (b0, 0)) = Some (Ptr false nx)) as G1. { rewrite <- Eb in *. rewrite <- G0. rewrite Eb. by apply get_frame, N3. }
      unfold next_of. rewrite G1. cbn [mbind option_bind c_ptr].
      destruct (set_some h1 b 0 (Ptr false nx) _ N2) as (h2 & E2 & F2 & G2); [rewrite replicate_length; lia|]. rewrite E2. cbn [mbind option_bind].
      assert (m_get h2 (Some (b0, 0)) = Some (Ptr false nx)) as G1' by (rewrite <- G1; by apply get_frame, F2).
      destruct (get_block _ _ _ _ G1') as (c0 & Ec0 & Hc0).
      destruct (set_some h2 b0 0 (Ptr false (Some (b, 0))) _ Ec0 Hc0) as (h3 & E3 & F3 & G3). rewrite E3. cbn [mbind option_bind].
      assert (h !! b0 = Some c0) as Ec. { rewrite <- Ec0, F2, N3; done. }
      assert (h3 !! b = Some (<[0:=Ptr false nx]> (replicate (e + 1) Uninit))) as G4 by (rewrite F3 by done; done).
      assert (forall x, x <> b -> x <> b0 -> h3 !! x = h !! x) as HF. { intros x Hx Hx'. rewrite F3, F2, N3; done. }
      eexists h3, p, _, (b0 :: b :: bs). split; [done|]. split_and!.
      * split_and!.
        -- intros x Hx Hx'. apply HF; intros ->; apply Hx'; [right; left|left].
        -- intros x Hx. apply elem_of_cons in Hx as [->|Hx]; [left; left|]. apply elem_of_cons in Hx as [->|Hx]; [by right|]. left. by right.
        -- intros x Hx Hx'. destruct Hx'. apply elem_of_cons in Hx as [->|Hx]; [left|right; by right].
      * apply NoDup_cons in H2 as [Hb0 H2]. split; cbn [vallocs vsmall]; try done.
        -- rewrite Eb. split; [done|]. exists (Some (b, 0)). split; [by apply (get_set h2)|]. split; [done|]. exists nx. split.
           ++ rewrite (get_frame h2) by (by apply F3). by apply (get_set h1).
           ++ eapply links_frame; [|exact L0]. intros x Hx. apply get_frame, HF; intros ->; [apply Hbb; by right|done].
        -- constructor; [|constructor; [|done]].
           ++ intros Hin. apply elem_of_cons in Hin as [->|?]; [done|done].
           ++ intros Hin. apply Hbb. by right.
        -- intros Hlt. destruct (H4 Hlt) as (K0 & b1 & c1 & K1 & K2 & K3). split; [done|]. injection K1 as <-. eexists b0, _. split_and!; [done|exact G3|].
           rewrite insert_length. rewrite Ec in K2. by injection K2 as ->.
        -- intros Hs x y Hx Ey. apply andb_true_iff in Hs as [Hs1 Hs2]. apply Nat.leb_le in Hs2. apply elem_of_cons in Hx as [->|Hx].
           ++ rewrite G3 in Ey. injection Ey as <-. rewrite insert_length. eapply H5; [done|left|done].
           ++ apply elem_of_cons in Hx as [->|Hx].
              ** rewrite G4 in Ey. injection Ey as <-. rewrite insert_length, replicate_length. lia.
              ** rewrite HF in Ey; [by eapply H5; [|right|]| |]; intros ->; [apply Hbb; by right|done].
        -- eapply Forall2_impl; [exact H6|]. intros qn vs Hh. eapply hand_mono; try done.
           ++ intros x Hx. apply elem_of_cons in Hx as [->|Hx]; [left|right; by right].
           ++ intros x o Hx Ho. destruct (decide (x = b0)) as [->|Hx0].
              ** rewrite (get_set_ne _ _ _ _ _ E3) by (intros E; injection E; lia). apply get_frame. rewrite F2, N3; done.
              ** apply get_frame, HF; [|done]. intros ->. by apply Hbb.
           ++ intros x y Hx Ey. destruct (decide (x = b0)) as [->|Hx0].
              ** eexists. split; [exact G3|]. rewrite insert_length. rewrite Ec in Ey. by injection Ey as ->.
              ** exists y. split; [|done]. rewrite HF; [done| |done]. intros ->. by apply Hbb.
      * right. exists b, 1, (<[0 := Ptr false nx]> (replicate (e + 1) Uninit)). split_and!; [done|right; left|lia|done|rewrite insert_length, replicate_length; lia| |].
        -- intros _ Hh. injection Hh as Hh. congruence.
        -- intros o' n' Hin. apply elem_of_list_lookup in Hin as [k Hk]. destruct (Forall2_lookup_l _ _ _ _ _ H6 Hk) as (vs & _ & Hh).
           destruct (decide (n' = 0)); [by left|]. by apply hand_live in Hh.
  - destruct (Nat.leb_spec e ME); [|lia]. cbn [orb]. rewrite andb_true_r. destruct (Nat.ltb_spec BU (nextUnit p + e)) as [Hfull|Hroom].
    + pose proof (new_lookup h BU) as HN. destruct (m_new alloc h BU) as [h1 b]. destruct HN as (N1 & N2 & N3).
      assert (b ∉ bs) as Hbb. { intros Hb. by apply (links_live _ _ _ _ H1 Hb). }
      destruct (set_some h1 b 0 (Ptr false (blockList p)) _ N2) as (h2 & E2 & F2 & G2); [rewrite replicate_length; lia|]. rewrite E2. cbn [mbind option_bind].
      destruct (Nat.leb_spec (1 + e) BU); [|lia]. cbn [mbind option_bind]. cbn [blockList nextUnit].
      assert (forall x, x ∈ bs -> h2 !! x = h !! x) as HF. { intros x Hx. rewrite F2, N3; try done; by intros ->. }
      eexists h2, _, _, (b :: bs). split; [done|]. split_and!.
      * split_and!.
        -- intros x Hx Hx'. rewrite F2, N3; try done; intros ->; apply Hx'; left.
        -- intros x Hx. apply elem_of_cons in Hx as [->|Hx]; [by right|by left].
        -- intros x Hx Hx'. destruct Hx'. by right.
      * split; cbn [blockList nextUnit vallocs vsmall]; try done.
        -- split; [done|]. exists (blockList p). split; [by apply (get_set h1)|]. eapply links_frame; [|exact H1]. intros x Hx. by apply get_frame, HF.
        -- by constructor.
        -- intros _. split; [lia|]. eexists b, _. split_and!; [done|exact G2|]. by rewrite insert_length, replicate_length.
        -- intros Hs x y Hx Ey. apply elem_of_cons in Hx as [->|Hx].
           ++ rewrite G2 in Ey. injection Ey as <-. by rewrite insert_length, replicate_length.
           ++ rewrite HF in Ey by done. by eapply H5.
        -- eapply Forall2_impl; [exact H6|]. intros qn vs Hh. eapply hand_mono; try done.
           ++ intros x Hx. by right.
           ++ intros x o Hx Ho. by apply get_frame, HF.
           ++ intros x y Hx Ey. exists y. by rewrite HF.
           ++ intros x _ Hh' Hx. injection Hh' as <-. done.
      * right. exists b, 1, (<[0 := Ptr false (blockList p)]> (replicate BU Uninit)). cbn [nextUnit]. split_and!; [done|left|lia|done|rewrite insert_length, replicate_length; lia|lia|].
        intros o' n' Hin. apply elem_of_list_lookup in Hin as [k Hk]. destruct (Forall2_lookup_l _ _ _ _ _ H6 Hk) as (vs & _ & Hh).
        destruct (decide (n' = 0)); [by left|]. by apply hand_live in Hh.
    + cbn [mbind option_bind]. eexists h, _, _, bs. split; [done|]. split_and!.
      * apply touched_refl.
      * split; cbn [blockList nextUnit vallocs vsmall]; try done.
        -- intros Hlt. destruct (H4 ltac:(lia)) as (K0 & K1). split; [lia|done].
        -- eapply Forall2_impl; [exact H6|]. intros qn vs Hh. eapply hand_mono; try done.
           ++ intros x y Hx Ey. by exists y.
           ++ cbn [nextUnit]. intros x Hlt Hh' Hx. split_and!; [lia|done|lia].
      * destruct (decide (e = 0)) as [->|He]; [by left|]. right. destruct (H4 ltac:(lia)) as (K0 & b & c & K1 & K2 & K3).
        destruct bs as [|b' bs]; [done|]. injection K1 as ->. destruct H1 as (Eb & _). rewrite Eb. cbn [p_add mbind option_bind nextUnit].
        exists b, (nextUnit p), c. rewrite Nat.add_0_l. split_and!; [done|left|lia|done|lia|done|].
        intros o' n' Hin. apply elem_of_list_lookup in Hin as [k Hk]. destruct (Forall2_lookup_l _ _ _ _ _ H6 Hk) as (vs & _ & (A1 & A2 & A3)). cbn [fst snd] in *.
        destruct A3 as [->|(b1 & o1 & c1 & Eq & _ & _ & _ & _ & Hn)]; [by left|]. injection Eq as <- <-. specialize (Hn ltac:(lia) eq_refl). lia.
Qed.
Lemma blocks_size h b bs : links h b bs -> NoDup bs -> length bs <= size h.
Proof.
  intros Hl Hn. rewrite <- (size_dom (D := gset nat)), <- (size_list_to_set (C := gset nat) bs) by done. apply subseteq_size. intros x Hx.
  apply elem_of_list_to_set in Hx. apply elem_of_dom. destruct (links_block _ _ _ _ Hl Hx) as (c & E & _). by exists c.
Qed.
Lemma clear_loop_ok fuel h b bs : links h b bs -> NoDup bs -> length bs <= fuel ->
  exists h', clear_loop fuel h b = Some h' /\ (forall x, x ∈ bs -> h' !! x = None) /\ (forall x, x ∉ bs -> h' !! x = h !! x).
Proof.
  revert h b bs. induction fuel as [|f IH]; intros h b bs Hl Hn Hf.
  - destruct bs; [|cbn in Hf; lia]. cbn in Hl. subst b. exists h. split_and!; try done. intros x Hx. by apply elem_of_nil in Hx.
  - destruct bs as [|y bs].
    + cbn in Hl. subst b. exists h. split_and!; try done. intros x Hx. by apply elem_of_nil in Hx.
    + destruct Hl as (-> & nx & E & Hl). cbn [clear_loop]. unfold next_of. rewrite E. cbn [mbind option_bind c_ptr].
      destruct (get_block _ _ _ _ E) as (c & Ec & _). unfold m_del. rewrite Ec. cbn [mbind option_bind]. apply NoDup_cons in Hn as [Hy Hn].
      destruct (IH (delete y h) nx bs) as (h' & E' & A1 & A2); [|done|cbn in Hf; lia|].
      { eapply links_frame; [|exact Hl]. intros x Hx. apply get_frame. rewrite lookup_delete_ne; [done|by intros ->]. }
      exists h'. split_and!; [done| |].
      * intros x Hx. apply elem_of_cons in Hx as [->|Hx]; [|by apply A1]. rewrite A2 by done. apply lookup_delete.
      * intros x Hx. apply not_elem_of_cons in Hx as [Hx1 Hx2]. rewrite A2 by done. by rewrite lookup_delete_ne.
Qed.
Lemma reuse_loop_ok fuel h b bs : links h b bs -> NoDup bs -> bs <> [] -> length bs <= fuel ->
  exists h' l, reuse_loop fuel h b = Some (h', Some (l, 0)) /\ l ∈ bs /\ m_get h (Some (l, 0)) = Some (Ptr false None) /\
    (forall x, x ∈ bs -> x <> l -> h' !! x = None) /\ h' !! l = h !! l /\ (forall x, x ∉ bs -> h' !! x = h !! x).
Proof.
  revert h b bs. induction fuel as [|f IH]; intros h b bs Hl Hn Hne Hf; [destruct bs; [done|cbn in Hf; lia]|].
  destruct bs as [|y bs]; [done|]. destruct Hl as (-> & nx & E & Hl). cbn [reuse_loop]. unfold next_of. rewrite E. cbn [mbind option_bind c_ptr].
  apply NoDup_cons in Hn as [Hy Hn]. destruct bs as [|z bs].
  - cbn in Hl. subst nx. exists h, y. split_and!; try done; [left|]. intros x Hx Hx'. by apply elem_of_list_singleton in Hx.
  - pose proof (links_head _ _ _ Hl) as Ez. cbn in Ez. subst nx.
    destruct (get_block _ _ _ _ E) as (c & Ec & _). unfold m_del. rewrite Ec. cbn [mbind option_bind].
    assert (forall x, x ∈ z :: bs -> delete y h !! x = h !! x) as HF. { intros x Hx. rewrite lookup_delete_ne; [done|by intros ->]. }
    destruct (IH (delete y h) (Some (z, 0)) (z :: bs)) as (h' & l & E' & A1 & A2 & A3 & A4 & A5); [|done|done|cbn in *; lia|].
    { eapply links_frame; [|exact Hl]. intros x Hx. by apply get_frame, HF. }
    exists h', l. split_and!; [done|by right| | | |].
    + rewrite <- A2. symmetry. by apply get_frame, HF.
    + intros x Hx Hxl. apply elem_of_cons in Hx as [->|Hx]; [|by apply A3]. rewrite A5 by done. apply lookup_delete.
    + rewrite A4. by apply HF.
    + intros x Hx. apply not_elem_of_cons in Hx as [Hx1 Hx2]. rewrite A5 by done. by rewrite lookup_delete_ne.
Qed.
Lemma rear_loop_ok fuel h b bs : links h b bs -> bs <> [] -> length bs <= fuel ->
  exists l bs0, rear_loop fuel h b = Some (Some (l, 0)) /\ bs = bs0 ++ [l] /\
    forall h' q bs2, (forall x, x ∈ bs0 -> m_get h' (Some (x, 0)) = m_get h (Some (x, 0))) -> m_get h' (Some (l, 0)) = Some (Ptr false q) -> links h' q bs2 -> links h' b (bs ++ bs2).
Proof.
  revert b bs. induction fuel as [|f IH]; intros b bs Hl Hne Hf; [destruct bs; [done|cbn in Hf; lia]|].
  destruct bs as [|y bs]; [done|]. destruct Hl as (-> & nx & E & Hl). cbn [rear_loop]. unfold next_of. rewrite E. cbn [mbind option_bind c_ptr].
  destruct bs as [|z bs].
  - cbn in Hl. subst nx. exists y, []. split_and!; try done. intros h' q bs2 _ Hq Hl2. split; [done|]. by exists q.
  - pose proof (links_head _ _ _ Hl) as Ez. cbn in Ez. subst nx.
    destruct (IH (Some (z, 0)) (z :: bs) Hl ltac:(done)) as (l & bs0 & E' & A1 & A2); [cbn in *; lia|].
    exists l, (y :: bs0). split_and!; [done|by rewrite A1|]. intros h' q bs2 Hf2 Hq Hl2. split; [done|]. exists (Some (z, 0)). split; [rewrite Hf2 by left; done|].
    apply (A2 h' q bs2); try done. intros x Hx. apply Hf2. by right.
Qed.

(** ** operations on one pool *)
Lemma pool0_inv h sm : pinv h (pool0 BU) (VPool [] sm) [] [].
Proof.
  split; [done|apply NoDup_nil_2|cbn; lia|cbn; lia| |by constructor|].
  - intros _ b c Hb. by apply elem_of_nil in Hb.
  - intros i j b o n o' n' _ Hi. done.
Qed.
Lemma clear_ok h p v hs bs : pinv h p v hs bs -> exists h', pool_clear BU h p = Some (h', pool0 BU) /\ touched h h' bs [].
Proof.
  intros [H1 H2 _ _ _ _ _]. destruct (clear_loop_ok (S (size h)) h (blockList p) bs H1 H2) as (h' & E & A1 & A2); [pose proof (blocks_size _ _ _ H1 H2); lia|].
  exists h'. unfold pool_clear. rewrite E. split; [done|]. split_and!.
  - intros b Hb _. by apply A2.
  - intros b Hb. by apply elem_of_nil in Hb.
  - intros b Hb _. by apply A1.
Qed.
Lemma reuse_ok h p v hs bs : pinv h p v hs bs -> vsmall v = true ->
  exists h' p' bs', pool_reuse h p = Some (h', p') /\ touched h h' bs bs' /\ pinv h' p' (VPool [] true) [] bs'.
Proof.
  intros HI Hs. pose proof HI as [H1 H2 H3 H4 H5 H6 H7]. unfold pool_reuse. destruct bs as [|b bs].
  - cbn in H1. rewrite H1. exists h, p, []. split_and!; try done; [apply touched_refl|].
    assert (nextUnit p = BU) as Hnu. { destruct (decide (nextUnit p < BU)) as [Hlt|]; [|lia]. by destruct (H4 Hlt) as (_ & ? & ? & ? & _). }
    pose proof (pool0_inv h true) as H0. destruct p as [bl nu]. cbn in *. subst. done.
  - pose proof H1 as (Eb & _). rewrite Eb. rewrite <- Eb.
    destruct (reuse_loop_ok (S (size h)) h (blockList p) (b :: bs) H1 H2 ltac:(done)) as (h' & l & E & A1 & A2 & A3 & A4 & A5); [pose proof (blocks_size _ _ _ H1 H2); lia|].
    rewrite E. cbn [mbind option_bind]. eexists h', _, [l]. split_and!; [done| |].
    + split_and!.
      * intros x Hx _. by apply A5.
      * intros x ->%elem_of_list_singleton. by left.
      * intros x Hx Hx'. apply A3; [done|]. intros ->. apply Hx'. left.
    + destruct (links_block _ _ _ _ H1 A1) as (c & Ec & _). pose proof (H5 Hs l c A1 Ec) as Hc. split; cbn; try done; try lia.
      * split; [done|]. exists None. split; [|done]. rewrite <- A2. by apply get_frame.
      * apply NoDup_singleton.
      * intros _. split; [lia|]. exists l, c. by rewrite A4.
      * intros _ x y ->%elem_of_list_singleton Ey. rewrite A4, Ec in Ey. by injection Ey as <-.
Qed.
Lemma splice_ok h p v hs bs o v' hs' bs' : pinv h p v hs bs -> pinv h o v' hs' bs' -> (forall x, x ∈ bs -> x ∉ bs') ->
  exists h' p', pool_splice BU h p o = Some (h', p', pool0 BU) /\ (forall x, x ∉ bs' -> h' !! x = h !! x) /\
    pinv h' p' (VPool (vallocs v ++ vallocs v') (vsmall v && vsmall v')) (hs ++ hs') (bs' ++ bs).
Proof.
  intros [H1 H2 H3 H4 H5 H6 H7] [G1 G2 G3 G4 G5 G6 G7] Hd.
  assert (exists h' l, (match blockList p with
              | None => Some (h, blockList o)
              | Some _ => match blockList o with
                          | None => Some (h, blockList p)
                          | Some _ => r ← rear_loop (S (size h)) h (blockList o); h' ← m_set h r (Ptr false (blockList p)); Some (h', blockList o)
                          end
              end) = Some (h', l) /\ links h' l (bs' ++ bs) /\ (forall x, x ∉ bs' -> h' !! x = h !! x) /\ sizes h h' /\
              (forall b k, 1 <= k -> m_get h' (Some (b, k)) = m_get h (Some (b, k)))) as (h' & l & E & B1 & B2 & B3 & B4).
  { destruct bs as [|b bs].
    - cbn in H1. rewrite H1, app_nil_r. eexists _, _. split_and!; try done.
    - destruct bs' as [|b' bs'].
      + cbn in G1. pose proof H1 as (Eb & _). rewrite Eb. rewrite <- Eb. rewrite G1. eexists _, _. split_and!; try done.
      + pose proof H1 as (Eb & _). pose proof G1 as (Eb' & _).
        destruct (rear_loop_ok (S (size h)) h (blockList o) (b' :: bs') G1 ltac:(done)) as (l & bs0 & E & A1 & A2); [pose proof (blocks_size _ _ _ G1 G2); lia|].
        destruct (links_block h _ _ l G1) as (c & Ec & Hc); [rewrite A1; apply elem_of_app; right; left|].
        destruct (set_some h l 0 (Ptr false (blockList p)) c Ec Hc) as (h' & Es & F1 & F2).
        assert (h' !! l = Some (<[0:=Ptr false (blockList p)]> c)) as F2' by exact F2.
        exists h', (blockList o). rewrite Eb at 1. rewrite Eb' at 1. split.
        { rewrite E. cbn [mbind option_bind]. rewrite Es. done. }
        assert (l ∉ bs0) as Hl0. { rewrite A1 in G2. apply NoDup_app in G2 as (_ & Hx & _). intros Hin. apply (Hx l Hin). left. }
        assert (l ∈ b' :: bs') as Hlin by (rewrite A1; apply elem_of_app; right; left).
        split_and!.
        * apply (A2 h' (blockList p)).
          -- intros x Hx. apply get_frame, F1. by intros ->.
          -- by apply (get_set h).
          -- eapply links_frame; [|exact H1]. intros x Hx. apply get_frame, F1. intros ->. by apply (Hd l).
        * intros x Hx. apply F1. by intros ->.
        * by eapply set_sizes.
        * intros x k Hk. eapply get_set_ne; [exact Es|]. intros Ex. injection Ex. lia. }
  exists h', (Pool l (nextUnit o)). unfold pool_splice. rewrite E. cbn [mbind option_bind]. split_and!; try done.
  assert (forall b c, h !! b = Some c -> exists c', h' !! b = Some c' /\ length c' = length c) as S1.
  { intros b c Eb. specialize (B3 b). rewrite Eb in B3. destruct (h' !! b) as [c'|]; [|done]. injection B3 as B3. by exists c'. }
  assert (forall b c', h' !! b = Some c' -> exists c, h !! b = Some c /\ length c' = length c) as S2.
  { intros b c' Eb. specialize (B3 b). rewrite Eb in B3. destruct (h !! b) as [c|]; [|done]. injection B3 as B3. by exists c. }
  split; cbn [blockList nextUnit vallocs vsmall]; try done.
  - apply NoDup_app. split_and!; try done. intros x Hx Hx'. by apply (Hd x).
  - intros Hlt. destruct (G4 Hlt) as (K0 & b & c & K1 & K2 & K3). split; [done|]. destruct (S1 b c K2) as (c' & K4 & K5). exists b, c'. split_and!; [by destruct bs'|done|lia].
  - intros Hs b c Hb Ec. apply andb_true_iff in Hs as [Hs1 Hs2]. destruct (S2 b c Ec) as (c0 & Ec0 & ->). apply elem_of_app in Hb as [Hb|Hb]; [by eapply G5|by eapply H5].
  - apply Forall2_app.
    + eapply Forall2_impl; [exact H6|]. intros qn vs Hh. eapply hand_mono; try done.
      * intros b Hb. apply elem_of_app. by right.
      * intros b k _ Hk. by apply B4.
      * intros b c _ Eb. by apply S1.
      * cbn [nextUnit]. intros b Hlt Hhd Hb. destruct bs' as [|b' bs'].
        -- exfalso. by destruct (G4 Hlt) as (_ & ? & ? & ? & _).
        -- injection Hhd as ->. destruct (Hd b Hb). left.
    + eapply Forall2_impl; [exact G6|]. intros qn vs Hh. eapply hand_mono; try done.
      * intros b Hb. apply elem_of_app. by left.
      * intros b k _ Hk. by apply B4.
      * intros b c _ Eb. by apply S1.
      * cbn [nextUnit]. intros b Hlt Hhd Hb. destruct bs' as [|b' bs']; [by apply elem_of_nil in Hb|]. done.
  - intros i j b k n k' n' Hij Hi Hj.
    assert (forall i k n, hs !! i = Some (Some (b, k), n) -> n = 0 \/ b ∈ bs) as X1.
    { intros i0 k0 n0 Hi0. destruct (Forall2_lookup_l _ _ _ _ _ H6 Hi0) as (vs & _ & Hh). destruct (decide (n0 = 0)); [by left|]. right. by eapply hand_live. }
    assert (forall i k n, hs' !! i = Some (Some (b, k), n) -> n = 0 \/ b ∈ bs') as X2.
    { intros i0 k0 n0 Hi0. destruct (Forall2_lookup_l _ _ _ _ _ G6 Hi0) as (vs & _ & Hh). destruct (decide (n0 = 0)); [by left|]. right. by eapply hand_live. }
    apply lookup_app_Some in Hi as [Hi|[Hi Hi']], Hj as [Hj|[Hj Hj']].
    + by eapply H7.
    + destruct (X1 _ _ _ Hi) as [?|Y1]; [by left|]. destruct (X2 _ _ _ Hj') as [?|Y2]; [right; by left|]. by destruct (Hd b).
    + destruct (X2 _ _ _ Hi') as [?|Y1]; [by left|]. destruct (X1 _ _ _ Hj) as [?|Y2]; [right; by left|]. by destruct (Hd b).
    + eapply G7; [|done|done]. lia.
Qed.

(** ** the whole world *)
Definition winv (w : pworld) (m : vpools) : Prop :=
  exists blk : nat -> list nat,
    (forall x, match pools w !! x, m !! x with
               | Some (p, hs), Some v => pinv (pmem w) p v hs (blk x)
               | None, None => blk x = []
               | _, _ => False end) /\
    (forall x y b, x <> y -> b ∈ blk x -> b ∉ blk y) /\
    (forall b c, pmem w !! b = Some c -> exists x, b ∈ blk x).
Definition upd (blk : nat -> list nat) (x : nat) (bs : list nat) : nat -> list nat := fun y => if decide (y = x) then bs else blk y.
Lemma winv_none (w : pworld) (m : vpools) (blk : nat -> list nat) x : (forall x, match pools w !! x, m !! x with Some (p, hs), Some v => pinv (pmem w) p v hs (blk x) | None, None => blk x = [] | _, _ => False end) ->
  m !! x = None -> pools w !! x = None /\ blk x = [].
Proof. intros H E. specialize (H x). rewrite E in H. by destruct (pools w !! x) as [[]|]. Qed.
Lemma winv_some (w : pworld) (m : vpools) (blk : nat -> list nat) x v : (forall x, match pools w !! x, m !! x with Some (p, hs), Some v => pinv (pmem w) p v hs (blk x) | None, None => blk x = [] | _, _ => False end) ->
  m !! x = Some v -> exists p hs, pools w !! x = Some (p, hs) /\ pinv (pmem w) p v hs (blk x).
Proof. intros H E. specialize (H x). rewrite E in H. destruct (pools w !! x) as [[p hs]|]; [|done]. by exists p, hs. Qed.
(** replacing what belongs to one pool *)
Lemma winv_upd (w : pworld) (m : vpools) (blk : nat -> list nat) x (h' : mem) bs' (P' : gmap nat (pool * list (ptr * nat))) (M' : vpools) :
  (forall x, match pools w !! x, m !! x with Some (p, hs), Some v => pinv (pmem w) p v hs (blk x) | None, None => blk x = [] | _, _ => False end) ->
  (forall x y b, x <> y -> b ∈ blk x -> b ∉ blk y) -> (forall b c, pmem w !! b = Some c -> exists x, b ∈ blk x) ->
  touched (pmem w) h' (blk x) bs' ->
  (forall y, y <> x -> P' !! y = pools w !! y) -> (forall y, y <> x -> M' !! y = m !! y) ->
  match P' !! x, M' !! x with Some (p, hs), Some v => pinv h' p v hs bs' | None, None => bs' = [] | _, _ => False end ->
  winv (PWorld h' P') M'.
Proof.
  intros W1 W2 W3 (T1 & T2 & T3) HP HM Hx. exists (upd blk x bs'). cbn [pmem pools].
  assert (forall y b, y <> x -> b ∈ blk y -> b ∉ bs') as Hdis.
  { intros y b Hy Hb Hb'. destruct (T2 b Hb') as [Hb''|Hn]; [by apply (W2 y x b)|]. specialize (W1 y). destruct (pools w !! y) as [[p hs]|] eqn:E1, (m !! y) eqn:E2; try done.
    - apply (links_live _ _ _ _ (i_links _ _ _ _ _ W1) Hb). done.
    - rewrite W1 in Hb. by apply elem_of_nil in Hb. }
  split_and!.
  - intros y. unfold upd. destruct (decide (y = x)) as [->|Hne]; [done|]. rewrite HP, HM by done. specialize (W1 y).
    destruct (pools w !! y) as [[p hs]|], (m !! y); try done. eapply pinv_frame; [|exact W1]. intros b Hb. apply T1; [by apply (W2 y x b)|by apply (Hdis y)].
  - intros y z b Hyz. unfold upd. destruct (decide (y = x)) as [->|Hy], (decide (z = x)) as [->|Hz]; try done.
    + intros Hb Hb'. by apply (Hdis z b).
    + intros Hb. by apply (Hdis y b).
    + by apply W2.
  - intros b c Eb. destruct (decide (b ∈ bs')) as [Hb|Hb].
    + exists x. unfold upd. by rewrite decide_True.
    + destruct (decide (b ∈ blk x)) as [Hb'|Hb']; [by rewrite T3 in Eb|]. rewrite T1 in Eb by done. destruct (W3 b c Eb) as [y Hy]. exists y. unfold upd. rewrite decide_False; [done|by intros ->].
Qed.

Lemma exec_ok w m c m' : winv w m -> pv_exec BU ME m c = Some m' -> exists w', pexec BU ME alloc w c = Some w' /\ winv w' m'.
Proof.
  intros (blk & W1 & W2 & W3). destruct c as [x|x n vs|x k vs|x|x|x y|x y|x]; cbn [pv_exec pexec].
  - destruct (m !! x) as [v|] eqn:Ex; [done|]. intros E. injection E as <-. destruct (winv_none _ _ _ _ W1 Ex) as [-> Hb].
    eexists. split; [done|]. apply (winv_upd w m blk x (pmem w) []); try done.
    + rewrite Hb. apply touched_refl.
    + intros y Hy. by rewrite lookup_insert_ne.
    + intros y Hy. by rewrite lookup_insert_ne.
    + rewrite !lookup_insert. apply pool0_inv.
  - change ((n + 7) / 8) with (units n). destruct (m !! x) as [v|] eqn:Ex; [|done]. cbn [mbind option_bind]. destruct (Nat.leb_spec (length vs) (units n)) as [Hl|]; [|done]. intros E. injection E as <-.
    destruct (winv_some _ _ _ _ _ W1 Ex) as (p & hs & -> & HI). cbn [mbind option_bind].
    destruct (alloc_ok _ _ _ _ _ n HI) as (h1 & p1 & q & bs' & -> & T & HI1 & HR). cbn [mbind option_bind].
    destruct (fill_ok _ _ _ _ _ _ _ _ vs HI1 (region_le _ _ _ _ _ _ _ HR Hl) eq_refl) as (h2 & -> & F & HI2). cbn [mbind option_bind]. eexists. split; [done|].
    apply (winv_upd w m blk x h2 bs'); try done.
    + by eapply touched_set.
    + intros y Hy. by rewrite lookup_insert_ne.
    + intros y Hy. by rewrite lookup_insert_ne.
    + rewrite !lookup_insert. exact HI2.
  - destruct (m !! x) as [v|] eqn:Ex; [|done]. cbn [mbind option_bind]. destruct (vallocs v !! k) as [old|] eqn:Ek; [|done]. cbn [mbind option_bind].
    destruct (Nat.eqb_spec (length vs) (length old)) as [Hl|]; [|done]. intros E. injection E as <-.
    destruct (winv_some _ _ _ _ _ W1 Ex) as (p & hs & Ep & HI). rewrite Ep. cbn [mbind option_bind].
    destruct (Forall2_lookup_r _ _ _ _ _ (i_hands _ _ _ _ _ HI) Ek) as ([q n] & Hk & _). rewrite Hk. cbn [mbind option_bind].
    destruct v as [va vsm]. destruct (overwrite_ok _ _ _ _ _ _ k q n vs old HI Hk Ek Hl) as (h2 & -> & F & HI2). cbn [mbind option_bind]. eexists. split; [done|].
    apply (winv_upd w m blk x h2 (blk x)); try done.
    + eapply touched_set; [apply touched_refl|done].
    + intros y Hy. by rewrite lookup_insert_ne.
    + rewrite lookup_insert, Ep. exact HI2.
  - destruct (m !! x) as [v|] eqn:Ex; [|done]. cbn [mbind option_bind]. intros E. injection E as <-.
    destruct (winv_some _ _ _ _ _ W1 Ex) as (p & hs & -> & HI). cbn [mbind option_bind].
    destruct (clear_ok _ _ _ _ _ HI) as (h1 & -> & T). cbn [mbind option_bind]. eexists. split; [done|].
    apply (winv_upd w m blk x h1 []); try done.
    + intros y Hy. by rewrite lookup_insert_ne.
    + intros y Hy. by rewrite lookup_insert_ne.
    + rewrite !lookup_insert. apply pool0_inv.
  - destruct (m !! x) as [v|] eqn:Ex; [|done]. cbn [mbind option_bind]. destruct (vsmall v) eqn:Es; [|done]. intros E. injection E as <-.
    destruct (winv_some _ _ _ _ _ W1 Ex) as (p & hs & -> & HI). cbn [mbind option_bind].
    destruct (reuse_ok _ _ _ _ _ HI Es) as (h1 & p1 & bs' & -> & T & HI1). cbn [mbind option_bind]. eexists. split; [done|].
    apply (winv_upd w m blk x h1 bs'); try done.
    + intros y Hy. by rewrite lookup_insert_ne.
    + intros y Hy. by rewrite lookup_insert_ne.
    + by rewrite !lookup_insert.
  - destruct (Nat.eqb_spec x y) as [|Hxy]; [done|]. destruct (m !! x) as [v|] eqn:Ex; [|done]. cbn [mbind option_bind]. destruct (m !! y) as [v'|] eqn:Ey; [|done]. cbn [mbind option_bind]. intros E. injection E as <-.
    destruct (winv_some _ _ _ _ _ W1 Ex) as (p & hs & -> & HI). cbn [mbind option_bind]. destruct (winv_some _ _ _ _ _ W1 Ey) as (o & hs' & -> & HI'). cbn [mbind option_bind].
    destruct (splice_ok _ _ _ _ _ _ _ _ _ HI HI') as (h1 & p1 & -> & F & HI1); [intros b Hb; by apply (W2 x y)|]. cbn [mbind option_bind]. eexists. split; [done|].
    exists (upd (upd blk x (blk y ++ blk x)) y []). cbn [pmem pools]. split_and!.
    + intros z. unfold upd. destruct (decide (z = y)) as [->|Hz]; [rewrite !lookup_insert; apply pool0_inv|]. rewrite !(lookup_insert_ne _ y z) by done.
      destruct (decide (z = x)) as [->|Hz']; [by rewrite !lookup_insert|]. rewrite !lookup_insert_ne by done. specialize (W1 z).
      destruct (pools w !! z) as [[? ?]|], (m !! z); try done. eapply pinv_frame; [|exact W1]. intros b Hb. apply F. by apply (W2 z y).
    + intros z z' b Hzz. unfold upd. destruct (decide (z = y)) as [->|Hz]; [intros Hb; by apply elem_of_nil in Hb|].
      destruct (decide (z' = y)) as [->|Hz']; [intros _ Hb; by apply elem_of_nil in Hb|].
      destruct (decide (z = x)) as [->|Hzx], (decide (z' = x)) as [->|Hzx']; try done.
      * intros Hb. apply elem_of_app in Hb as [Hb|Hb]; [by apply (W2 y z')|by apply (W2 x z')].
      * intros Hb Hb'. apply elem_of_app in Hb' as [Hb'|Hb']; [by apply (W2 z y b)|by apply (W2 z x b)].
      * by apply W2.
    + intros b c Eb. destruct (decide (b ∈ blk y)) as [Hb|Hb].
      * exists x. unfold upd. rewrite decide_False by done. rewrite decide_True by done. apply elem_of_app. by left.
      * rewrite F in Eb by done. destruct (W3 b c Eb) as [z Hz]. destruct (decide (z = x)) as [->|Hzx].
        -- exists x. unfold upd. rewrite decide_False by done. rewrite decide_True by done. apply elem_of_app. by right.
        -- exists z. unfold upd. rewrite decide_False by (by intros ->). by rewrite decide_False.
  - destruct (m !! x) as [v|] eqn:Ex; [|done]. cbn [mbind option_bind]. destruct (m !! y) as [v'|] eqn:Ey; [done|]. intros E. injection E as <-.
    destruct (winv_some _ _ _ _ _ W1 Ex) as (p & hs & Epx & HI). rewrite Epx. cbn [mbind option_bind]. destruct (winv_none _ _ _ _ W1 Ey) as [Epy Hby]. rewrite Epy. eexists. split; [done|].
    assert (x <> y) as Hxy by congruence.
    exists (upd (upd blk x []) y (blk x)). cbn [pmem pools]. split_and!.
    + intros z. unfold upd. destruct (decide (z = y)) as [->|Hz]; [rewrite !lookup_insert; by destruct p|]. rewrite !(lookup_insert_ne _ y z) by done.
      destruct (decide (z = x)) as [->|Hz']; [by rewrite !lookup_delete|]. rewrite !lookup_delete_ne by done. apply (W1 z).
    + intros z z' b Hzz. unfold upd. destruct (decide (z = y)) as [->|Hz], (decide (z' = y)) as [->|Hz']; try done.
      * destruct (decide (z' = x)) as [->|Hzx']; [intros _ Hb; by apply elem_of_nil in Hb|]. by apply W2.
      * destruct (decide (z = x)) as [->|Hzx]; [intros Hb; by apply elem_of_nil in Hb|]. by apply W2.
      * destruct (decide (z = x)) as [->|Hzx]; [intros Hb; by apply elem_of_nil in Hb|]. destruct (decide (z' = x)) as [->|Hzx']; [intros _ Hb; by apply elem_of_nil in Hb|]. by apply W2.
    + intros b c Eb. destruct (W3 b c Eb) as [z Hz]. destruct (decide (z = x)) as [->|Hzx].
      * exists y. unfold upd. by rewrite decide_True.
      * exists z. unfold upd. destruct (decide (z = y)) as [->|]; [rewrite Hby in Hz; by apply elem_of_nil in Hz|]. by rewrite decide_False.
  - destruct (m !! x) as [v|] eqn:Ex; [|done]. cbn [mbind option_bind]. intros E. injection E as <-.
    destruct (winv_some _ _ _ _ _ W1 Ex) as (p & hs & -> & HI). cbn [mbind option_bind].
    destruct (clear_ok _ _ _ _ _ HI) as (h1 & -> & T). cbn [mbind option_bind]. eexists. split; [done|].
    apply (winv_upd w m blk x h1 []); try done.
    + intros y Hy. by rewrite lookup_delete_ne.
    + intros y Hy. by rewrite lookup_delete_ne.
    + by rewrite !lookup_delete.
Qed.
Lemma winv0 : winv pworld0 ∅.
Proof.
  exists (fun _ => []). split_and!; cbn.
  - intros x. by rewrite !lookup_empty.
  - intros x y b _ Hb. by apply elem_of_nil in Hb.
  - intros b c E. by rewrite lookup_empty in E.
Qed.
Lemma exec_all_ok l : forall w m m', winv w m -> pv_run BU ME m l = Some m' -> exists w', pexec_all BU ME alloc w l = Some w' /\ winv w' m'.
Proof.
  induction l as [|c l IH]; intros w m m' HW; cbn [pv_run pexec_all].
  - intros E. injection E as <-. by exists w.
  - destruct (pv_exec BU ME m c) as [m1|] eqn:E1; [|done]. cbn [mbind option_bind]. intros E.
    destruct (exec_ok _ _ _ _ HW E1) as (w1 & -> & HW1). cbn [mbind option_bind]. by eapply IH.
Qed.
Lemma winv_view w m x : winv w m -> pview w x = vallocs <$> m !! x.
Proof.
  intros (blk & W1 & _). specialize (W1 x). unfold pview. destruct (pools w !! x) as [[p hs]|], (m !! x) as [v|]; try done. cbn [mbind option_bind fmap option_fmap option_map].
  apply mapM_Some_2. eapply Forall2_impl; [apply W1|]. intros [q n] vs (_ & A2 & _). exact A2.
Qed.
End pool.
