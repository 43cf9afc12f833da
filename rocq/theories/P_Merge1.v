(** Pass 1 of the builder with merge_states. *)
From Verif Require Import Base M_Table Tree M_Hash P_Hash M_Sweeper M_Engine P_Pass M_Merge.
Local Open Scope nat_scope.

Lemma ht_modify_weak {A} (u : htable A) slot y (f : A -> A) : ht_inv u -> ht_at u slot = Some y ->
  exists u', ht_modify u slot f = Some u' /\ ht_inv u' /\ hsize u' = hsize u /\ hmax u' = hmax u /\
    forall e, e ∈ ht_elems u' -> e = f y \/ e ∈ ht_elems u.
Proof.
  intros [Hc Hs Hm] Hat. unfold ht_at in Hat. unfold ht_modify.
  destruct (slots u !! slot) as [[z|]|] eqn:Hi; try done. inversion Hat; subst z.
  assert (exists l1 l2, ht_elems u = l1 ++ y :: l2 /\
    omap id (<[slot := Some (f y)]> (slots u)) = l1 ++ f y :: l2) as (l1 & l2 & E1 & E2).
  { unfold ht_elems. clear -Hi. revert slot Hi. generalize (slots u).
    induction l as [|o l IH]; intros i Hi; [done|]. destruct i as [|i]; simpl in Hi.
    - inversion Hi; subst. by exists [], (omap id l).
    - destruct (IH i Hi) as (l1 & l2 & E1 & E2).
      change (<[S i := Some (f y)]> (o :: l)) with (o :: <[i := Some (f y)]> l).
      destruct o as [z|]; simpl.
      + exists (z :: l1), l2. simpl. by rewrite <- E1, <- E2.
      + exists l1, l2. by rewrite <- E1, <- E2. }
  eexists. split; [done|]. split_and!; try done.
  - constructor; cbn [hsize hmax slots]; [|done|by rewrite insert_length].
    unfold ht_elems. cbn [slots]. rewrite E2, <- Hc, E1, !app_length. done.
  - intros e He. unfold ht_elems in He. cbn [slots] in He. rewrite E2 in He. rewrite E1.
    apply elem_of_app in He as [He|He]; [right; apply elem_of_app; by left|].
    apply elem_of_cons in He as [->|He]; [by left|right]. apply elem_of_app. right. by right.
Qed.

(** number of nodes created by the first entries *)
Definition nlive (ids : list nid) : nat := length (live ids).

Lemma nlive_app l l' : nlive (l ++ l') = nlive l + nlive l'.
Proof. unfold nlive, live. by rewrite List.filter_app, app_length. Qed.

Lemma nlive_ext l l' : map (fun f => neqb f n1) l = map (fun f => neqb f n1) l' -> nlive l = nlive l'.
Proof.
  revert l'. induction l as [|x l IH]; intros [|y l'] H; try done. simpl in H. inversion H as [[H1 H2]].
  specialize (IH l' H2). unfold nlive, live in *. simpl. rewrite H1. destruct (neqb y n1); simpl; by rewrite IH.
Qed.

Section pass1.
  Context {S : Type}.
  Context (hashf : nat -> S -> N) (eqbf : nat -> S -> S -> bool) (mrg : S -> S -> nat).
  Context (i : nat) (Hi : 0 < i) (RS : S -> Prop) (Tr : S -> tree).
  Context (H0 : forall s s', RS s -> RS s' -> eqbf i s s' = true -> mrg s s' <> 1 -> mrg s s' <> 2 -> Tr s = Tr s').
  Context (H1 : forall s s', RS s -> RS s' -> eqbf i s s' = true -> mrg s s' = 1 -> Tr s = T0).
  Context (H2 : forall s s', RS s -> RS s' -> eqbf i s s' = true -> mrg s s' = 2 -> Tr s' = T0).

  Notation hf := (fun e : nat * S => hashf i (snd e)).
  Notation ef := (fun e e' : nat * S => eqbf i (snd e) (snd e')).

  (** the column of the j-th pending node *)
  Definition colj (m0 : nat) (ids : list nid) (j : nat) : nat := m0 + nlive (take j ids).

  Record mp1 (ps : list (pnode S)) (m0 : nat) (t0 : table) (root0 : nid)
            (ids : list nid) (m : nat) (t : table) (root : nid) : Prop := {
    q1_len : length ids = length ps;
    q1_m : m = m0 + nlive ids;
    q1_ids : forall j f, ids !! j = Some f -> neqb f n1 = false ->
        f = mk i (colj m0 ids j) \/ f = n0 /\ exists p, ps !! j = Some p /\ Tr (p_st p) = T0;
    q1_tgt : forall j p, ps !! j = Some p ->
        read_src t root (p_src p) = Some n0 /\ Tr (p_st p) = T0 \/
        exists k q f, ps !! k = Some q /\ ids !! k = Some f /\ neqb f n1 = false /\ Tr (p_st q) = Tr (p_st p) /\
          read_src t root (p_src p) = Some (mk i (colj m0 ids k));
    q1_own : forall j p f, ps !! j = Some p -> ids !! j = Some f -> neqb f n1 = false ->
        read_src t root (p_src p) = Some (mk i (colj m0 ids j));
    q1_frame : forall x, x ∉ map p_src ps -> read_src t root x = read_src t0 root0 x;
    q1_shape : shape t = shape t0
  }.

  Lemma colj_app m0 ids x j : j <= length ids -> colj m0 (ids ++ [x]) j = colj m0 ids j.
  Proof. intros H. unfold colj. by rewrite take_app_le. Qed.
  Lemma colj_ins m0 ids k f j : ids !! k = Some f -> neqb f n1 = false -> colj m0 (<[k := n0]> ids) j = colj m0 ids j.
  Proof.
    intros Hk Hf. unfold colj. f_equal. apply nlive_ext. rewrite <- !firstn_map. f_equal.
    change (map ?g) with (fmap (M := list) g). rewrite list_fmap_insert. apply list_insert_id.
    rewrite list_lookup_fmap, Hk. cbn. by rewrite Hf.
  Qed.
  Lemma mk_not1 c : neqb (mk i c) n1 = false.
  Proof. unfold neqb. simpl. destruct (Nat.eqb_spec i 0); [lia|done]. Qed.

  Lemma mpass1_ok ps m0 t0 root0 :
    NoDup (map p_src ps) -> (forall p, p ∈ ps -> RS (p_st p)) ->
    (forall p, p ∈ ps -> is_Some (read_src t0 root0 (p_src p))) ->
    exists ids m t root, mpass1 hashf eqbf mrg i ps m0 (t0, root0) = Some (ids, m, (t, root)) /\
      mp1 ps m0 t0 root0 ids m t root.
  Proof.
    intros Hnd HRS Hsrc. unfold mpass1.
    destruct (ofold_inv (mpass1_step hashf eqbf mrg i)
        (fun pre '(u, ids, m, (t, root)) =>
           mp1 pre m0 t0 root0 ids m t root /\ ht_inv u /\ hsize u <= length pre /\ length ps * 2 <= hmax u /\
           (forall e, e ∈ ht_elems u -> exists p f, pre !! fst e = Some p /\ snd e = p_st p /\
               ids !! fst e = Some f /\ neqb f n1 = false))
        ps (ht_init (length ps * 2), [], m0, (t0, root0))) as ([[[u ids] m] [t root]] & E & HP & _).
    - destruct (@ht_init_facts (nat * S) (length ps * 2)) as (F1 & _ & _ & F2 & F3).
      split_and!.
      + constructor; try done.
      + apply ht_init_inv.
      + rewrite F2. lia.
      + done.
      + rewrite F3. intros e He. by apply elem_of_nil in He.
    - intros pre p post [[[u ids] m] [t root]] Hl (HP & Hu & Hsz & Hmx & Hel).
      assert (p_src p ∉ map p_src pre) as Hfresh.
      { rewrite Hl, map_app in Hnd. simpl in Hnd. apply NoDup_app in Hnd as (_ & Hd & _).
        intros Hin. apply (Hd _ Hin). by left. }
      assert (forall q j, pre !! j = Some q -> p_src q <> p_src p) as Hfresh'.
      { intros q j Hq E. apply Hfresh. rewrite <- E. apply elem_of_list_fmap. exists q. split; [done|]. by eapply elem_of_list_lookup_2. }
      assert (RS (p_st p)) as HRp by (apply HRS; rewrite Hl; apply elem_of_app; right; by left).
      assert (forall q j, pre !! j = Some q -> RS (p_st q)) as HRq.
      { intros q j Hq. apply HRS. rewrite Hl. apply elem_of_app. left. by eapply elem_of_list_lookup_2. }
      assert (is_Some (read_src t root (p_src p))) as Hrd.
      { rewrite (q1_frame _ _ _ _ _ _ _ _ HP _ Hfresh). apply Hsrc. rewrite Hl. apply elem_of_app. right. by left. }
      unfold mpass1_step. pose proof (q1_len _ _ _ _ _ _ _ _ HP) as Hlen.
      destruct (ht_add_weak hf ef u (length ids, p_st p) Hu) as (u' & slot & e & Ea & Hu' & Hat & Hmx' & Hcase).
      { apply (f_equal length) in Hl. rewrite app_length in Hl. simpl in Hl. lia. }
      rewrite Ea. cbn [mbind option_bind]. rewrite Hat. cbn [mbind option_bind].
      assert (forall x ids1 (y : nid), length ids1 = length ids -> (forall j, j < length ids -> colj m0 (ids1 ++ [y]) j = colj m0 ids j) ->
        (forall j f, ids1 !! j = Some f -> exists f', ids !! j = Some f' /\ neqb f' n1 = neqb f n1 /\ (f = f' \/ f = n0 /\ exists q, pre !! j = Some q /\ Tr (p_st q) = T0)) ->
        (forall j f, ids !! j = Some f -> exists f', ids1 !! j = Some f' /\ neqb f' n1 = neqb f n1) ->
        forall t' root', shape t' = shape t -> read_src t' root' (p_src p) = Some x ->
        (forall z, z <> p_src p -> read_src t' root' z = read_src t root z) ->
        (neqb y n1 = false -> y = mk i m /\ x = mk i m) ->
        (neqb y n1 = true -> x = n0 /\ Tr (p_st p) = T0 \/ exists k q f, pre !! k = Some q /\ ids !! k = Some f /\
            neqb f n1 = false /\ Tr (p_st q) = Tr (p_st p) /\ x = mk i (colj m0 ids k)) ->
        mp1 (pre ++ [p]) m0 t0 root0 (ids1 ++ [y]) (if neqb y n1 then m else Datatypes.S m) t' root') as Hext.
      { intros x ids1 y Hl1 Hcol Hback Hforw t' root' Hsh Hr1 Hr2 Hy1 Hy2.
        pose proof (q1_m _ _ _ _ _ _ _ _ HP) as Hm.
        assert (nlive ids1 = nlive ids) as Hnl.
        { apply nlive_ext. change (map ?g) with (fmap (M := list) g). apply list_eq. intros j. rewrite !list_lookup_fmap.
          destruct (ids !! j) as [f|] eqn:Ej.
          - destruct (Hforw j f Ej) as (f' & Ef' & En). rewrite Ef'. cbn. by rewrite En.
          - apply lookup_ge_None in Ej. rewrite (proj2 (lookup_ge_None ids1 j)) by lia. done. }
        assert (colj m0 (ids1 ++ [y]) (length ids) = m) as Hcl.
        { unfold colj. rewrite <- Hl1, take_app. lia. }
        constructor.
        - rewrite !app_length. simpl. lia.
        - rewrite nlive_app, Hnl. unfold nlive at 2, live. simpl. destruct (neqb y n1); simpl; lia.
        - intros j f Hj Hf. apply lookup_app_Some in Hj as [Hj|[Hge Hj]].
          + pose proof (lookup_lt_Some _ _ _ Hj) as Hjl. rewrite Hcol by lia.
            destruct (Hback j f Hj) as (f' & Hj' & En & [<-|(-> & q & Hq & Eq)]).
            * destruct (q1_ids _ _ _ _ _ _ _ _ HP j f Hj' Hf) as [->|(-> & q & Hq & Eq)]; [by left|right].
              split; [done|]. exists q. split; [by apply lookup_app_l_Some|done].
            * right. split; [done|]. exists q. split; [by apply lookup_app_l_Some|done].
          + apply list_lookup_singleton_Some in Hj as [Hj <-]. left. assert (j = length ids) as -> by lia.
            rewrite Hcl. by apply Hy1.
        - intros j q Hq. apply lookup_app_Some in Hq as [Hq|[Hge Hq]].
          + rewrite Hr2 by (by eapply Hfresh').
            destruct (q1_tgt _ _ _ _ _ _ _ _ HP j q Hq) as [?|(k & q0 & f & Hk & Hf & Hn & Et & Hrq)]; [by left|right].
            destruct (Hforw k f Hf) as (f' & Hf' & En'). exists k, q0, f'. split_and!; try done.
            * by apply lookup_app_l_Some.
            * by apply lookup_app_l_Some.
            * by rewrite En'.
            * rewrite Hcol; [done|]. rewrite Hlen. by eapply lookup_lt_Some.
          + apply list_lookup_singleton_Some in Hq as [Hj <-]. rewrite Hr1. destruct (neqb y n1) eqn:Ey.
            * destruct (Hy2 eq_refl) as [[-> ?]|(k & q0 & f & Hk & Hf & Hn & Et & ->)]; [by left|right].
              destruct (Hforw k f Hf) as (f' & Hf' & En'). exists k, q0, f'. split_and!; try done.
              -- by apply lookup_app_l_Some.
              -- by apply lookup_app_l_Some.
              -- by rewrite En'.
              -- rewrite Hcol; [done|]. rewrite Hlen. by eapply lookup_lt_Some.
            * right. destruct (Hy1 eq_refl) as [E1 E2]. exists (length pre), p, y. split_and!; try done.
              -- rewrite lookup_app_r by lia. by rewrite Nat.sub_diag.
              -- rewrite lookup_app_r by lia. by rewrite Hl1, Hlen, Nat.sub_diag.
              -- rewrite <- Hlen, Hcl. by rewrite E2.
        - intros j q f Hq Hf Hn. apply lookup_app_Some in Hq as [Hq|[Hge Hq]].
          + pose proof (lookup_lt_Some _ _ _ Hq) as Hjl. rewrite Hr2 by (by eapply Hfresh').
            rewrite lookup_app_l in Hf by lia. destruct (Hback j f Hf) as (f' & Hj' & En & _).
            rewrite Hcol by lia. eapply (q1_own _ _ _ _ _ _ _ _ HP); [done|done|]. by rewrite En.
          + apply list_lookup_singleton_Some in Hq as [Hj <-]. rewrite lookup_app_r in Hf by lia.
            apply list_lookup_singleton_Some in Hf as [_ <-]. destruct (Hy1 Hn) as [_ ->]. assert (j = length ids) as -> by lia.
            by rewrite Hcl.
        - intros z Hz. rewrite map_app in Hz. rewrite Hr2.
          + apply HP. intros Hin. apply Hz. apply elem_of_app. by left.
          + intros ->. apply Hz. apply elem_of_app. right. by left.
        - rewrite Hsh. apply HP. }
      assert (forall y j, j < length ids -> colj m0 (ids ++ [y]) j = colj m0 ids j) as Hcol0.
      { intros y j Hj. apply colj_app. lia. }
      assert (forall y e', (exists p0 f, pre !! fst e' = Some p0 /\ snd e' = p_st p0 /\ ids !! fst e' = Some f /\ neqb f n1 = false) ->
         exists p0 f, (pre ++ [p]) !! fst e' = Some p0 /\ snd e' = p_st p0 /\ (ids ++ [y]) !! fst e' = Some f /\ neqb f n1 = false) as Hel_app.
      { intros y e' (p0 & f & ? & ? & ? & ?). exists p0, f. split_and!; try done; by apply lookup_app_l_Some. }
      assert (forall y slot0, y = mk i m -> snd slot0 = p_st p -> fst slot0 = length ids ->
         forall ids1, length ids1 = length ids -> exists p0 f, (pre ++ [p]) !! fst slot0 = Some p0 /\ snd slot0 = p_st p0 /\ (ids1 ++ [y]) !! fst slot0 = Some f /\ neqb f n1 = false) as Hel_new.
      { intros y slot0 -> Es Ef ids1 Hl1. exists p, (mk i m). rewrite Ef. split_and!; try done.
        - rewrite lookup_app_r by lia. by rewrite Hlen, Nat.sub_diag.
        - rewrite lookup_app_r by lia. by rewrite Hl1, Nat.sub_diag.
        - apply mk_not1. }
      destruct Hcase as [(-> & He & Heq)|(-> & Hperm & Hsz')].
      + destruct (Hel e He) as (p0 & f0 & Hp0 & Es & Hf0 & Hn0).
        assert (fst e < length ids) as Hlt by (rewrite Hlen; eapply lookup_lt_Some; done).
        destruct (Nat.eqb_spec (fst e) (length ids)); [lia|]. cbn [fst snd].
        rewrite Es in Heq |- *. pose proof (HRq _ _ Hp0) as HR0.
        assert (forall (r : nid), (neqb n1 n1 = true -> r = n0 /\ Tr (p_st p) = T0 \/ exists k q f, pre !! k = Some q /\ ids !! k = Some f /\
            neqb f n1 = false /\ Tr (p_st q) = Tr (p_st p) /\ r = mk i (colj m0 ids k)) ->
          exists t' root', write_src t root (p_src p) r = Some (t', root') /\
            mp1 (pre ++ [p]) m0 t0 root0 (ids ++ [n1]) m t' root') as Hone.
        { intros r Hr. destruct (write_src_ok t root (p_src p) r Hrd) as (t' & root' & Ew & Hsh & Hr1 & Hr2).
          exists t', root'. split; [done|].
          apply (Hext r ids n1); try done.
          - apply Hcol0.
          - intros j f Hj. exists f. split_and!; try done. by left.
          - intros j f Hj. by exists f. }
        assert (mrg (p_st p0) (p_st p) = 1 \/ mrg (p_st p0) (p_st p) = 2 \/ (mrg (p_st p0) (p_st p) <> 1 /\ mrg (p_st p0) (p_st p) <> 2)) as [Em|[Em|[Em1 Em2]]] by lia.
        * rewrite Em.
          destruct (write_src_ok t root (p_src p) (mk i m) Hrd) as (t' & root' & Ew & Hsh & Hr1 & Hr2).
          rewrite Ew. cbn [mbind option_bind].
          destruct (ht_modify_weak u slot e (fun _ => (length ids, p_st p)) Hu Hat) as (u2 & -> & Hu2 & Hsz2 & Hmx2 & Hel2).
          cbn [mbind option_bind]. eexists. split; [done|]. cbn beta iota.
          assert (length (<[fst e := n0]> ids) = length ids) as Hli by apply insert_length.
          split_and!; try done.
          -- assert (Datatypes.S m = if neqb (mk i m) n1 then m else Datatypes.S m) as -> by (by rewrite mk_not1).
             apply (Hext (mk i m) (<[fst e := n0]> ids) (mk i m)); try done.
             ++ intros j Hj. rewrite colj_app by lia. by eapply colj_ins.
             ++ intros j f Hj. destruct (decide (j = fst e)) as [->|Hne].
                ** rewrite list_lookup_insert in Hj by done. inversion Hj; subst f. exists f0. split_and!; try done.
                   right. split; [done|]. exists p0. split; [done|]. by eapply (H1 (p_st p0) (p_st p)).
                ** rewrite list_lookup_insert_ne in Hj by done. exists f. split_and!; try done. by left.
             ++ intros j f Hj. destruct (decide (j = fst e)) as [->|Hne].
                ** exists n0. rewrite list_lookup_insert by done. split; [done|]. rewrite Hf0 in Hj. inversion Hj; subst. done.
                ** exists f. by rewrite list_lookup_insert_ne.
             ++ rewrite mk_not1. done.
          -- rewrite app_length. simpl. lia.
          -- lia.
          -- intros e' He'. destruct (Hel2 e' He') as [->|He2].
             ++ by apply Hel_new.
             ++ destruct (Hel e' He2) as (q & f & Hq & Eq & Hf & Hn). destruct (decide (fst e' = fst e)) as [Ee|Ene].
                ** exists q, n0. split_and!; try done; [by apply lookup_app_l_Some|].
                   apply lookup_app_l_Some. rewrite Ee. by apply list_lookup_insert.
                ** exists q, f. split_and!; try done; apply lookup_app_l_Some; [done|]. by rewrite list_lookup_insert_ne.
        * rewrite Em. destruct (Hone n0) as (t' & root' & -> & HP').
          { intros _. left. split; [done|]. by eapply (H2 (p_st p0) (p_st p)). }
          cbn [mbind option_bind]. eexists. split; [done|]. cbn beta iota. split_and!; try done.
          -- rewrite app_length. simpl. lia.
          -- intros e' He'. by apply Hel_app, Hel.
        * rewrite Hf0. cbn [mbind option_bind].
          assert (Tr (p_st p0) = Tr (p_st p)) as Et by (by apply H0).
          destruct (Hone f0) as (t' & root' & Ew & HP').
          { intros _. destruct (q1_ids _ _ _ _ _ _ _ _ HP _ _ Hf0 Hn0) as [->|(-> & q & Hq & Eq)].
            - right. eexists (fst e), p0, _. split_and!; try done.
            - left. split; [done|]. rewrite Hp0 in Hq. inversion Hq; subst q. congruence. }
          assert (match mrg (p_st p0) (p_st p) with
            | 1 => tr' ← write_src t root (p_src p) (mk i m); u'' ← ht_modify u slot (fun _ => (length ids, p_st p));
                   Some (u'', <[fst e := n0]> ids ++ [mk i m], Datatypes.S m, tr')
            | 2 => tr' ← write_src t root (p_src p) n0; Some (u, ids ++ [n1], m, tr')
            | _ => tr' ← write_src t root (p_src p) f0; Some (u, ids ++ [n1], m, tr')
            end = Some (u, ids ++ [n1], m, (t', root'))) as ->.
          { rewrite Ew. destruct (mrg (p_st p0) (p_st p)) as [|[|[|x]]]; try done. }
          eexists. split; [done|]. cbn beta iota. split_and!; try done.
          -- rewrite app_length. simpl. lia.
          -- intros e' He'. by apply Hel_app, Hel.
      + cbn [fst snd]. rewrite Nat.eqb_refl.
        destruct (write_src_ok t root (p_src p) (mk i m) Hrd) as (t' & root' & Ew & Hsh & Hr1 & Hr2).
        rewrite Ew. cbn [mbind option_bind]. eexists. split; [done|]. cbn beta iota. split_and!; try done.
        * assert (Datatypes.S m = if neqb (mk i m) n1 then m else Datatypes.S m) as -> by (by rewrite mk_not1).
          apply (Hext (mk i m) ids (mk i m)); try done.
          -- apply Hcol0.
          -- intros j f Hj. exists f. split_and!; try done. by left.
          -- intros j f Hj. by exists f.
          -- rewrite mk_not1. done.
        * rewrite app_length. simpl. lia.
        * lia.
        * intros e' He'. rewrite Hperm in He'. apply elem_of_cons in He' as [->|He'].
          -- by apply Hel_new.
          -- by apply Hel_app, Hel.
    - exists ids, m, t, root. rewrite E. done.
  Qed.
End pass1.
