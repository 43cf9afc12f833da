From Verif Require Import Base M_Table Tree M_Hash P_Hash M_Sweeper M_Engine.

(** * Writing through source addresses *)
Definition read_src (t : table) (root : nid) (x : src) : option nid :=
  match x with SRoot => Some root | SBr r c b => child t (mk r c) b end.

Definition shape (t : table) : list (list nat) := (fun r : list node => length <$> r) <$> t.

Lemma shape_length t t' : shape t = shape t' -> length t = length t'.
Proof. intros H. apply (f_equal length) in H. unfold shape in H. by rewrite !fmap_length in H. Qed.

Lemma shape_row t t' i r : shape t = shape t' -> t !! i = Some r ->
  exists r', t' !! i = Some r' /\ (length <$> r') = (length <$> r).
Proof.
  intros H Hr. assert (shape t !! i = Some (length <$> r)) as E.
  { unfold shape. rewrite list_lookup_fmap. by rewrite Hr. }
  rewrite H in E. unfold shape in E. rewrite list_lookup_fmap in E.
  destruct (t' !! i) as [r'|]; [|done]. simpl in E. exists r'. split; [done|]. by inversion E.
Qed.

Lemma shape_get t t' f p : shape t = shape t' -> tget t f = Some p ->
  exists p', tget t' f = Some p' /\ length p' = length p.
Proof.
  intros H Hp. unfold tget in *. destruct (t !! row f) as [r|] eqn:Er; [|done]. simpl in Hp.
  destruct (shape_row t t' _ r H Er) as (r' & -> & E). simpl.
  assert ((length <$> r') !! col f = Some (length p)) as E'.
  { rewrite E. rewrite list_lookup_fmap. by rewrite Hp. }
  rewrite list_lookup_fmap in E'. destruct (r' !! col f) as [p'|]; [|done]. exists p'. split; [done|].
  by inversion E'.
Qed.

Lemma tset_child_ok t f b g : is_Some (child t f b) ->
  exists t', tset_child t f b g = Some t' /\ shape t' = shape t /\
    (forall f' b', child t' f' b' = if bool_decide (code f' = code f /\ b' = b) then Some g else child t f' b').
Proof.
  intros [h Hh]. unfold child in Hh. destruct (tget t f) as [p|] eqn:Ep; [|done]. simpl in Hh.
  unfold tget in Ep. destruct (t !! row f) as [r|] eqn:Er; [|done]. simpl in Ep.
  unfold tset_child, tset, tget. rewrite Er. simpl. rewrite Ep. simpl. rewrite Hh. simpl.
  eexists. split; [done|]. split.
  - unfold shape. rewrite !list_fmap_insert. apply list_insert_id.
    rewrite list_lookup_fmap, Er. simpl. f_equal.
    rewrite insert_length. symmetry. apply list_insert_id.
    rewrite list_lookup_fmap, Ep. done.
  - intros f' b'. unfold child, tget. case_bool_decide as Hd.
    + destruct Hd as [Hc ->]. inversion Hc as [[H1 H2]]. rewrite H1, H2.
      rewrite list_lookup_insert by (eapply lookup_lt_Some; done). simpl.
      rewrite list_lookup_insert by (eapply lookup_lt_Some; done). simpl.
      rewrite list_lookup_insert by (eapply lookup_lt_Some; done). done.
    + destruct (decide (row f' = row f)) as [H1|H1].
      * rewrite H1. rewrite list_lookup_insert by (eapply lookup_lt_Some; done). rewrite Er. simpl.
        destruct (decide (col f' = col f)) as [H2|H2].
        -- rewrite H2. rewrite list_lookup_insert by (eapply lookup_lt_Some; done). rewrite Ep. simpl.
           apply list_lookup_insert_ne. intros ->. apply Hd. split; [|done]. unfold code. congruence.
        -- by rewrite list_lookup_insert_ne by done.
      * by rewrite list_lookup_insert_ne by done.
Qed.

Lemma write_src_ok t root x f : is_Some (read_src t root x) ->
  exists t' root', write_src t root x f = Some (t', root') /\ shape t' = shape t /\
    read_src t' root' x = Some f /\
    (forall y, y <> x -> read_src t' root' y = read_src t root y).
Proof.
  destruct x as [|r c b]; intros H.
  - exists t, f. split_and!; try done. intros [|? ? ?] Hy; done.
  - simpl in H. destruct (tset_child_ok t (mk r c) b f H) as (t' & E & Hs & Hc).
    exists t', root. cbn [write_src]. rewrite E. split_and!; try done.
    + simpl. rewrite Hc. by rewrite bool_decide_eq_true_2.
    + intros [|r' c' b'] Hy; [done|]. simpl. rewrite Hc. rewrite bool_decide_eq_false_2; [done|].
      intros [Hcd ->]. inversion Hcd; subst. done.
Qed.

(** * Pass 1 *)
Section pass1.
  Context {S : Type}.
  Context (hashf : nat -> S -> N) (eqbf : nat -> S -> S -> bool).
  Context (i : nat) (Hi : 0 < i).

  Notation hf := (fun e : nat * S => hashf i (snd e)).
  Notation ef := (fun e e' : nat * S => eqbf i (snd e) (snd e')).

  (** equal_to is symmetric and hash compatible *)
  Definition eq_hash_ok : Prop :=
    (forall s s', eqbf i s s' = eqbf i s' s) /\ (forall s s', eqbf i s s' = true -> hashf i s = hashf i s').

  Definition live (ids : list nid) : list nid := List.filter (fun f => negb (neqb f n1)) ids.

  (** representatives: the states of the nodes created for a group *)
  Definition reps (ps : list (pnode S)) (ids : list nid) : list S :=
    map (fun x => p_st (fst x)) (List.filter (fun x => negb (neqb (snd x) n1)) (zip ps ids)).

  Record p1 (ps : list (pnode S)) (m0 : nat) (t0 : table) (root0 : nid)
            (ids : list nid) (m : nat) (t : table) (root : nid) : Prop := {
    p1_len : length ids = length ps;
    p1_m : m0 <= m;
    p1_live : live ids = map (mk i) (seq m0 (m - m0));
    p1_tgt : forall j p, ps !! j = Some p -> exists j0 p0 c, ps !! j0 = Some p0 /\ ids !! j0 = Some (mk i c) /\
        (j0 = j \/ eqbf i (p_st p0) (p_st p) = true) /\ read_src t root (p_src p) = Some (mk i c);
    p1_own : forall j p c, ps !! j = Some p -> ids !! j = Some (mk i c) -> read_src t root (p_src p) = Some (mk i c);
    p1_frame : forall x, x ∉ map p_src ps -> read_src t root x = read_src t0 root0 x;
    p1_shape : shape t = shape t0;
    p1_reps : eq_hash_ok -> ForallOrdPairs (fun s s' => eqbf i s s' = false) (reps ps ids)
  }.

  Lemma live_app ids1 ids2 : live (ids1 ++ ids2) = live ids1 ++ live ids2.
  Proof. unfold live. by rewrite List.filter_app. Qed.
  Lemma live_mk c : live [mk i c] = [mk i c].
  Proof. unfold live. simpl. unfold neqb. simpl. destruct (Nat.eqb_spec i 0); [lia|done]. Qed.

  Lemma ForallOrdPairs_snoc {A} (P : A -> A -> Prop) l x :
    ForallOrdPairs P l -> (forall y, y ∈ l -> P y x) -> ForallOrdPairs P (l ++ [x]).
  Proof.
    induction 1 as [|y l Hy Hl IH]; intros Hx; simpl.
    - constructor; [done|constructor].
    - constructor.
      + apply Forall_app. split; [done|]. constructor; [|done]. apply Hx. left.
      + apply IH. intros z Hz. apply Hx. by right.
  Qed.

  Lemma reps_snoc ps ids p f : length ids = length ps ->
    reps (ps ++ [p]) (ids ++ [f]) = reps ps ids ++ (if neqb f n1 then [] else [p_st p]).
  Proof.
    intros Hl. unfold reps. rewrite zip_with_app by done. rewrite List.filter_app, map_app. f_equal.
    simpl. by destruct (neqb f n1).
  Qed.

  Lemma pass1_group_ok (single : bool) ps m0 t0 root0 :
    NoDup (map p_src ps) -> (forall p, p ∈ ps -> is_Some (read_src t0 root0 (p_src p))) ->
    exists ids m t root, pass1_group hashf eqbf single i ps m0 (t0, root0) = Some (ids, m, (t, root)) /\
      p1 ps m0 t0 root0 ids m t root.
  Proof.
    intros Hnd Hsrc.
    assert (exists ids m t root,
      (r ← ofold (pass1_step hashf eqbf i) ps (ht_init (length ps * 2), [], m0, (t0, root0));
        let '(_, ids, m', tr') := r in Some (ids, m', tr')) = Some (ids, m, (t, root)) /\
      p1 ps m0 t0 root0 ids m t root) as Hmain.
    { destruct (ofold_inv (pass1_step hashf eqbf i)
        (fun pre '(u, ids, m, (t, root)) =>
           p1 pre m0 t0 root0 ids m t root /\ ht_inv u /\ hsize u <= length pre /\ length ps * 2 <= hmax u /\
           (forall e, e ∈ ht_elems u -> exists p c, pre !! fst e = Some p /\ snd e = p_st p /\ ids !! fst e = Some (mk i c)) /\
           (eq_hash_ok -> ht_strong hf ef u /\ (forall s, s ∈ reps pre ids -> exists e, e ∈ ht_elems u /\ snd e = s)))
        ps (ht_init (length ps * 2), [], m0, (t0, root0))) as ([[[u ids] m] [t root]] & E & HP & _).
      - destruct (@ht_init_facts (nat * S) (length ps * 2)) as (F1 & _ & _ & F2 & F3).
        split_and!.
        + constructor; try done. { by rewrite Nat.sub_diag. } intros _. constructor.
        + apply ht_init_inv.
        + rewrite F2. lia.
        + done.
        + rewrite F3. intros e He. by apply elem_of_nil in He.
        + intros _. split; [apply ht_init_strong|]. intros s Hs. by apply elem_of_nil in Hs.
      - intros pre p post [[[u ids] m] [t root]] Hl (HP & Hu & Hsz & Hmx & Hel & Hst).
        assert (p_src p ∉ map p_src pre) as Hfresh.
        { rewrite Hl, map_app in Hnd. simpl in Hnd. apply NoDup_app in Hnd as (_ & Hd & _).
          intros Hin. apply (Hd _ Hin). by left. }
        assert (is_Some (read_src t root (p_src p))) as Hrd.
        { rewrite (p1_frame _ _ _ _ _ _ _ _ HP _ Hfresh). apply Hsrc. rewrite Hl. apply elem_of_app. right. by left. }
        unfold pass1_step. pose proof (p1_len _ _ _ _ _ _ _ _ HP) as Hlen.
        destruct (ht_add_weak hf ef u (length ids, p_st p) Hu) as (u' & slot & e & Ea & Hu' & Hat & Hmx' & Hcase).
        { apply (f_equal length) in Hl. rewrite app_length in Hl. simpl in Hl. lia. }
        rewrite Ea. cbn [mbind option_bind]. rewrite Hat. cbn [mbind option_bind].
        (* which of the two cases *)
        destruct Hcase as [(-> & He & Heq)|(-> & Hperm & Hsz')].
        + destruct (Hel e He) as (p0 & c & Hp0 & Es & Hc).
          assert (fst e < length ids) as Hlt by (rewrite Hlen; eapply lookup_lt_Some; done).
          destruct (Nat.eqb_spec (fst e) (length ids)); [lia|]. rewrite Hc. cbn [mbind option_bind].
          destruct (write_src_ok t root (p_src p) (mk i c) Hrd) as (t' & root' & Ew & Hsh & Hr1 & Hr2).
          cbn [fst snd]. rewrite Ew. cbn [mbind option_bind]. eexists. split; [done|]. cbn beta iota.
          split_and!.
          * constructor.
            -- rewrite !app_length. simpl. lia.
            -- apply HP.
            -- rewrite live_app. rewrite (p1_live _ _ _ _ _ _ _ _ HP). unfold live. simpl. by rewrite app_nil_r.
            -- intros j q Hq. apply lookup_app_Some in Hq as [Hq|[Hge Hq]].
               ++ destruct (p1_tgt _ _ _ _ _ _ _ _ HP j q Hq) as (j0 & q0 & c0 & H1 & H2 & H3 & H4).
                  exists j0, q0, c0. split_and!; [by apply lookup_app_l_Some..|done|].
                  rewrite Hr2; [done|]. intros Ex. apply Hfresh. rewrite <- Ex.
                  apply elem_of_list_fmap. exists q. split; [done|]. by eapply elem_of_list_lookup_2.
               ++ apply list_lookup_singleton_Some in Hq as [Hj <-]. exists (fst e), p0, c.
                  split_and!; [by apply lookup_app_l_Some..| |done].
                  right. rewrite <- Es. done.
            -- intros j q c' Hq Hc'. apply lookup_app_Some in Hq as [Hq|[Hge Hq]].
               ++ rewrite Hr2.
                  ** eapply (p1_own _ _ _ _ _ _ _ _ HP j q); [done|]. apply lookup_lt_Some in Hq. rewrite lookup_app_l in Hc' by lia. done.
                  ** intros Ex. apply Hfresh. rewrite <- Ex.
                     apply elem_of_list_fmap. exists q. split; [done|]. by eapply elem_of_list_lookup_2.
               ++ apply list_lookup_singleton_Some in Hq as [Hj <-]. rewrite lookup_app_r in Hc' by lia.
                  apply list_lookup_singleton_Some in Hc' as [_ Hc']. inversion Hc'. lia.
            -- intros x Hx. rewrite map_app in Hx. rewrite Hr2.
               ++ apply HP. intros Hin. apply Hx. apply elem_of_app. by left.
               ++ intros ->. apply Hx. apply elem_of_app. right. by left.
            -- rewrite Hsh. apply HP.
            -- intros Hok. rewrite reps_snoc by done. simpl. rewrite app_nil_r. by apply HP.
          * done.
          * rewrite app_length. simpl. lia.
          * done.
          * intros e' He'. destruct (Hel e' He') as (q & c' & ? & ? & ?). exists q, c'.
            split_and!; [by apply lookup_app_l_Some|done|by apply lookup_app_l_Some].
          * intros Hok. destruct (Hst Hok) as [H1 H2]. split; [done|]. intros s Hs.
            rewrite reps_snoc in Hs by done. simpl in Hs. rewrite app_nil_r in Hs. by apply H2.
        + cbn [fst snd]. rewrite Nat.eqb_refl.
          destruct (write_src_ok t root (p_src p) (mk i m) Hrd) as (t' & root' & Ew & Hsh & Hr1 & Hr2).
          rewrite Ew. cbn [mbind option_bind]. eexists. split; [done|]. cbn beta iota.
          assert (neqb (mk i m) n1 = false) as Hn1.
          { unfold neqb. simpl. destruct (Nat.eqb_spec i 0); [lia|done]. }
          split_and!.
          * constructor.
            -- rewrite !app_length. simpl. lia.
            -- pose proof (p1_m _ _ _ _ _ _ _ _ HP). lia.
            -- rewrite live_app, live_mk. rewrite (p1_live _ _ _ _ _ _ _ _ HP).
               pose proof (p1_m _ _ _ _ _ _ _ _ HP).
               replace (Datatypes.S m - m0) with ((m - m0) + 1) by lia. rewrite seq_app, map_app. simpl.
               do 3 f_equal. lia.
            -- intros j q Hq. apply lookup_app_Some in Hq as [Hq|[Hge Hq]].
               ++ destruct (p1_tgt _ _ _ _ _ _ _ _ HP j q Hq) as (j0 & q0 & c0 & H1 & H2 & H3 & H4).
                  exists j0, q0, c0. split_and!; [by apply lookup_app_l_Some..|done|].
                  rewrite Hr2; [done|]. intros Ex. apply Hfresh. rewrite <- Ex.
                  apply elem_of_list_fmap. exists q. split; [done|]. by eapply elem_of_list_lookup_2.
               ++ apply list_lookup_singleton_Some in Hq as [Hj <-].
                  exists j, p, m. assert (j = length pre) as -> by lia. split_and!; [| |by left|done].
                  ** rewrite lookup_app_r by lia. by rewrite Nat.sub_diag.
                  ** rewrite lookup_app_r by lia. by rewrite Hlen, Nat.sub_diag.
            -- intros j q c' Hq Hc'. apply lookup_app_Some in Hq as [Hq|[Hge Hq]].
               ++ rewrite Hr2.
                  ** eapply (p1_own _ _ _ _ _ _ _ _ HP j q); [done|]. apply lookup_lt_Some in Hq. rewrite lookup_app_l in Hc' by lia. done.
                  ** intros Ex. apply Hfresh. rewrite <- Ex.
                     apply elem_of_list_fmap. exists q. split; [done|]. by eapply elem_of_list_lookup_2.
               ++ apply list_lookup_singleton_Some in Hq as [Hj <-]. rewrite lookup_app_r in Hc' by lia.
                  apply list_lookup_singleton_Some in Hc' as [_ Hc']. inversion Hc'. subst. done.
            -- intros x Hx. rewrite map_app in Hx. rewrite Hr2.
               ++ apply HP. intros Hin. apply Hx. apply elem_of_app. by left.
               ++ intros ->. apply Hx. apply elem_of_app. right. by left.
            -- rewrite Hsh. apply HP.
            -- intros Hok. rewrite reps_snoc by done. rewrite Hn1.
               apply ForallOrdPairs_snoc; [by apply HP|]. intros s Hs.
               destruct (Hst Hok) as [H1 H2]. destruct (H2 s Hs) as (e & He & <-).
               destruct Hok as [Hsym Hhash].
               destruct (ht_add_strong hf ef ltac:(intros; apply Hsym) ltac:(intros; by apply Hhash) u (length ids, p_st p))
                 as (u2 & slot2 & y2 & Ea2 & _ & Hat2 & Hc2); [by left|].
               rewrite Ea in Ea2. inversion Ea2; subst u2 slot2. rewrite Hat in Hat2. inversion Hat2; subst y2.
               destruct Hc2 as [(Hin & _ & _)|(_ & Hall & _)]; [|by apply Hall].
               destruct (Hel _ Hin) as (? & ? & Hlk & _ & _). simpl in Hlk. apply lookup_lt_Some in Hlk. lia.
          * done.
          * rewrite app_length. simpl. lia.
          * lia.
          * intros e' He'. rewrite Hperm in He'. apply elem_of_cons in He' as [->|He'].
            -- exists p, m. simpl. rewrite Hlen. split_and!; [|done|].
               ++ rewrite lookup_app_r by lia. by rewrite Nat.sub_diag.
               ++ rewrite lookup_app_r by lia. by rewrite Hlen, Nat.sub_diag.
            -- destruct (Hel e' He') as (q & c' & ? & ? & ?). exists q, c'.
               split_and!; [by apply lookup_app_l_Some|done|by apply lookup_app_l_Some].
          * intros Hok. destruct (Hst Hok) as [H1 H2]. split.
            -- destruct Hok as [Hsym Hhash].
               destruct (ht_add_strong hf ef ltac:(intros; apply Hsym) ltac:(intros; by apply Hhash) u (length ids, p_st p))
                 as (u2 & slot2 & y2 & Ea2 & Hs2 & _); [by left|].
               rewrite Ea in Ea2. inversion Ea2; subst. done.
            -- intros s Hs. rewrite reps_snoc in Hs by done. rewrite Hn1 in Hs.
               apply elem_of_app in Hs as [Hs|Hs].
               ++ destruct (H2 s Hs) as (e & He & <-). exists e. split; [|done]. rewrite Hperm. by right.
               ++ apply elem_of_list_singleton in Hs as ->. exists (length ids, p_st p). split; [|done].
                  rewrite Hperm. by left.
      - exists ids, m, t, root. rewrite E. done. }
    unfold pass1_group. destruct single; [|done]. destruct ps as [|p [|q ps]]; [done| |done].
    cbn [fst snd].
    destruct (write_src_ok t0 root0 (p_src p) (mk i m0)) as (t' & root' & -> & Hsh & Hr1 & Hr2).
    { apply Hsrc. by left. }
    cbn [mbind option_bind]. do 4 eexists. split; [done|]. constructor.
    - done.
    - lia.
    - rewrite live_mk. by replace (Datatypes.S m0 - m0) with 1 by lia.
    - intros j q Hq. apply list_lookup_singleton_Some in Hq as [-> <-]. exists 0, p, m0. by split_and!; [..|left|].
    - intros j q c Hq Hc. apply list_lookup_singleton_Some in Hq as [-> <-]. simpl in Hc. inversion Hc; subst. done.
    - intros x Hx. apply Hr2. intros ->. apply Hx. by left.
    - done.
    - intros _. unfold reps. simpl. destruct (neqb _ _); simpl; repeat constructor.
  Qed.
End pass1.
