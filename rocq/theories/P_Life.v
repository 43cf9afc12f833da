(** The builder with explicit state memory does what the builder over values does. *)
From stdpp Require Import gmap.
From Verif Require Import Base Sem M_Table M_Hash M_Sweeper M_Engine M_Builder M_Merge M_Life S_Life.
Local Open Scope nat_scope.

Arguments Ln : clear implicits.
Notation sntab := (list (list lnode)).

Lemma concat_cons_perm {A} (sn : list (list A)) l ll x : sn !! l = Some ll ->
  concat (<[l := x :: ll]> sn) ≡ₚ x :: concat sn.
Proof.
  revert l. induction sn as [|a sn IH]; intros [|l] E; simpl in *; try done.
  - by injection E as ->.
  - rewrite (IH _ E). rewrite Permutation_middle. done.
Qed.

Definition ats (sn : sntab) : list nat := map l_at (concat sn).
Lemma ats_cons sn l ll x : sn !! l = Some ll -> ats (<[l := x :: ll]> sn) ≡ₚ l_at x :: ats sn.
Proof. intros E. unfold ats. by rewrite (concat_cons_perm _ _ _ _ E). Qed.
Lemma ats_tail sn l ll x : sn !! l = Some (x :: ll) -> ats sn ≡ₚ l_at x :: ats (<[l := ll]> sn).
Proof.
  intros E. assert (<[l := ll]> sn !! l = Some ll) as E'.
  { apply list_lookup_insert. by eapply lookup_lt_Some. }
  pose proof (ats_cons _ _ _ x E') as HP. rewrite list_insert_insert, list_insert_id in HP by done. done.
Qed.
Lemma ats_in sn l ll x : sn !! l = Some ll -> x ∈ ll -> l_at x ∈ ats sn.
Proof.
  intros E Hx. unfold ats. apply elem_of_list_fmap. exists x. split; [done|].
  apply elem_of_list_In, in_concat. exists ll. split; apply elem_of_list_In; [by eapply elem_of_list_lookup_2|done].
Qed.

Section life.
  Context (sp : spec) (L : lspec (St sp)) (mrg : St sp -> St sp -> nat) (fresh : nat -> l_T L).
  Context (HL : life_ok sp L) (Hf : forall k, l_rawb L (fresh k) = true).
  Context (n : nat).
  Notation heap := (gmap nat (l_T L)).
  Implicit Types (H : heap).

  Definition live H x s : Prop := exists m, H !! x = Some m /\ l_val L m = Some s.
  Definition rawat H x : Prop := exists m, H !! x = Some m /\ l_rawb L m = true.

  Lemma live_val H x s : live H x s <-> h_val sp L H x = Some s.
  Proof.
    unfold live, h_val. split.
    - intros (m & -> & E). exact E.
    - destruct (H !! x) as [m|]; [|done]. intros E. by exists m.
  Qed.

  Lemma do_copy H to from s : rawat H to -> live H from s -> exists m,
    h_copy sp L H to from = Some (<[to := m]> H) /\ l_val L m = Some s.
  Proof using HL.
    intros (mt & E1 & R) (mf & E2 & V). destruct (lo_copy _ _ HL mt mf s R V) as (m & E & Vm).
    exists m. split; [|done]. unfold h_copy. rewrite E1, E2. cbn [mbind option_bind]. by rewrite E.
  Qed.
  Lemma do_destruct H x m : H !! x = Some m -> destructible L m -> exists m',
    h_destruct sp L H x = Some (<[x := m']> H) /\ l_rawb L m' = true.
  Proof.
    intros E (m' & Ed & R). exists m'. split; [|done]. unfold h_destruct. rewrite E. cbn [mbind option_bind].
    by rewrite Ed.
  Qed.
  Lemma do_free H x : rawat H x -> h_free sp L H x = Some (delete x H).
  Proof. intros (m & E & R). unfold h_free. rewrite E. cbn [mbind option_bind]. by rewrite R. Qed.
  Lemma do_child H x i b s : live H x s -> exists m',
    h_child sp L H x i b = Some (fst (get_child sp s (Z.of_nat i) b), <[x := m']> H) /\
    (fst (get_child sp s (Z.of_nat i) b) <> 0%Z -> l_val L m' = Some (snd (get_child sp s (Z.of_nat i) b))) /\
    destructible L m'.
  Proof using HL.
    intros (m & E & V). destruct (lo_child _ _ HL m s (Z.of_nat i) b V) as (m' & Ec & Hv & Hd).
    exists m'. split; [|done]. unfold h_child. rewrite E. cbn [mbind option_bind]. by rewrite Ec.
  Qed.

  (** ** the pending nodes *)
  Record SI H (sn : sntab) (E : nat -> list (pnode (St sp))) (nx : nat) : Prop := {
    si_len : length sn = S n;
    si_load : forall l ll, sn !! l = Some ll -> mapM (lload sp L H l) ll = Some (E l);
    si_nd : NoDup (ats sn);
    si_bd : forall x, x ∈ ats sn -> 0 < x < nx
  }.

  Lemma load_ext H H' l ll : (forall p, p ∈ ll -> H' !! l_at p = H !! l_at p) ->
    mapM (lload sp L H' l) ll = mapM (lload sp L H l) ll.
  Proof.
    induction ll as [|p ll IH]; intros Hx; [done|]. cbn [mapM].
    assert (lload sp L H' l p = lload sp L H l p) as ->.
    { unfold lload, h_val. by rewrite Hx by left. }
    rewrite IH; [done|]. intros q Hq. apply Hx. by right.
  Qed.
  Lemma SI_heap H H' sn E nx : SI H sn E nx -> (forall x, x ∈ ats sn -> H' !! x = H !! x) -> SI H' sn E nx.
  Proof.
    intros [] Hx. split; try done. intros l ll El. rewrite <- (si_load0 l ll El). apply load_ext.
    intros p Hp. apply Hx. by eapply ats_in.
  Qed.
  Lemma SI_ins H x m sn E nx : SI H sn E nx -> x ∉ ats sn -> SI (<[x := m]> H) sn E nx.
  Proof. intros HS Hx. apply (SI_heap H); [done|]. intros y Hy. rewrite lookup_insert_ne; [done|]. by intros ->. Qed.
  Lemma SI_del H x sn E nx : SI H sn E nx -> x ∉ ats sn -> SI (delete x H) sn E nx.
  Proof. intros HS Hx. apply (SI_heap H); [done|]. intros y Hy. rewrite lookup_delete_ne; [done|]. by intros ->. Qed.
  Lemma SI_ext H sn E E' nx : SI H sn E nx -> (forall l, l < S n -> E l = E' l) -> SI H sn E' nx.
  Proof.
    intros [] Hx. split; try done. intros l ll El. rewrite <- Hx by (apply lookup_lt_Some in El; lia). by apply si_load0.
  Qed.
  Lemma SI_nx H sn E nx nx' : SI H sn E nx -> nx <= nx' -> SI H sn E nx'.
  Proof. intros [] Hx. split; try done. intros x Hx'. specialize (si_bd0 x Hx'). lia. Qed.

  Definition updE (E : nat -> list (pnode (St sp))) (l : nat) (q : list (pnode (St sp))) : nat -> list (pnode (St sp)) :=
    fun l' => if (l' =? l)%nat then q else E l'.

  Lemma SI_push H sn E nx l ll x sr s : SI H sn E nx -> sn !! l = Some ll -> x ∉ ats sn -> 0 < x < nx ->
    live H x s -> SI H (<[l := Ln x (Some sr) :: ll]> sn) (updE E l (Pn l 0 0 sr s :: E l)) nx.
  Proof.
    intros HS El Hx Hb Hl. pose proof HS as []. split.
    - by rewrite insert_length.
    - intros l' ll'. unfold updE. destruct (Nat.eqb_spec l' l) as [->|Hne].
      + rewrite list_lookup_insert by (by eapply lookup_lt_Some). intros [= <-]. cbn [mapM].
        assert (lload sp L H l (Ln x (Some sr)) = Some (Pn l 0 0 sr s)) as ->.
        { unfold lload. cbn [l_src l_at mbind option_bind]. apply live_val in Hl. by rewrite Hl. }
        cbn [mbind option_bind]. by rewrite (si_load0 _ _ El).
      + rewrite list_lookup_insert_ne by done. apply si_load0.
    - rewrite (ats_cons _ _ _ _ El). by constructor.
    - intros y. rewrite (ats_cons _ _ _ _ El). intros [->|Hy]%elem_of_cons; [done|]. by apply si_bd0.
  Qed.
  Lemma SI_front H sn E nx l p ll : SI H sn E nx -> sn !! l = Some (p :: ll) ->
    exists q qs, E l = q :: qs /\ live H (l_at p) (p_st q).
  Proof.
    intros HS El. pose proof (si_load _ _ _ _ HS _ _ El) as HE. cbn [mapM] in HE.
    destruct (lload sp L H l p) as [q|] eqn:Ep; [|done]. cbn [mbind option_bind] in HE.
    destruct (mapM _ ll) as [qs|] eqn:Eq; [|done]. cbn [mbind option_bind] in HE. injection HE as <-.
    exists q, qs. split; [done|]. unfold lload in Ep. destruct (l_src p) as [x|]; [|done]. cbn [mbind option_bind] in Ep.
    destruct (h_val sp L H (l_at p)) as [s|] eqn:Ev; [|done]. cbn [mbind option_bind] in Ep. injection Ep as <-.
    by apply live_val.
  Qed.
  Lemma SI_tail H sn E nx l p ll q qs : SI H sn E nx -> sn !! l = Some (p :: ll) -> E l = q :: qs ->
    SI H (<[l := ll]> sn) (updE E l qs) nx.
  Proof.
    intros HS El EE. pose proof HS as []. pose proof (ats_tail _ _ _ _ El) as HP. split.
    - by rewrite insert_length.
    - intros l' ll'. unfold updE. destruct (Nat.eqb_spec l' l) as [->|Hne].
      + rewrite list_lookup_insert by (by eapply lookup_lt_Some). intros [= <-].
        pose proof (si_load0 _ _ El) as HE. cbn [mapM] in HE. destruct (lload sp L H l p) as [q'|]; [|done].
        cbn [mbind option_bind] in HE. destruct (mapM _ ll) as [qs'|]; [|done]. cbn [mbind option_bind] in HE.
        rewrite EE in HE. by injection HE as _ ->.
      + rewrite list_lookup_insert_ne by done. apply si_load0.
    - rewrite HP in si_nd0. by inversion si_nd0.
    - intros y Hy. apply si_bd0. rewrite HP. by right.
  Qed.

  (** ** the state for the 1-terminal, at address 0 *)
  Definition ONE H (o : option (St sp)) (osrc : list nbi) : Prop :=
    match osrc with [] => rawat H 0 | _ :: _ => exists s, o = Some s /\ live H 0 s end.

  (** ** pass 2 *)
  Section level.
    Context (i : nat) (Hi : 1 <= i <= n).
    Definition EX (w rest : list (pnode (St sp))) (l : nat) : list (pnode (St sp)) :=
      if (l =? i)%nat then rest else mlist l w.

    Record R2 (w rest : list (pnode (St sp))) (o : option (St sp)) (osrc : list nbi)
        (sn : sntab) (H : heap) (nx pp : nat) : Prop := {
      r_sn : exists sn0 l1 x, sn0 !! (i - 1) = Some l1 /\ sn = <[i - 1 := Ln pp x :: l1]> sn0 /\
        SI H sn0 (EX w rest) nx /\ pp ∉ ats sn0 /\
        (forall x, is_Some (H !! x) <-> x = 0 \/ x = pp \/ x ∈ ats sn0);
      r_pp : 0 < pp < nx;
      r_raw : rawat H pp;
      r_one : ONE H o osrc;
      r_w : Forall (fun q => 1 <= p_lv q < i) w
    }.

    Lemma live_ins_ne H x y m s : x <> y -> live H y s -> live (<[x := m]> H) y s.
    Proof. intros Hne (k & E & V). exists k. split; [|done]. by rewrite lookup_insert_ne. Qed.
    Lemma raw_ins_ne H x y m : x <> y -> rawat H y -> rawat (<[x := m]> H) y.
    Proof. intros Hne (k & E & V). exists k. split; [|done]. by rewrite lookup_insert_ne. Qed.
    Lemma live_ins H x m s : l_val L m = Some s -> live (<[x := m]> H) x s.
    Proof. intros E. exists m. split; [|done]. by rewrite lookup_insert. Qed.
    Lemma raw_ins H x m : l_rawb L m = true -> rawat (<[x := m]> H) x.
    Proof. intros E. exists m. split; [|done]. by rewrite lookup_insert. Qed.
    Lemma one_ins_ne H x m o osrc : x <> 0 -> ONE H o osrc -> ONE (<[x := m]> H) o osrc.
    Proof.
      intros Hne. destruct osrc; simpl; [by apply raw_ins_ne|]. intros (s & -> & Hl). exists s. split; [done|].
      by apply live_ins_ne.
    Qed.

    (** a change of the heap at pp and at 0 only *)
    Lemma R2_heap w rest o osrc sn H H' nx pp o' osrc' :
      R2 w rest o osrc sn H nx pp -> (forall x, x <> 0 -> x <> pp -> H' !! x = H !! x) ->
      rawat H' pp -> ONE H' o' osrc' -> is_Some (H' !! 0) -> R2 w rest o' osrc' sn H' nx pp.
    Proof.
      intros [(sn0 & l1 & x & E1 & -> & HS & Hp & Hd) Hpp Hr Ho Hw] Hx Hr' Ho' H0. split; try done.
      exists sn0, l1, x. split; [done|]. split; [done|]. split; [|split; [done|]].
      - apply (SI_heap H); [done|]. intros y Hy. apply Hx; [|by intros ->].
        pose proof (si_bd _ _ _ _ HS y Hy). lia.
      - intros y. destruct (decide (y = 0)) as [->|Hn0]; [split; [by left|done]|].
        destruct (decide (y = pp)) as [->|Hnp].
        + split; [by right; left|]. intros _. destruct Hr' as (m & -> & _). by eexists.
        + rewrite Hx by done. apply Hd.
    Qed.
    Lemma R2_one_is w rest o osrc sn H nx pp : R2 w rest o osrc sn H nx pp -> is_Some (H !! 0).
    Proof. intros [(sn0 & l1 & x & E1 & -> & HS & Hp & Hd) _ _ _ _]. apply Hd. by left. Qed.

    Lemma mlist_cons l (q : pnode (St sp)) w : mlist l (q :: w) = if (p_lv q =? l)%nat then q :: mlist l w else mlist l w.
    Proof. unfold mlist. simpl. by destruct (p_lv q =? l)%nat. Qed.

    (** the state at pp becomes a pending node of level i - 1 and a new block is the spare one *)
    Lemma R2_next w rest o osrc sn H nx pp jj b s m :
      R2 w rest o osrc sn H nx pp -> 1 < i -> l_val L m = Some s ->
      exists sn1 sn2, sn_src sn (i - 1) (SBr i jj b) = Some sn1 /\ sn_push sn1 (i - 1) (Ln nx None) = Some sn2 /\
        R2 (Pn (i - 1) 0 0 (SBr i jj b) s :: w) rest o osrc sn2 (<[nx := fresh nx]> (<[pp := m]> H)) (S nx) nx.
    Proof using Hf Hi.
      intros [(sn0 & l1 & x & E1 & -> & HS & Hp & Hd) Hpp Hr Ho Hw] Hi1 Hv.
      assert (i - 1 < length sn0) as Hlt by (by eapply lookup_lt_Some).
      unfold sn_src, sn_push. rewrite list_lookup_insert by done. cbn [mbind option_bind l_at].
      rewrite list_insert_insert. eexists _, _. split; [done|].
      rewrite list_lookup_insert by done. cbn [mbind option_bind].
      rewrite list_insert_insert. split; [done|].
      assert (nx ∉ ats sn0) as Hnx.
      { intros Hx. pose proof (si_bd _ _ _ _ HS nx Hx). lia. }
      assert (SI (<[nx := fresh nx]> (<[pp := m]> H)) (<[i - 1 := Ln pp (Some (SBr i jj b)) :: l1]> sn0)
        (EX (Pn (i - 1) 0 0 (SBr i jj b) s :: w) rest) (S nx)) as HS'.
      { eapply SI_ext.
        - apply (SI_push _ _ (EX w rest) _ _ _ _ _ s); [|done|done|lia|].
          + apply (SI_nx _ _ _ nx); [|lia]. apply SI_ins; [|done]. by apply SI_ins.
          + apply live_ins_ne; [lia|]. by apply live_ins.
        - intros l _. unfold updE, EX. rewrite mlist_cons. cbn [p_lv].
          destruct (Nat.eqb_spec l (i - 1)) as [->|Hne].
          + rewrite Nat.eqb_refl. destruct (Nat.eqb_spec (i - 1) i); [lia|]. done.
          + destruct (Nat.eqb_spec (i - 1) l); [lia|]. done. }
      split.
      - exists (<[i - 1 := Ln pp (Some (SBr i jj b)) :: l1]> sn0), (Ln pp (Some (SBr i jj b)) :: l1), None.
        rewrite list_lookup_insert by done. split; [done|]. rewrite list_insert_insert. split; [done|].
        split; [done|]. split.
        + rewrite (ats_cons _ _ _ _ E1). cbn [l_at]. intros [->|?]%elem_of_cons; [lia|done].
        + intros y. rewrite (ats_cons _ _ _ _ E1), elem_of_cons. cbn [l_at]. destruct (decide (y = nx)) as [->|Hny].
          { rewrite lookup_insert. split; [by right; left|by eexists]. }
          rewrite lookup_insert_ne by done. destruct (decide (y = pp)) as [->|Hnp].
          { rewrite lookup_insert. split; [by right; right; left|by eexists]. }
          rewrite lookup_insert_ne by done. rewrite Hd. clear -Hny. tauto.
      - lia.
      - apply raw_ins, Hf.
      - apply one_ins_ne; [lia|]. apply one_ins_ne; [lia|done].
      - constructor; [cbn [p_lv]; lia|done].
    Qed.

    (** a new pending node of a level below i - 1 *)
    Lemma R2_low w rest o osrc sn H nx pp jj b s m m' ii :
      R2 w rest o osrc sn H nx pp -> 1 <= ii < i - 1 -> l_val L m = Some s -> l_rawb L m' = true ->
      exists sn1, sn_push sn ii (Ln nx (Some (SBr i jj b))) = Some sn1 /\
        R2 (Pn ii 0 0 (SBr i jj b) s :: w) rest o osrc sn1 (<[pp := m']> (<[nx := m]> H)) (S nx) pp.
    Proof using Hi.
      intros [(sn0 & l1 & x & E1 & -> & HS & Hp & Hd) Hpp Hr Ho Hw] Hii Hv Hraw.
      pose proof (si_len _ _ _ _ HS) as Hlen.
      destruct (lookup_lt_is_Some_2 sn0 ii) as [ll Ell]; [lia|].
      unfold sn_push. rewrite list_lookup_insert_ne by lia. rewrite Ell. cbn [mbind option_bind].
      eexists. split; [done|].
      assert (nx ∉ ats sn0) as Hnx.
      { intros Hx. pose proof (si_bd _ _ _ _ HS nx Hx). lia. }
      rewrite list_insert_commute by lia.
      split.
      - exists (<[ii := Ln nx (Some (SBr i jj b)) :: ll]> sn0), l1, x.
        rewrite list_lookup_insert_ne by lia. split; [done|]. split; [done|]. split; [|split].
        + eapply SI_ext.
          * apply (SI_push _ _ (EX w rest) _ _ _ _ _ s); [|done|done|lia|].
            { apply (SI_nx _ _ _ nx); [|lia]. apply SI_ins; [|done]. by apply SI_ins. }
            { apply live_ins_ne; [lia|]. by apply live_ins. }
          * intros l _. unfold updE, EX. rewrite mlist_cons. cbn [p_lv].
            destruct (Nat.eqb_spec l ii) as [->|Hne].
            { rewrite Nat.eqb_refl. destruct (Nat.eqb_spec ii i); [lia|]. done. }
            { destruct (Nat.eqb_spec ii l); [lia|]. done. }
        + rewrite (ats_cons _ _ _ _ Ell). cbn [l_at]. intros [?|?]%elem_of_cons; [lia|done].
        + intros y. rewrite (ats_cons _ _ _ _ Ell), elem_of_cons. cbn [l_at].
          destruct (decide (y = pp)) as [->|Hnp].
          { rewrite lookup_insert. split; [by right; left|by eexists]. }
          rewrite lookup_insert_ne by done. destruct (decide (y = nx)) as [->|Hny].
          { rewrite lookup_insert. split; [by right; right; left|by eexists]. }
          rewrite lookup_insert_ne by done. rewrite Hd. clear -Hny. tauto.
      - lia.
      - by apply raw_ins.
      - apply one_ins_ne; [lia|]. apply one_ins_ne; [lia|done].
      - constructor; [cbn [p_lv]; lia|done].
    Qed.

    Notation ch := (fun i s b => get_child sp s (Z.of_nat i) b).

    Lemma lbranch_ok w rest q o osrc sn H nx pp p lrest t low az jj b t' w' low' az' o' osrc' :
      R2 w (q :: rest) o osrc sn H nx pp -> sn !! i = Some (p :: lrest) ->
      mpass2_branch mrg ch i (p_st q) jj (t, w, low, az, (o, osrc)) b = Some (t', w', low', az', (o', osrc')) ->
      low <= i - 1 ->
      exists sn' H' nx' pp', lbranch sp L mrg fresh i 0 (l_at p) jj (L2 _ _ t sn H nx pp low az osrc) b
          = Some (L2 _ _ t' sn' H' nx' pp' low' az' osrc') /\
        R2 w' (q :: rest) o' osrc' sn' H' nx' pp' /\ sn' !! i = Some (p :: lrest) /\ low' <= i - 1.
    Proof using HL Hf Hi.
      intros HR Ei Hm Hlow. pose proof HR as [(sn0 & l1 & x & E1 & Esn & HS & Hp & Hd) Hpp Hr Ho Hw].
      assert (sn0 !! i = Some (p :: lrest)) as Ei0.
      { rewrite Esn in Ei. rewrite list_lookup_insert_ne in Ei by lia. done. }
      assert (live H (l_at p) (p_st q)) as Hlp.
      { destruct (SI_front _ _ _ _ _ _ _ HS Ei0) as (q' & qs & E & Hl). unfold EX in E. rewrite Nat.eqb_refl in E.
        injection E as <- <-. done. }
      assert (l_at p <> pp) as Hppp.
      { intros <-. apply Hp. eapply ats_in; [exact Ei0|by left]. }
      unfold mpass2_branch in Hm. cbn beta in Hm.
      unfold lbranch. destruct (do_copy H pp (l_at p) (p_st q) Hr Hlp) as (m1 & -> & V1). cbn [mbind option_bind].
      destruct (do_child (<[pp := m1]> H) pp i b (p_st q)) as (m2 & -> & V2 & D2); [by apply live_ins|].
      rewrite insert_insert. cbn [mbind option_bind].
      destruct (get_child sp (p_st q) (Z.of_nat i) b) as [c s'] eqn:Ec. cbn [fst snd] in *.
      destruct (do_destruct (<[pp := m2]> H) pp m2) as (m3 & Ed3 & R3); [by rewrite lookup_insert|done|].
      rewrite insert_insert in Ed3.
      destruct (Z.eqb_spec c 0) as [->|Hc0].
      { destruct (tset_child t (mk i jj) b n0) as [t1|]; [|done]. cbn [mbind option_bind] in Hm |- *.
        injection Hm as <- <- <- <- <- <-. rewrite Ed3. cbn [mbind option_bind].
        eexists _, _, _, _. split; [done|]. split; [|done].
        eapply R2_heap; [exact HR| | | |].
        - intros y _ Hy. by rewrite lookup_insert_ne.
        - by apply raw_ins.
        - apply one_ins_ne; [lia|done].
        - rewrite lookup_insert_ne by lia. by eapply R2_one_is. }
      specialize (V2 Hc0).
      destruct (Z.ltb_spec c 0) as [Hneg|Hpos].
      { destruct osrc as [|y0 osrc].
        - destruct (tset_child t (mk i jj) b n1) as [t1|]; [|done]. cbn [mbind option_bind] in Hm |- *.
          injection Hm as <- <- <- <- <- <-. simpl in Ho.
          destruct (do_copy (<[pp := m2]> H) 0 pp s') as (m4 & Ec4 & V4).
          { apply raw_ins_ne; [lia|done]. } { by apply live_ins. }
          rewrite Ec4. cbn [mbind option_bind].
          destruct (do_destruct (<[0 := m4]> (<[pp := m2]> H)) pp m2) as (m5 & Ed5 & R5).
          { rewrite lookup_insert_ne by lia. by rewrite lookup_insert. } { done. }
          rewrite Ed5. cbn [mbind option_bind].
          eexists _, _, _, _. split; [done|]. split; [|done].
          eapply R2_heap; [exact HR| | | |].
          + intros y H0 Hy. rewrite !lookup_insert_ne by done. done.
          + by apply raw_ins.
          + simpl. exists s'. split; [done|]. apply live_ins_ne; [lia|]. by apply live_ins.
          + rewrite lookup_insert_ne by lia. rewrite lookup_insert. by eexists.
        - simpl in Ho. destruct Ho as (so & -> & Hlo). cbn [mbind option_bind] in Hm.
          assert (h_val sp L (<[pp := m2]> H) 0 = Some so) as Ev0.
          { apply live_val. apply live_ins_ne; [lia|done]. }
          assert (h_val sp L (<[pp := m2]> H) pp = Some s') as Evp by (apply live_val; by apply live_ins).
          rewrite Ev0. cbn [mbind option_bind]. rewrite Evp. cbn [mbind option_bind].
          assert (R2 w (q :: rest) (Some so) (y0 :: osrc) sn (<[pp := m3]> H) nx pp) as HRk.
          { eapply R2_heap; [exact HR| | | |].
            - intros y _ Hy. by rewrite lookup_insert_ne.
            - by apply raw_ins.
            - apply one_ins_ne; [lia|]. simpl. by exists so.
            - rewrite lookup_insert_ne by lia. by eapply R2_one_is. }
          destruct (mrg so s') as [|[|[|k]]].
          + destruct (tset_child t (mk i jj) b n1) as [t1|]; [|done]. cbn [mbind option_bind] in Hm |- *.
            injection Hm as <- <- <- <- <- <-. rewrite Ed3. cbn [mbind option_bind].
            eexists _, _, _, _. split; [done|]. split; [|done].
            destruct HRk as [? ? ? Ho2 ?]. split; try done.
          + destruct (zero_ones (y0 :: osrc) t) as [tz|]; [|done]. cbn [mbind option_bind] in Hm |- *.
            destruct (tset_child tz (mk i jj) b n1) as [t1|] eqn:Et1; [|done]. cbn [mbind option_bind] in Hm |- *.
            injection Hm as <- <- <- <- <- <-.
            destruct Hlo as (mo & Emo & Vmo).
            destruct (do_destruct (<[pp := m2]> H) 0 mo) as (m4 & Ed4 & R4).
            { by rewrite lookup_insert_ne by lia. } { by eapply lo_destruct. }
            rewrite Ed4. cbn [mbind option_bind].
            destruct (do_copy (<[0 := m4]> (<[pp := m2]> H)) 0 pp s') as (m5 & Ec5 & V5).
            { by apply raw_ins. } { apply live_ins_ne; [lia|]. by apply live_ins. }
            rewrite Ec5, insert_insert. cbn [mbind option_bind].
            destruct (do_destruct (<[0 := m5]> (<[pp := m2]> H)) pp m2) as (m6 & Ed6 & R6).
            { rewrite lookup_insert_ne by lia. by rewrite lookup_insert. } { done. }
            try rewrite Et1. cbn [mbind option_bind]. rewrite Ed6. cbn [mbind option_bind].
            eexists _, _, _, _. split; [done|]. split; [|done].
            eapply R2_heap; [exact HR| | | |].
            * intros y H0 Hy. rewrite !lookup_insert_ne by done. done.
            * by apply raw_ins.
            * simpl. exists s'. split; [done|]. apply live_ins_ne; [lia|]. by apply live_ins.
            * rewrite lookup_insert_ne by lia. rewrite lookup_insert. by eexists.
          + destruct (tset_child t (mk i jj) b n0) as [t1|]; [|done]. cbn [mbind option_bind] in Hm |- *.
            injection Hm as <- <- <- <- <- <-. rewrite Ed3. cbn [mbind option_bind].
            eexists _, _, _, _. split; [done|]. split; [done|]. done.
          + destruct (tset_child t (mk i jj) b n1) as [t1|]; [|done]. cbn [mbind option_bind] in Hm |- *.
            injection Hm as <- <- <- <- <- <-. rewrite Ed3. cbn [mbind option_bind].
            eexists _, _, _, _. split; [done|]. split; [|done].
            destruct HRk as [? ? ? Ho2 ?]. split; try done. }
      destruct (Nat.ltb_spec (Z.to_nat c) i) as [Hci|]; [|done].
      injection Hm as <- <- <- <- <- <-.
      destruct (Nat.eqb_spec (Z.to_nat c) (i - 1)) as [Eci|Hci1].
      { destruct (R2_next _ _ _ _ _ _ _ _ jj b s' m2 HR) as (sn1 & sn2 & Es1 & Es2 & HR'); [lia|done|].
        rewrite Eci, Es1. cbn [mbind option_bind]. rewrite Es2. cbn [mbind option_bind].
        eexists _, _, _, _. split; [do 2 f_equal; lia|]. split; [exact HR'|].
        split; [|lia]. unfold sn_src, sn_push in *. subst sn.
        rewrite list_lookup_insert in Es1 by (by eapply lookup_lt_Some). cbn [mbind option_bind] in Es1.
        injection Es1 as <-. rewrite list_insert_insert in Es2.
        rewrite list_lookup_insert in Es2 by (by eapply lookup_lt_Some). cbn [mbind option_bind] in Es2.
        injection Es2 as <-. rewrite !list_lookup_insert_ne by lia. done. }
      assert (H !! nx = None) as Hnx.
      { apply eq_None_not_Some. rewrite Hd. intros [?|[?|Hx]]; [lia|lia|]. pose proof (si_bd _ _ _ _ HS nx Hx). lia. }
      destruct (do_copy (<[nx := fresh nx]> (<[pp := m2]> H)) nx pp s') as (m4 & Ec4 & V4).
      { apply raw_ins, Hf. } { apply live_ins_ne; [lia|]. by apply live_ins. }
      rewrite insert_insert in Ec4.
      destruct (do_destruct (<[nx := m4]> (<[pp := m2]> H)) pp m2) as (m5 & Ed5 & R5).
      { rewrite lookup_insert_ne by lia. by rewrite lookup_insert. } { done. }
      destruct (R2_low _ _ _ _ _ _ _ _ jj b s' m4 m5 (Z.to_nat c) HR) as (sn1 & Es1 & HR'); [lia|done|done|].
      rewrite Es1. cbn [mbind option_bind]. rewrite Ec4. cbn [mbind option_bind]. rewrite Ed5. cbn [mbind option_bind].
      assert (<[pp := m5]> (<[nx := m4]> (<[pp := m2]> H)) = <[pp := m5]> (<[nx := m4]> H)) as ->.
      { rewrite (insert_commute _ nx pp) by lia. by rewrite insert_insert. }
      eexists _, _, _, _. split; [done|]. split; [exact HR'|]. split; [|lia].
      unfold sn_push in Es1. destruct (sn !! Z.to_nat c) as [k|]; [|done]. cbn [mbind option_bind] in Es1.
      injection Es1 as <-. rewrite list_lookup_insert_ne by lia. done.
    Qed.

    Lemma lbranches_ok rest q p lrest jj bs : forall w o osrc sn H nx pp t low az t' w' low' az' o' osrc',
      R2 w (q :: rest) o osrc sn H nx pp -> sn !! i = Some (p :: lrest) -> low <= i - 1 ->
      ofold (mpass2_branch mrg ch i (p_st q) jj) bs (t, w, low, az, (o, osrc)) = Some (t', w', low', az', (o', osrc')) ->
      exists sn' H' nx' pp', ofold (lbranch sp L mrg fresh i 0 (l_at p) jj) bs (L2 _ _ t sn H nx pp low az osrc)
          = Some (L2 _ _ t' sn' H' nx' pp' low' az' osrc') /\
        R2 w' (q :: rest) o' osrc' sn' H' nx' pp' /\ sn' !! i = Some (p :: lrest) /\ low' <= i - 1.
    Proof using HL Hf Hi.
      induction bs as [|b bs IH]; intros w o osrc sn H nx pp t low az t' w' low' az' o' osrc' HR Ei Hlow.
      - intros [= <- <- <- <- <- <-]. by eexists _, _, _, _.
      - cbn [ofold]. destruct (mpass2_branch _ _ _ _ _ _ b) as [[[[[t1 w1] low1] az1] [o1 osrc1]]|] eqn:Eb; [|done].
        intros Hr. destruct (lbranch_ok _ _ _ _ _ _ _ _ _ _ _ _ _ _ _ _ _ _ _ _ _ _ HR Ei Eb Hlow)
          as (sn1 & H1 & nx1 & pp1 & -> & HR1 & Ei1 & Hlow1).
        by apply (IH w1 o1).
    Qed.

    Lemma lnode_ok w rest q o osrc sn H nx pp p lrest t low az dead jj f t' w' low' dead' jj' o' osrc' :
      R2 w (q :: rest) o osrc sn H nx pp -> sn !! i = Some (p :: lrest) -> low <= i - 1 ->
      mpass2_node (ar sp) mrg ch i (t, w, low, dead, jj, (o, osrc)) (q, f) = Some (t', w', low', dead', jj', (o', osrc')) ->
      exists sn' H' nx' pp' az', lnode_step sp L mrg fresh i 0 (L2 _ _ t sn H nx pp low az osrc, dead, jj) f
          = Some (L2 _ _ t' sn' H' nx' pp' low' az' osrc', dead', jj') /\
        R2 w' rest o' osrc' sn' H' nx' pp' /\ sn' !! i = Some lrest /\ low' <= i - 1.
    Proof using HL Hf Hi.
      intros HR Ei Hlow Hm.
      (* the part before destruct(state(p)) *)
      assert (exists sn1 H1 nx1 pp1 az1,
        (if neqb f n1 then Some (L2 sp L t sn H nx pp low az osrc, dead, jj)
         else if neqb f n0 then
           t ← ofor (ar sp) (fun t b => tset_child t (mk i jj) b n0) t;
           Some (L2 _ _ t sn H nx pp low true osrc, Datatypes.S dead, Datatypes.S jj)
         else
           st ← ofor (ar sp) (lbranch sp L mrg fresh i 0 (l_at p) jj) (L2 _ _ t sn H nx pp low true osrc);
           Some (st, if o_az _ _ st then Datatypes.S dead else dead, Datatypes.S jj))
        = Some (L2 _ _ t' sn1 H1 nx1 pp1 low' az1 osrc', dead', jj') /\
        R2 w' (q :: rest) o' osrc' sn1 H1 nx1 pp1 /\ sn1 !! i = Some (p :: lrest) /\ low' <= i - 1)
        as (sn1 & H1 & nx1 & pp1 & az1 & E1 & HR1 & Ei1 & Hlow1).
      { unfold mpass2_node in Hm. destruct (neqb f n1).
        { injection Hm as <- <- <- <- <- <- <-. by eexists _, _, _, _, _. }
        destruct (neqb f n0).
        { destruct (ofor _ _ _) as [t1|]; [|done]. cbn [mbind option_bind] in Hm |- *.
          injection Hm as <- <- <- <- <- <- <-. by eexists _, _, _, _, _. }
        destruct (ofor (ar sp) (mpass2_branch _ _ _ _ _) _) as [[[[[t1 w1] low1] az1] [o1 osrc1]]|] eqn:Eb; [|done].
        cbn [mbind option_bind] in Hm. injection Hm as <- <- <- <- <- <- <-.
        destruct (lbranches_ok _ _ _ _ _ _ _ _ _ _ _ _ _ _ _ _ _ _ _ _ _ _ HR Ei Hlow Eb)
          as (sn1 & H1 & nx1 & pp1 & E1 & HR1 & Ei1 & Hlow1).
        unfold ofor. rewrite E1. cbn [mbind option_bind o_az]. by eexists _, _, _, _, _. }
      unfold lnode_step. cbn [o_sn o_t o_H o_nx o_pp o_low o_az o_src]. unfold sn_front. rewrite Ei.
      cbn [mbind option_bind head].
      match type of E1 with ?X = _ => match goal with |- context [mbind _ ?Y] => change Y with X end end.
      rewrite E1. cbn [mbind option_bind o_sn o_t o_H o_nx o_pp o_low o_az o_src]. clear E1 HR Hm Ei.
      pose proof HR1 as [(sn0 & l1 & x & E0 & Esn & HS & Hp & Hd) Hpp Hr Ho Hw].
      assert (sn0 !! i = Some (p :: lrest)) as Ei0.
      { rewrite Esn in Ei1. rewrite list_lookup_insert_ne in Ei1 by lia. done. }
      assert (EX w' (q :: rest) i = q :: rest) as EEX by (unfold EX; by rewrite Nat.eqb_refl).
      assert (live H1 (l_at p) (p_st q)) as (m & Em & Vm).
      { destruct (SI_front _ _ _ _ _ _ _ HS Ei0) as (q' & qs & E & Hl). rewrite EEX in E.
        injection E as <- <-. done. }
      pose proof (ats_tail _ _ _ _ Ei0) as HP.
      assert (l_at p ∈ ats sn0) as Hpin by (rewrite HP; by left).
      assert (l_at p <> pp1) as Hppp by (by intros <-).
      pose proof (si_bd _ _ _ _ HS _ Hpin) as Hpb.
      destruct (do_destruct H1 (l_at p) m Em) as (m' & Ed & Rd); [by eapply lo_destruct|].
      rewrite Ed. cbn [mbind option_bind]. rewrite do_free by (by apply raw_ins). cbn [mbind option_bind].
      rewrite delete_insert_delete.
      unfold sn_tail. rewrite Ei1. cbn [mbind option_bind]. eexists _, _, _, _, _. split; [done|].
      assert (NoDup (l_at p :: ats (<[i := lrest]> sn0))) as HN by (rewrite <- HP; apply HS).
      apply NoDup_cons in HN as [HN1 HN2].
      split; [|split; [|done]].
      - split.
        + exists (<[i := lrest]> sn0), l1, x. rewrite list_lookup_insert_ne by lia. split; [done|].
          rewrite Esn. rewrite list_insert_commute by lia. split; [done|]. split; [|split].
          * apply SI_del; [|done]. eapply SI_ext; [by apply (SI_tail _ _ (EX w' (q :: rest)) _ _ _ _ q rest HS Ei0)|].
            intros l _. unfold updE, EX. by destruct (Nat.eqb_spec l i).
          * intros Hx. apply Hp. rewrite HP. by right.
          * intros y. destruct (decide (y = l_at p)) as [->|Hny].
            { rewrite lookup_delete. split; [by intros [? ?]|]. intros [?|[?|?]]; [lia|done|done]. }
            rewrite lookup_delete_ne by done. rewrite Hd, HP, elem_of_cons. clear -Hny. tauto.
        + done.
        + destruct Hr as (k & Ek & Rk). exists k. split; [|done]. by rewrite lookup_delete_ne.
        + unfold ONE in *. destruct osrc'.
          * destruct Ho as (k & Ek & Rk). exists k. split; [|done]. rewrite lookup_delete_ne by lia. done.
          * destruct Ho as (s & -> & k & Ek & Vk). exists s. split; [done|]. exists k. split; [|done].
            rewrite lookup_delete_ne by lia. done.
        + done.
      - rewrite list_lookup_insert; [done|]. by eapply lookup_lt_Some.
    Qed.

    Lemma lpass2_ok qs : forall ids w o osrc sn H nx pp ll t low az dead jj t' w' low' dead' jj' o' osrc',
      length ids = length qs ->
      R2 w qs o osrc sn H nx pp -> sn !! i = Some ll -> low <= i - 1 ->
      ofold (mpass2_node (ar sp) mrg ch i) (zip qs ids) (t, w, low, dead, jj, (o, osrc)) = Some (t', w', low', dead', jj', (o', osrc')) ->
      exists sn' H' nx' pp' az', ofold (lnode_step sp L mrg fresh i 0) ids (L2 _ _ t sn H nx pp low az osrc, dead, jj)
          = Some (L2 _ _ t' sn' H' nx' pp' low' az' osrc', dead', jj') /\
        R2 w' [] o' osrc' sn' H' nx' pp' /\ low' <= i - 1.
    Proof using HL Hf Hi.
      induction qs as [|q qs IH]; intros [|f ids] w o osrc sn H nx pp ll t low az dead jj t' w' low' dead' jj' o' osrc' Hlen HR Ei Hlow Hm;
        try done.
      - cbn [zip_with ofold] in Hm. injection Hm as <- <- <- <- <- <- <-. by eexists _, _, _, _, _.
      - cbn [zip zip_with ofold] in Hm. destruct (mpass2_node _ _ _ _ _ _) as [[[[[[t1 w1] low1] dead1] jj1] [o1 osrc1]]|] eqn:En; [|done].
        assert (exists p lrest, ll = p :: lrest) as (p & lrest & ->).
        { pose proof HR as [(sn0 & l1 & x & E0 & Esn & HS & Hp & Hd) Hpp Hr Ho Hw].
          rewrite Esn in Ei. rewrite list_lookup_insert_ne in Ei by lia.
          pose proof (si_load _ _ _ _ HS _ _ Ei) as HE. unfold EX in HE. rewrite Nat.eqb_refl in HE.
          destruct ll as [|p lrest]; [done|by eexists _, _]. }
        destruct (lnode_ok _ _ _ _ _ _ _ _ _ _ _ _ _ az _ _ _ _ _ _ _ _ _ _ HR Ei Hlow En) as (sn1 & H1 & nx1 & pp1 & az1 & E1 & HR1 & Ei1 & Hlow1).
        cbn [ofold]. rewrite E1. apply (IH ids w1 o1 osrc1 sn1 H1 nx1 pp1 lrest); try done. simpl in Hlen. lia.
    Qed.

    (** ** between the levels *)
    Definition EX1 (w : list (pnode (St sp))) (l : nat) : list (pnode (St sp)) := mlist l w.
  End level.

  Lemma mpass1_len (i : nat) ps m tr ids m' tr' :
    mpass1 (sp_hash sp) (sp_eqb sp) mrg i ps m tr = Some (ids, m', tr') -> length ids = length ps.
  Proof.
    unfold mpass1. intros E.
    assert (forall qs u ids0 m0 tr0 r, ofold (mpass1_step (sp_hash sp) (sp_eqb sp) mrg i) qs (u, ids0, m0, tr0) = Some r ->
      length (snd (fst (fst r))) = length ids0 + length qs) as G.
    { induction qs as [|q qs IH]; intros u ids0 m0 tr0 r.
      - intros [= <-]. simpl. lia.
      - cbn [ofold]. destruct (mpass1_step _ _ _ _ _ q) as [[[[u1 ids1] m1] tr1]|] eqn:Es; [|done].
        intros Hr. rewrite (IH _ _ _ _ _ Hr). cbn [length].
        assert (length ids1 = S (length ids0)); [|lia].
        unfold mpass1_step in Es. destruct (ht_add _ _ _ _) as [[u2 slot]|]; [|done]. cbn [mbind option_bind] in Es.
        destruct (ht_at u2 slot) as [e|]; [|done]. cbn [mbind option_bind] in Es.
        destruct (_ =? _)%nat.
        { destruct (write_src _ _ _ _); [|done]. cbn [mbind option_bind] in Es. injection Es as _ <- _ _.
          rewrite app_length. simpl. lia. }
        destruct (mrg (snd e) (p_st q)) as [|[|[|k]]].
        + destruct (ids0 !! _); [|done]. cbn [mbind option_bind] in Es.
          destruct (write_src _ _ _ _); [|done]. cbn [mbind option_bind] in Es. injection Es as _ <- _ _.
          rewrite app_length. simpl. lia.
        + destruct (write_src _ _ _ _); [|done]. cbn [mbind option_bind] in Es.
          destruct (ht_modify _ _ _); [|done]. cbn [mbind option_bind] in Es. injection Es as _ <- _ _.
          rewrite app_length, insert_length. simpl. lia.
        + destruct (write_src _ _ _ _); [|done]. cbn [mbind option_bind] in Es. injection Es as _ <- _ _.
          rewrite app_length. simpl. lia.
        + destruct (ids0 !! _); [|done]. cbn [mbind option_bind] in Es.
          destruct (write_src _ _ _ _); [|done]. cbn [mbind option_bind] in Es. injection Es as _ <- _ _.
          rewrite app_length. simpl. lia. }
    destruct (ofold _ ps _) as [[[[u ids1] m1] tr1]|] eqn:Eo; [|done]. cbn [mbind option_bind] in E.
    injection E as -> _ _. apply G in Eo. simpl in Eo. lia.
  Qed.

  Lemma mupdate_src sw t root osrc cur low cnt sw' t' root' osrc' :
    mupdate sw t root osrc cur low cnt = Some (sw', t', root', osrc') -> length osrc' = length osrc.
  Proof.
    unfold mupdate. destruct (cur <=? 1)%nat; [by intros [= _ _ _ <-]|].
    match goal with |- context [let (_, _) := ?X in _] => destruct X as [sl0 dc0] end.
    repeat (match goal with |- mbind _ ?X = Some _ -> _ => destruct X; [|done] end; cbn [mbind option_bind]).
    destruct (_ <? _)%nat; [by intros [= _ _ _ <-]|].
    unfold msweep. destruct (sweep_rows _ _) as [[t1 newId]|]; [|done]. cbn [mbind option_bind].
    destruct (sweep_src _ _ _) as [o1|] eqn:Es; [|done]. cbn [mbind option_bind].
    destruct (newId !! _) as [rr|]; [|done]. cbn [mbind option_bind].
    destruct (rr !! _); [|done]. cbn [mbind option_bind]. intros [= _ _ _ <-].
    unfold sweep_src in Es. symmetry. by eapply mapM_length.
  Qed.

  (** the state of the builder before the level i is built *)
  Record RB (i : nat) (ms : mst (S := St sp)) (st : lst sp L) : Prop := {
    b_out : lout _ _ st = mout ms;
    b_root : lroot _ _ st = mroot ms;
    b_sw : lsw _ _ st = msw ms;
    b_src : losrc _ _ st = mosrc ms;
    b_si : SI (lheap _ _ st) (lsn _ _ st) (EX1 (mwork ms)) (lnext _ _ st);
    b_dom : forall x, is_Some (lheap _ _ st !! x) <-> x = 0 \/ x ∈ ats (lsn _ _ st);
    b_nx : 0 < lnext _ _ st;
    b_one : ONE (lheap _ _ st) (mone ms) (mosrc ms);
    b_w : Forall (fun q => 1 <= p_lv q <= i) (mwork ms)
  }.

  Lemma mlist_filter_ne i l (w : list (pnode (St sp))) : l <> i ->
    mlist l (List.filter (fun p => negb (p_lv p =? i)%nat) w) = mlist l w.
  Proof.
    intros Hne. unfold mlist. induction w as [|q w IH]; [done|]. simpl.
    destruct (Nat.eqb_spec (p_lv q) i) as [E|E]; simpl.
    - destruct (Nat.eqb_spec (p_lv q) l); [lia|done].
    - by rewrite IH.
  Qed.

  Notation ch := (fun i s b => get_child sp s (Z.of_nat i) b).

  Lemma lconstruct_ok i ms st ms' : 1 <= i <= n -> RB i ms st ->
    mconstruct (ar sp) (sp_hash sp) (sp_eqb sp) mrg ch i ms = Some ms' ->
    exists st', lconstruct sp L mrg fresh 0 i st = Some st' /\ RB (i - 1) ms' st'.
  Proof using HL Hf.
    intros Hi [B1 B2 B3 B4 BS BD BN BO BW] Hm.
    destruct st as [out rt sn H nx sw osrc]. cbn [lout lroot lsw losrc lheap lsn lnext] in *. subst out rt sw osrc.
    unfold lconstruct. cbn [lout lroot lsw losrc lheap lsn lnext]. unfold mconstruct in Hm.
    destruct (mout ms !! i) as [r|]; [|done]. cbn [mbind option_bind] in Hm |- *.
    pose proof (si_len _ _ _ _ BS) as Hlen.
    destruct (lookup_lt_is_Some_2 sn i) as [ll Ell]; [lia|]. rewrite Ell. cbn [mbind option_bind].
    rewrite (si_load _ _ _ _ BS _ _ Ell). unfold EX1 at 1. cbn [mbind option_bind].
    destruct (mpass1 _ _ _ _ _ _ _) as [[[ids m] tr]|] eqn:E1; [|done]. cbn [mbind option_bind] in Hm |- *.
    pose proof (mpass1_len _ _ _ _ _ _ _ E1) as Hids.
    destruct (fst tr !! i) as [r'|]; [|done]. cbn [mbind option_bind] in Hm |- *.
    destruct (set_row _ _ _) as [t1|]; [|done]. cbn [mbind option_bind] in Hm |- *.
    destruct (mpass2 _ _ _ _ _ _ _ _ _ _) as [[[[[[t2 w'] low] dead] jj] [one' osrc']]|] eqn:E2; [|done].
    cbn [mbind option_bind] in Hm.
    destruct (mupdate _ _ _ _ _ _ _) as [[[[sw' t3] root'] osrc'']|] eqn:Eu; [|done].
    cbn [mbind option_bind] in Hm. injection Hm as <-.
    destruct (lookup_lt_is_Some_2 sn (i - 1)) as [l1 El1]; [lia|].
    unfold sn_push. rewrite El1. cbn [mbind option_bind].
    assert (nx ∉ ats sn) as Hnx.
    { intros Hx. pose proof (si_bd _ _ _ _ BS nx Hx). lia. }
    set (w0 := List.filter (fun p => negb (p_lv p =? i)%nat) (mwork ms)) in *.
    assert (R2 i w0 (mlist i (mwork ms)) (mone ms) (mosrc ms) (<[i - 1 := Ln nx None :: l1]> sn) (<[nx := fresh nx]> H) (S nx) nx) as HR.
    { split.
      - exists sn, l1, None. split; [done|]. split; [done|]. split; [|split; [done|]].
        + apply SI_ins; [|done]. apply (SI_nx _ _ _ nx); [|lia]. eapply SI_ext; [exact BS|].
          intros l _. unfold EX, EX1. destruct (Nat.eqb_spec l i) as [->|Hne]; [done|]. symmetry. by apply mlist_filter_ne.
        + intros y. destruct (decide (y = nx)) as [->|Hny].
          { rewrite lookup_insert. split; [by right; left|by eexists]. }
          rewrite lookup_insert_ne by done. rewrite BD. clear -Hny. tauto.
      - lia.
      - apply raw_ins, Hf.
      - apply one_ins_ne; [lia|done].
      - apply Forall_forall. intros q Hq. unfold w0 in Hq. apply elem_of_list_In, filter_In in Hq as [Hq1 Hq2].
        rewrite Forall_forall in BW. specialize (BW q ltac:(by apply elem_of_list_In)).
        destruct (Nat.eqb_spec (p_lv q) i); [done|]. lia. }
    assert (<[i - 1 := Ln nx None :: l1]> sn !! i = Some ll) as Ei by (by rewrite list_lookup_insert_ne by lia).
    destruct (lpass2_ok i Hi _ _ _ _ _ _ _ _ _ _ _ _ true _ _ _ _ _ _ _ _ _ Hids HR Ei (Nat.le_refl _) E2)
      as (sn2 & H2 & nx2 & pp2 & az2 & E3 & HR2 & Hlow2).
    rewrite E3. cbn [mbind option_bind o_sn o_t o_H o_nx o_pp o_low o_az o_src].
    pose proof HR2 as [(sn0 & l2 & x & E0 & Esn & HS & Hp & Hd) Hpp Hr Ho Hw].
    assert (i - 1 < length sn0) as Hlt by (by eapply lookup_lt_Some).
    unfold sn_front, sn_tail. rewrite Esn. rewrite list_lookup_insert by done. cbn [mbind option_bind head l_at].
    rewrite list_insert_insert, list_insert_id by done.
    rewrite do_free by done. cbn [mbind option_bind]. rewrite Eu. cbn [mbind option_bind].
    eexists. split; [done|]. split; cbn [lout lroot lsw losrc lheap lsn lnext mout mroot msw mosrc mwork mone]; try done.
    - apply SI_del; [|done]. eapply SI_ext; [exact HS|]. intros l _. unfold EX, EX1.
      destruct (Nat.eqb_spec l i) as [->|Hne]; [|done]. symmetry.
      unfold mlist. clear -Hw. induction Hw as [|q w Hq _ IH]; [done|]. simpl.
      destruct (Nat.eqb_spec (p_lv q) i); [lia|done].
    - intros y. destruct (decide (y = pp2)) as [->|Hny].
      { rewrite lookup_delete. split; [by intros [? ?]|]. intros [?|?]; [lia|done]. }
      rewrite lookup_delete_ne by done. rewrite Hd. clear -Hny. tauto.
    - lia.
    - pose proof (mupdate_src _ _ _ _ _ _ _ _ _ _ _ Eu) as Hl. unfold ONE in *.
      destruct osrc' as [|y1 osrc'], osrc'' as [|y2 osrc'']; try done.
      + destruct Ho as (k & Ek & Rk). exists k. split; [|done]. by rewrite lookup_delete_ne by lia.
      + destruct Ho as (s & -> & k & Ek & Vk). exists s. split; [done|]. exists k. split; [|done].
        by rewrite lookup_delete_ne by lia.
    - eapply Forall_impl; [exact Hw|]. simpl. intros q Hq. lia.
  Qed.
End life.

Lemma reverse_seq_S k : reverse (seq 1 (S k)) = S k :: reverse (seq 1 k).
Proof. rewrite seq_S, reverse_app. done. Qed.

Theorem lbuild_ok sp L mrg fresh d : life_ok sp L -> (forall k, l_rawb L (fresh k) = true) ->
  construct_merge sp mrg = Some d -> lbuild sp L mrg fresh = Some (d, ∅).
Proof.
  intros HL Hf Hm. unfold lbuild. rewrite lookup_insert. cbn [mbind option_bind].
  destruct (lo_root _ _ HL (fresh 1) (Hf 1)) as (m & Er & Hv & Hd). rewrite Er. cbn [mbind option_bind].
  unfold construct_merge in Hm. destruct (get_root sp) as [c s] eqn:Eg. cbn [fst snd] in *.
  rewrite insert_insert.
  destruct (Z.leb_spec c 0) as [Hc|Hc].
  { injection Hm as <-.
    destruct (do_destruct sp L (<[1 := m]> {[0 := fresh 0]}) 1 m) as (m' & -> & R); [by rewrite lookup_insert|done|].
    cbn [mbind option_bind]. rewrite insert_insert. rewrite do_free by (exists m'; by rewrite lookup_insert).
    cbn [mbind option_bind]. rewrite delete_insert by (by rewrite lookup_singleton_ne).
    unfold lfinish. cbn [mbind option_bind].
    rewrite do_free by (exists (fresh 0); by rewrite lookup_singleton). cbn [mbind option_bind].
    by rewrite delete_singleton. }
  destruct (mbuild _ _ _ _ _ _ _) as [[t root]|] eqn:Eb; [|done]. cbn [mbind option_bind] in Hm. injection Hm as <-.
  unfold sn_push. rewrite lookup_replicate_2 by lia. cbn [mbind option_bind].
  set (n := Z.to_nat c) in *.
  set (H1 := <[1 := m]> {[0 := fresh 0]} : gmap nat (l_T L)).
  specialize (Hv Hc).
  destruct (do_copy sp L HL (<[2 := fresh 2]> H1) 2 1 s) as (m2 & -> & V2).
  { exists (fresh 2). by rewrite lookup_insert. }
  { exists m. rewrite lookup_insert_ne by done. unfold H1. by rewrite lookup_insert. }
  cbn [mbind option_bind]. rewrite insert_insert.
  destruct (do_destruct sp L (<[2 := m2]> H1) 1 m) as (m3 & -> & R3); [|done|].
  { rewrite lookup_insert_ne by done. unfold H1. by rewrite lookup_insert. }
  cbn [mbind option_bind]. rewrite do_free by (exists m3; by rewrite lookup_insert). cbn [mbind option_bind].
  assert (delete 1 (<[1 := m3]> (<[2 := m2]> H1)) = <[2 := m2]> {[0 := fresh 0]}) as ->.
  { unfold H1. rewrite delete_insert_delete, delete_insert_ne, delete_insert; [done|by rewrite lookup_singleton_ne|done]. }
  unfold mbuild in Eb. destruct (ofold _ _ (mstart _ _ _)) as [ms|] eqn:Ef; [|done]. cbn [mbind option_bind] in Eb.
  injection Eb as <- <-.
  set (st0 := Lst sp L (init_table (ar sp) n) n0 (<[n := [Ln 2 (Some SRoot)]]> (replicate (S n) []))
                (<[2 := m2]> {[0 := fresh 0]}) 3 sw0 []).
  assert (ats (replicate (S n) []) = []) as Hat0.
  { unfold ats. generalize (S n). intros k. induction k; [done|]. exact IHk. }
  assert (ats (<[n := [Ln 2 (Some SRoot)]]> (replicate (S n) [])) ≡ₚ [2]) as Hat.
  { rewrite ats_cons by (by apply lookup_replicate_2; lia). by rewrite Hat0. }
  assert (RB sp L n n (mstart (ar sp) n s) st0) as HB.
  { split; cbn [lout lroot lsw losrc lheap lsn lnext mout mroot msw mosrc mwork mone st0 mstart]; try done.
    - split.
      + by rewrite insert_length, replicate_length.
      + intros l ll. unfold EX1, mlist. cbn [List.filter p_lv]. destruct (Nat.eqb_spec n l) as [<-|Hne].
        * rewrite list_lookup_insert by (rewrite replicate_length; lia). intros [= <-]. simpl.
          unfold lload, h_val. cbn [l_src l_at mbind option_bind]. rewrite lookup_insert. cbn [mbind option_bind].
          rewrite V2. done.
        * rewrite list_lookup_insert_ne by done. intros [-> _]%lookup_replicate. done.
      + rewrite Hat. apply NoDup_singleton.
      + intros x. rewrite Hat. intros ->%elem_of_list_singleton. lia.
    - intros x. rewrite Hat, elem_of_list_singleton. destruct (decide (x = 2)) as [->|H2].
      { rewrite lookup_insert. split; [by right|by eexists]. }
      rewrite lookup_insert_ne by done. destruct (decide (x = 0)) as [->|H0].
      { rewrite lookup_singleton. split; [by left|by eexists]. }
      rewrite lookup_singleton_ne by done. split; [by intros [? ?]|]. by intros [?|?].
    - lia.
    - simpl. exists (fresh 0). split; [|done]. rewrite lookup_insert_ne by done. by rewrite lookup_singleton.
    - constructor; [cbn [p_lv]; lia|constructor]. }
  assert (exists st, ofold (fun st i => lconstruct sp L mrg fresh 0 i st) (reverse (seq 1 n)) st0 = Some st /\ RB sp L n 0 ms st)
    as (st & Est & HB').
  { assert (forall k ms0 st1, k <= n ->
      ofold (fun st i => mconstruct (ar sp) (sp_hash sp) (sp_eqb sp) mrg (fun i s b => get_child sp s (Z.of_nat i) b) i st)
        (reverse (seq 1 k)) ms0 = Some ms -> RB sp L n k ms0 st1 ->
      exists st, ofold (fun st i => lconstruct sp L mrg fresh 0 i st) (reverse (seq 1 k)) st1 = Some st /\ RB sp L n 0 ms st) as G.
    2: { apply (G n _ _ (Nat.le_refl _) Ef HB). }
    clear Ef HB. intros k. induction k as [|k IH]; intros ms0 st1 Hk Ef HB.
    - simpl in Ef |- *. injection Ef as ->. by exists st1.
    - rewrite reverse_seq_S in Ef |- *. cbn [ofold] in Ef |- *.
      destruct (mconstruct _ _ _ _ _ _ _) as [ms1|] eqn:Ec; [|done].
      destruct (lconstruct_ok sp L mrg fresh HL Hf n (S k) ms0 st1 ms1) as (st2 & E2 & HB2); [lia|done|done|].
      rewrite E2. apply (IH ms1); [lia|done|]. by rewrite Nat.sub_succ, Nat.sub_0_r in HB2. }
  rewrite Est. cbn [mbind option_bind]. clear Est HB Ef.
  destruct HB' as [B1 B2 B3 B4 BS BD BN BO BW].
  assert (mwork ms = []) as Hw.
  { destruct (mwork ms) as [|q w]; [done|]. inversion BW. lia. }
  assert (ats (lsn _ _ st) = []) as Hats.
  { rewrite Hw in BS. destruct (ats (lsn _ _ st)) as [|y ys] eqn:Ey; [done|]. exfalso.
    assert (y ∈ ats (lsn _ _ st)) as Hy by (rewrite Ey; by left).
    unfold ats in Hy. apply elem_of_list_fmap in Hy as (p & _ & Hp). apply elem_of_list_In, in_concat in Hp as (ll & Hll & Hp).
    apply elem_of_list_In, elem_of_list_lookup_1 in Hll as [l El]. pose proof (si_load _ _ _ _ _ _ _ BS _ _ El) as HE.
    destruct ll as [|p' ll]; [done|]. apply mapM_length in HE. done. }
  rewrite Hats in BD.
  assert (forall m', delete 0 (<[0 := m']> (lheap _ _ st)) = ∅) as Hemp.
  { intros m'. rewrite delete_insert_delete. apply map_empty. intros x. destruct (decide (x = 0)) as [->|Hx].
    - by rewrite lookup_delete.
    - rewrite lookup_delete_ne by done. apply eq_None_not_Some. rewrite BD. intros [?|Hx']; [done|]. by inversion Hx'. }
  unfold lfinish. rewrite B4. unfold ONE in BO. destruct (mosrc ms) as [|y ys].
  - cbn [mbind option_bind]. destruct BO as (k & Ek & Rk). rewrite do_free by (by exists k). cbn [mbind option_bind].
    rewrite <- (insert_id (lheap _ _ st) 0 k Ek) at 1. rewrite Hemp, B1, B2. done.
  - destruct BO as (s1 & _ & k & Ek & Vk).
    destruct (do_destruct sp L (lheap _ _ st) 0 k Ek) as (k' & -> & Rk); [by eapply lo_destruct|].
    cbn [mbind option_bind]. rewrite do_free by (exists k'; by rewrite lookup_insert). cbn [mbind option_bind].
    rewrite Hemp, B1, B2. done.
Qed.
