(** operator== decides equality of the unfoldings of diagrams without duplicate nodes. *)
From Verif Require Import Base Sem M_Table S_Dd Tree P_Red P_RLevel M_Hash P_Hash M_Reducer P_RHash P_Run M_Equal.

Lemma m_sym x y : m_eqb x y = m_eqb y x.
Proof. apply (e_sym (0, fst x) (0, fst y)). Qed.
Lemma m_hash_ok x y : m_eqb x y = true -> m_hash x = m_hash y.
Proof. apply (e_hash_ok (0, fst x) (0, fst y)). Qed.
Lemma m_eqb_codes x y : m_eqb x y = true <-> map code (fst x) = map code (fst y).
Proof. apply node_eqb_codes. Qed.

Lemma m_refl x : m_eqb x x = true.
Proof. by apply m_eqb_codes. Qed.
Lemma m_trans x y z : m_eqb x y = true -> m_eqb y z = true -> m_eqb x z = true.
Proof. rewrite !m_eqb_codes. congruence. Qed.

Section level.
  Context (r : list node).
  Record einv (k : nat) (u : htable (node * nat)) : Prop := {
    e_good : ht_good m_hash m_eqb u;
    e_el : forall e, e ∈ ht_elems u -> snd e < k /\ exists p, r !! snd e = Some p /\ map code (fst e) = map code p;
    e_all : forall j p, j < k -> r !! j = Some p -> exists e, e ∈ ht_elems u /\ map code (fst e) = map code p
  }.

  Lemma enter_ok : exists u, ofor (length r) (eq_enter r) (ht_init (length r * 2)) = Some u /\ einv (length r) u.
  Proof.
    apply (ofor_inv _ (fun k u => einv k u)).
    - constructor.
      + left. apply ht_init_strong.
      + destruct (@ht_init_facts (node * nat) (length r * 2)) as (_ & _ & _ & _ & ->). intros e He. by apply elem_of_nil in He.
      + lia.
    - intros k u Hk [Hg Hel Hall]. unfold eq_enter. destruct (lookup_lt_is_Some_2 r k Hk) as [p Hp]. rewrite Hp. cbn [mbind option_bind].
      destruct (ht_add_strong m_hash m_eqb m_sym m_hash_ok u (p, 0) Hg) as (u1 & s & y & -> & Hst & Hat & Hcase). cbn [mbind option_bind].
      destruct (ht_modify_strong m_hash m_eqb m_refl m_sym m_trans m_hash_ok u1 s y (fun e => (fst e, k)) Hst Hat) as (u2 & l1 & l2 & -> & Hst2 & E1 & E2).
      { by apply m_eqb_codes. }
      exists u2. split; [done|].
      assert (map code (fst y) = map code p) as Hy.
      { destruct Hcase as [(_ & Heq & _)|(-> & _ & _)]; [|done]. by apply m_eqb_codes in Heq. }
      assert (forall e, e ∈ l1 ++ l2 -> e ∈ ht_elems u) as Hold.
      { intros e He. destruct Hcase as [(_ & _ & HP)|(-> & _ & HP)]; rewrite E1 in HP.
        - rewrite <- HP. set_solver.
        - rewrite <- Permutation_middle in HP. apply Permutation_cons_inv in HP. by rewrite <- HP. }
      assert (forall e, e ∈ ht_elems u -> e = y \/ e ∈ l1 ++ l2) as Hback.
      { intros e He. destruct Hcase as [(_ & _ & HP)|(-> & _ & HP)]; rewrite E1 in HP.
        - rewrite <- HP in He. set_solver.
        - assert (e ∈ (p, 0) :: ht_elems u) as He' by set_solver. rewrite <- HP in He'. set_solver. }
      constructor.
      + by left.
      + rewrite E2. intros e He. assert (e = (fst y, k) \/ e ∈ l1 ++ l2) as [->|He'] by set_solver.
        * simpl. split; [lia|]. by exists p.
        * destruct (Hel e (Hold e He')) as (? & ?). split; [lia|done].
      + intros j q Hj Hq. rewrite E2. destruct (decide (j = k)) as [->|Hne].
        * exists (fst y, k). split; [set_solver|]. simpl. congruence.
        * destruct (Hall j q ltac:(lia) Hq) as (e & He & Hc). destruct (Hback e He) as [->|He'].
          -- exists (fst y, k). split; [set_solver|]. done.
          -- exists e. split; [set_solver|done].
  Qed.
End level.

Section eq.
  Context (d o : dd) (Hd : dd_wf d) (Ho : dd_wf o) (Har : d_ar d = d_ar o).
  Context (Hrow : row (rt d) = row (rt o)).
  Notation n := (row (rt d)).

  Definition tuniq : Prop := forall f g T, rep (tab d) f T -> rep (tab d) g T -> code f = code g.

  (** the entry for a node of the other diagram *)
  Definition eok (f e : nid) : Prop :=
    row e = row f /\ forall T, rep (tab o) f T ->
      (forall S, rep (tab d) e S -> S = T) /\ (tuniq -> forall g, rep (tab d) g T -> code g = code e).
  Definition einv2 (i : nat) (equiv : list (list nid)) : Prop :=
    length equiv = S n /\ forall f, row f <= i -> valid (tab o) f -> exists e, canon equiv f = Some e /\ eok f e.

  Lemma eq_level_ok i equiv : 0 < i <= n -> einv2 (i - 1) equiv ->
    exists equiv', eq_level (tab d) (tab o) equiv i = Some equiv' /\ einv2 i equiv'.
  Proof.
    intros Hi [Hlen Hinv]. pose proof Hd as (Ha & Hwf & Hv). pose proof Ho as (Ha' & Hwf' & Hv'). unfold eq_level.
    assert (forall d', valid (tab d') (rt d') -> i <= row (rt d') -> exists x, tab d' !! i = Some x) as Hrows.
    { intros d' H Hle. apply lookup_lt_is_Some_2. unfold valid in H. destruct (Nat.eqb_spec (row (rt d')) 0); [lia|].
      unfold tget in H. destruct (tab d' !! row (rt d')) eqn:E; [|by destruct H]. apply lookup_lt_Some in E. lia. }
    destruct (Hrows d Hv ltac:(lia)) as [r Hr]. rewrite Hr. cbn [mbind option_bind].
    destruct (enter_ok r) as (u & -> & HE). cbn [mbind option_bind].
    destruct (Hrows o Hv' ltac:(lia)) as [ro Hro]. rewrite Hro. cbn [mbind option_bind].
    assert (forall j q, ro !! j = Some q -> exists e, eq_lookup i (length r) u equiv q = Some e /\ eok (mk i j) e) as Hlk.
    { intros j q Hj. unfold eq_lookup.
      assert (exists q', mapM (canon equiv) q = Some q' /\ Forall2 eok q q') as (q' & -> & HF).
      { assert (Forall (fun f => exists e, canon equiv f = Some e /\ eok f e) q) as HF.
        { apply Forall_lookup. intros b f Hb. destruct (wf_child _ _ Hwf' i ro j q b f ltac:(lia) Hro Hj Hb). apply Hinv; [lia|done]. }
        clear -HF. induction HF as [|f q (e & He & Hok) HF IH]; [by exists []|]. destruct IH as (q' & E & IH).
        exists (e :: q'). simpl. rewrite He. cbn [mbind option_bind]. rewrite E. split; [done|by constructor]. }
      cbn [mbind option_bind].
      assert (tget (tab o) (mk i j) = Some q) as Hgo by (unfold tget; cbn [row col mk]; rewrite Hro; done).
      assert (forall T, rep (tab o) (mk i j) T -> exists ts, T = TN i ts /\ Forall2 (rep (tab o)) q ts) as HTo.
      { intros T HT. inversion HT as [| |f' p ts' H1 H2 H3 H4]; subst; cbn [row mk] in *; try lia.
        exists ts'. split; [done|]. congruence. }
      destruct (ht_get_strong m_hash m_eqb m_hash_ok u (q', 0) (e_good _ _ _ HE)) as [(s & y & -> & Hat & Hin & Heq)|[-> Hno]]; cbn [mbind option_bind].
      - rewrite Hat. cbn [mbind option_bind]. eexists. split; [done|]. split; [done|]. intros T HT. destruct (HTo T HT) as (ts & -> & HFo).
        destruct (e_el _ _ _ HE y Hin) as (Hlt & p & Hp & Hcp). apply m_eqb_codes in Heq. cbn [fst] in Heq.
        assert (map code p = map code q') as Hpq by congruence.
        assert (tget (tab d) (mk i (snd y)) = Some p) as Hgd by (unfold tget; cbn [row col mk]; rewrite Hr; done).
        assert (forall S, rep (tab d) (mk i (snd y)) S -> S = TN i ts) as Hs.
        { intros S HS. inversion HS as [| |f' p' ss H1 H2 H3 H4]; subst; cbn [row mk] in *; try lia. assert (p' = p) as -> by congruence.
          f_equal. apply (codes_trees _ _ _ _ Hpq) in H3. clear -HF HFo H3. revert ts ss HFo H3.
          induction HF as [|f e q q' [_ Hok] HF IH]; intros ts ss HFo H3; inversion HFo; inversion H3; subst; [done|].
          f_equal; [by eapply Hok|by apply IH]. }
        split; [done|]. intros Hu g Hg. destruct (rep_exists _ _ Hwf (mk i (snd y))) as [S HS].
        { unfold valid. cbn [row mk]. destruct (Nat.eqb_spec i 0); [lia|]. rewrite Hgd. done. }
        pose proof (Hs S HS) as ->. by eapply Hu.
      - eexists. split; [done|]. split; [done|]. intros T HT. destruct (HTo T HT) as (ts & -> & HFo). split.
        + intros S HS. inversion HS as [| |f' p' ss H1 H2 H3 H4]; subst; cbn [row mk] in *; try lia.
          exfalso. unfold tget in H2. cbn [row col mk] in H2. rewrite Hr in H2. cbn [mbind option_bind] in H2. apply lookup_lt_Some in H2. lia.
        + intros Hu g Hg. exfalso. inversion Hg as [| |f' p ss H1 H2 H3 H4]; subst.
          unfold tget in H2. rewrite Hr in H2. cbn [mbind option_bind] in H2.
          destruct (e_all _ _ _ HE (col g) p ltac:(by eapply lookup_lt_Some) H2) as (y & Hy & Hcy).
          specialize (Hno y Hy). rewrite <- not_true_iff_false in Hno. apply Hno. apply m_eqb_codes. cbn [fst]. rewrite Hcy.
          clear -HF HFo H3 Hu. revert ts p HFo H3.
          induction HF as [|f e q q' [_ Hok] HF IH]; intros ts p HFo H3; inversion HFo; subst; inversion H3; subst; [done|].
          simpl. f_equal; [by eapply Hok|by eapply IH]. }
    assert (exists l, mapM (eq_lookup i (length r) u equiv) ro = Some l /\ length l = length ro /\
      forall j e, l !! j = Some e -> eok (mk i j) e) as (l & -> & Hl1 & Hl2).
    { clear -Hlk. destruct (mapM (eq_lookup i (length r) u equiv) ro) as [l|] eqn:E.
      - apply mapM_Some_1 in E. exists l. split; [done|]. split; [symmetry; by eapply Forall2_length|].
        intros j e Hj. destruct (Forall2_lookup_r _ _ _ _ _ E Hj) as (q & Hq & Hqe). destruct (Hlk j q Hq) as (e' & He' & Hok). simpl in Hqe. congruence.
      - exfalso. apply mapM_None_1, Exists_exists in E as (q & Hq & Hn). apply elem_of_list_lookup in Hq as [j Hj].
        destruct (Hlk j q Hj) as (e & He & _). simpl in Hn. congruence. }
    cbn [mbind option_bind]. destruct (lookup_lt_is_Some_2 equiv i ltac:(lia)) as [z ->]. cbn [mbind option_bind].
    eexists. split; [done|]. split; [by rewrite insert_length|]. intros f Hf Hvf. destruct (decide (row f = i)) as [E|E].
    - unfold canon. rewrite E, list_lookup_insert by lia. cbn [mbind option_bind].
      unfold valid in Hvf. rewrite E in Hvf. destruct (Nat.eqb_spec i 0); [lia|]. destruct Hvf as [q Hq]. unfold tget in Hq. rewrite E, Hro in Hq. cbn [mbind option_bind] in Hq.
      destruct (lookup_lt_is_Some_2 l (col f)) as [e He]; [rewrite Hl1; by eapply lookup_lt_Some|]. exists e. split; [done|].
      destruct (Hl2 _ _ He) as [H1 H2]. split; [cbn [row mk] in H1; congruence|]. intros T HT. apply H2.
      apply (rep_code _ f); [unfold code; cbn [row col mk]; congruence|done].
    - destruct (Hinv f ltac:(lia) Hvf) as (e & He & Hok). exists e. split; [|done]. unfold canon in *. by rewrite list_lookup_insert_ne by lia.
  Qed.

  Lemma eq_core_ok A B : rep (tab d) (rt d) A -> rep (tab o) (rt o) B ->
    exists b, dd_eq_core d o = Some b /\ (b = true -> A = B) /\ (tuniq -> A = B -> b = true).
  Proof.
    intros HA HB. pose proof Hd as (Ha & Hwf & Hv). pose proof Ho as (Ha' & Hwf' & Hv'). unfold dd_eq_core.
    destruct (wf_term _ _ Hwf') as (r0 & Hr0 & Hl0 & _). rewrite Hr0. cbn [mbind option_bind].
    assert (exists equiv, ofold (eq_level (tab d) (tab o)) (seq 1 n) (map (mk 0) (seq 0 (length r0)) :: replicate n []) = Some equiv /\ einv2 n equiv) as (equiv & -> & _ & Hinv).
    { destruct (ofold_inv (eq_level (tab d) (tab o)) (fun l e => einv2 (length l) e) (seq 1 n) (map (mk 0) (seq 0 (length r0)) :: replicate n [])) as (e & E & HI).
      - split; [simpl; by rewrite replicate_length|]. simpl. intros f Hf Hvf. unfold canon. rewrite Hl0. assert (row f = 0) as E by lia. rewrite E.
        unfold valid in Hvf. rewrite E in Hvf. simpl in Hvf. exists (mk 0 (col f)). split; [destruct (col f) as [|[|]]; simpl; try done; lia|].
        split; [simpl; lia|]. intros T HT. split.
        + intros S HS. inversion HT; inversion HS; subst; cbn [row col mk] in *; try lia; try congruence.
        + intros Hu g Hg. apply (Hu g _ T Hg). inversion HT; subst; [apply rep_0|apply rep_1|lia]; done.
      - intros l x l' s El HI. assert (x = S (length l)) as ->.
        { assert (seq 1 n !! length l = Some x) as Hx by (rewrite El; by apply list_lookup_middle). apply lookup_seq in Hx. lia. }
        assert (length l < n) as Hlt. { rewrite <- (seq_length n 1), El, app_length. simpl. lia. }
        rewrite app_length. simpl. replace (length l + 1) with (S (length l)) by lia. apply eq_level_ok; [lia|]. simpl. by rewrite Nat.sub_0_r.
      - exists e. split; [done|]. by rewrite seq_length in HI. }
    cbn [mbind option_bind]. destruct (Hinv (rt o) ltac:(lia) Hv') as (e & -> & He1 & He2). cbn [mbind option_bind].
    eexists. split; [done|]. destruct (He2 B HB) as [H1 H2]. split.
    - intros Hb. apply neqb_true in Hb. apply H1. by apply (rep_code _ (rt d)).
    - intros Hu ->. apply neqb_true. by apply H2.
  Qed.
End eq.

Lemma no_dup_uniq d : dd_wf d -> no_duplicates d -> tuniq d.
Proof.
  intros (Ha & Hwf & _) Hn f g T. revert f g. induction T as [| |l ts IH] using tree_ind'; intros f g Hf Hg.
  - inversion Hf; inversion Hg; subst. unfold code. congruence.
  - inversion Hf; inversion Hg; subst. unfold code. congruence.
  - assert (row g = row f) as H5' by (rewrite <- (rep_lev _ _ _ Hf), <- (rep_lev _ _ _ Hg); done).
    inversion Hf as [| |f' p ss H1 H2 H3 H4]; subst. inversion Hg as [| |g' p' ss' H1' H2' H3' H4']; subst.
    assert (map code p = map code p') as Hc.
    { clear -IH H3 H3'. revert p p' H3 H3'. induction IH as [|T ts HT IH IHl]; intros p p' H3 H3'; inversion H3; inversion H3'; subst; [done|].
      simpl. f_equal; [by apply HT|by apply IHl]. }
    unfold code. rewrite H5'. f_equal. eapply (Hn (row f)); [done| | |exact Hc].
    + by rewrite (tget_code _ _ f).
    + rewrite (tget_code _ _ g); [done|]. unfold code. cbn [row col mk]. congruence.
Qed.

Lemma dd_eq_ok same d o A B : dd_wf d -> dd_wf o -> d_ar d = d_ar o -> (same = true -> tab d = tab o) ->
  rep (tab d) (rt d) A -> rep (tab o) (rt o) B ->
  exists b, dd_eq same d o = Some b /\ (b = true -> A = B) /\ (tuniq d -> tuniq o -> A = B -> b = true).
Proof.
  intros Hd Ho Har Hsame HA HB. unfold dd_eq.
  destruct (Nat.eqb_spec (row (rt d)) (row (rt o))) as [Hrow|Hrow]; simpl.
  2:{ exists false. split_and!; [done|done|]. intros _ _ ->. exfalso. apply Hrow. by rewrite <- (rep_lev _ _ _ HA), <- (rep_lev _ _ _ HB). }
  destruct (Nat.eqb_spec (row (rt d)) 0) as [H0|H0].
  { eexists. split_and!; [done| |].
    - intros Hb. apply neqb_true in Hb. assert (code (rt o) = code (rt d)) as Hb' by done. inversion HA; subst; try lia; inversion HB; subst; try lia; try done; inversion Hb; congruence.
    - intros _ _ ->. apply neqb_true. unfold code. inversion HA; subst; try lia; inversion HB; subst; try lia; congruence. }
  destruct (neqb (rt d) (rt o) && same) eqn:Es.
  { apply andb_true_iff in Es as [E1 E2]. apply neqb_true in E1. exists true. split_and!; [done| |done]. intros _.
    eapply rep_det; [done|]. rewrite Hsame by done. by apply (rep_code _ (rt o)). }
  destruct (table_size (tab o) <? table_size (tab d)).
  - destruct (eq_core_ok o d Ho Hd (eq_sym Har) (eq_sym Hrow) B A HB HA) as (b & E & H1 & H2). exists b. split_and!; [done| |].
    + intros Hb. symmetry. by apply H1.
    + intros _ Hu Heq. by apply H2.
  - destruct (eq_core_ok d o Hd Ho Har Hrow A B HA HB) as (b & E & H1 & H2). exists b. split_and!; [done|done|].
    intros Hu _. by apply H2.
Qed.
