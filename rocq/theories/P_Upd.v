From Verif Require Import Base M_Table Tree M_Hash P_Hash M_Sweeper M_Engine P_Sweep P_Pass P_Pass2 P_Core M_Merge.
Local Open Scope nat_scope.

Section upd.
  Context (X : tree) {S : Type} (a : nat) (nt : nat) (ngr : nat -> nat).
  Context (eqbf : nat -> S -> S -> bool) (hashf : nat -> S -> N).
  Context (R : nat -> nat -> S -> Prop) (tr : nat -> nat -> S -> tree).
  Context (n g0 : nat) (s0 : S).
  Notation core := (core X a nt ngr eqbf hashf R tr n g0 s0).

  (** state of the sweeper after level i + 1 *)
  Record swinv (i : nat) (sw : sweeper) (t : table) (root : nid) (w : list (pnode S)) : Prop := {
    s_len1 : length (slev sw) = Datatypes.S n;
    s_len2 : length (dcnt sw) = n + 2;
    s_lev : forall j, j <= n -> exists v, slev sw !! j = Some v /\ (v = 0 /\ j < i \/ i + 1 < v <= n + 1) /\
        (forall p r c b, p ∈ w -> p_src p = SBr r c b -> p_lv p <= j -> i < r -> r < v);
    s_mono : forall j j' v v', j <= j' -> slev sw !! j = Some v -> slev sw !! j' = Some v' -> 0 < v -> v <= v';
    s_dead : forall k, slev sw !! i = Some k ->
        (forall j r, i < j < k -> t !! j = Some r -> exists d, dcnt sw !! j = Some d /\ d <= length r) /\
        (forall j, k < j <= n + 1 -> dcnt sw !! j = Some 0);
    s_dlow : forall j, j <= i -> dcnt sw !! j = Some 0;
    s_top : dcnt sw !! (n + 1) = Some 0;
    s_root : root = n0 -> forall j, j <= n + 1 -> dcnt sw !! j = Some 0;
    s_max : 1 <= maxc sw
  }.

  Lemma lookup_grow0 m j : j < m -> grow m [] !! j = Some 0.
  Proof. intros H. unfold grow. simpl. rewrite Nat.sub_0_r. by apply lookup_replicate_2. Qed.

  (** with the recorded 1-branches [osrc] of M_Merge.v *)
  Lemma mupdate_ok i sw t root w low dead osrc :
    1 <= i < n -> core i t root w ->
    (i + 1 = n /\ sw = sw0 /\ (forall p r c b, p ∈ w -> p_src p = SBr r c b -> r <= n) /\ root <> n0 \/
     i + 1 < n /\ swinv (i + 1) sw t root w) ->
    low <= i -> (forall p c b, p ∈ w -> p_src p = SBr (i + 1) c b -> low <= p_lv p) ->
    (forall r, t !! (i + 1) = Some r -> dead <= length r) ->
    exists sw' t' root', update sw t root (i + 1) low dead = Some (sw', t', root') /\
      core i t' root' w /\ swinv i sw' t' root' w /\
      (mupdate sw t root osrc (i + 1) low dead = Some (sw', t', root', osrc) /\ t' = t \/
       exists k newId, i < k <= n /\ (forall p r c b, p ∈ w -> p_src p = SBr r c b -> r < k) /\
         sweep_rows k t = Some (t', newId) /\
         forall osrc', sweep_src k newId osrc = Some osrc' ->
           mupdate sw t root osrc (i + 1) low dead = Some (sw', t', root', osrc')).
  Proof.
    intros Hi HC Hsw Hlow Hlowp Hdead. unfold update, mupdate.
    destruct (Nat.leb_spec (i + 1) 1) as [|_]; [lia|].
    pose proof (c_len _ _ _ _ _ _ _ _ _ _ _ _ _ _ _ HC) as Hlt.
    (* the vectors before the marking *)
    assert (exists sl0 dc0, (if length (slev sw) <=? i + 1
        then (grow (Datatypes.S (i + 1)) (slev sw), grow (Datatypes.S (Datatypes.S (i + 1))) (dcnt sw))
        else (slev sw, dcnt sw)) = (sl0, dc0) /\
      length sl0 = Datatypes.S n /\ length dc0 = n + 2 /\
      (forall j, j <= n -> exists v, sl0 !! j = Some v /\ (v = 0 /\ (j < i + 1 \/ i + 1 = n) \/ i + 2 < v <= n + 1) /\
        (forall p r c b, p ∈ w -> p_src p = SBr r c b -> p_lv p <= j -> i + 1 < r -> r < v)) /\
      (forall j j' v v', j <= j' -> sl0 !! j = Some v -> sl0 !! j' = Some v' -> 0 < v -> v <= v') /\
      (forall k, sl0 !! (i + 1) = Some k -> 
        (forall j r, i + 1 < j < k -> t !! j = Some r -> exists d, dc0 !! j = Some d /\ d <= length r) /\
        (forall j, (i + 1 = n \/ k < j) -> j <= n + 1 -> dc0 !! j = Some 0)) /\
      (forall j, j <= i + 1 -> dc0 !! j = Some 0) /\ dc0 !! (n + 1) = Some 0 /\
      (root = n0 -> forall j, j <= n + 1 -> dc0 !! j = Some 0) /\ (i + 1 < n -> 1 <= maxc sw)) as
      (sl0 & dc0 & -> & L1 & L2 & L3 & L4 & L5 & L6 & L7 & L8 & L9).
    { destruct Hsw as [(Hn & -> & Hw & Hrt)|(Hn & HS)].
      - simpl. rewrite Nat.add_1_r. simpl. exists (grow (Datatypes.S (Datatypes.S i)) []), (grow (Datatypes.S (Datatypes.S (Datatypes.S i))) []).
        split_and!; try done.
        + unfold grow. rewrite app_length, replicate_length. simpl. lia.
        + unfold grow. rewrite app_length, replicate_length. simpl. lia.
        + intros j Hj. exists 0. rewrite lookup_grow0 by lia. split_and!; try done; [left; split; [done|right; lia]|].
          intros p r c b Hp E _ Hr. pose proof (Hw p r c b Hp E). lia.
        + intros j j' v v' Hj H1 H2 Hv.
          assert (j < Datatypes.S (Datatypes.S i)).
          { apply lookup_lt_Some in H1. unfold grow in H1. rewrite app_length, replicate_length in H1. simpl in H1. lia. }
          rewrite lookup_grow0 in H1 by lia. inversion H1. lia.
        + intros k Hk. rewrite lookup_grow0 in Hk by lia. inversion Hk. split; [intros; lia|].
          intros j _ Hj. apply lookup_grow0. lia.
        + intros j Hj. apply lookup_grow0. lia.
        + apply lookup_grow0. lia.
        + intros. lia.
      - rewrite (s_len1 _ _ _ _ _ HS). destruct (Nat.leb_spec (Datatypes.S n) (i + 1)); [lia|].
        exists (slev sw), (dcnt sw). split_and!; try done.
        + apply HS.
        + apply HS.
        + intros j Hj. destruct (s_lev _ _ _ _ _ HS j Hj) as (v & Hv & Hor & Hp). exists v. split_and!; try done.
          destruct Hor as [[? ?]|?]; [left; split; [done|left; lia]|right; lia].
        + apply HS.
        + intros k Hk. destruct (s_dead _ _ _ _ _ HS k Hk) as [H1 H2]. split; [done|].
          intros j Hj Hj'. apply H2. lia.
        + apply HS.
        + apply (s_top _ _ _ _ _ HS).
        + apply (s_root _ _ _ _ _ HS).
        + intros _. apply HS. }
    destruct (sweep_mark_ok (Datatypes.S (i + 1) - low) low (i + 1) sl0) as (sl & -> & M1 & M2 & e & M3 & M4 & M5 & M6 & M7);
      [lia|lia|].
    cbn [mbind option_bind]. rewrite (L6 (i + 1)) by lia. cbn [mbind option_bind].
    destruct (lookup_lt_is_Some_2 t (i + 1)) as [r Hr]; [lia|]. rewrite Hr. cbn [mbind option_bind].
    pose proof (Hdead r Hr) as Hdr.
    (* marks *)
    assert (forall j, e <= j -> j <= n -> exists v, sl0 !! j = Some v /\ i + 2 < v <= n + 1) as Hge.
    { intros j He Hj. destruct (L3 j Hj) as (v & Hv & Hor & _). exists v. split; [done|].
      destruct Hor as [[-> Hor]|?]; [|done]. exfalso.
      assert (e <= i + 1) as He1 by lia. destruct (M7 He1) as (ve & Hve & Hpos).
      pose proof (L4 e j ve 0 He Hve Hv Hpos). lia. }
    assert (forall j, j <= n -> exists v, sl !! j = Some v /\ (v = 0 /\ j < i \/ i + 1 < v <= n + 1) /\
        (forall p r c b, p ∈ w -> p_src p = SBr r c b -> p_lv p <= j -> i < r -> r < v)) as Hlev.
    { intros j Hj. destruct (L3 j Hj) as (v & Hv & Hor & Hp).
      destruct (decide (j < low)) as [Hjl|Hjl].
      { exists v. rewrite M2 by lia. split_and!; [done|lia|]. intros p q c b Hpw E Hlv Hq.
        destruct (decide (q = i + 1)) as [->|]; [pose proof (Hlowp p c b Hpw E); lia|].
        apply (Hp p q c b Hpw E Hlv). lia. }
      destruct (decide (j < e)) as [Hje|Hje].
      { destruct (M5 j ltac:(lia)) as [H0 H1]. rewrite Hv in H0. inversion H0; subst v.
        exists (Datatypes.S (i + 1)). split_and!; [done|right; lia|]. intros p q c b Hpw E Hlv Hq.
        destruct (decide (q = i + 1)) as [->|]; [lia|].
        pose proof (Hp p q c b Hpw E Hlv). lia. }
      exists v. rewrite M6 by lia. destruct (Hge j ltac:(lia) Hj) as (v' & Hv' & Hb). rewrite Hv in Hv'. inversion Hv'; subst v'.
      split_and!; [done|lia|]. intros p q c b Hpw E Hlv Hq.
      destruct (decide (q = i + 1)) as [->|]; [lia|]. apply (Hp p q c b Hpw E Hlv). lia. }
    assert (forall j j' v v', j <= j' -> sl !! j = Some v -> sl !! j' = Some v' -> 0 < v -> v <= v') as Hmono.
    { intros j j' v v' Hjj H1 H2 Hv.
      assert (j' <= n) as Hj' by (apply lookup_lt_Some in H2; lia).
      assert (forall x, low <= x -> x <= n -> exists u, sl !! x = Some u /\ (x < e /\ u = Datatypes.S (i + 1) \/ e <= x /\ sl0 !! x = Some u /\ i + 2 < u)) as Hx.
      { intros x Hx1 Hx2. destruct (decide (x < e)) as [Hxe|Hxe].
        - destruct (M5 x ltac:(lia)) as [_ ?]. eexists; split; [done|]. by left.
        - destruct (Hge x ltac:(lia) Hx2) as (u & ? & ?). exists u. rewrite M6 by lia. split; [done|]. right. split_and!; try done; lia. }
      destruct (decide (j < low)) as [Hjl|Hjl].
      - rewrite M2 in H1 by lia. destruct (decide (j' < e)) as [Hje|Hje].
        + destruct (decide (low <= j')) as [Hl2|Hl2].
          * destruct (M5 j' ltac:(lia)) as [H0 _]. pose proof (L4 j j' v 0 Hjj H1 H0 Hv). lia.
          * rewrite M2 in H2 by lia. by eapply (L4 j j').
        + rewrite M6 in H2 by lia. by eapply (L4 j j').
      - destruct (Hx j ltac:(lia) ltac:(lia)) as (u & Hu & Hu'). rewrite H1 in Hu. inversion Hu; subst u.
        destruct (Hx j' ltac:(lia) ltac:(lia)) as (u & Hu2 & Hu2'). rewrite H2 in Hu2. inversion Hu2; subst u.
        destruct Hu' as [[? ->]|(? & ? & ?)], Hu2' as [[? ->]|(? & ? & ?)]; try lia.
        by eapply (L4 j j'). }
    replace (i + 1 - 1) with i by lia.
    destruct (Hlev i ltac:(lia)) as (k & Hk & Hkb & Hkp). rewrite Hk. cbn [mbind option_bind].
    destruct (Hlev (i + 1) ltac:(lia)) as (top & Htop & Htb & _). rewrite Htop. cbn [mbind option_bind].
    assert (i + 1 < k <= n + 1) as Hkb' by lia. assert (top <= n + 1) by lia.
    assert (k <= top) as Hkt by (eapply (Hmono i (i + 1)); [lia|done|done|lia]).
    assert (i + 1 < n -> sl0 !! (i + 1) = Some top) as Htop0.
    { intros Hlt'. destruct (L3 (i + 1) ltac:(lia)) as (v & Hv & Hor & _).
      destruct (decide (i + 1 < e)) as [Hie|Hie].
      - destruct (M5 (i + 1) ltac:(lia)) as [H0 _]. rewrite Hv in H0. inversion H0. lia.
      - rewrite <- M6 by lia. done. }
    set (dc1 := <[i + 1 := dead]> dc0).
    assert (length dc1 = n + 2) as Hl1 by (unfold dc1; by rewrite insert_length).
    destruct (sweep_merge_ok (top - k) top k dc1) as (dc & -> & D1 & D2 & D3 & D4); [lia|lia|].
    cbn [mbind option_bind].
    (* dead counters after merging *)
    assert (forall j, j <> i + 1 -> dc1 !! j = dc0 !! j) as Hdc1.
    { intros j Hj. unfold dc1. by rewrite list_lookup_insert_ne. }
    assert (dc1 !! (i + 1) = Some dead) as Hdc1'.
    { unfold dc1. rewrite list_lookup_insert; [done|lia]. }
    assert (forall j, top < j -> j <= n + 1 -> dc0 !! j = Some 0) as Habove.
    { intros j Hj1 Hj2. destruct (L3 (i + 1) ltac:(lia)) as (v & Hv & _ & _).
      destruct (decide (i + 1 = n)) as [En|En].
      - apply (L5 v Hv); [by left|lia].
      - apply (L5 top (Htop0 ltac:(lia))); [right; lia|lia]. }
    assert (forall j r, i < j < k -> t !! j = Some r -> exists d, dc !! j = Some d /\ d <= length r) as HD1.
    { intros j rj Hj Hrj. rewrite D2 by lia. destruct (decide (j = i + 1)) as [->|Hne].
      - exists dead. split; [done|]. rewrite Hr in Hrj. by inversion Hrj; subst.
      - rewrite Hdc1 by done. destruct (decide (i + 1 = n)) as [En|En]; [lia|].
        apply (L5 top (Htop0 ltac:(lia))); [lia|done]. }
    assert (forall j, k < j <= n + 1 -> dc !! j = Some 0) as HD2.
    { intros j Hj. destruct (decide (j <= top)); [apply D3; lia|]. rewrite D2 by lia. rewrite Hdc1 by lia. apply Habove; lia. }
    assert (forall j, j <= i -> dc !! j = Some 0) as HD3.
    { intros j Hj. rewrite D2 by lia. rewrite Hdc1 by lia. apply L6. lia. }
    assert (dc !! (n + 1) = Some 0) as HD4.
    { destruct (decide (k = n + 1)) as [->|]; [|apply HD2; lia].
      apply D4. intros j Hj. rewrite Hdc1 by lia. assert (j = n + 1) as -> by lia. done. }
    pose proof (c_root _ _ _ _ _ _ _ _ _ _ _ _ _ _ _ HC) as Hroot. destruct (Nat.eqb_spec i n) as [?|_]; [lia|].
    destruct Hroot as [Hroot _].
    assert (forall t' root', core i t' root' w -> root' = n0 -> forall j rj, 0 < j -> t' !! j = Some rj -> rj = []) as Hempty.
    { intros t' root' HC' Hr0 j rj Hj Hrj.
      pose proof (c_root _ _ _ _ _ _ _ _ _ _ _ _ _ _ _ HC') as HR'. destruct (Nat.eqb_spec i n) as [?|_]; [lia|].
      destruct HR' as [[[_ He]|[Hm _]] _]; [|rewrite Hr0 in Hm; inversion Hm; lia].
      destruct rj as [|p rj]; [done|].
      assert (tget t' (mk j 0) = None) as HN by (eapply core_all_empty; [exact HC'|lia|done|done]).
      unfold tget in HN. simpl in HN. rewrite Hrj in HN. done. }
    assert (root = n0 -> forall j, j <= n + 1 -> dc !! j = Some 0) as HD5.
    { intros Hr0 j Hj. assert (r = []) as -> by (eapply (Hempty t root HC Hr0 (i + 1)); [lia|done]). simpl in Hdr.
      assert (dead = 0) as Hd0 by lia.
      assert (forall j, j <= n + 1 -> dc1 !! j = Some 0) as Hz.
      { intros j' Hj'. destruct (decide (j' = i + 1)) as [->|]; [by rewrite Hdc1', Hd0|]. rewrite Hdc1 by done. by apply L8. }
      destruct (decide (j < k)); [rewrite D2 by lia; by apply Hz|].
      destruct (decide (j = k)) as [->|]; [|apply HD2; lia]. apply D4. intros. apply Hz. lia. }
    assert (1 <= max (maxc sw) (allc sw + length r)) as Hmx.
    { destruct (decide (i + 1 < n)); [pose proof (L9 ltac:(lia)); lia|].
      destruct Hsw as [(Hn & _ & _ & Hrt)|[? _]]; [|lia].
      destruct Hroot as [[? _]|[_ [p Hp]]]; [done|]. rewrite Hn in Hr. rewrite Hp in Hr. inversion Hr; subst r. simpl. lia. }
    destruct (lookup_lt_is_Some_2 dc k) as [d Hd]; [lia|]. rewrite Hd. cbn [mbind option_bind].
    destruct (Nat.ltb_spec (d * 20) (max (maxc sw) (allc sw + length r))) as [Hns|Hsweep].
    { do 3 eexists. split; [done|]. split; [done|]. split; [|by left]. constructor; simpl; try done; try lia.
      intros k' Hk'. rewrite Hk in Hk'. inversion Hk'; subst k'. split; done. }
    assert (0 < d) as Hdp by lia.
    assert (k <= n) as Hkn. { destruct (decide (k = n + 1)) as [E|]; [|lia]. rewrite E, HD4 in Hd. inversion Hd. lia. }
    assert (root <> n0) as Hrn. { intros E. rewrite (HD5 E k ltac:(lia)) in Hd. inversion Hd. lia. }
    destruct Hroot as [[? _]|[Hrm _]]; [done|].
    assert (forall p r c b, p ∈ w -> p_src p = SBr r c b -> r < k) as Hbelow.
    { intros p q c b Hp E. destruct (c_pend _ _ _ _ _ _ _ _ _ _ _ _ _ _ _ HC p Hp) as (Hlv & _ & _ & _ & Hs).
      rewrite E in Hs. apply (Hkp p q c b Hp E); lia. }
    destruct (sweep_core X a nt ngr eqbf hashf R tr n g0 s0 i k t root w HC) as (t' & root' & Esw & HC' & Hlowr); try done; try lia.
    rewrite Esw.
    cbn [mbind option_bind]. do 3 eexists. split; [done|]. split; [done|]. split.
    2: { right. unfold sweep in Esw. destruct (sweep_rows k t) as [[t1 newId]|] eqn:Erows; [|done].
      cbn [mbind option_bind] in Esw. destruct (newId !! row root) as [rr|] eqn:Err; [|done].
      cbn [mbind option_bind] in Esw. destruct (rr !! col root) as [ff|] eqn:Eff; [|done].
      cbn [mbind option_bind] in Esw. inversion Esw; subst t1 ff. exists k, newId. split_and!; try done; try lia.
      intros osrc' Eo. unfold msweep. rewrite Erows. cbn [mbind option_bind]. rewrite Eo. cbn [mbind option_bind].
      rewrite Err. cbn [mbind option_bind]. rewrite Eff. done. }
    assert (forall j, j <> k -> <[k:=0]> dc !! j = dc !! j) as Hne. { intros j Hj. by rewrite list_lookup_insert_ne. }
    assert (<[k:=0]> dc !! k = Some 0) as Heq. { apply list_lookup_insert. lia. }
    constructor; simpl; try done; try lia.
    - rewrite insert_length. lia.
    - intros k' Hk'. rewrite Hk in Hk'. inversion Hk'; subst k'. split.
      + intros j rj Hj Hrj. rewrite Hne by lia. rewrite Hlowr in Hrj by lia. by apply HD1.
      + intros j Hj. rewrite Hne by lia. by apply HD2.
    - intros j Hj. rewrite Hne by lia. by apply HD3.
    - rewrite Hne by lia. done.
    - intros Hr0 j Hj. destruct (decide (j = k)) as [->|Hjk]; [done|]. rewrite Hne by done.
      destruct (decide (j <= i)); [by apply HD3|]. destruct (decide (k < j)); [apply HD2; lia|].
      destruct (lookup_lt_is_Some_2 t j) as [rj Hrj]; [lia|].
      destruct (HD1 j rj ltac:(lia) Hrj) as (dj & Hdj & Hle).
      rewrite <- Hlowr in Hrj by lia. rewrite (Hempty t' root' HC' Hr0 j rj ltac:(lia) Hrj) in Hle. simpl in Hle.
      rewrite Hdj. f_equal. lia.
  Qed.

  Lemma update_ok i sw t root w low dead :
    1 <= i < n -> core i t root w ->
    (i + 1 = n /\ sw = sw0 /\ (forall p r c b, p ∈ w -> p_src p = SBr r c b -> r <= n) /\ root <> n0 \/
     i + 1 < n /\ swinv (i + 1) sw t root w) ->
    low <= i -> (forall p c b, p ∈ w -> p_src p = SBr (i + 1) c b -> low <= p_lv p) ->
    (forall r, t !! (i + 1) = Some r -> dead <= length r) ->
    exists sw' t' root', update sw t root (i + 1) low dead = Some (sw', t', root') /\
      core i t' root' w /\ swinv i sw' t' root' w.
  Proof.
    intros. destruct (mupdate_ok i sw t root w low dead []) as (sw' & t' & root' & ? & ? & ? & _); eauto 10.
  Qed.
End upd.
