From Verif Require Import Base M_Table Tree M_Hash P_Hash M_Sweeper M_Engine P_Sweep P_Pass P_Pass2.
Local Open Scope nat_scope.

Section core.
  Context (X : tree) {S : Type} (a : nat) (nt : nat) (ngr : nat -> nat).
  Context (eqbf : nat -> S -> S -> bool) (hashf : nat -> S -> N).
  Context (R : nat -> nat -> S -> Prop) (tr : nat -> nat -> S -> tree).
  Context (n g0 : nat) (s0 : S).

  (** the (normalised) tree of a reference, given the trees of pending nodes and the tree X the
      1-terminal stands for (T1; see P_Merge for another use) *)
  Inductive den (t : table) (w : list (pnode S)) : nid -> tree -> Prop :=
  | den_0 f : row f = 0 -> col f = 0 -> den t w f T0
  | den_1 f : row f = 0 -> col f = 1 -> den t w f X
  | den_N f ts : 0 < row f -> is_Some (tget t f) -> length ts = a ->
      (forall b, b < a ->
         (exists p, p ∈ w /\ p_src p = SBr (row f) (col f) b /\ nth b ts T0 = tr (p_lv p) (p_gr p) (p_st p)) \/
         (SBr (row f) (col f) b ∉ map p_src w /\
          exists g, child t f b = Some g /\ row g < row f /\ den t w g (nth b ts T0))) ->
      den t w f (nzN (row f) ts).

  Definition reps_ok (r : nat) (len : nat) : Prop :=
    exists rs : list (nat * S), len <= length rs /\ Forall (fun x => fst x < ngr r /\ R r (fst x) (snd x)) rs /\
      (eq_hash_ok hashf eqbf r -> ForallOrdPairs (fun x y => fst x = fst y -> eqbf r (snd x) (snd y) = false) rs).

  Record core (i : nat) (t : table) (root : nid) (w : list (pnode S)) : Prop := {
    c_len : length t = Datatypes.S n;
    c_term : t !! 0 = Some (terminal_row a);
    c_empty : forall r, 0 < r <= i -> t !! r = Some [];
    c_ar : forall f p, tget t f = Some p -> length p = a;
    c_pend : forall p, p ∈ w -> 0 < p_lv p <= i /\ p_gr p < ngr (p_lv p) /\ p_th p < nt /\
        R (p_lv p) (p_gr p) (p_st p) /\
        match p_src p with SRoot => i = n | SBr r c b => i < r /\ b < a /\ is_Some (tget t (mk r c)) end;
    c_nodup : NoDup (map p_src w);
    c_res : forall f b g, 0 < row f -> child t f b = Some g -> SBr (row f) (col f) b ∉ map p_src w ->
        row g < row f /\ valid t g;
    c_root : if i =? n then w = [Pn n g0 0 SRoot s0] else
        (root = n0 /\ t !! n = Some [] \/ root = mk n 0 /\ exists p, t !! n = Some [p]) /\ den t w root (tr n g0 s0);
    c_par : forall f, 0 < row f < n -> is_Some (tget t f) ->
        exists f' b g, child t f' b = Some g /\ code g = code f /\ row f < row f' /\
          SBr (row f') (col f') b ∉ map p_src w;
    c_reps : forall r x, i < r <= n -> t !! r = Some x -> reps_ok r (length x)
  }.

  Lemma valid_bound t f : length t = Datatypes.S n -> 0 < row f -> is_Some (tget t f) -> row f <= n.
  Proof.
    intros Hl Hp [p Hg]. unfold tget in Hg. destruct (t !! row f) eqn:E; [|done].
    apply lookup_lt_Some in E. lia.
  Qed.

  (** no node left when row n is empty *)
  Lemma core_all_empty i t root w : core i t root w -> 0 < n -> t !! n = Some [] ->
    forall f, 0 < row f -> tget t f = None.
  Proof.
    intros HC Hn He f. remember (n - row f) as d eqn:Hd. revert f Hd.
    induction d as [d IH] using lt_wf_ind. intros f Hd Hp.
    destruct (tget t f) as [p|] eqn:Ht; [|done]. exfalso.
    assert (row f <= n) as Hle by (eapply valid_bound; [apply HC|done|by eexists]).
    destruct (decide (row f = n)) as [E|E].
    - unfold tget in Ht. by rewrite E, He in Ht.
    - destruct (c_par _ _ _ _ HC f) as (f' & b & g & Hc & _ & Hlt & _); [lia|by eexists|].
      unfold child in Hc. destruct (tget t f') eqn:Hf'; [|done].
      assert (row f' <= n) by (eapply valid_bound; [apply HC|lia|by eexists]).
      rewrite (IH (n - row f') ltac:(lia) f' eq_refl ltac:(lia)) in Hf'. done.
  Qed.

  Lemma den_row0 t w f T : den t w f T -> code f = code n0 -> T = T0.
  Proof. intros H Hc. inversion Hc. inversion H; subst; try done; lia. Qed.

  (** ** A sweep preserves the invariant *)
  Section sweep.
    Context (i k : nat) (t : table) (root : nid) (w : list (pnode S)).
    Context (HC : core i t root w) (Hi : i < k) (Hin : i <> n) (Hk : k <= n).
    Context (Hnp : forall p r c b, p ∈ w -> p_src p = SBr r c b -> r < k).
    Context (Hroot : root = mk n 0).

    Lemma sw_sweepable : sweepable k t.
    Proof.
      intros i0 r j p f Hk0 Hr Hj Hf. apply elem_of_list_lookup in Hf as [b Hb].
      assert (child t (mk i0 j) b = Some f) as Hc.
      { unfold child, tget. simpl. rewrite Hr. simpl. rewrite Hj. done. }
      destruct (c_res _ _ _ _ HC (mk i0 j) b f) as [Hlt Hv]; [simpl; lia|done| |].
      { intros Hin'. apply elem_of_list_fmap in Hin' as (q & E & Hq). symmetry in E.
        pose proof (Hnp q _ _ _ Hq E). simpl in *. lia. }
      simpl in Hlt. split; [done|]. intros Hk1. unfold valid in Hv.
      destruct (Nat.eqb_spec (row f) 0); [lia|done].
    Qed.

    Lemma sweep_core : exists t' root', sweep k t root = Some (t', root') /\ core i t' root' w /\
      (forall r, r < k -> t' !! r = t !! r).
    Proof.
      destruct (sweep_rows_ok k t) as (t' & newId & E & Hl & Hl' & Hlow & Hnid & Hsw);
        [lia|rewrite (c_len _ _ _ _ HC); lia|apply sw_sweepable|].
      pose proof (c_len _ _ _ _ HC) as Hlen.
      (* reading the new table *)
      assert (forall f, row f < k -> tget t' f = tget t f) as Hgl.
      { intros f Hf. unfold tget. by rewrite Hlow. }
      assert (forall f, row f < k -> nmap k newId f = Some f) as Hml.
      { intros f Hf. unfold nmap. destruct (Nat.leb_spec k (row f)); [lia|done]. }
      assert (forall f p, k <= row f -> tget t f = Some p ->
        exists f' q, nmap k newId f = Some f' /\ mapM (nmap k newId) p = Some q /\
          ((node_dead q = true /\ f' = n0) \/
           (node_dead q = false /\ row f' = row f /\ tget t' f' = Some q))) as Hmap.
      { intros f p Hf Hg. unfold tget in Hg. destruct (t !! row f) as [r|] eqn:Hr; [|done]. simpl in Hg.
        destruct (Hsw (row f) r Hf Hr) as (kept & ids & E1 & E2 & W1 & W2 & W3 & W4 & W5).
        destruct (W3 _ _ Hg) as (q & Hq & HH). unfold nmap.
        destruct (Nat.leb_spec k (row f)); [|lia]. rewrite E2. simpl.
        destruct HH as [[Hd Hid]|(Hd & j' & Hid & Hkq)].
        - exists n0, q. split_and!; try done. by left.
        - exists (mk (row f) j'), q. split_and!; try done. right. split_and!; try done.
          unfold tget. simpl. rewrite E1. done. }
      assert (forall f' q, k <= row f' -> tget t' f' = Some q ->
        exists f p, row f = row f' /\ tget t f = Some p /\ nmap k newId f = Some (mk (row f') (col f')) /\
          mapM (nmap k newId) p = Some q /\ node_dead q = false) as Hback.
      { intros f' q Hf Hg. unfold tget in Hg. destruct (t' !! row f') as [kept0|] eqn:Hr'; [|done]. simpl in Hg.
        destruct (t !! row f') as [r|] eqn:Hr.
        2: { apply lookup_ge_None in Hr. apply lookup_lt_Some in Hr'. lia. }
        destruct (Hsw (row f') r Hf Hr) as (kept & ids & E1 & E2 & W1 & W2 & W3 & W4 & W5).
        rewrite E1 in Hr'. inversion Hr'; subst kept0.
        destruct (W4 _ _ Hg) as (Hd & j & p & Hp & Hid & Hm).
        exists (mk (row f') j), p. split_and!; try done.
        - unfold tget. simpl. by rewrite Hr.
        - unfold nmap. simpl. destruct (Nat.leb_spec k (row f')); [|lia]. rewrite E2. done. }
      assert (forall g, valid t g -> exists g', nmap k newId g = Some g' /\ valid t' g' /\ row g' <= row g) as Hval.
      { intros g Hv. unfold valid in Hv. destruct (Nat.eqb_spec (row g) 0) as [Hz|Hz].
        - exists g. rewrite Hml by lia. split_and!; try done. unfold valid. by rewrite (proj2 (Nat.eqb_eq _ _) Hz).
        - destruct Hv as [p Hp]. destruct (decide (row g < k)) as [Hlt|Hge].
          + exists g. rewrite Hml by done. split_and!; try done. unfold valid.
            destruct (Nat.eqb_spec (row g) 0); [lia|]. rewrite Hgl by done. by eexists.
          + destruct (Hmap g p ltac:(lia) Hp) as (g' & q & Hm & _ & [[_ ->]|(_ & Hr & Hg)]).
            * exists n0. split_and!; try done; [|simpl; lia]. unfold valid. simpl. lia.
            * exists g'. split_and!; try done; [|lia]. unfold valid. rewrite Hr.
              destruct (Nat.eqb_spec (row g) 0); [lia|]. by eexists. }
      (* denotations *)
      assert (forall f T, den t w f T -> forall f', nmap k newId f = Some f' -> den t' w f' T) as Hden.
      { intros f. remember (row f) as rf eqn:Hrf. revert f Hrf.
        induction rf as [rf IH] using lt_wf_ind. intros f Hrf T HD f' Hm.
        inversion HD as [? H1 H2|? H1 H2|? ts Hp Hg Hlts Hb]; subst.
        - rewrite Hml in Hm by lia. inversion Hm; subst. by apply den_0.
        - rewrite Hml in Hm by lia. inversion Hm; subst. by apply den_1.
        - destruct (decide (row f < k)) as [Hlt|Hge].
          + rewrite Hml in Hm by done. inversion Hm; subst f'. constructor; try done.
            { by rewrite Hgl. }
            intros b Hb'. destruct (Hb b Hb') as [?|(Hnin & g & Hc & Hlt' & HD')]; [by left|right].
            split; [done|]. exists g. split_and!; try done.
            * unfold child in *. by rewrite Hgl.
            * eapply IH; [exact Hlt'|done|done|]. by rewrite Hml by lia.
          + destruct Hg as [p Hg]. destruct (Hmap f p ltac:(lia) Hg) as (f1 & q & Hm1 & Hq & HH).
            rewrite Hm in Hm1. inversion Hm1; subst f1.
            pose proof (c_ar _ _ _ _ HC f p Hg) as Hlp. pose proof (mapM_length _ _ _ Hq) as Hlq.
            apply mapM_Some_1 in Hq.
            assert (forall b g', q !! b = Some g' -> exists g, child t f b = Some g /\ row g < row f /\
              nmap k newId g = Some g' /\ den t' w g' (nth b ts T0)) as Hqb.
            { intros b g' Hg'. destruct (Forall2_lookup_r _ _ _ _ _ Hq Hg') as (g & Hpg & Hgm).
              assert (b < a) as Hba by (rewrite <- Hlp; eapply lookup_lt_Some; done).
              assert (child t f b = Some g) as Hcg by (unfold child; by rewrite Hg).
              destruct (Hb b Hba) as [(pn & Hpn & Hsrc & _)|(Hnin & g1 & Hc & Hlt' & HD')].
              { pose proof (Hnp pn _ _ _ Hpn Hsrc). lia. }
              rewrite Hcg in Hc. inversion Hc; subst g1. exists g. split_and!; try done.
              by eapply IH. }
            destruct HH as [[Hd ->]|(Hd & Hr' & Hg')].
            * assert (nzN (row f) ts = T0) as ->; [|by apply den_0].
              unfold nzN. replace (all0 ts) with true; [done|]. symmetry. apply all0_true. intros b.
              destruct (decide (b < a)) as [Hba|Hba].
              2: { apply nth_overflow. lia. }
              destruct (lookup_lt_is_Some_2 q b ltac:(lia)) as [g' Hg'].
              destruct (Hqb b g' Hg') as (g & _ & _ & _ & HD'). eapply den_row0; [exact HD'|].
              unfold node_dead in Hd. rewrite forallb_forall in Hd.
              apply neqb_true, Hd. apply elem_of_list_In. by eapply elem_of_list_lookup_2.
            * rewrite <- Hr'. constructor; [lia|by eexists|done|]. intros b Hba. right. split.
              { intros Hin'. apply elem_of_list_fmap in Hin' as (pn & E' & Hpn). symmetry in E'.
                pose proof (Hnp pn _ _ _ Hpn E'). lia. }
              destruct (lookup_lt_is_Some_2 q b ltac:(lia)) as [g' Hqg].
              destruct (Hqb b g' Hqg) as (g & Hcg & Hlt' & Hm' & HD'). exists g'.
              split_and!; [unfold child; by rewrite Hg'| |done].
              assert (valid t g) as Hv.
              { eapply (c_res _ _ _ _ HC f b g); [lia|done|]. intros Hin'.
                apply elem_of_list_fmap in Hin' as (pn & E' & Hpn). symmetry in E'.
                pose proof (Hnp pn _ _ _ Hpn E'). lia. }
              destruct (Hval g Hv) as (g2 & Hm2 & _ & Hle). rewrite Hm' in Hm2. inversion Hm2; subst g2. lia. }
      (* the root *)
      pose proof (c_root _ _ _ _ HC) as Hrt. destruct (Nat.eqb_spec i n) as [Hin0|Hin2]; [lia|].
      destruct Hrt as [[[Hr0 _]|[_ [pr Hpr]]] HDr]; [rewrite Hroot in Hr0; inversion Hr0; lia|].
      assert (tget t root = Some pr) as Hgr by (rewrite Hroot; unfold tget; simpl; by rewrite Hpr).
      destruct (Hmap root pr) as (root' & q & Hm & Hq & HH); [by rewrite Hroot|done|].
      destruct (Hsw n _ Hk Hpr) as (kept & ids & E1 & E2 & W1 & W2 & W3 & W4 & W5). simpl in W1, W2.
      assert (newId !! row root ≫= (fun r => r !! col root) = Some root') as Hnr.
      { unfold nmap in Hm. rewrite Hroot in *. simpl in *. destruct (Nat.leb_spec k n); [done|lia]. }
      exists t', root'. split_and!.
      { unfold sweep. rewrite E. cbn [mbind option_bind].
        destruct (newId !! row root) as [x|] eqn:Ex; [|done]. cbn [mbind option_bind] in *. by rewrite Hnr. }
      2: { intros r Hr. by apply Hlow. }
      constructor.
      - by rewrite Hl.
      - rewrite Hlow by lia. apply HC.
      - intros r Hr. rewrite Hlow by lia. by apply HC.
      - intros f p Hg. destruct (decide (row f < k)) as [Hlt|Hge].
        + rewrite Hgl in Hg by done. by eapply (c_ar _ _ _ _ HC).
        + destruct (Hback f p ltac:(lia) Hg) as (f1 & p1 & _ & Hg1 & _ & Hm1 & _).
          rewrite <- (mapM_length _ _ _ Hm1). by eapply (c_ar _ _ _ _ HC).
      - intros p Hp. destruct (c_pend _ _ _ _ HC p Hp) as (? & ? & ? & ? & Hsrc). split_and!; try done; try tauto.
        pose proof (Hnp p) as Hnp'. destruct (p_src p) as [|r c b]; [done|].
        destruct Hsrc as (? & ? & ?). split_and!; try done. rewrite Hgl; [done|]. simpl. by eapply Hnp'.
      - apply HC.
      - intros f b g' Hp Hc Hnin. destruct (decide (row f < k)) as [Hlt|Hge].
        + assert (child t f b = Some g') as Hc' by (unfold child in *; by rewrite <- Hgl).
          destruct (c_res _ _ _ _ HC f b g' Hp Hc' Hnin) as [Hlt' Hv]. split; [done|].
          destruct (Hval g' Hv) as (g2 & Hm2 & Hv2 & _). rewrite Hml in Hm2 by lia. by inversion Hm2; subst.
        + unfold child in Hc. destruct (tget t' f) as [q0|] eqn:Hg; [|done]. simpl in Hc.
          destruct (Hback f q0 ltac:(lia) Hg) as (f1 & p1 & Hr1 & Hg1 & _ & Hm1 & _).
          apply mapM_Some_1 in Hm1. destruct (Forall2_lookup_r _ _ _ _ _ Hm1 Hc) as (g & Hpg & Hgm).
          destruct (c_res _ _ _ _ HC f1 b g) as [Hlt' Hv]; [lia|unfold child; by rewrite Hg1| |].
          { intros Hin'. apply elem_of_list_fmap in Hin' as (pn & E' & Hpn). symmetry in E'.
            pose proof (Hnp pn _ _ _ Hpn E'). lia. }
          destruct (Hval g Hv) as (g2 & Hm2 & Hv2 & Hle). rewrite Hgm in Hm2. inversion Hm2; subst g2.
          split; [lia|done].
      - destruct (Nat.eqb_spec i n) as [Hin4|Hin3]; [lia|]. split; [|by eapply Hden].
        rewrite Hroot in Hnr. simpl in Hnr. rewrite E2 in Hnr. simpl in Hnr.
        destruct (W3 0 pr eq_refl) as (q1 & _ & [[_ Hid]|(_ & j' & Hid & Hkq)]).
        + left. rewrite Hnr in Hid. inversion Hid; subst root'. split; [done|]. rewrite E1. f_equal.
          destruct kept as [|q2 kept]; [done|].
          destruct (W4 0 q2 eq_refl) as (_ & j & p & Hj & Hidj & _).
          apply list_lookup_singleton_Some in Hj as [-> _]. rewrite Hnr in Hidj. inversion Hidj. lia.
        + right. rewrite Hnr in Hid. inversion Hid; subst root'. pose proof (lookup_lt_Some _ _ _ Hkq).
          assert (j' = 0) as -> by lia. split; [done|]. destruct kept as [|q2 [|q3 kept]]; simpl in *; try lia.
          by exists q2.
      - intros f' Hf' [q' Hg'].
        assert (exists f p, row f = row f' /\ tget t f = Some p /\ nmap k newId f = Some (mk (row f') (col f')) \/ row f' < k /\ f = f' /\ tget t f' = Some p) as (f & p & Hor).
        { destruct (decide (row f' < k)) as [Hlt|Hge].
          - exists f', q'. right. rewrite <- Hgl by done. done.
          - destruct (Hback f' q' ltac:(lia) Hg') as (f1 & p1 & Hr1 & Hg1 & Hm1 & _). exists f1, p1. by left. }
        assert (row f = row f' /\ tget t f = Some p /\ exists f2, nmap k newId f = Some f2 /\ code f2 = code f') as (Hrf & Hgf & f2 & Hm2 & Hc2).
        { destruct Hor as [(? & ? & ?)|(? & -> & ?)].
          - split_and!; try done. eexists; split; [done|]. done.
          - split_and!; try done. exists f'. rewrite Hml by done. done. }
        destruct (c_par _ _ _ _ HC f) as (h & b & g & Hc & Hcg & Hlt & Hnpb); [lia|by eexists|].
        assert (nmap k newId g = Some f2 \/ row g < k /\ code g = code f') as Hmg.
        { unfold nmap in *. inversion Hcg as [[Hrg Hcl]]. destruct (Nat.leb_spec k (row g)).
          - left. rewrite Hcl. rewrite Hrg in *. destruct (Nat.leb_spec k (row f)); [done|lia].
          - right. split; [done|]. destruct (Nat.leb_spec k (row f)); [lia|]. inversion Hm2; subst. congruence. }
        destruct (decide (row h < k)) as [Hltk|Hgek].
        + exists h, b, g. split_and!; [unfold child in *; by rewrite Hgl| |lia|done].
          inversion Hcg as [[Hrg Hcl]].
          destruct Hmg as [Hmg|[_ ?]]; [|done]. rewrite Hml in Hmg by lia. inversion Hmg; subst. done.
        + unfold child in Hc. destruct (tget t h) as [ph|] eqn:Hgh; [|done]. simpl in Hc.
          destruct (Hmap h ph ltac:(lia) Hgh) as (h' & qh & Hmh & Hqh & HH2).
          pose proof (mapM_Some_1 _ _ _ Hqh) as HF.
          destruct (Forall2_lookup_l _ _ _ _ _ HF Hc) as (g' & Hqg & Hgm).
          assert (code g' = code f') as Hcg'.
          { destruct Hmg as [Hmg|[Hlt2 ?]]; [congruence|]. rewrite Hml in Hgm by done. congruence. }
          destruct HH2 as [[Hd _]|(Hd & Hrh & Hgh')].
          * exfalso. unfold node_dead in Hd. rewrite forallb_forall in Hd.
            assert (neqb g' n0 = true) as Hz. { apply Hd, elem_of_list_In. by eapply elem_of_list_lookup_2. }
            apply neqb_true in Hz. rewrite Hcg' in Hz. inversion Hz. lia.
          * exists h', b, g'. split_and!; [unfold child; by rewrite Hgh'|done|lia|].
            intros Hin'. apply elem_of_list_fmap in Hin' as (pn & E' & Hpn). symmetry in E'.
            pose proof (Hnp pn _ _ _ Hpn E'). lia.
      - intros r x Hr Hx. destruct (decide (r < k)) as [Hlt|Hge].
        + rewrite Hlow in Hx by done. by eapply (c_reps _ _ _ _ HC).
        + destruct (lookup_lt_is_Some_2 t r ltac:(lia)) as [x0 Hx0].
          destruct (Hsw r x0 ltac:(lia) Hx0) as (kept0 & ids0 & E10 & _ & _ & W20 & _).
          rewrite Hx in E10. inversion E10; subst kept0.
          destruct (c_reps _ _ _ _ HC r x0 Hr Hx0) as (rs & ? & ? & ?). exists rs. split_and!; try done. lia.
    Qed.
  End sweep.
End core.
