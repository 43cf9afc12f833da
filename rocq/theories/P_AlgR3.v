(** Algorithm R on the whole diagram. *)
From Verif Require Import Base Sem M_Table Tree P_Red M_Index P_Index P_RLevel M_Hash P_Hash M_Sweeper M_Engine P_Pass M_Reducer P_RHash P_RGlobal P_AlgR P_AlgR2 P_Prep.

(** a table prepared in the sense that only BDD reduction may move a referenced node *)
Section globalR.
  Context (B Z : bool) (HBZ : B && Z = false) (t : table) (Hwf : table_wf 2 t).
  Context (Hsettled : B = true \/ forall i c b g S, 0 < i -> child t (mk i c) b = Some g -> rep t g S -> red (modeR B Z) S = S).
  Context (root0 : nid) (Tr : tree) (Hroot : rep t root0 Tr).
  Context (hi lo : list (list nat)) (Hidx : index_ok t hi lo).
  Notation md := (modeR B Z).
  Notation N := (length t).

  Record rinv (i : nat) (s : rstate) : Prop := {
    r_g : ginv 2 md t root0 Tr i s;
    r_slot : forall r, r <= i -> r = 0 \/ B = true \/ (exists i', i < i' < N /\ refs t i' r) ->
      exists y y', s_in s !! r = Some y /\ t !! r = Some y' /\ lens y = lens y';
    r_fresh : forall f v, row f < S i -> child (s_in s) f 1 = Some v -> row v < S i
  }.

  Lemma rinv_init s : t !! 0 = Some (terminal_row 2) -> s_in s = t -> s_ids s = [n0; n1] :: replicate (N - 1) [] ->
    s_out s = terminal_row 2 :: replicate (N - 1) [] -> s_root s = root0 -> rinv 0 s.
  Proof.
    intros H0 E1 E2 E3 E4. constructor.
    - apply ginv_init; try done. lia.
    - intros r Hr _. assert (r = 0) as -> by lia. rewrite E1, H0. eauto.
    - intros f v Hf Hv. assert (row f = 0) as E by lia. rewrite E1 in Hv. unfold child, tget in Hv. rewrite E, H0 in Hv.
      cbn [mbind option_bind] in Hv. destruct (col f) as [|[|c]]; cbn in Hv; inversion Hv; simpl; lia.
  Qed.

  Lemma canonR_row i s x : 0 < i -> rinv (i - 1) s -> t !! i = Some x ->
    exists cans, Forall2 (fun p p' => mapM (canonR (s_ids s)) p = Some p') x cans /\ canned md t (s_out s) x cans /\
      Forall (Forall (fun g => row g < i)) cans /\
      (forall p g, p ∈ cans -> g ∈ p -> is_Some (child (s_in s) g 0) /\ is_Some (child (s_in s) g 1)).
  Proof.
    intros Hi HR Hx. assert (i < N) as HiN by (by eapply lookup_lt_Some). pose proof (r_g _ _ HR) as HG.
    pose proof (g_out _ _ _ _ _ _ _ HG) as HO.
    assert (forall g, (exists p, p ∈ x /\ g ∈ p) -> exists f, canonR (s_ids s) g = Some f /\ cok md t (s_out s) g f /\ row f < i /\
              is_Some (child (s_in s) f 0) /\ is_Some (child (s_in s) f 1)) as Hcan.
    { intros g (p & Hp & Hg). apply elem_of_list_lookup in Hp as [j Hj]. apply elem_of_list_lookup in Hg as [b Hb].
      destruct (wf_child 2 t Hwf i x j p b g Hi Hx Hj Hb) as [Hlt Hv].
      destruct (rep_exists 2 t Hwf g Hv) as [S HS].
      assert (child t (mk i j) b = Some g) as Hch. { rewrite (child_row t i x) by done. rewrite Hj. done. }
      assert (refs t i (row g)) as Href by (exists j, b, g; done).
      assert (exists f, canonR (s_ids s) g = Some f /\ cok md t (s_out s) g f) as (f & Hcf & Hok).
      { unfold canonR. destruct (Nat.eqb_spec (row g) 0) as [E|E].
        - exists g. split; [done|]. exists S. split_and!; [done| |].
          + inversion HS; subst; try lia; [by apply rep_0|by apply rep_1].
          + intros Hcl. eapply hasEmpty_term; [done..|]. by apply (Hcl i j b g Hi Hch).
        - destruct (g_ids _ _ _ _ _ _ _ HG (row g) ltac:(lia)) as (l & Hl & Hgood).
          { right. exists i. split; [lia|done]. }
          destruct (Hgood (col g) S) as (f & Hf & Hrep & Hat). { by apply (rep_code t g). }
          exists f. split; [unfold canon; by rewrite Hl|]. by exists S. }
      destruct Hok as (S' & HS' & Hrep & Hat). assert (S' = S) as -> by (by eapply rep_det).
      assert (row f < i) as Hfi. { eapply (rep_row 2); [lia| |exact HO|exact Hrep]. lia. }
      exists f. split_and!; [done|by exists S|done| |].
      all: assert (exists y y', s_in s !! row f = Some y /\ t !! row f = Some y' /\ lens y = lens y') as (y & y' & Hy & Hy' & Hl).
      1, 3: apply (r_slot _ _ HR); [lia|]; destruct (decide (row f = 0)) as [E|E]; [by left|right]; destruct Hsettled as [HB|Hset]; [by left|right];
        exists i; split; [lia|]; rewrite (Hset i j b g S Hi Hch HS) in Hrep; rewrite <- (rep_lev _ _ _ HS), (rep_lev _ _ _ Hrep) in Href; done.
      all: assert (exists p', y' !! col f = Some p' /\ length p' = 2) as (p' & Hp' & Hl2).
      1, 3: destruct (decide (row f = 0)) as [E|E];
        [destruct (wf_term 2 t Hwf) as (r0 & Hr0 & Hr0l & _); rewrite E in Hy'; assert (r0 = y') as -> by congruence;
         destruct (lookup_lt_is_Some_2 y' (col f)) as [p' Hp']; [rewrite Hr0l; inversion Hrep; subst; lia|];
         exists p'; split; [done|]; by apply (wf_arity 2 t Hwf 0 y' (col f))
        |pose proof (rep_valid _ _ _ Hrep) as Hvf; unfold valid in Hvf; destruct (Nat.eqb_spec (row f) 0); [done|]; destruct Hvf as [q Hq];
         unfold tget in Hq; destruct (s_out s !! row f) as [z|] eqn:Ez; [|done]; cbn [mbind option_bind] in Hq;
         pose proof (oi_size _ _ _ _ _ HO (row f) z y' ltac:(lia) Ez Hy') as Hsz;
         destruct (lookup_lt_is_Some_2 y' (col f)) as [p' Hp']; [apply lookup_lt_Some in Hq; lia|];
         exists p'; split; [done|]; by apply (wf_arity 2 t Hwf (row f) y' (col f))].
      all: assert (exists p1, y !! col f = Some p1 /\ length p1 = 2) as (p1 & Hp1 & Hl1)
        by (assert (lens y !! col f = Some 2) as E9 by (rewrite Hl; unfold lens; rewrite list_lookup_fmap, Hp'; simpl; congruence);
            unfold lens in E9; rewrite list_lookup_fmap in E9; destruct (y !! col f) as [p1|]; [|done]; simpl in E9; exists p1; split; [done|congruence]).
      all: unfold child, tget; rewrite Hy; cbn [mbind option_bind]; rewrite Hp1; cbn [mbind option_bind]; apply lookup_lt_is_Some_2; lia. }
    assert (exists cans, Forall2 (fun p p' => mapM (canonR (s_ids s)) p = Some p') x cans /\ canned md t (s_out s) x cans /\
       Forall (Forall (fun g => row g < i)) cans /\ Forall (Forall (fun g => is_Some (child (s_in s) g 0) /\ is_Some (child (s_in s) g 1))) cans) as (cans & C1 & C2 & C3 & C4).
    { clear -Hcan. unfold canned. induction x as [|p x IH]; [exists []; split_and!; constructor|].
      destruct IH as (cans & C1 & C2 & C3 & C4). { intros g (q & Hq & Hg). apply Hcan. exists q. split; [by right|done]. }
      assert (exists p', Forall2 (fun g f => canonR (s_ids s) g = Some f) p p' /\ Forall2 (cok md t (s_out s)) p p' /\
        Forall (fun g => row g < i) p' /\ Forall (fun g => is_Some (child (s_in s) g 0) /\ is_Some (child (s_in s) g 1)) p') as (p' & Q1 & Q2 & Q3 & Q4).
      { assert (forall g, g ∈ p -> exists f, canonR (s_ids s) g = Some f /\ cok md t (s_out s) g f /\ row f < i /\
              is_Some (child (s_in s) f 0) /\ is_Some (child (s_in s) f 1)) as Hp.
        { intros g Hg. apply Hcan. exists p. split; [by left|done]. }
        clear -Hp. induction p as [|g p IH]; [exists []; split_and!; constructor|].
        destruct IH as (p' & Q1 & Q2 & Q3 & Q4). { intros g' Hg'. apply Hp. by right. }
        destruct (Hp g ltac:(by left)) as (f & F1 & F2 & F3 & F4). exists (f :: p'). split_and!; by constructor. }
      exists (p' :: cans). split_and!; constructor; try done. by apply mapM_Some_2. }
    exists cans. split_and!; try done. intros p g Hp Hg.
    apply (proj1 (Forall_forall _ _) (proj1 (Forall_forall _ _) C4 p Hp) g Hg).
  Qed.

  Lemma algR_level_rinv i s : 0 < i -> i <= row root0 -> rinv (i - 1) s ->
    exists s', algR_level B Z 2 (row root0) lo s i = Some s' /\ rinv i s'.
  Proof.
    intros Hi Hin HR. pose proof (n_lt 2 t Hwf root0 Tr Hroot) as Hn. pose proof (r_g _ _ HR) as HG.
    destruct (lookup_lt_is_Some_2 t i ltac:(lia)) as [x Hx].
    destruct (canonR_row i s x Hi HR Hx) as (cans & C1 & C2 & C3 & C4).
    destruct (ix_lo _ _ _ Hidx i ltac:(lia)) as (L & HL & _ & HLs).
    assert (s_in s !! i = Some x) as Hsx by (rewrite (g_in _ _ _ _ _ _ _ HG) by lia; done).
    destruct (algR_level_ok B Z i 2 (row root0) lo s x cans L []) as (newId & outrow & ids & root & inp & E & HC & Hids & Hr & I1 & I2 & I3 & I4); try done.
    - apply Forall_lookup. intros j p Hp. by apply (wf_arity 2 t Hwf i x j p).
    - intros f v Hf Hv. pose proof (r_fresh _ _ HR f v ltac:(lia) Hv). lia.
    - apply Forall_forall. intros r Hr. apply HLs in Hr. lia.
    - rewrite (g_idl _ _ _ _ _ _ _ HG). lia.
    - apply (oi_hi _ _ _ _ _ (g_out _ _ _ _ _ _ _ HG)); lia.
    - intros ->. rewrite (g_root1 _ _ _ _ _ _ _ HG) by lia. by eapply root_col.
    - eexists. split; [exact E|]. constructor.
      + apply (ginv_step 2 ltac:(lia) md t Hwf root0 Tr Hroot i s x cans newId outrow hi lo L inp ids root); try done.
        * rewrite I1. apply HG.
        * intros r H1 H2. rewrite I2 by lia. apply (g_in _ _ _ _ _ _ _ HG); lia.
      + cbn [s_in]. intros r Hr' Hor. destruct (decide (r = i)) as [->|Hne].
        * destruct (I3 i x) as (y' & Hy' & Hl'); [lia| |done|by eauto]. right. intros H. apply HLs in H. lia.
        * destruct (r_slot _ _ HR r ltac:(lia)) as (y & y' & Hy & Hy' & Hl).
          { destruct Hor as [->|[HB|(i' & Hi' & Href)]]; [by left|right; by left|]. right. right. exists i'. split; [lia|done]. }
          destruct (I3 r y Hr') as (y2 & Hy2 & Hl2); [|done|].
          { destruct Hor as [->|[HB|(i' & Hi' & Href)]]; [right|by left|right]; intros H; apply HLs in H as (? & ? & Hno); [lia|]. by apply (Hno i'). }
          exists y2, y'. split_and!; try done. congruence.
      + done.
  Qed.

  Lemma globalR_ok s : t !! 0 = Some (terminal_row 2) -> s_in s = t -> s_ids s = [n0; n1] :: replicate (N - 1) [] ->
    s_out s = terminal_row 2 :: replicate (N - 1) [] -> s_root s = root0 -> 0 < row root0 ->
    exists s', ofold (algR_level B Z 2 (row root0) lo) (seq 1 (row root0)) s = Some s' /\ ginv 2 md t root0 Tr (row root0) s'.
  Proof.
    intros H0 E1 E2 E3 E4 Hpos.
    destruct (level_loop (algR_level B Z 2 (row root0) lo) rinv (row root0) s) as (s' & E & HR).
    - by apply rinv_init.
    - intros. by apply algR_level_rinv.
    - exists s'. split; [done|]. apply HR.
  Qed.
End globalR.

(** ** Translating the result back to the diagram before preparation *)
Lemma prep_src B Z a t t1 : 0 < a -> table_wf a t -> prepped B Z t t1 -> forall f S1, rep t1 f S1 ->
  exists S, rep t f S /\ red (mode_of B Z) S1 = red (mode_of B Z) S /\ (mode_of B Z <> RB -> forall l ts, S = TN l ts -> S1 = TN l (map (red (mode_of B Z)) ts)).
Proof.
  intros Ha Hwf HP f S1 H1. pose proof (prep_wf B Z a Ha t Hwf t1 HP) as Hwf1.
  destruct (rep_exists a t Hwf f) as [S HS]. { apply (prep_valid B Z t t1 HP). by eapply rep_valid. }
  destruct (prep_rep B Z a Ha t Hwf t1 HP S f HS) as (S2 & Q1 & Q2 & Q3).
  assert (S2 = S1) as -> by (by eapply rep_det). by exists S.
Qed.

Lemma oinv_prep B Z t t1 i o : mode_of B Z = modeR B Z -> table_wf 2 t -> prepped B Z t t1 ->
  oinv 2 (modeR B Z) t1 i o -> oinv 2 (mode_of B Z) t i o.
Proof.
  intros Em Hwf HP HO. rewrite Em. pose proof (shape_length _ _ (p_shape _ _ _ _ HP)) as Hlen. constructor; try apply HO.
  - rewrite (oi_len _ _ _ _ _ HO). done.
  - intros r H1 H2. apply HO; lia.
  - intros f T Hf Hr. destruct (oi_src _ _ _ _ _ HO f T Hf Hr) as (j & S1 & H1 & H2).
    destruct (prep_src B Z 2 t t1 ltac:(lia) Hwf HP _ _ H1) as (S & Q1 & Q2 & _). exists j, S. split; [done|]. rewrite Em in Q2. congruence.
  - intros Hcl. apply (oi_attr _ _ _ _ _ HO). apply (prep_clean B Z 2 ltac:(lia) t Hwf t1 HP Hcl).
  - intros r x y Hr Hx Hy. destruct (shape_row t t1 r y (eq_sym (p_shape _ _ _ _ HP)) Hy) as (y1 & Hy1 & Hl).
    apply (f_equal length) in Hl. rewrite !fmap_length in Hl. rewrite <- Hl. by eapply (oi_size _ _ _ _ _ HO).
  - intros r j S Hr HS. destruct (prep_rep B Z 2 ltac:(lia) t Hwf t1 HP S _ HS) as (S1 & Q1 & Q2 & _). rewrite Em in Q2. rewrite <- Q2. by eapply (oi_all _ _ _ _ _ HO).
Qed.

(** qddReduce with Algorithm R: equivalent nodes are shared and every all-zero node except possibly the root
    (and nodes that nothing refers to) is dropped. *)
Definition qtop (T : tree) : tree := match T with TN l ts => TN l (map nz ts) | _ => T end.

Record reducedQ (d d' : dd) : Prop := {
  rq_ar : d_ar d' = d_ar d;
  rq_wf : dd_wf d';
  rq_uniq : forall f g T, rep (tab d') f T -> rep (tab d') g T -> code f = code g;
  rq_rep : forall T, rep (tab d) (rt d) T -> rep (tab d') (rt d') (qtop T);
  rq_src : forall f T, rep (tab d') f T -> 0 < row f -> exists j S, rep (tab d) (mk (row f) j) S /\ qtop S = T;
  rq_all : forall r j S, 0 < r <= row (rt d) -> rep (tab d) (mk r j) S -> exists f, rep (tab d') f (qtop S);
  rq_attr : clean (tab d) -> (code (rt d) = (0, 0) -> attr (rt d) = false) ->
            forall T, rep (tab d) (rt d) T -> hasEmpty (rt d') = tz T
}.

Lemma nz_red T : nz T = red RQ T. Proof. symmetry. apply redRQ. Qed.

Lemma settled B Z t t1 : B && Z = false -> table_wf 2 t -> prepped B Z t t1 ->
  B = true \/ forall i c b g S, 0 < i -> child t1 (mk i c) b = Some g -> rep t1 g S -> red (modeR B Z) S = S.
Proof.
  intros HBZ Hwf HP. destruct B; [by left|right]. intros i c b g S Hi Hg HS.
  destruct Z; [|apply redRN]. simpl. cbn [modeR].
  pose proof (prep_wf false true 2 ltac:(lia) t Hwf t1 HP) as Hwf1.
  destruct (tget t1 (mk i c)) as [p|] eqn:Hp; [|unfold child in Hg; by rewrite Hp in Hg].
  destruct (rep_exists 2 t1 Hwf1 (mk i c)) as [P HPr]. { unfold valid. cbn [row mk]. destruct (Nat.eqb_spec i 0); [lia|]. by rewrite Hp. }
  destruct (prep_src false true 2 t t1 ltac:(lia) Hwf HP _ _ HPr) as (P0 & Q1 & _ & Q3). specialize (Q3 ltac:(done)).
  inversion Q1 as [| |f' p0 ts0 Hr0 Hg0 HF0 Hlt0]; subst; cbn [row mk] in *; try lia.
  specialize (Q3 _ _ eq_refl). subst P. inversion HPr as [| |f' p1 ts1 Hr1 Hg1 HF1 Hlt1]; subst; cbn [row mk] in *.
  assert (p1 = p) as -> by congruence. unfold child in Hg. rewrite Hp in Hg. cbn [mbind option_bind] in Hg.
  destruct (Forall2_lookup_l _ _ _ _ _ HF1 Hg) as (S' & HS' & HSr). assert (S' = S) as -> by (by eapply rep_det).
  rewrite list_lookup_fmap in HS'. destruct (ts0 !! b) as [S0|]; [|done]. simpl in HS'. assert (S = red RZ S0) as -> by congruence. apply red_idem.
Qed.

Lemma reduce_R_run B Z d T : B && Z = false -> dd_wf d -> d_ar d = 2 -> rep (tab d) (rt d) T -> 0 < row (rt d) ->
  exists t1 T1 s, prepped B Z (init_tab d) t1 /\ rep t1 (rt d) T1 /\ red (mode_of B Z) T1 = red (mode_of B Z) T /\
    (mode_of B Z <> RB -> forall l ts, T = TN l ts -> T1 = TN l (map (red (mode_of B Z)) ts)) /\
    reduce_R B Z d = Some (Dd (d_ar d) (s_out s) (s_root s)) /\ ginv 2 (modeR B Z) t1 (rt d) T1 (row (rt d)) s.
Proof.
  intros HBZ (Ha & Hwf & Hv) Har HT Hpos. rewrite Har in *. unfold reduce_R. rewrite Har.
  pose proof (init_tab_wf d) as Hwf'. rewrite Har in Hwf'. specialize (Hwf' Hwf). pose proof (proj2 (init_tab_rep d (rt d) T) HT) as HT'.
  destruct (make_index_ok _ _ Hwf') as (hi0 & lo0 & Ei & _).
  change (s_in (red_init d)) with (init_tab d). rewrite Ei. cbn [mbind option_bind].
  destruct (Nat.eqb_spec (row (rt d)) 0); [lia|].
  destruct (prep_ok B Z 2 ltac:(lia) (init_tab d) Hwf') as (t1 & E1 & HP). rewrite E1. cbn [mbind option_bind].
  pose proof (prep_wf B Z 2 ltac:(lia) _ Hwf' t1 HP) as Hwf1.
  destruct (make_index_ok _ _ Hwf1) as (hi & lo & Ei1 & Hidx). rewrite Ei1. cbn [mbind option_bind].
  destruct (prep_rep B Z 2 ltac:(lia) _ Hwf' t1 HP T _ HT') as (T1 & Q1 & Q2 & Q3).
  pose proof (shape_length _ _ (p_shape _ _ _ _ HP)) as Hlen. rewrite init_tab_len in Hlen.
  destruct (globalR_ok B Z HBZ t1 Hwf1 (settled B Z (init_tab d) t1 HBZ Hwf' HP) (rt d) T1 Q1 hi lo Hidx (RS t1 (s_ids (red_init d)) (s_out (red_init d)) (s_root (red_init d)))) as (s & Es & HG).
  - rewrite (p_0 _ _ _ _ HP). unfold init_tab. rewrite Har. apply list_lookup_insert. destruct (wf_term 2 _ Hwf) as (r & Hr & _). by eapply lookup_lt_Some.
  - done.
  - cbn [s_ids red_init]. by rewrite Hlen.
  - cbn [s_out red_init]. by rewrite Hlen, Har.
  - done.
  - done.
  - exists t1, T1, s. split_and!; try done. rewrite Es. done.
Qed.

Lemma reduce_R_term B Z d : dd_wf d -> row (rt d) = 0 ->
  reduce_R B Z d = Some (Dd (d_ar d) (terminal_row (d_ar d) :: replicate (length (tab d) - 1) []) (rt d)).
Proof.
  intros (Ha & Hwf & Hv) E. unfold reduce_R. pose proof (init_tab_wf d Hwf) as Hwf'.
  destruct (make_index_ok _ _ Hwf') as (hi0 & lo0 & Ei & _). change (s_in (red_init d)) with (init_tab d). rewrite Ei. cbn [mbind option_bind].
  by rewrite E.
Qed.

Lemma term_reduced md d : dd_wf d -> row (rt d) = 0 ->
  reduced md d (Dd (d_ar d) (terminal_row (d_ar d) :: replicate (length (tab d) - 1) []) (rt d)).
Proof.
  intros Hd E. pose proof Hd as (Ha & Hwf & Hv). destruct (rep_exists _ _ Hwf _ Hv) as [T HT].
  pose proof (ginv_reduced md d T (red_init d) Hd HT) as H. apply H; [|done]. rewrite E.
  apply (ginv_init _ Ha); try done; cbn [red_init s_ids s_out]; try (by rewrite init_tab_len). by apply init_tab_wf.
Qed.

Lemma reduce_R_ok B Z d : B && Z = false -> mode_of B Z = modeR B Z -> dd_wf d -> d_ar d = 2 ->
  exists d', reduce_R B Z d = Some d' /\ reduced (mode_of B Z) d d'.
Proof.
  intros HBZ Em Hd Har. pose proof Hd as (Ha & Hwf & Hv). destruct (rep_exists _ _ Hwf _ Hv) as [T HT].
  destruct (decide (row (rt d) = 0)) as [E|E].
  { rewrite reduce_R_term by done. eexists. split; [done|]. by apply term_reduced. }
  destruct (reduce_R_run B Z d T HBZ Hd Har HT ltac:(lia)) as (t1 & T1 & s & HP & HT1 & ER & _ & -> & HG). eexists. split; [done|].
  pose proof (g_root2 _ _ _ _ _ _ _ HG ltac:(lia) ltac:(lia)) as [Hrep Hat].
  pose proof (init_tab_wf d Hwf) as Hwf'. rewrite Har in Hwf'.
  rewrite Har. constructor; cbn [d_ar tab rt].
  - done.
  - split_and!; [simpl; lia|apply (oi_wf _ _ _ _ _ (g_out _ _ _ _ _ _ _ HG))|by eapply rep_valid].
  - rewrite Har. eapply oinv_prep; try done. apply HG.
  - intros T' HT'. rewrite (rep_det _ _ _ _ HT' HT), <- ER, Em. done.
  - intros Hcl _ T' HT'. rewrite (rep_det _ _ _ _ HT' HT). rewrite Hat.
    + by rewrite <- (tz_red (mode_of B Z) T1), ER, tz_red.
    + apply (prep_clean B Z 2 ltac:(lia) _ Hwf' t1 HP). intros i c b g Hi Hg. apply (Hcl i c b g Hi). unfold child in *. by rewrite init_tab_get in Hg.
Qed.

Lemma reduce_R_qdd d : dd_wf d -> d_ar d = 2 -> exists d', reduce_R false false d = Some d' /\ reducedQ d d'.
Proof.
  intros Hd Har. pose proof Hd as (Ha & Hwf & Hv). destruct (rep_exists _ _ Hwf _ Hv) as [T HT].
  destruct (decide (row (rt d) = 0)) as [E|E].
  { rewrite reduce_R_term by done. eexists. split; [done|]. destruct (term_reduced RN d Hd E) as [R1 R2 R3 R4 R5]. constructor; try done.
    - apply R3.
    - intros T' HT'. specialize (R4 T' HT'). rewrite redRN in R4. inversion HT'; subst; try lia; done.
    - intros f T' Hf Hr. exfalso. cbn [tab] in Hf. inversion Hf as [| |f' p ts' _ Hg _ _]; subst; try lia. unfold tget in Hg.
      destruct (row f) as [|r] eqn:Er; [lia|]. simpl in Hg. destruct (replicate _ _ !! r) as [z|] eqn:Ez; [|done].
      apply lookup_replicate in Ez as [-> _]. done.
    - intros. lia. }
  destruct (reduce_R_run false false d T ltac:(done) Hd Har HT ltac:(lia)) as (t1 & T1 & s & HP & HT1 & ER & EQ & -> & HG). eexists. split; [done|].
  specialize (EQ ltac:(done)).
  pose proof (g_root2 _ _ _ _ _ _ _ HG ltac:(lia) ltac:(lia)) as [Hrep Hat]. cbn [modeR] in Hrep. rewrite redRN in Hrep.
  pose proof (init_tab_wf d Hwf) as Hwf'. rewrite Har in Hwf'. pose proof (g_out _ _ _ _ _ _ _ HG) as HO.
  assert (forall ts, map (red RQ) ts = map nz ts) as Hnz by (intros ts; apply map_ext, redRQ).
  assert (forall f S, 0 < row f -> rep (init_tab d) f S -> rep t1 f (qtop S)) as Hq.
  { intros f S Hf HS. destruct (prep_rep false false 2 ltac:(lia) _ Hwf' t1 HP S f HS) as (S1 & Q1 & _ & Q3). specialize (Q3 ltac:(done)).
    inversion HS; subst; try lia. specialize (Q3 _ _ eq_refl). subst S1. simpl in Q1 |- *. by rewrite Hnz in Q1. }
  assert (T1 = qtop T) as ->. { eapply rep_det; [exact HT1|]. apply Hq; [lia|]. by apply init_tab_rep. }
  rewrite Har. constructor; cbn [d_ar tab rt].
  - done.
  - split_and!; [simpl; lia|apply (oi_wf _ _ _ _ _ HO)|by eapply rep_valid].
  - apply HO.
  - intros T' HT'. by rewrite (rep_det _ _ _ _ HT' HT).
  - intros f T' Hf Hr. destruct (oi_src _ _ _ _ _ HO f T' Hf Hr) as (j & S1 & H1 & H2). cbn [modeR] in H2. rewrite redRN in H2. subst T'.
    destruct (prep_src false false 2 _ t1 ltac:(lia) Hwf' HP _ _ H1) as (S & Q1 & _ & _). exists j, S. split; [by apply init_tab_rep|].
    eapply rep_det; [apply Hq; [|exact Q1]|exact H1]. done.
  - intros r j S Hr HS. destruct (oi_all _ _ _ _ _ HO r j (qtop S)) as [f Hf]; [done| |].
    + apply Hq; [cbn [row mk]; lia|]. by apply init_tab_rep.
    + exists f. by rewrite redRN in Hf.
  - intros Hcl _ T' HT'. rewrite (rep_det _ _ _ _ HT' HT). rewrite Hat.
    + by rewrite <- (tz_red (mode_of false false) (qtop T)), ER, tz_red.
    + apply (prep_clean false false 2 ltac:(lia) _ Hwf' t1 HP). intros i c b g Hi Hg. apply (Hcl i c b g Hi). unfold child in *. by rewrite init_tab_get in Hg.
Qed.
