(** makeReadyForSequentialReduction: what it does to the diagram. *)
From Verif Require Import Base Sem M_Table Tree M_Hash P_Hash M_Sweeper M_Engine P_Pass P_Red M_Index P_Index P_RLevel M_Reducer P_RHash P_AlgR P_AlgR2.

Section prep.
  Context (B Z : bool) (a : nat) (Ha : 0 < a) (t : table) (Hwf : table_wf a t).
  Notation md := (mode_of B Z).

  Definition pfx (t1 : table) (f : nid) : nid :=
    if row f =? 0 then f else match tget t1 f with Some p => if delc md p then nth 0 p n0 else f | None => f end.

  Lemma pfx_ext t1 t2 f : t1 !! row f = t2 !! row f -> pfx t1 f = pfx t2 f.
  Proof. intros H. unfold pfx, tget. by rewrite H. Qed.
  Lemma pfx_term t1 f : row f = 0 -> pfx t1 f = f.
  Proof. intros H. unfold pfx. by rewrite H. Qed.

  Lemma delc_prep f0 p : 0 < length p -> p !! 0 = Some f0 ->
    forallb (fun g => neqb g (if B then f0 else n0)) (drop (if B || Z then 1 else 0) p) = delc md p.
  Proof.
    intros Hp H0. destruct p as [|g p]; [simpl in Hp; lia|]. simpl in H0. assert (g = f0) as -> by congruence.
    unfold mode_of. destruct B, Z; simpl; try done.
  Qed.

  Lemma tget_some t' i j : shape t' = shape t -> valid t (mk i j) -> 0 < i -> exists p, tget t' (mk i j) = Some p /\ length p = a.
  Proof.
    intros Hs Hv Hi. unfold valid in Hv. cbn [row mk] in Hv. destruct (Nat.eqb_spec i 0); [lia|]. destruct Hv as [p Hp].
    destruct (shape_get t t' _ p (eq_sym Hs) Hp) as (p' & Hp' & Hl). exists p'. split; [done|]. rewrite Hl.
    unfold tget in Hp. destruct (t !! row (mk i j)) as [r|] eqn:Er; [|done]. by apply (wf_arity a t Hwf _ _ _ _ Er Hp).
  Qed.

  Lemma child_wf i j b f : 0 < i -> child t (mk i j) b = Some f -> row f < i /\ valid t f /\ b < a.
  Proof.
    intros Hi Hc. unfold child, tget in Hc. cbn [row col mk] in Hc. destruct (t !! i) as [r|] eqn:Er; [|done]. cbn [mbind option_bind] in Hc.
    destruct (r !! j) as [p|] eqn:Ep; [|done]. cbn [mbind option_bind] in Hc. destruct (wf_child a t Hwf i r j p b f Hi Er Ep Hc).
    split_and!; try done. rewrite <- (wf_arity a t Hwf _ _ _ _ Er Ep). by eapply lookup_lt_Some.
  Qed.

  Record K (i : nat) (t' : table) : Prop := {
    k_shape : shape t' = shape t;
    k_hi : forall r c b, i <= r -> child t' (mk r c) b = child t (mk r c) b;
    k_0 : t' !! 0 = t !! 0;
    k_lo : forall r c b, 0 < r < i -> child t' (mk r c) b = pfx t' <$> child t (mk r c) b
  }.

  (** progress within row i *)
  Record KR (i : nat) (t' : table) (P : nat -> nat -> bool) (u : table) : Prop := {
    kr_shape : shape u = shape t;
    kr_other : forall r, r <> i -> u !! r = t' !! r;
    kr_row : forall c b, child u (mk i c) b = if P c b then pfx t' <$> child t (mk i c) b else child t (mk i c) b
  }.

  Lemma prep_branch_ok i t' P u j b : 0 < i -> K i t' -> KR i t' P u -> (exists r, t !! i = Some r /\ j < length r) -> b < a -> P j b = false ->
    exists u', prep_branch B Z i j u b = Some u' /\ KR i t' (fun c b' => P c b' || (c =? j) && (b' =? b)) u'.
  Proof.
    intros Hi HK [R1 R2 R3] (r & Hr & Hj) Hb HP. unfold prep_branch.
    destruct (lookup_lt_is_Some_2 r j Hj) as [p Hp]. pose proof (wf_arity a t Hwf i r j p Hr Hp) as Hpl.
    destruct (lookup_lt_is_Some_2 p b ltac:(lia)) as [f Hf].
    assert (child t (mk i j) b = Some f) as Hcf. { rewrite (child_row t i r) by done. rewrite Hp. done. }
    rewrite R3, HP, Hcf. cbn [mbind option_bind]. destruct (child_wf i j b f Hi Hcf) as (Hlt & Hv & _).
    assert (forall v, pfx t' f = v -> KR i t' P u -> v = f -> KR i t' (fun c b' => P c b' || (c =? j) && (b' =? b)) u) as Hsame.
    { intros v E [Q1 Q2 Q3] ->. constructor; try done. intros c b'. rewrite Q3. destruct (P c b') eqn:EP; [done|]. cbn [orb].
      destruct (Nat.eqb_spec c j) as [->|]; [|done]. destruct (Nat.eqb_spec b' b) as [->|]; [|done]. cbn [andb]. rewrite Hcf. simpl. by rewrite E. }
    destruct (Nat.eqb_spec (row f) 0) as [E0|E0].
    { eexists. split; [done|]. eapply Hsame; [apply pfx_term; done|by constructor|done]. }
    destruct (tget_some u (row f) (col f) R1) as (pf & Hpf & Hpfl); [|lia|].
    { unfold valid in *. cbn [row mk]. destruct (row f =? 0); [done|]. rewrite <- (tget_code t f); done. }
    rewrite (tget_code u _ f) in Hpf by done.
    destruct (lookup_lt_is_Some_2 pf 0 ltac:(lia)) as [f0 Hf0].
    unfold child at 1. rewrite Hpf. cbn [mbind option_bind]. rewrite Hf0. cbn [mbind option_bind].
    rewrite delc_prep by (done || lia).
    assert (pfx t' f = if delc md pf then f0 else f) as Epf.
    { unfold pfx. destruct (Nat.eqb_spec (row f) 0); [done|].
      assert (tget t' f = Some pf) as -> by (unfold tget in *; rewrite <- R2 by lia; done).
      by rewrite (nth_lookup_Some _ _ _ _ Hf0). }
    destruct (delc md pf) eqn:Ed.
    - destruct (tset_child_ok u (mk i j) b f0) as (u' & -> & S1 & C1); [by rewrite R3, HP, Hcf|]. eexists. split; [done|]. constructor.
      + congruence.
      + intros q Hq. rewrite <- R2 by done. apply row_ext; [done|]. intros c b'. rewrite C1.
        rewrite bool_decide_eq_false_2; [done|]. intros [E _]. unfold code in E. cbn [row col mk] in E. congruence.
      + intros c b'. rewrite C1. case_bool_decide as Hd.
        * destruct Hd as [E ->]. unfold code in E. cbn [row col mk] in E. assert (c = j) as -> by congruence. rewrite HP, !Nat.eqb_refl. simpl. rewrite Hcf. simpl. by rewrite Epf.
        * rewrite R3. destruct (P c b') eqn:EP; [done|]. cbn [orb]. destruct (Nat.eqb_spec c j) as [->|]; [|done]. destruct (Nat.eqb_spec b' b) as [->|]; [|done].
          exfalso. by apply Hd.
    - eexists. split; [done|]. eapply Hsame; [exact Epf|by constructor|done].
  Qed.

  Lemma KR_ext i t' P Q u : (forall c b, b < a -> (exists r, t !! i = Some r /\ c < length r) -> P c b = Q c b) -> KR i t' P u -> KR i t' Q u.
  Proof.
    intros HE [R1 R2 R3]. constructor; try done. intros c b. rewrite R3.
    destruct (child t (mk i c) b) as [f|] eqn:E; [|by destruct (P c b), (Q c b)].
    assert (exists r, t !! i = Some r /\ c < length r /\ b < a) as (r & Hr & Hc & Hb).
    { unfold child, tget in E. cbn [row col mk] in E. destruct (t !! i) as [r|] eqn:Er; [|done]. cbn [mbind option_bind] in E.
      destruct (r !! c) as [p|] eqn:Ep; [|done]. cbn [mbind option_bind] in E. exists r. split_and!; [done|by eapply lookup_lt_Some|].
      rewrite <- (wf_arity a t Hwf _ _ _ _ Er Ep). by eapply lookup_lt_Some. }
    rewrite (HE c b Hb); [done|]. by exists r.
  Qed.

  Lemma prep_row_ok i t' : 0 < i -> i < length t -> K i t' -> exists t'', prep_row B Z a t' i = Some t'' /\ K (S i) t''.
  Proof.
    intros Hi HiN HK. unfold prep_row. destruct (lookup_lt_is_Some_2 t i HiN) as [r Hr].
    destruct (shape_row t t' i r (eq_sym (k_shape _ _ HK)) Hr) as (r' & Hr' & Hrl). rewrite Hr'. cbn [mbind option_bind].
    assert (length r' = length r) as Hl by (apply (f_equal length) in Hrl; by rewrite !fmap_length in Hrl).
    destruct (ofor_inv (fun t j => ofor a (prep_branch B Z i j) t) (fun j u => KR i t' (fun c _ => c <? j) u) (length r') t') as (u & E & HR).
    - constructor; [apply HK|done|]. intros c b. by rewrite (k_hi _ _ HK) by lia.
    - intros j u Hj HR.
      destruct (ofor_inv (prep_branch B Z i j) (fun b u => KR i t' (fun c b' => (c <? j) || ((c =? j) && (b' <? b))) u) a u) as (u' & E & HR').
      + eapply KR_ext; [|exact HR]. intros c b _ _. cbn beta. destruct (Nat.ltb_spec b 0); [lia|]. by rewrite andb_false_r, orb_false_r.
      + intros b w Hb HRw. destruct (prep_branch_ok i t' _ w j b Hi HK HRw) as (w' & Ew & HR').
        * exists r. split; [done|lia].
        * done.
        * rewrite !Nat.ltb_irrefl. by rewrite andb_false_r.
        * exists w'. split; [done|]. eapply KR_ext; [|exact HR']. intros c b' _ _. cbn beta.
          apply eq_true_iff_eq. rewrite !orb_true_iff, !andb_true_iff, !Nat.eqb_eq, !Nat.ltb_lt. lia.
      + exists u'. split; [done|]. eapply KR_ext; [|exact HR']. intros c b' Hb' _. cbn beta.
        apply eq_true_iff_eq. rewrite orb_true_iff, andb_true_iff, !Nat.ltb_lt, Nat.eqb_eq. lia.
    - exists u. split; [done|]. destruct HR as [R1 R2 R3].
      assert (forall f, row f < i -> pfx u f = pfx t' f) as Hpf by (intros f Hf; apply pfx_ext, R2; lia).
      constructor.
      + done.
      + intros q c b Hq. rewrite <- (k_hi _ _ HK) by lia. unfold child, tget. cbn [row col mk]. by rewrite R2 by lia.
      + rewrite R2 by lia. apply HK.
      + intros q c b Hq. destruct (child t (mk q c) b) as [f|] eqn:Ef.
        * destruct (child_wf q c b f ltac:(lia) Ef) as (Hlt & _ & Hb). destruct (decide (q = i)) as [->|Hne].
          -- rewrite R3, Ef. simpl. rewrite Hpf by lia. destruct (Nat.ltb_spec c (length r')) as [|Hge]; [done|]. exfalso.
             unfold child, tget in Ef. cbn [row col mk] in Ef. rewrite Hr in Ef. cbn [mbind option_bind] in Ef.
             rewrite lookup_ge_None_2 in Ef by lia. done.
          -- simpl. rewrite Hpf by lia. pose proof (k_lo _ _ HK q c b ltac:(lia)) as E9. rewrite Ef in E9. simpl in E9. rewrite <- E9.
             unfold child, tget. cbn [row col mk]. by rewrite R2 by lia.
        * simpl. destruct (child u (mk q c) b) as [v|] eqn:Ev; [|done]. exfalso.
          destruct (child_shape u t (mk q c) b R1) as [? ?]; [by rewrite Ev|]. congruence.
  Qed.

  Record prepped (t1 : table) : Prop := {
    p_shape : shape t1 = shape t;
    p_0 : t1 !! 0 = t !! 0;
    p_child : forall r c b, 0 < r -> child t1 (mk r c) b = pfx t1 <$> child t (mk r c) b
  }.

  Lemma prep_ok : exists t1, prep B Z a t = Some t1 /\ prepped t1.
  Proof.
    unfold prep.
    destruct (ofold_inv (prep_row B Z a) (fun pre t' => K (2 + length pre) t') (seq 2 (length t - 2)) t) as (t1 & E & HK).
    - constructor; try done. intros r c b Hr. assert (r = 1) as -> by (simpl in Hr; lia). destruct (child t (mk 1 c) b) as [f|] eqn:Ef; [|done].
      simpl. destruct (child_wf 1 c b f ltac:(lia) Ef) as (Hlt & _). by rewrite pfx_term by lia.
    - intros pre i post t' Hl HK.
      assert (length pre < length t - 2) as Hlt. { apply (f_equal length) in Hl. rewrite seq_length, app_length in Hl. simpl in Hl. lia. }
      assert (i = 2 + length pre) as ->.
      { assert (seq 2 (length t - 2) !! length pre = Some i) as Hx. { rewrite Hl. rewrite lookup_app_r by lia. by rewrite Nat.sub_diag. }
        apply lookup_seq in Hx. lia. }
      destruct (prep_row_ok (2 + length pre) t') as (t'' & E & HK'); [lia|lia|done|]. exists t''. split; [done|].
      rewrite app_length. simpl length. by replace (2 + (length pre + 1)) with (S (2 + length pre)) by lia.
    - exists t1. split; [done|]. rewrite seq_length in HK. constructor; [apply HK|apply HK|].
      intros r c b Hr. destruct (decide (r < 2 + (length t - 2))) as [|Hge]; [by apply HK|].
      rewrite (k_hi _ _ HK) by lia. assert (child t (mk r c) b = None) as ->; [|done].
      unfold child, tget. cbn [row col mk]. rewrite lookup_ge_None_2 by lia. done.
  Qed.

  Section after.
    Context (t1 : table) (HP : prepped t1).

    Lemma prep_valid f : valid t1 f <-> valid t f.
    Proof.
      unfold valid. destruct (row f =? 0); [done|]. split; intros [p Hp].
      - destruct (shape_get t1 t f p (p_shape _ HP) Hp) as (? & -> & _). done.
      - destruct (shape_get t t1 f p (eq_sym (p_shape _ HP)) Hp) as (? & -> & _). done.
    Qed.

    Lemma pfx_cases f : valid t f -> pfx t1 f = f \/ exists g, 0 < row f /\ child t f 0 = Some g /\ row g < row f /\ valid t g /\ pfx t1 f = pfx t1 g.
    Proof.
      intros Hv. unfold pfx at 1 2. destruct (Nat.eqb_spec (row f) 0) as [E|E]; [by left|].
      pose proof Hv as Hv0. unfold valid in Hv. destruct (Nat.eqb_spec (row f) 0); [done|]. destruct Hv as [p Hp].
      destruct (shape_get t t1 f p (eq_sym (p_shape _ HP)) Hp) as (p1 & Hp1 & Hl). rewrite Hp1. destruct (delc md p1) eqn:Ed; [|by left]. right.
      assert (length p = a) as Hpa. { unfold tget in Hp. destruct (t !! row f) as [r|] eqn:Er; [|done]. by apply (wf_arity a t Hwf _ _ _ _ Er Hp). }
      destruct (lookup_lt_is_Some_2 p 0 ltac:(lia)) as [g Hg].
      assert (child t (mk (row f) (col f)) 0 = Some g) as Hc. { unfold child. rewrite (tget_code t _ f) by done. by rewrite Hp. }
      destruct (child_wf (row f) (col f) 0 g ltac:(lia) Hc) as (Hlt & Hvg & _). exists g. split_and!; [lia| |done|done|].
      - by rewrite (child_code t f (mk (row f) (col f))).
      - pose proof (p_child _ HP (row f) (col f) 0 ltac:(lia)) as E1. rewrite Hc in E1. simpl in E1. unfold child in E1. rewrite (tget_code t1 _ f) in E1 by done.
        rewrite Hp1 in E1. cbn [mbind option_bind] in E1. by rewrite (nth_lookup_Some _ _ _ _ E1).
    Qed.

    Lemma pfx_wf f : valid t f -> row (pfx t1 f) <= row f /\ valid t1 (pfx t1 f).
    Proof.
      remember (row f) as n eqn:En. revert f En. induction (lt_wf n) as [n _ IH]. intros f -> Hv.
      destruct (pfx_cases f Hv) as [->|(g & H1 & H2 & H3 & H4 & ->)].
      - split; [lia|]. by apply prep_valid.
      - destruct (IH (row g) H3 g eq_refl H4). split; [lia|done].
    Qed.

    Lemma prep_wf : table_wf a t1.
    Proof.
      constructor.
      - rewrite (p_0 _ HP). apply Hwf.
      - intros i r j p Hr Hp. destruct (shape_row t1 t i r (p_shape _ HP) Hr) as (r' & Hr' & El).
        assert ((length <$> r') !! j = Some (length p)) as E9 by (rewrite El, list_lookup_fmap, Hp; done).
        rewrite list_lookup_fmap in E9. destruct (r' !! j) as [p'|] eqn:Ep'; [|done]. simpl in E9.
        rewrite <- (wf_arity a t Hwf i r' j p' Hr' Ep'). congruence.
      - intros i r j p b g Hi Hr Hj Hb.
        assert (child t1 (mk i j) b = Some g) as Hc. { rewrite (child_row t1 i r) by done. rewrite Hj. done. }
        rewrite (p_child _ HP) in Hc by done. destruct (child t (mk i j) b) as [f|] eqn:Ef; [|done]. simpl in Hc. assert (pfx t1 f = g) as <- by congruence.
        destruct (child_wf i j b f Hi Ef) as (Hlt & Hv & _). destruct (pfx_wf f Hv). split; [lia|done].
    Qed.

    Lemma prep_clean : clean t -> clean t1.
    Proof.
      intros Hc i c b g Hi Hg H0. rewrite (p_child _ HP) in Hg by done. destruct (child t (mk i c) b) as [f|] eqn:Ef; [|done]. simpl in Hg. assert (pfx t1 f = g) as <- by congruence.
      assert (code f = (0, 0) -> attr f = false) as Hf by (by apply (Hc i c b f)).
      destruct (child_wf i c b f Hi Ef) as (_ & Hv & _). clear Ef Hg Hi.
      remember (row f) as n eqn:En. revert f En Hf Hv H0. induction (lt_wf n) as [n _ IH]. intros f -> Hf Hv H0.
      destruct (pfx_cases f Hv) as [E|(g & H1 & H2 & H3 & H4 & E)]; rewrite E in *; [by apply Hf|].
      apply (IH (row g) H3 g eq_refl); try done. intros Hg0. apply (Hc (row f) (col f) 0 g H1); [|done]. rewrite (child_code t _ f); done.
    Qed.

    (** trees *)
    Lemma prep_rep T f : rep t f T -> exists T1, rep t1 f T1 /\ red md T1 = red md T /\
      (md <> RB -> forall l ts, T = TN l ts -> T1 = TN l (map (red md) ts)).
    Proof.
      revert f. induction T as [| |l ts IH] using tree_ind'; intros f H.
      - inversion H; subst. exists T0. split; [by apply rep_0|]. done.
      - inversion H; subst. exists T1. split; [by apply rep_1|]. done.
      - inversion H as [| |f' p ts' Hr Hg HF Hlt]; subst.
        destruct (shape_get t t1 f p (eq_sym (p_shape _ HP)) Hg) as (p1 & Hp1 & Hl).
        assert (p1 = pfx t1 <$> p) as ->.
        { apply list_eq. intros b. pose proof (p_child _ HP (row f) (col f) b Hr) as E1. unfold child in E1.
          rewrite (tget_code t1 _ f), (tget_code t _ f), Hp1, Hg in E1 by done. cbn [mbind option_bind] in E1. rewrite E1, list_lookup_fmap. done. }
        assert (Forall (valid t) p) as Hv.
        { apply Forall_lookup. intros b g Hb. destruct (Forall2_lookup_l _ _ _ _ _ HF Hb) as (? & _ & ?). by eapply rep_valid. }
        (* each child *)
        assert (Forall2 (fun g S => exists S1, rep t1 (pfx t1 g) S1 /\ red md S1 = red md S /\ (md <> RB -> S1 = red md S)) p ts) as HF1.
        { clear Hp1 Hl Hlt Hg H Hr. revert IH. induction HF as [|g S p ts HgS HF IHF]; intros IH; [constructor|].
          inversion IH as [|? ? IHS IHts]; subst. inversion Hv; subst. constructor; [|by apply IHF].
          destruct (IHS g HgS) as (S1 & HS1 & ER & EQ). unfold pfx. destruct (Nat.eqb_spec (row g) 0) as [E0|E0].
          { exists S1. split_and!; try done. intros Hb. inversion HgS; subst; inversion HS1; subst; try lia; try done; congruence. }
          inversion HS1 as [| |g' q ss Hgr Hgq HqF Hqlt]; subst; try lia. rewrite Hgq.
          inversion HgS as [| |g' p' ss' _ Hgp' HF' _]; subst; try lia.
          assert (tok a (TN (row g) ss)) as Htok by (eapply rep_tok; [apply prep_wf|exact HS1]).
          assert (length q = a) as Hqa. { unfold tget in Hgq. destruct (t1 !! row g) as [r|] eqn:Er; [|done]. by apply (wf_arity a t1 prep_wf _ _ _ _ Er Hgq). }
          assert (length ss = a) as Hssa by (rewrite <- Hqa; symmetry; by eapply Forall2_length).
          destruct (lookup_lt_is_Some_2 q 0 ltac:(lia)) as [q0 Hq0]. destruct (Forall2_lookup_l _ _ _ _ _ HqF Hq0) as (s0 & Hs0 & Hqs0).
          assert (md <> RB -> ss = map (red md) ss') as Hss. { intros Hb. specialize (EQ Hb _ _ eq_refl). congruence. }
          (* code equality and trees *)
          assert (forall b h S, q !! b = Some h -> ss !! b = Some S -> neqb h n0 = true <-> S = T0) as Hn0.
          { intros b h S2 Hh HS2. destruct (Forall2_lookup_lr _ _ _ _ _ _ HqF Hh HS2); subst; rewrite neqb_true; unfold code; simpl.
            - split; [done|]. intros _. congruence.
            - split; [|done]. intros E. congruence.
            - split; [|done]. intros E. inversion E. lia. }
          assert (forall b h S, q !! b = Some h -> ss !! b = Some S -> neqb h q0 = true -> S = s0) as Hneq.
          { intros b h S2 Hh HS2 Hq. apply neqb_true in Hq. eapply rep_det; [|exact Hqs0]. eapply rep_code; [exact Hq|]. by apply (Forall2_lookup_lr _ _ _ _ _ _ HqF Hh HS2). }
          assert (forall b S, ss !! b = Some S -> exists h, q !! b = Some h) as Hsq.
          { intros b S2 HS2. apply lookup_lt_is_Some_2. rewrite Hqa, <- Hssa. by eapply lookup_lt_Some. }
          assert (forall m b, nth b (map (red m) ss) T0 = red m (nth b ss T0)) as Hmn by (intros; by rewrite <- (map_nth (red m))).
          assert (delc md q = true -> delT md (map (red md) ss) = true) as Hdel.
          { unfold delc, delT. destruct md eqn:Emd; try done.
            - intros Hd. rewrite forallb_forall in Hd. apply delT_RB. intros b Hb. rewrite map_length in Hb.
              rewrite !Hmn. f_equal.
              destruct (lookup_lt_is_Some_2 ss b Hb) as [S2 HS2]. rewrite (nth_lookup_Some _ _ _ _ HS2), (nth_lookup_Some _ _ _ _ Hs0).
              destruct (Hsq b S2 HS2) as [h Hh]. destruct b as [|b]; [congruence|]. apply (Hneq _ _ _ Hh HS2).
              rewrite <- (nth_lookup_Some _ _ n0 _ Hq0). apply Hd. destruct q as [|x q]; [done|]. simpl in Hh |- *. apply elem_of_list_In, elem_of_list_lookup. by exists b.
            - intros Hd. rewrite forallb_forall in Hd. apply delT_RZ. intros b Hb. destruct (decide (b < length ss)) as [Hbl|Hbl].
              + rewrite Hmn.
                destruct (lookup_lt_is_Some_2 ss b Hbl) as [S2 HS2]. rewrite (nth_lookup_Some _ _ _ _ HS2). destruct (Hsq b S2 HS2) as [h Hh].
                assert (S2 = T0) as ->; [|done]. apply (proj1 (Hn0 _ _ _ Hh HS2)). apply Hd. destruct b as [|b]; [lia|]. destruct q as [|x q]; [done|]. simpl in Hh |- *. apply elem_of_list_In, elem_of_list_lookup. by exists b.
              + apply nth_overflow. rewrite map_length. lia.
            - intros Hd. rewrite forallb_forall in Hd. apply forallb_forall. intros S2 HS2. apply elem_of_list_In, elem_of_list_lookup in HS2 as [b Hb].
              rewrite list_lookup_fmap in Hb. destruct (ss !! b) as [S3|] eqn:ES3; [|done]. simpl in Hb. destruct (Hsq b S3 ES3) as [h Hh].
              assert (S3 = T0) as -> by (apply (proj1 (Hn0 _ _ _ Hh ES3)), Hd, elem_of_list_In, elem_of_list_lookup; by exists b).
              assert (S2 = T0) as -> by (simpl in Hb; congruence). done. }
          assert (red md (nth 0 ss T0) = nth 0 (map (red md) ss) T0) as Hn by (by rewrite <- (map_nth (red md))).
          destruct (delc md q) eqn:Ed.
          - exists s0. rewrite (nth_lookup_Some _ _ _ _ Hq0). rewrite (nth_lookup_Some _ _ _ _ Hs0) in Hn.
            split; [done|]. assert (red md s0 = red md (TN (row g) ss')) as E9.
            { rewrite <- ER. simpl. unfold redN. by rewrite Hdel. }
            split; [done|]. intros Hb. rewrite <- E9. rewrite (Hss Hb) in Hs0. rewrite list_lookup_fmap in Hs0. destruct (ss' !! 0); [|done]. simpl in Hs0.
            assert (s0 = red md t0) as -> by congruence. by rewrite red_idem.
          - exists (TN (row g) ss). split; [done|]. split; [done|]. intros Hb. simpl. unfold redN. rewrite <- (Hss Hb).
            assert (delT md ss = false) as ->; [|done]. apply not_true_iff_false. intros Hd. apply not_true_iff_false in Ed. apply Ed. clear Ed.
            destruct md eqn:Emd; try done; unfold delc.
            + apply forallb_forall. intros h Hh. apply elem_of_list_In, elem_of_list_lookup in Hh as [b Hh].
              destruct (lookup_lt_is_Some_2 ss (S b)) as [S2 HS2]. { rewrite Hssa, <- Hqa. destruct q; [done|]. simpl in *. apply lookup_lt_Some in Hh. lia. }
              rewrite (Hn0 (S b) h S2); [|destruct q; done|done]. pose proof (proj1 (delT_RZ ss) Hd (S b) ltac:(lia)) as E8. by rewrite (nth_lookup_Some _ _ _ _ HS2) in E8.
            + unfold delT, all0 in Hd. rewrite forallb_forall in Hd. apply forallb_forall. intros h Hh. apply elem_of_list_In, elem_of_list_lookup in Hh as [b Hh].
              destruct (lookup_lt_is_Some_2 ss b) as [S2 HS2]. { rewrite Hssa, <- Hqa. by eapply lookup_lt_Some. }
              rewrite (Hn0 b h S2) by done. assert (S2 ∈ ss) as Hin by (apply elem_of_list_lookup; by exists b). apply elem_of_list_In, Hd in Hin. by destruct S2. }
        assert (exists ts1, Forall2 (rep t1) (pfx t1 <$> p) ts1 /\ map (red md) ts1 = map (red md) ts /\ (md <> RB -> ts1 = map (red md) ts)) as (ts1 & Q1 & Q2 & Q3).
        { clear -HF1. induction HF1 as [|g S p ts (S1 & E1 & E2 & E3) HF IH]; [exists []; split_and!; [constructor|done|done]|].
          destruct IH as (ts1 & Q1 & Q2 & Q3). exists (S1 :: ts1). split_and!; [by constructor|simpl; congruence|]. intros Hb. simpl. by rewrite Q3, E3. }
        exists (TN (row f) ts1). split_and!.
        + econstructor; try done. apply Forall_fmap. apply Forall_lookup. intros b g Hb. simpl. pose proof (proj1 (Forall_lookup _ _) Hv b g Hb).
          pose proof (proj1 (Forall_lookup _ _) Hlt b g Hb). simpl in *. destruct (pfx_wf g); [done|]. lia.
        + simpl. by rewrite Q2.
        + intros Hb l ts' [= <- <-]. by rewrite Q3.
    Qed.
  End after.
End prep.
