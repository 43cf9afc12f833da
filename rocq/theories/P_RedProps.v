(** Consequences of [reduced]: no duplicates, no redundant nodes, uniqueness up to isomorphism. *)
From Verif Require Import Base Sem M_Table S_Dd Tree P_Red P_RLevel P_RHash P_RGlobal P_AlgR2 P_AlgR3 P_Run M_Reducer M_Equal P_Equal.

Lemma reduce_seq_ok B Z d : B && Z = false -> B || Z = true -> dd_wf d ->
  exists d', reduce_seq B Z d = Some d' /\ reduced (mode_of B Z) d d'.
Proof.
  intros H1 H2 Hd. unfold reduce_seq. destruct (Nat.eqb_spec (d_ar d) 2).
  - apply reduce_R_ok; try done. by destruct B, Z.
  - by apply reduce_hash_ok.
Qed.

Lemma node_rep d i c p : dd_wf d -> 0 < i -> tget (tab d) (mk i c) = Some p ->
  exists ts, rep (tab d) (mk i c) (TN i ts) /\ Forall2 (rep (tab d)) p ts /\ length p = d_ar d /\ Forall (fun g => row g < i) p.
Proof.
  intros (Ha & Hwf & Hv) Hi Hp. destruct (rep_exists _ _ Hwf (mk i c)) as [T HT].
  { unfold valid. cbn [row mk]. destruct (Nat.eqb_spec i 0); [lia|]. by rewrite Hp. }
  inversion HT as [| |f' p' ts H1 H2 H3 H4]; subst; cbn [row mk] in *; try lia. assert (p' = p) as -> by congruence.
  exists ts. split_and!; try done. eapply table_wf_arity; eauto.
Qed.

Lemma uniq_no_dup d : dd_wf d -> tuniq d -> no_duplicates d.
Proof.
  intros Hd Hu i c c' p p' Hi Hp Hp' Hc.
  destruct (node_rep d i c p Hd Hi Hp) as (ts & H1 & H2 & _ & H3). destruct (node_rep d i c' p' Hd Hi Hp') as (ts' & H1' & H2' & _ & _).
  assert (code (mk i c) = code (mk i c')) as E; [|by inversion E].
  apply (Hu _ _ (TN i ts)); [done|]. assert (ts' = ts) as ->; [|done].
  apply (codes_trees _ _ _ _ Hc) in H2. clear -H2 H2'. revert ts H2. induction H2' as [|g S p ts' Hg HF IH]; intros ts H2; inversion H2; subst; [done|].
  f_equal; [by eapply rep_det|by apply IH].
Qed.

Section facts.
  Context (md : rmode) (d d' : dd) (Hd : dd_wf d) (HR : reduced md d d').
  Lemma red_wf : dd_wf d'. Proof. apply HR. Qed.
  Lemma red_uniq : tuniq d'.
  Proof. intros f g T. apply (oi_uniq _ _ _ _ _ (rd_inv _ _ _ HR)). Qed.
  Lemma red_no_dup : no_duplicates d'.
  Proof. apply uniq_no_dup; [apply HR|apply red_uniq]. Qed.
  Lemma red_norm i c p : 0 < i -> tget (tab d') (mk i c) = Some p ->
    exists ts, Forall2 (rep (tab d')) p ts /\ length ts = d_ar d /\ delT md ts = false.
  Proof.
    intros Hi Hp. destruct (node_rep d' i c p red_wf Hi Hp) as (ts & H1 & H2 & H3 & H4). exists ts.
    rewrite (rd_ar _ _ _ HR) in H3.
    assert (length ts = d_ar d) as Hl by (rewrite <- H3; symmetry; by eapply Forall2_length). split_and!; [done|done|].
    eapply red_normal_node; [|eapply (oi_norm _ _ _ _ _ (rd_inv _ _ _ HR)); exact H1].
    eapply rep_tok; [apply HR|exact H1].
  Qed.
  Lemma red_no_bdd : md = RB -> no_bdd_redundant d'.
  Proof.
    intros Emd i c p Hi Hp. destruct (red_norm i c p Hi Hp) as (ts & HF & Hl & Hdel). rewrite Emd in Hdel.
    pose proof (proj1 Hd) as Ha. pose proof (Forall2_length _ _ _ HF) as Hlp.
    destruct (lookup_lt_is_Some_2 p 0 ltac:(lia)) as [g0 Hg0].
    destruct (decide (Forall (fun g => code g = code g0) p)) as [Hall|Hno].
    - exfalso. rewrite <- not_true_iff_false in Hdel. apply Hdel. apply delT_RB. intros b Hb.
      destruct (lookup_lt_is_Some_2 p b ltac:(lia)) as [g Hg].
      destruct (Forall2_lookup_l _ _ _ _ _ HF Hg) as (S & HS & HgS). destruct (Forall2_lookup_l _ _ _ _ _ HF Hg0) as (S0 & HS0 & HgS0).
      rewrite (nth_lookup_Some _ _ _ _ HS), (nth_lookup_Some _ _ _ _ HS0). eapply rep_det; [exact HgS|].
      apply (rep_code _ g0); [|done]. symmetry. by apply (Forall_lookup_1 _ _ _ _ Hall Hg).
    - apply not_Forall_Exists, Exists_exists in Hno as (g & Hg & Hne); [|intros g; apply _]. apply elem_of_list_lookup in Hg as [b Hb].
      by exists b, 0, g, g0.
  Qed.
  Lemma red_no_zdd : md = RZ -> no_zdd_redundant d'.
  Proof.
    intros Emd i c p Hi Hp. destruct (red_norm i c p Hi Hp) as (ts & HF & Hl & Hdel). rewrite Emd in Hdel.
    pose proof (Forall2_length _ _ _ HF) as Hlp.
    destruct (decide (Forall (fun g => code g = (0, 0)) (tail p))) as [Hall|Hno].
    - exfalso. rewrite <- not_true_iff_false in Hdel. apply Hdel. apply delT_RZ. intros b Hb.
      destruct (ts !! b) as [S|] eqn:HS; [|by rewrite nth_overflow; [|apply lookup_ge_None_1]].
      rewrite (nth_lookup_Some _ _ _ _ HS). destruct (Forall2_lookup_r _ _ _ _ _ HF HS) as (g & Hg & HgS).
      destruct b as [|b]; [lia|]. destruct p as [|g0 p]; [done|]. simpl in Hg, Hall.
      pose proof (Forall_lookup_1 _ _ _ _ Hall Hg) as Hc. inversion Hc. inversion HgS; subst; try lia; done.
    - apply not_Forall_Exists, Exists_exists in Hno as (g & Hg & Hne); [|intros g; apply _]. apply elem_of_list_lookup in Hg as [b Hb].
      exists (S b), g. split_and!; [lia| |done]. by destruct p.
  Qed.
End facts.

(** ** isomorphism *)
Definition ntree (d : dd) (f : nid) : tree := unfold (dd_spec d) (row f) (id_level f) f.
Lemma ntree_rep d f : dd_wf d -> valid (tab d) f -> rep (tab d) f (ntree d f).
Proof.
  intros Hd Hv. pose proof Hd as (Ha & Hwf & _). destruct (rep_exists _ _ Hwf f Hv) as [T HT]. assert (ntree d f = T) as ->; [|done].
  apply unfold_rep; [done|by apply table_wf_arity|done|done].
Qed.
Lemma ntree_eq d f T : dd_wf d -> rep (tab d) f T -> ntree d f = T.
Proof. intros Hd HT. eapply rep_det; [apply ntree_rep; [done|by eapply rep_valid]|done]. Qed.

(** nodes stand for the same trees *)
Definition covers (d o : dd) : Prop := forall f T, 0 < row f -> rep (tab d) f T -> exists g, rep (tab o) g T.

Lemma iso_of_covers d o T : dd_wf d -> dd_wf o -> d_ar d = d_ar o -> length (tab d) = length (tab o) ->
  tuniq d -> tuniq o -> covers d o -> covers o d -> rep (tab d) (rt d) T -> rep (tab o) (rt o) T -> isomorphic d o.
Proof.
  intros Hd Ho Har Hlen Hud Huo Hdo Hod HT HT'. split_and!; [done|done|].
  set (phi := fun i c => match tab o !! i with
     | Some y => match list_find (fun c' => ntree o (mk i c') = ntree d (mk i c)) (seq 0 (length y)) with Some (_, c') => c' | None => 0 end
     | None => 0 end).
  assert (forall f S, rep (tab d) f S -> exists g, rep (tab o) g S /\ code g = rename phi (code f)) as Hphi.
  { intros f S HS. destruct (decide (row f = 0)) as [E|E].
    - exists f. split; [inversion HS; subst; [apply rep_0|apply rep_1|lia]; done|]. unfold code. rewrite E. done.
    - destruct (Hdo f S ltac:(lia) HS) as [g Hg]. exists g. split; [done|].
      assert (row g = row f) as Er by (rewrite <- (rep_lev _ _ _ HS), <- (rep_lev _ _ _ Hg); done).
      unfold code, rename. destruct (row f) as [|r] eqn:Erf; [lia|]. rewrite Er. f_equal. rewrite <- Erf in *.
      assert (rep (tab o) (mk (row f) (col g)) S) as Hg'. { apply (rep_code _ g); [|done]. unfold code. cbn [row col mk]. congruence. }
      assert (ntree d (mk (row f) (col f)) = S) as Ed. { apply ntree_eq; [done|]. by apply (rep_code _ f). }
      pose proof (rep_valid _ _ _ Hg) as Hv. unfold valid in Hv. destruct (Nat.eqb_spec (row g) 0); [lia|]. destruct Hv as [q Hq].
      unfold tget in Hq. destruct (tab o !! row g) as [y|] eqn:Ey; [|done]. cbn [mbind option_bind] in Hq.
      unfold phi. rewrite <- Er, Ey, Er, Ed.
      destruct (list_find _ _) as [[k c']|] eqn:El.
      + apply list_find_Some in El as (H1 & H2 & _). apply lookup_seq in H1 as [-> Hlt]. simpl in *.
        destruct (lookup_lt_is_Some_2 y k ltac:(lia)) as [q' Hq'].
        assert (valid (tab o) (mk (row f) k)) as Hvk.
        { unfold valid. cbn [row mk]. destruct (Nat.eqb_spec (row f) 0); [lia|]. unfold tget. cbn [row col mk]. rewrite <- Er, Ey. cbn [mbind option_bind]. by rewrite Hq'. }
        pose proof (ntree_rep o _ Ho Hvk) as Hk. rewrite H2 in Hk.
        pose proof (Huo _ _ _ Hg' Hk) as Ec. by inversion Ec.
      + exfalso. apply list_find_None in El. rewrite Forall_lookup in El. apply (El (col g) (col g)).
        * rewrite lookup_seq. split; [done|]. by eapply lookup_lt_Some.
        * by apply ntree_eq. }
  assert (forall i x, 0 < i -> tab d !! i = Some x -> forall c p, x !! c = Some p -> exists ts, rep (tab d) (mk i c) (TN i ts) /\ Forall2 (rep (tab d)) p ts) as Hnd.
  { intros i x Hi Hx c p Hc. destruct (node_rep d i c p Hd Hi) as (ts & H1 & H2 & _); [|by exists ts].
    unfold tget. cbn [row col mk]. by rewrite Hx. }
  assert (forall d1 d2 i x y, dd_wf d1 -> dd_wf d2 -> covers d1 d2 -> tuniq d1 -> 0 < i -> tab d1 !! i = Some x -> tab d2 !! i = Some y -> length x <= length y) as Hle.
  { intros d1 d2 i x y Hw1 Hw2 Hcov Hu Hi Hx Hy.
    assert (forall c, c < length x -> exists c', c' < length y /\ exists S, rep (tab d1) (mk i c) S /\ rep (tab d2) (mk i c') S) as Hm.
    { intros c Hc. destruct (lookup_lt_is_Some_2 x c Hc) as [p Hp]. destruct (node_rep d1 i c p Hw1 Hi) as (ts & H1 & _).
      { unfold tget. cbn [row col mk]. by rewrite Hx. }
      destruct (Hcov (mk i c) _ Hi H1) as [g Hg]. pose proof (rep_lev _ _ _ Hg) as Hr. simpl in Hr. exists (col g).
      pose proof (rep_valid _ _ _ Hg) as Hv. unfold valid in Hv. destruct (Nat.eqb_spec (row g) 0); [lia|]. destruct Hv as [q Hq].
      unfold tget in Hq. rewrite <- Hr, Hy in Hq. split; [by eapply lookup_lt_Some|]. exists (TN i ts). split; [done|].
      apply (rep_code _ g); [|done]. unfold code. cbn [row col mk]. congruence. }
    rewrite <- (seq_length (length x) 0), <- (seq_length (length y) 0).
    assert (exists l, Forall2 (fun c c' => c' < length y /\ exists S, rep (tab d1) (mk i c) S /\ rep (tab d2) (mk i c') S) (seq 0 (length x)) l) as [l Hl].
    { assert (Forall (fun c => exists c', c' < length y /\ exists S, rep (tab d1) (mk i c) S /\ rep (tab d2) (mk i c') S) (seq 0 (length x))) as HF.
      { apply Forall_forall. intros c Hc. apply elem_of_seq in Hc. apply Hm. lia. }
      clear -HF. induction HF as [|c cs [c' Hc'] HF [l IH]]; [exists []; constructor|]. exists (c' :: l). by constructor. }
    rewrite (Forall2_length _ _ _ Hl). apply submseteq_length, NoDup_submseteq.
    - apply NoDup_alt. intros a b c' Ha Hb. destruct (Forall2_lookup_r _ _ _ _ _ Hl Ha) as (ca & Hca & _ & Sa & Ha1 & Ha2).
      destruct (Forall2_lookup_r _ _ _ _ _ Hl Hb) as (cb & Hcb & _ & Sb & Hb1 & Hb2).
      assert (Sa = Sb) as -> by (by eapply rep_det). pose proof (Hu _ _ _ Ha1 Hb1) as Ec. inversion Ec.
      apply lookup_seq in Hca as [-> _], Hcb as [-> _]. simpl in *. lia.
    - intros c' Hc'. apply elem_of_list_lookup in Hc' as [a Ha]. destruct (Forall2_lookup_r _ _ _ _ _ Hl Ha) as (ca & _ & Hlt & _).
      apply elem_of_seq. lia. }
  exists phi. split.
  - intros i x Hi Hx. destruct (lookup_lt_is_Some_2 (tab o) i) as [y Hy]; [rewrite <- Hlen; by eapply lookup_lt_Some|].
    exists y. split_and!; [done|apply Nat.le_antisymm; [by eapply (Hle d o i)|by eapply (Hle o d i)]| |].
    + intros c c' Hc Hc' E. destruct (lookup_lt_is_Some_2 x c Hc) as [p Hp]. destruct (lookup_lt_is_Some_2 x c' Hc') as [p' Hp'].
      destruct (Hnd i x Hi Hx c p Hp) as (ts & H1 & _). destruct (Hnd i x Hi Hx c' p' Hp') as (ts' & H1' & _).
      destruct (Hphi _ _ H1) as (g & Hg & Eg). destruct (Hphi _ _ H1') as (g' & Hg' & Eg').
      unfold code at 2 in Eg. unfold code at 2 in Eg'. cbn [row col mk] in Eg, Eg'. destruct i as [|i]; [lia|]. cbn [rename] in Eg, Eg'. rewrite E in Eg.
      assert (TN (S i) ts = TN (S i) ts') as ET. { eapply rep_det; [exact Hg|]. apply (rep_code _ g'); [congruence|done]. }
      rewrite <- ET in H1'. pose proof (Hud _ _ _ H1 H1') as Ec. by inversion Ec.
    + intros c p Hp. destruct (Hnd i x Hi Hx c p Hp) as (ts & H1 & H2). destruct (Hphi _ _ H1) as (g & Hg & Eg).
      unfold code at 2 in Eg. cbn [row col mk] in Eg. destruct i as [|i]; [lia|]. cbn [rename] in Eg. inversion Eg as [[Eg1 Eg2]].
      inversion Hg as [| |g' q ss G1 G2 G3 G4]; subst. unfold tget in G2. rewrite Eg1, Eg2, Hy in G2. cbn [mbind option_bind] in G2.
      exists q. split; [by rewrite Eg2|]. clear -H2 G3 Hphi Huo. revert q G3. induction H2 as [|f S p ts Hf HF IH]; intros q G3; inversion G3; subst; [done|].
      cbn [map]. f_equal; [|by apply IH]. destruct (Hphi _ _ Hf) as (g & Hg & <-). by eapply Huo.
  - destruct (Hphi _ _ HT) as (g & Hg & <-). by eapply Huo.
Qed.

Lemma reduced_iso md d d1 d2 : dd_wf d -> reduced md d d1 -> reduced md d d2 -> isomorphic d1 d2.
Proof.
  intros Hd H1 H2. pose proof Hd as (Ha & Hwf & Hv). destruct (rep_exists _ _ Hwf _ Hv) as [T HT].
  assert (forall d1 d2, reduced md d d1 -> reduced md d d2 -> covers d1 d2) as Hc.
  { clear d1 d2 H1 H2. intros d1 d2 H1 H2 f S Hf HS. destruct (oi_src _ _ _ _ _ (rd_inv _ _ _ H1) f S HS Hf) as (j & S0 & HS0 & <-).
    apply (oi_all _ _ _ _ _ (rd_inv _ _ _ H2) (row f) j); [|done]. split; [done|].
    destruct (decide (row f <= row (rt d))); [done|]. exfalso. pose proof (rep_valid _ _ _ HS) as Hvf. unfold valid in Hvf.
    destruct (Nat.eqb_spec (row f) 0); [lia|]. destruct Hvf as [p Hp]. unfold tget in Hp.
    destruct (tab d1 !! row f) as [x|] eqn:Ex; [|done]. rewrite (oi_hi _ _ _ _ _ (rd_inv _ _ _ H1) (row f)) in Ex; [by inversion Ex; subst|lia|].
    rewrite <- (oi_len _ _ _ _ _ (rd_inv _ _ _ H1)). by eapply lookup_lt_Some. }
  apply (iso_of_covers _ _ (red md T)).
  - apply H1.
  - apply H2.
  - by rewrite (rd_ar _ _ _ H1), (rd_ar _ _ _ H2).
  - by rewrite (oi_len _ _ _ _ _ (rd_inv _ _ _ H1)), (oi_len _ _ _ _ _ (rd_inv _ _ _ H2)).
  - by eapply red_uniq.
  - by eapply red_uniq.
  - by apply Hc.
  - by apply Hc.
  - by apply H1.
  - by apply H2.
Qed.

(** ** accepting walks survive the removal of all-zero nodes *)
Lemma trun_nonnil T bs : trun T bs <> [].
Proof. by destruct T, bs. Qed.
Lemma last_cons_ne {A} (x : A) l : l <> [] -> last (x :: l) = last l.
Proof. by destruct l. Qed.

Lemma trun_T0 bs : trun T0 bs = [0%Z].
Proof. by destruct bs. Qed.

Lemma nz_T0_run T bs : nz T = T0 -> last (trun T bs) <> Some (-1)%Z.
Proof.
  revert bs. induction T as [| |l ts IH] using tree_ind'; intros bs H; [by rewrite trun_T0| done |].
  cbn [nz] in H. unfold nzN in H. destruct (all0 (map nz ts)) eqn:E; [|done].
  destruct bs as [|b bs]; cbn [trun]; [simpl; intros [= ?]; lia|].
  rewrite last_cons_ne by apply trun_nonnil. pose proof (proj1 (all0_true _) E b) as Hb. rewrite nth_map_T0 in Hb by done.
  destruct (ts !! b) as [S|] eqn:HS.
  - rewrite (nth_lookup_Some _ _ _ _ HS) in *. by apply (Forall_lookup_1 _ _ _ _ IH HS).
  - rewrite nth_overflow by (by apply lookup_ge_None_1). by rewrite trun_T0.
Qed.

Lemma trun_nz T bs : last (trun T bs) = Some (-1)%Z \/ last (trun (nz T) bs) = Some (-1)%Z -> trun (nz T) bs = trun T bs.
Proof.
  revert bs. induction T as [| |l ts IH] using tree_ind'; intros bs H; [done|done|].
  cbn [nz] in *. unfold nzN in *. destruct (all0 (map nz ts)) eqn:E.
  - exfalso. destruct H as [H|H]; [|by rewrite trun_T0 in H]. eapply nz_T0_run; [|exact H]. cbn [nz]. unfold nzN. by rewrite E.
  - destruct bs as [|b bs]; [done|]. cbn [trun] in *. f_equal. rewrite !last_cons_ne in H by apply trun_nonnil. rewrite nth_map_T0 in * by done.
    destruct (ts !! b) as [S|] eqn:HS.
    + rewrite (nth_lookup_Some _ _ _ _ HS) in *. by apply (Forall_lookup_1 _ _ _ _ IH HS).
    + rewrite nth_overflow by (by apply lookup_ge_None_1). done.
Qed.

Lemma trun_qtop T bs : last (trun T bs) = Some (-1)%Z \/ last (trun (qtop T) bs) = Some (-1)%Z -> trun (qtop T) bs = trun T bs.
Proof.
  destruct T as [| |l ts]; [done|done|]. destruct bs as [|b bs]; [done|]. cbn [qtop trun]. rewrite !last_cons_ne by apply trun_nonnil.
  intros H. f_equal. rewrite nth_map_T0 in * by done. by apply trun_nz.
Qed.

Lemma tbdd_qtop l T v : tbdd l (qtop T) v = tbdd l T v.
Proof.
  destruct T as [| |k ts]; [done|done|]. cbn [qtop]. induction l as [|l IH]; [done|]. cbn [tbdd].
  destruct (k =? S l); [|done]. rewrite nth_map_T0 by done. apply tbdd_nz.
Qed.
Lemma tzdd_qtop l T v : tzdd l (qtop T) v = tzdd l T v.
Proof.
  destruct T as [| |k ts]; [done|done|]. cbn [qtop]. induction l as [|l IH]; [done|]. cbn [tzdd].
  destruct (k =? S l); [|by rewrite IH]. rewrite nth_map_T0 by done. apply tzdd_nz.
Qed.
