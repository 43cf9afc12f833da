(** Empty-set flags and zero descendants. *)
From Verif Require Import Base Sem M_Table S_Dd Tree P_Red P_RLevel P_RGlobal M_Zero.

Lemma zero_desc_det t l f h h' : zero_desc t l f h -> zero_desc t l f h' -> h = h'.
Proof.
  intros H. revert h'. induction H as [f Hf|f g h Hf Hg H IH]; intros h' H'; inversion H'; subst; try lia; [done|].
  apply IH. congruence.
Qed.

Lemma zero_desc_tz t f T : rep t f T -> (forall l ts, T = TN l ts -> exists a, 0 < a /\ tok a T) ->
  exists h, zero_desc t 0 f h /\ (tz T = true <-> code h = (0, 1)).
Proof.
  revert f. induction T as [| |l ts IH] using tree_ind'; intros f H Htok.
  - inversion H as [? E1 E2| |]; subst. exists f. split; [constructor; lia|]. unfold code. rewrite E1, E2. done.
  - inversion H as [|? E1 E2|]; subst. exists f. split; [constructor; lia|]. unfold code. rewrite E1, E2. done.
  - inversion H as [| |f' p ss H1 H2 H3 H4]; subst. destruct (Htok _ _ eq_refl) as (a & Ha & Hok).
    inversion Hok as [| |? ? Hl Hlen Hts Hlev]; subst.
    destruct (lookup_lt_is_Some_2 ts 0 Ha) as [S HS]. destruct (Forall2_lookup_r _ _ _ _ _ H3 HS) as (g & Hg & HgS).
    pose proof (Forall_lookup_1 _ _ _ _ Hts HS) as HokS.
    destruct (Forall_lookup_1 _ _ _ _ IH HS g HgS) as (h & Hh & Hiff). { intros l' ts' ->. by exists (length ts). }
    exists h. split.
    + eapply zd_step; [lia| |exact Hh]. unfold child. by rewrite H2.
    + rewrite tz_node, (nth_lookup_Some _ _ _ _ HS). done.
Qed.

Lemma zero_loop_ok a t l f : table_wf a t -> 0 < a -> valid t f -> exists h, zero_loop t (row f) f l = Some h /\ zero_desc t l f h.
Proof.
  intros Hwf Ha. generalize (le_n (row f)). generalize (row f) at 2 3 as k. intros k. revert f. induction k as [|k IH]; intros f Hk Hv.
  - exists f. simpl. replace (row f) with 0 by lia. split; [done|]. constructor. lia.
  - cbn [zero_loop]. destruct (Nat.leb_spec (row f) l); [exists f; split; [done|by constructor]|].
    unfold valid in Hv. destruct (Nat.eqb_spec (row f) 0); [lia|]. destruct Hv as [p Hp].
    assert (length p = a) as Hlen by (eapply table_wf_arity; eauto; lia).
    destruct (lookup_lt_is_Some_2 p 0 ltac:(lia)) as [g Hg].
    assert (child t f 0 = Some g) as Hc by (unfold child; by rewrite Hp).
    unfold tget in Hp. destruct (t !! row f) as [x|] eqn:Ex; [|done]. cbn [mbind option_bind] in Hp.
    destruct (wf_child a t Hwf (row f) x (col f) p 0 g ltac:(lia) Ex Hp Hg) as [Hlt Hvg].
    destruct (IH g ltac:(lia) Hvg) as (h & Eh & Hh). exists h. rewrite Hc. cbn [mbind option_bind]. split; [done|]. by econstructor.
Qed.

Lemma zero_unmarked_clean d : zero_unmarked d -> clean (tab d) /\ (code (rt d) = (0, 0) -> attr (rt d) = false).
Proof.
  intros H. split.
  - intros i c b g Hi Hg. apply H. right. by exists i, c, b.
  - apply H. by left.
Qed.

Lemma reduced_flags md d d' f : dd_wf d -> reduced md d d' -> zero_unmarked d -> held d' f ->
  exists T, rep (tab d') f T /\ hasEmpty f = tz T.
Proof.
  intros Hd HR Hz Hf. destruct (zero_unmarked_clean d Hz) as [Hcl Hrt]. pose proof Hd as (Ha & Hwf & Hv).
  destruct (rep_exists _ _ Hwf _ Hv) as [T HT]. destruct Hf as [->|(i & c & b & Hi & Hc)].
  - exists (red md T). split; [by apply HR|]. rewrite (rd_attr _ _ _ HR Hcl Hrt T HT). by rewrite tz_red.
  - pose proof (rd_wf _ _ _ HR) as (Ha' & Hwf' & _).
    assert (valid (tab d') f) as Hvf.
    { unfold child in Hc. destruct (tget (tab d') (mk i c)) as [p|] eqn:Ep; [|done]. cbn [mbind option_bind] in Hc. unfold tget in Ep. cbn [row col mk] in Ep.
      destruct (tab d' !! i) as [x|] eqn:Ex; [|done]. cbn [mbind option_bind] in Ep. by apply (wf_child _ _ Hwf' i x c p b f Hi Ex Ep Hc). }
    destruct (rep_exists _ _ Hwf' _ Hvf) as [S HS]. exists S. split; [done|].
    refine (oi_attr _ _ _ _ _ (rd_inv _ _ _ HR) _ (mk i c) b f S Hi Hc HS).
    intros i' c' b' g Hi' Hg. apply (Hcl i' c' b' g Hi'). unfold child in *. by rewrite init_tab_get in Hg.
Qed.
