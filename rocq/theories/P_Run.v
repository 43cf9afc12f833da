(** Trees and the sequences of level codes met on paths. *)
From Verif Require Import Base Sem M_Table S_Dd Tree P_Red.

Definition tcode (T : tree) : Z := match T with T0 => 0%Z | T1 => (-1)%Z | TN l _ => Z.of_nat l end.
Fixpoint trun (T : tree) (bs : list nat) : list Z :=
  match T, bs with
  | TN l ts, b :: bs' => Z.of_nat l :: trun (nth b ts T0) bs'
  | _, _ => [tcode T]
  end.

Lemma run_rep d f T bs : dd_wf d -> rep (tab d) f T -> Forall (fun b => b < d_ar d) bs ->
  run (dd_spec d) (id_level f) f bs = trun T bs.
Proof.
  intros Hd HT Hbs. pose proof Hd as (Ha & Hwf & Hv). revert f T HT. induction Hbs as [|b bs Hb Hbs IH]; intros f T HT.
  - simpl. assert (id_level f = tcode T) as ->; [|by destruct T]. unfold id_level.
    inversion HT as [? E1 E2|? E1 E2|? p ts Hr Hg HF Hlt]; subst; rewrite ?E1, ?E2; try done. by destruct (Nat.ltb_spec 0 (row f)); [|lia].
  - inversion HT as [? E1 E2|? E1 E2|? p ts Hr Hg HF Hlt]; subst; cbn [run]; unfold id_level.
    + by rewrite E1, E2.
    + by rewrite E1, E2.
    + destruct (Nat.ltb_spec 0 (row f)); [|lia]. destruct (Z.ltb_spec 0 (Z.of_nat (row f))); [|lia]. cbn [dd_spec get_child trun].
      unfold child. rewrite Hg. cbn [mbind option_bind].
      assert (length p = d_ar d) as Hlen by (eapply table_wf_arity; eauto).
      destruct (lookup_lt_is_Some_2 p b ltac:(lia)) as [g Hgb]. rewrite Hgb. cbn [fst snd].
      destruct (Forall2_lookup_l _ _ _ _ _ HF Hgb) as (S & HS & HgS). f_equal.
      rewrite (nth_lookup_Some _ _ _ _ HS). by apply IH.
Qed.

Lemma walk_tree d T bs : dd_wf d -> rep (tab d) (rt d) T -> Forall (fun b => b < d_ar d) bs -> walk d bs = trun T bs.
Proof. intros Hd HT Hbs. unfold walk. rewrite root_level_eq by apply Hd. by apply run_rep. Qed.

Lemma trun_inj a A B : tok a A -> tok a B ->
  (forall bs, Forall (fun b => b < a) bs -> trun A bs = trun B bs) -> A = B.
Proof.
  revert B. induction A as [| |l ts IH] using tree_ind'; intros B HA HB H.
  - specialize (H [] ltac:(constructor)). destruct B; simpl in H; try done. inversion HB; subst. assert (l = 0) by (injection H; lia). lia.
  - specialize (H [] ltac:(constructor)). destruct B; simpl in H; try done. injection H. lia.
  - pose proof (H [] ltac:(constructor)) as H0. inversion HA as [| |l' ts' Hl Hlen Htok Hlev]; subst. destruct B as [| |l' ts']; simpl in H0.
    + injection H0. lia.
    + injection H0. lia.
    + assert (l' = l) as -> by (injection H0; lia). f_equal. inversion HB as [| |? ? Hl' Hlen' Htok' Hlev']; subst.
      apply list_eq_nth; [done|]. intros b Hb. rewrite Forall_forall in IH. apply IH.
      * apply elem_of_list_In, nth_In. done.
      * rewrite Forall_forall in Htok. by apply Htok, elem_of_list_In, nth_In.
      * rewrite Forall_forall in Htok'. apply Htok', elem_of_list_In, nth_In. lia.
      * intros bs Hbs. specialize (H (b :: bs) ltac:(constructor; done)). simpl in H. by injection H.
Qed.

Lemma walk_inj d o A B : dd_wf d -> dd_wf o -> d_ar d = d_ar o -> rep (tab d) (rt d) A -> rep (tab o) (rt o) B ->
  A = B <-> forall bs, Forall (fun b => b < d_ar d) bs -> walk d bs = walk o bs.
Proof.
  intros Hd Ho Har HA HB. split.
  - intros -> bs Hbs. rewrite (walk_tree d B), (walk_tree o B); try done. by rewrite <- Har.
  - intros H. apply (trun_inj (d_ar d)).
    + eapply rep_tok; [apply Hd|done].
    + rewrite Har. eapply rep_tok; [apply Ho|done].
    + intros bs Hbs. rewrite <- (walk_tree d A), <- (walk_tree o B); try done; [by apply H|by rewrite <- Har].
Qed.
