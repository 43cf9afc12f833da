(** Any specification with a weight on every decision: the accepting state carries the weight of the vector. *)
From Verif Require Import Base Sem M_Merge S_Merge.
Local Open Scope Z_scope.

Section weighted.
  Context (sp : spec) (wt : nat -> nat -> Z).

  Lemma weighted_reach l x : reach (weighted sp wt) l x -> reach sp l (fst x).
  Proof.
    induction 1 as [H|l x b Hr IH Hb H].
    - cbn in *. by apply reach_root.
    - cbn in *. by apply reach_child.
  Qed.

  Lemma weighted_congr : spec_congr sp -> spec_congr (weighted sp wt).
  Proof.
    intros Hc. split.
    - intros l s Hs. apply (cg_refl sp Hc). by apply weighted_reach in Hs.
    - intros l s s' Hs Hs'. apply (cg_sym sp Hc); by apply weighted_reach.
    - intros l s s' s'' Hs Hs' Hs''. apply (cg_trans sp Hc); by apply weighted_reach.
    - intros l s s' b Hs Hs' Hb E. apply weighted_reach in Hs, Hs'. cbn in *.
      exact (cg_child sp Hc l (fst s) (fst s') b Hs Hs' Hb E).
  Qed.

  Lemma weighted_merge_ok : spec_ok sp -> spec_congr sp -> merge_ok (weighted sp wt) lighter snd.
  Proof.
    intros Hok Hc. split.
    - split.
      + exact (ok_arity sp Hok).
      + intros l s b Hs Hb. apply weighted_reach in Hs. by apply (ok_level sp Hok).
      + intros l s s' Hs Hs' E. apply weighted_reach in Hs, Hs'. cbn in *.
        intros bs Hbs. pose proof (ok_equal sp Hok _ _ _ Hs Hs' E bs Hbs) as H.
        assert (forall bs c x, run (weighted sp wt) c x bs = run sp c (fst x) bs) as Hrun.
        { clear. induction bs as [|b bs IH]; intros c x; [done|]. cbn [run]. destruct (0 <? c); [|done].
          f_equal. cbn. apply IH. }
        by rewrite !Hrun.
    - by apply weighted_congr.
    - done.
    - done.
    - intros l s s' b _ _ _ _ _. cbn.
      destruct (Z.compare_spec (snd s) (snd s')) as [H|H|H]; cbv zeta;
        [apply Z.compare_eq_iff|apply Z.compare_lt_iff|apply Z.compare_gt_iff]; lia.
  Qed.

  Context (wt0 : forall l, wt l 0 = 0).
  Lemma weighted_zfinal l : forall c x v, zfinal_at (weighted sp wt) l c x v =
    match zfinal_at sp l c (fst x) v with Some s => Some (s, snd x + weight wt l v) | None => None end.
  Proof using wt0.
    induction l as [|l IH]; intros c [s w] v; cbn [zfinal_at fst snd weight].
    - destruct (c <? 0); [|done]. do 2 f_equal. lia.
    - destruct (Z.eqb_spec c (Z.of_nat (S l))) as [->|Hne].
      + cbn [weighted get_child fst snd]. rewrite IH. cbn [fst snd]. rewrite Nat2Z.id.
        destruct (zfinal_at sp l _ _ v); [|done]. do 2 f_equal. lia.
      + destruct (Nat.eqb_spec (v (S l)) 0) as [E|]; [|done]. rewrite IH. cbn [fst snd].
        destruct (zfinal_at sp l _ _ v); [|done]. rewrite E, wt0. do 2 f_equal.
  Qed.
End weighted.
