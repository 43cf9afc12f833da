From Verif Require Import Base M_Table Tree M_Hash P_Hash M_Sweeper M_Engine P_Sweep P_Pass P_Pass2 P_Core P_Upd P_Level.
Local Open Scope nat_scope.

Section engine.
  Context {S : Type} (a : nat) (nt : nat) (ngr : nat -> nat).
  Context (eqbf : nat -> S -> S -> bool) (hashf : nat -> S -> N).
  Context (ch : nat -> nat -> S -> nat -> option (Z * nat * S)).
  Context (sched : nat -> list (nat * nat)) (single : bool).
  Context (R : nat -> nat -> S -> Prop) (tr : nat -> nat -> S -> tree).
  Context (n g0 : nat) (s0 : S).
  Notation core := (core T1 a nt ngr eqbf hashf R tr n g0 s0).
  Notation swinv := (swinv n).

  Context (Hch : forall i g s b, R i g s -> b < a -> exists c g' s', ch i g s b = Some (c, g', s') /\
     (c < Z.of_nat i)%Z /\ ((0 < c)%Z -> g' < ngr (Z.to_nat c) /\ R (Z.to_nat c) g' s')).
  Context (Htr : forall i g s, R i g s -> tr i g s = nzN i (map (ctree ch tr i g s) (seq 0 a))).
  Context (Heq : forall i g s s', R i g s -> R i g s' -> eqbf i s s' = true -> tr i g s = tr i g s').
  Context (Hs1 : forall i, map fst (sched i) ≡ₚ seq 0 (ngr i)).
  Context (Hs2 : forall i x, x ∈ sched i -> snd x < nt).

  Lemma construct_ok i st : 1 <= i <= n -> core i (out st) (broot st) (work st) ->
    (i = n /\ bsw st = sw0 \/ i < n /\ swinv i (bsw st) (out st) (broot st) (work st)) ->
    exists st', construct a hashf eqbf nt ngr ch sched single i st = Some st' /\
      core (i - 1) (out st') (broot st') (work st') /\
      (1 <= i - 1 -> swinv (i - 1) (bsw st') (out st') (broot st') (work st')).
  Proof.
    intros Hi HC Hsw. unfold construct.
    destruct (level_ok a nt ngr eqbf hashf ch sched single R tr n g0 s0 Hch Htr Heq Hs1 Hs2 i _ _ _ Hi HC)
      as (idss & m & t1 & root1 & r1 & t2 & w2 & low & dead & E1 & Hr1 & E2 & HC2 & H1 & H2 & H3 & H4 & H5 & H6 & H7).
    rewrite (c_empty _ _ _ _ _ _ _ _ _ _ _ _ _ _ _ HC i) by lia. cbn [mbind option_bind length].
    rewrite E1. cbn [mbind option_bind fst snd]. rewrite Hr1. cbn [mbind option_bind].
    unfold set_row. rewrite Hr1. cbn [mbind option_bind]. rewrite E2. cbn [mbind option_bind].
    destruct (decide (i = 1)) as [->|Hi1].
    { unfold update. simpl. eexists. split; [done|]. simpl. split; [exact HC2|lia]. }
    destruct (update_ok T1 a nt ngr eqbf hashf R tr n g0 s0 (i - 1) (bsw st) t2 root1 w2 low dead)
      as (sw' & t' & root' & E & HC' & HS').
    - lia.
    - done.
    - replace (i - 1 + 1) with i by lia. destruct Hsw as [[-> Hsw]|[Hlt HS]].
      + left. destruct (H7 eq_refl) as [Hr Hw]. done.
      + right. split; [done|]. rewrite (H6 Hlt). destruct HS as [S1 S2 S3 S4 S5 S6 S7 S8 S9]. constructor; try done.
        * intros j Hj. destruct (S3 j Hj) as (v & Hv & Hor & Hp). exists v. split_and!; try done.
          intros p r c b Hpw Es Hlv Hr. apply (Hp p r c b); try done. by apply (H5 p r c b).
        * intros k Hk. destruct (S5 k Hk) as [D1 D2]. split; [|done]. intros j r Hj Hr.
          destruct (H4 j r ltac:(lia) Hr) as (r' & Hr' & El). rewrite <- El. by apply D1.
    - lia.
    - replace (i - 1 + 1) with i by lia. done.
    - replace (i - 1 + 1) with i by lia. done.
    - replace (i - 1 + 1) with i in E by lia. rewrite E. cbn [mbind option_bind]. eexists. split; [done|]. simpl.
      split; [done|]. intros _. done.
  Qed.

  Lemma build_core : 1 <= n -> g0 < ngr n -> 0 < nt -> R n g0 s0 ->
    exists t root, build a hashf eqbf nt ngr ch sched single n g0 s0 = Some (t, root) /\ core 0 t root [].
  Proof.
    intros Hn Hg Hnt HR. unfold build.
    destruct (ofold_inv (fun st i => construct a hashf eqbf nt ngr ch sched single i st)
      (fun pre st => let i := n - length pre in length pre <= n /\ core i (out st) (broot st) (work st) /\
         (i = n /\ bsw st = sw0 \/ i < n /\ (1 <= i -> swinv i (bsw st) (out st) (broot st) (work st))))
      (reverse (seq 1 n)) (start a n g0 s0)) as (st & E & _ & HC & _).
    - cbn beta. simpl length. rewrite Nat.sub_0_r. split; [lia|]. split; [|by left]. constructor; simpl.
      + unfold init_table. simpl. by rewrite replicate_length.
      + done.
      + intros r Hr. destruct r as [|r]; [lia|]. simpl. apply lookup_replicate_2. lia.
      + intros f p Hp. unfold tget in Hp. destruct (init_table a n !! row f) as [x|] eqn:Ex; [|done]. simpl in Hp.
        unfold init_table in Ex. destruct (row f) as [|r]; simpl in Ex.
        * inversion Ex; subst x. destruct (col f) as [|[|c]]; simpl in Hp; inversion Hp; apply replicate_length.
        * apply lookup_replicate in Ex as [-> _]. done.
      + intros p Hp. apply elem_of_list_singleton in Hp. subst p. simpl. split_and!; try done; lia.
      + repeat constructor. apply not_elem_of_nil.
      + intros f b g Hf Hc _. exfalso. unfold child, tget in Hc. destruct (row f) as [|r]; [lia|]. simpl in Hc.
        destruct (replicate n [] !! r) as [x|] eqn:Ex; [|done]. apply lookup_replicate in Ex as [-> _]. done.
      + by rewrite Nat.eqb_refl.
      + intros f Hf [p Hp]. exfalso. unfold tget in Hp. destruct (row f) as [|r]; [lia|]. simpl in Hp.
        destruct (replicate n [] !! r) as [x|] eqn:Ex; [|done]. apply lookup_replicate in Ex as [-> _]. done.
      + intros r x Hr Hx. lia.
    - intros pre i post st Hl (Hpre & HC & Hsw).
      assert (length pre < n) as Hlt.
      { apply (f_equal length) in Hl. rewrite reverse_length, seq_length, app_length in Hl. simpl in Hl. lia. }
      assert (i = n - length pre) as Hi.
      { assert (reverse (seq 1 n) !! length pre = Some i) as Hx.
        { rewrite Hl. rewrite lookup_app_r by lia. by rewrite Nat.sub_diag. }
        rewrite reverse_lookup in Hx by (rewrite seq_length; lia).
        rewrite seq_length in Hx. apply lookup_seq in Hx. lia. }
      rewrite <- Hi in *.
      destruct (construct_ok i st) as (st' & E & HC' & HS'); [lia|done| |].
      { destruct Hsw as [?|[? HS]]; [by left|right]. split; [done|]. apply HS. lia. }
      exists st'. split; [done|]. rewrite app_length. simpl. replace (n - (length pre + 1)) with (i - 1) by lia.
      split; [lia|]. split; [done|]. right. split; [lia|done].
    - rewrite reverse_length, seq_length, Nat.sub_diag in HC. rewrite E. cbn [mbind option_bind].
      do 2 eexists. split; [done|].
      assert (work st = []) as <-; [|done].
      destruct (work st) as [|p w] eqn:Ew; [done|]. destruct (c_pend _ _ _ _ _ _ _ _ _ _ _ _ _ _ _ HC p) as [? _]; [by left|lia].
  Qed.

  Lemma core_wf t root : 0 < n -> core 0 t root [] -> table_wf a t /\ valid t root.
  Proof.
    intros Hn HC. pose proof (c_root _ _ _ _ _ _ _ _ _ _ _ _ _ _ _ HC) as Hr. destruct (Nat.eqb_spec 0 n) as [?|_]; [lia|].
    destruct Hr as [Hr _]. split.
    - constructor.
      + exists (terminal_row a). rewrite (c_term _ _ _ _ _ _ _ _ _ _ _ _ _ _ _ HC). split_and!; try done.
        repeat constructor; apply replicate_length.
      + intros i r j p Hi Hj. apply (c_ar _ _ _ _ _ _ _ _ _ _ _ _ _ _ _ HC (mk i j)). unfold tget. simpl. by rewrite Hi.
      + intros i r j p b g Hp Hi Hj Hb. apply (c_res _ _ _ _ _ _ _ _ _ _ _ _ _ _ _ HC (mk i j) b g); [done| |].
        * unfold child, tget. simpl. rewrite Hi. simpl. by rewrite Hj.
        * apply not_elem_of_nil.
    - unfold valid. destruct Hr as [[-> _]|[-> [p Hp]]]; simpl; [lia|].
      destruct (Nat.eqb_spec n 0); [lia|]. unfold tget. simpl. rewrite Hp. by eexists.
  Qed.

  Lemma den_rep t f T : table_wf a t -> den T1 a tr t [] f T -> forall T', rep t f T' -> nz T' = T.
  Proof.
    clear -a tr. intros Hwf. remember (row f) as k eqn:Hk. revert f T Hk.
    induction k as [k IH] using lt_wf_ind. intros f T Hk HD T' HR.
    inversion HD as [? H1 H2|? H1 H2|? ts Hp Hg Hlts Hb]; subst.
    - inversion HR; subst; try lia. done.
    - inversion HR; subst; try lia. done.
    - inversion HR as [? H1 ?|? H1 ?|? p ts' Hp' Hg' HF Hlt]; subst; try lia. cbn [nz]. f_equal.
      assert (length p = length ts) as Hlp by (by eapply table_wf_arity).
      pose proof (Forall2_length _ _ _ HF) as HlF.
      apply (nth_ext _ _ T0 T0); [rewrite map_length; lia|].
      intros b Hlb. rewrite map_length in Hlb. rewrite nth_map_T0 by done.
      destruct (Hb b ltac:(lia)) as [(q & Hq & _)|(_ & g & Hc & Hlt' & HD')]; [by apply elem_of_nil in Hq|].
      eapply (IH (row g) Hlt' g); [done|exact HD'|].
      unfold child in Hc. rewrite Hg' in Hc. simpl in Hc.
      destruct (Forall2_lookup_l _ _ _ _ _ HF Hc) as (T1' & HT & Hrep).
      rewrite (nth_lookup_Some _ _ _ _ HT). done.
  Qed.

  Theorem build_ok : 0 < a -> 1 <= n -> g0 < ngr n -> 0 < nt -> R n g0 s0 ->
    exists t root, build a hashf eqbf nt ngr ch sched single n g0 s0 = Some (t, root) /\
      dd_wf (Dd a t root) /\ length t = Datatypes.S n /\
      (exists T, rep t root T /\ nz T = tr n g0 s0) /\
      (root = n0 \/ root = mk n 0 /\ (length <$> t !! n) = Some 1) /\
      (forall f, 0 < row f -> is_Some (tget t f) -> code f <> code root ->
         exists f' b g, child t f' b = Some g /\ code g = code f /\ row f < row f') /\
      (forall i r, 0 < i <= n -> t !! i = Some r -> reps_ok ngr eqbf hashf R i (length r)).
  Proof.
    intros Ha Hn Hg Hnt HR. destruct (build_core Hn Hg Hnt HR) as (t & root & E & HC). exists t, root.
    destruct (core_wf t root ltac:(lia) HC) as [Hwf Hv].
    pose proof (c_root _ _ _ _ _ _ _ _ _ _ _ _ _ _ _ HC) as Hr. destruct (Nat.eqb_spec 0 n) as [?|_]; [lia|].
    destruct Hr as [Hr HD]. split_and!; try done.
    - apply HC.
    - destruct (rep_exists a t Hwf root Hv) as [T HT]. exists T. split; [done|]. by eapply den_rep.
    - destruct Hr as [[-> _]|[-> [p Hp]]]; [by left|right]. rewrite Hp. done.
    - intros f Hf Hs Hne. destruct (decide (row f < n)) as [Hlt|Hge].
      + destruct (c_par _ _ _ _ _ _ _ _ _ _ _ _ _ _ _ HC f ltac:(lia) Hs) as (f' & b & g & ? & ? & ? & _). eauto 10.
      + exfalso. assert (row f <= n) as Hle by (eapply valid_bound; [apply HC|done|done]).
        assert (row f = n) as En by lia. destruct Hs as [p Hp]. unfold tget in Hp. rewrite En in Hp.
        destruct Hr as [[_ He]|[-> [q Hq]]].
        * by rewrite He in Hp.
        * rewrite Hq in Hp. simpl in Hp. apply list_lookup_singleton_Some in Hp as [Hc _]. apply Hne. unfold code. simpl. congruence.
    - intros i r Hi Hr'. eapply (c_reps _ _ _ _ _ _ _ _ _ _ _ _ _ _ _ HC); [lia|done].
  Qed.
End engine.
