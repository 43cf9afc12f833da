(** The meaning of ZddInterleave and ColoredZdd. *)
From Verif Require Import Base Sem M_Table Tree M_Color S_Color P_Color2 P_Bridge3.
Local Open Scope nat_scope.

Section specs.
  Context (dds : list dd) (Hn : 0 < length dds) (Hwf : forall k d, dds !! k = Some d -> dd_wf d /\ d_ar d = 2).
  Notation w := (length dds).
  Notation R := (R dds).
  Notation pos := (pos dds).
  Notation cnt := (cnt dds).

  Lemma kw l : l mod w < w.
  Proof. apply Nat.mod_upper_bound. lia. Qed.
  Lemma pos_mono k T T' : tlev T <= tlev T' -> pos k T <= pos k T'.
  Proof. intros H. unfold P_Color2.pos. destruct (Nat.eqb_spec (tlev T) 0) as [?|?], (Nat.eqb_spec (tlev T') 0) as [?|?]; nia. Qed.
  Lemma level_le a Ts c : R a Ts -> (forall k, k < w -> pos k (Ts k) <= c) -> (-1 <= tr_level w a <= Z.of_nat c)%Z.
  Proof.
    intros HR Hp. destruct (code_spec dds Hn a Ts HR) as [(_ & ->)|[(_ & ->)|(_ & c' & -> & _ & k & Hk & E)]]; [lia|lia|]. pose proof (Hp k Hk). lia.
  Qed.
  Lemma pos_le l k T : k < w -> k <> l mod w -> pos k T <= S l -> pos k T <= l.
  Proof. intros Hk Hne H. destruct (decide (pos k T = S l)) as [E|]; [|lia]. apply (pos_at dds Hn) in E as [E _]; done. Qed.

  (** ** interleave *)
  Lemma il_step a Ts l b : R a Ts -> b < 2 -> pos (l mod w) (Ts (l mod w)) = S l -> exists a' t0 t1,
    Ts (l mod w) = TN (S (l / w)) [t0; t1] /\ tlev t0 <= l / w /\ tlev t1 <= l / w /\
    il_child dds a (S l) b = Some a' /\ R a' (upd Ts (l mod w) (nth b [t0; t1] T0)).
  Proof.
    intros HR Hb Hp. apply (pos_at dds Hn) in Hp as [_ Hl]; [|apply kw]. destruct (node_child dds Hn Hwf a Ts (l mod w) (l / w) HR (kw l) Hl) as (d & f & t0 & t1 & Hd & Hf & Hrow & HT & L0 & L1 & (g0 & G0 & R0) & g1 & G1 & R1).
    unfold il_child. replace (S l - 1) with l by lia. rewrite Hf. cbn [mbind option_bind]. rewrite Hrow, Nat.add_1_r, Nat.eqb_refl, Hd. cbn [mbind option_bind].
    destruct b as [|[|]]; [| |lia].
    - rewrite G0. cbn [mbind option_bind]. eexists _, t0, t1. split_and!; try done. cbn [nth]. by eapply (R_upd dds Hn); [|apply kw| |].
    - rewrite G1. cbn [mbind option_bind]. eexists _, t0, t1. split_and!; try done. cbn [nth]. by eapply (R_upd dds Hn); [|apply kw| |].
  Qed.
  Lemma il_eval v : vec_ok 2 v -> forall l a Ts, R a Ts -> (forall k, k < w -> pos k (Ts k) <= l) ->
    zdd_eval (interleave dds) l (tr_level w a) a v = true <-> forall k, k < w -> tzdd (cnt k l) (Ts k) (track w k v) = true.
  Proof.
    intros Hv. induction l as [|l IH]; intros a Ts HR Hp.
    - cbn [zdd_eval]. destruct (code_spec dds Hn a Ts HR) as [((k & Hk & HT) & ->)|[(HT & ->)|(_ & c & _ & _ & k & Hk & E)]].
      + split; [done|]. intros H. specialize (H k Hk). rewrite HT, tzdd_T0 in H. done.
      + split; [|done]. intros _ k Hk. rewrite (HT k Hk), cnt_0 by done. done.
      + pose proof (Hp k Hk). lia.
    - destruct (code_spec dds Hn a Ts HR) as [((k & Hk & HT) & E)|HC].
      { rewrite E, (eval_zero dds Hn). split; [done|]. intros H. specialize (H k Hk). rewrite HT, tzdd_T0 in H. done. }
      destruct (decide (pos (l mod w) (Ts (l mod w)) = S l)) as [Hat|Hat].
      + assert (tr_level w a = Z.of_nat (S l)) as ->.
        { destruct HC as [(HT & _)|(_ & c & -> & H1 & k & Hk & H2)]; [rewrite (HT _ (kw l)) in Hat; done|]. pose proof (H1 _ (kw l)). pose proof (Hp k Hk). lia. }
        cbn [zdd_eval]. rewrite Z.eqb_refl. destruct (il_step a Ts l (v (S l)) HR (Hv _) Hat) as (a' & t0 & t1 & HT & L0 & L1 & E & HR').
        cbn [get_child interleave]. rewrite Nat2Z.id, E. cbn [fst snd].
        set (T' := nth (v (S l)) [t0; t1] T0) in *. assert (tlev T' <= l / w) as LT by (unfold T'; pose proof (Hv (S l)); destruct (v (S l)) as [|[|]]; cbn; lia).
        rewrite (IH a' _ HR').
        * destruct (cnt_S dds Hn l) as [C1 C2]. split; intros H k Hk; specialize (H k Hk); (destruct (decide (k = l mod w)) as [->|Hne]; [|by rewrite upd_other, <- ?(cnt_other dds Hn k l) in * by done]).
          -- rewrite upd_same, C2 in H. rewrite C1, HT. rewrite tzdd_node, (track_at dds Hn). exact H.
          -- rewrite upd_same, C2. rewrite C1, HT in H. rewrite tzdd_node, (track_at dds Hn) in H. exact H.
        * intros k Hk. destruct (decide (k = l mod w)) as [->|Hne]; [rewrite upd_same; by apply pos_child|]. rewrite upd_other by done. by apply pos_le; [| |apply Hp].
      + assert (Hp' : forall k, k < w -> pos k (Ts k) <= l).
        { intros k Hk. destruct (decide (k = l mod w)) as [->|Hne]; [pose proof (Hp _ Hk); lia|by apply pos_le; [| |apply Hp]]. }
        pose proof (level_le a Ts l HR Hp') as Hle. cbn [zdd_eval]. destruct (Z.eqb_spec (tr_level w a) (Z.of_nat (S l))) as [?|?]; [lia|].
        rewrite (skip_level dds Hn Hwf Ts l v Hp'), <- (IH a Ts HR Hp'). destruct (Nat.eqb_spec (v (S l)) 0) as [?|?]; naive_solver.
  Qed.

  Lemma root_R : exists Ts, R (tr_root dds) Ts /\ forall k d, dds !! k = Some d -> rep (tab d) (rt d) (Ts k) /\ tlev (Ts k) = row (rt d).
  Proof.
    assert (exists Ts : nat -> tree, forall k d, dds !! k = Some d -> rep (tab d) (rt d) (Ts k)) as [Ts HT].
    { clear Hn. induction dds as [|d ds IH]; [by exists (fun _ => T0)|].
      destruct IH as [Ts HT]; [intros k d' Hd; by apply (Hwf (S k))|].
      destruct (Hwf 0 d eq_refl) as [(_ & Ht & Hv) _]. destruct (rep_exists _ _ Ht _ Hv) as [T HT0].
      exists (fun k => match k with 0 => T | S k => Ts k end). intros [|k] d' Hd; [by injection Hd as <-|by apply HT]. }
    exists Ts. split.
    - split; [by unfold tr_root; rewrite map_length|]. intros k Hk. destruct (lookup_lt_is_Some_2 dds k Hk) as [d Hd]. exists d, (rt d). split; [done|]. split; [|by apply HT].
      unfold tr_root. change (map rt dds) with (rt <$> dds). by rewrite list_lookup_fmap, Hd.
    - intros k d Hd. split; [by apply HT|]. eapply rep_lev. by apply HT.
  Qed.
  Lemma root_pos Ts M : (forall k d, dds !! k = Some d -> tlev (Ts k) = row (rt d)) -> (forall k d, dds !! k = Some d -> row (rt d) <= M) ->
    forall k, k < w -> pos k (Ts k) <= w * M.
  Proof.
    intros H1 H2 k Hk. destruct (lookup_lt_is_Some_2 dds k Hk) as [d Hd]. pose proof (H1 k d Hd). pose proof (H2 k d Hd). unfold P_Color2.pos.
    destruct (Nat.eqb_spec (tlev (Ts k)) 0) as [?|?]; [lia|]. nia.
  Qed.
  Lemma track_ok k v : vec_ok 2 v -> vec_ok 2 (track w k v).
  Proof. intros H i. apply H. Qed.
  Lemma all_tracks Ts M v : vec_ok 2 v -> (forall k d, dds !! k = Some d -> rep (tab d) (rt d) (Ts k)) ->
    (forall k, k < w -> tzdd (cnt k (w * M)) (Ts k) (track w k v) = true) <-> forall k d, dds !! k = Some d -> zdd_sem (dd_spec d) M (track w k v) = true.
  Proof.
    intros Hv HT. split.
    - intros H k d Hd. pose proof (H k (lookup_lt_Some _ _ _ Hd)) as H'. rewrite (cnt_full dds Hn) in H'. destruct (Hwf k d Hd) as [W A].
      rewrite (dd_zdd_sem d M (track w k v) (Ts k)); [done|done|by apply HT|]. rewrite A. by apply track_ok.
    - intros H k Hk. destruct (lookup_lt_is_Some_2 dds k Hk) as [d Hd]. rewrite (cnt_full dds Hn). destruct (Hwf k d Hd) as [W A].
      rewrite <- (dd_zdd_sem d M (track w k v) (Ts k)); [by apply H|done|by apply HT|]. rewrite A. by apply track_ok.
  Qed.
  Lemma il_sem M v : vec_ok 2 v -> (forall k d, dds !! k = Some d -> row (rt d) <= M) ->
    zdd_sem (interleave dds) (w * M) v = true <-> forall k d, dds !! k = Some d -> zdd_sem (dd_spec d) M (track w k v) = true.
  Proof.
    intros Hv HM. destruct root_R as (Ts & HR & HT). unfold zdd_sem at 1. cbn [get_root interleave fst snd].
    rewrite (il_eval v Hv (w * M) _ Ts HR); [apply all_tracks; [done|apply HT]|]. apply root_pos; [apply HT|done].
  Qed.

  (** what is known of the states at a level *)
  Definition at_node (l : Z) (a : list nid) : Prop := exists c Ts, l = Z.of_nat (S c) /\ R a Ts /\ (forall k, k < w -> pos k (Ts k) <= S c) /\ pos (c mod w) (Ts (c mod w)) = S c.
  Lemma at_node_level a Ts : R a Ts -> (0 < tr_level w a)%Z -> at_node (tr_level w a) a.
  Proof.
    intros HR H. destruct (code_spec dds Hn a Ts HR) as [(_ & E)|[(_ & E)|(_ & c & E & H1 & k & Hk & H2)]]; [lia|lia|]. rewrite E. exists c, Ts. split; [done|]. split; [done|]. split; [done|].
    pose proof (pos_at dds Hn k (Ts k) c Hk H2) as [<- _]. done.
  Qed.
  Lemma il_next l a b : at_node l a -> b < 2 -> exists a' Ts', il_child dds a (Z.to_nat l) b = Some a' /\ R a' Ts' /\ (-1 <= tr_level w a' < l)%Z.
  Proof.
    intros (c & Ts & -> & HR & Hp & Hat) Hb. destruct (il_step a Ts c b HR Hb Hat) as (a' & t0 & t1 & HT & L0 & L1 & E & HR'). rewrite Nat2Z.id. exists a'. eexists. split; [done|]. split; [done|].
    pose proof (level_le a' _ c HR') as H. assert (-1 <= tr_level w a' <= Z.of_nat c)%Z; [|lia]. apply H. intros k Hk. destruct (decide (k = c mod w)) as [->|Hne].
    - rewrite upd_same. apply pos_child; [done|done|]. destruct b as [|[|]]; cbn; lia.
    - rewrite upd_other by done. by apply pos_le; [| |apply Hp].
  Qed.
  Lemma il_reach l a : reach (interleave dds) l a -> at_node l a.
  Proof.
    intros Hr. induction Hr as [Hp|l a b Hr IH Hb Hp].
    - destruct root_R as (Ts & HR & _). cbn [get_root interleave fst snd] in *. by eapply at_node_level.
    - destruct (il_next l a b IH Hb) as (a' & Ts' & E & HR' & _). cbn [get_child interleave] in *. rewrite E in *. cbn [fst snd] in *. by eapply at_node_level.
  Qed.
  Lemma il_contract : let sp := interleave dds in spec_ok sp /\ spec_congr sp /\ one_code sp.
  Proof.
    apply value_contract; [done|intros l s s'; apply bool_decide_eq_true| |].
    - destruct root_R as (Ts & HR & _). cbn [get_root interleave fst]. destruct (code_spec dds Hn _ Ts HR) as [(_ & ->)|[(_ & ->)|(_ & c & -> & _)]]; lia.
    - intros l a b Hr Hb. apply il_reach in Hr. destruct (il_next l a b Hr Hb) as (a' & Ts' & E & _ & H). cbn [get_child interleave]. by rewrite E.
  Qed.
  Lemma il_safe l a b : reach (interleave dds) l a -> b < 2 -> is_Some (il_child dds a (Z.to_nat l) b).
  Proof. intros Hr Hb. apply il_reach in Hr. destruct (il_next l a b Hr Hb) as (a' & Ts' & E & _). by eexists. Qed.

  (** ** ColoredZdd *)
  Lemma clear_ok i k : k <= w -> forall a Ts, R a Ts -> exists a' Ts', co_clear dds (S i) k a = Some a' /\ R a' Ts' /\ (forall j, k <= j -> Ts' j = Ts j) /\
    forall j, j < k -> (tlev (Ts j) <> S i /\ Ts' j = Ts j) \/ exists t1, Ts j = TN (S i) [Ts' j; t1] /\ tlev (Ts' j) <= i.
  Proof.
    induction k as [|k IH]; intros Hk a Ts HR; cbn [co_clear].
    - exists a, Ts. split; [done|]. split; [done|]. split; [done|]. lia.
    - destruct (proj2 HR k ltac:(lia)) as (d & f & Hd & Hf & Hrep). rewrite Hf. cbn [mbind option_bind]. rewrite (rep_lev _ _ _ Hrep : tlev _ = row f) || pose proof (rep_lev _ _ _ Hrep) as Hrow.
      destruct (Nat.eqb_spec (row f) (S i)) as [E|E].
      + rewrite Hd. cbn [mbind option_bind]. destruct (node_child dds Hn Hwf a Ts k i HR ltac:(lia) ltac:(lia)) as (d' & f' & t0 & t1 & Hd' & Hf' & _ & HT & L0 & _ & (g & G & RG) & _).
        assert (d' = d) as -> by congruence. assert (f' = f) as -> by congruence. rewrite G. cbn [mbind option_bind].
        destruct (IH ltac:(lia) (<[k := g]> a) (upd Ts k t0)) as (a' & Ts' & E1 & HR' & H1 & H2); [by eapply (R_upd dds Hn); [|lia| |]|].
        exists a', Ts'. split; [done|]. split; [done|]. split.
        * intros j Hj. rewrite H1 by lia. apply upd_other. lia.
        * intros j Hj. destruct (decide (j = k)) as [->|Hne].
          -- right. exists t1. rewrite (H1 k) by lia. rewrite upd_same. done.
          -- destruct (H2 j ltac:(lia)) as [(A & B)|(t & A & B)]; rewrite upd_other in A by done; [left; rewrite upd_other in B by done; done|right; by exists t].
      + destruct (IH ltac:(lia) a Ts HR) as (a' & Ts' & E1 & HR' & H1 & H2). exists a', Ts'. split; [done|]. split; [done|]. split; [intros j Hj; apply H1; lia|].
        intros j Hj. destruct (decide (j = k)) as [->|Hne]; [left; split; [lia|by apply H1]|apply H2; lia].
  Qed.
  Lemma last_ok i k a Ts : R a Ts -> k <= w -> exists b, co_last i k a = Some b /\ (b = true <-> forall j, j < k -> tlev (Ts j) <> i).
  Proof.
    intros HR. induction k as [|k IH]; intros Hk; cbn [co_last].
    - exists true. split; [done|]. split; [lia|done].
    - destruct (proj2 HR k ltac:(lia)) as (d & f & Hd & Hf & Hrep). rewrite Hf. cbn [mbind option_bind]. pose proof (rep_lev _ _ _ Hrep) as Hrow. destruct (Nat.eqb_spec (row f) i) as [E|E].
      + exists false. split; [done|]. split; [done|]. intros H. exfalso. apply (H k); lia.
      + destruct (IH ltac:(lia)) as (b & -> & Hb). exists b. split; [done|]. rewrite Hb. split; intros H j Hj; [destruct (decide (j = k)) as [->|]; [lia|]|]; apply H; lia.
  Qed.
  Lemma co_step a Ts l (b : bool) : R a Ts -> (forall k, k < w -> pos k (Ts k) <= S l) -> pos (l mod w) (Ts (l mod w)) = S l -> exists t0 t1,
    Ts (l mod w) = TN (S (l / w)) [t0; t1] /\ tlev t0 <= l / w /\ tlev t1 <= l / w /\
    if b then exists a' Ts', co_child dds a (S l) true = Some (Some a') /\ R a' Ts' /\ Ts' (l mod w) = t1 /\ (forall j, l mod w < j -> Ts' j = Ts j) /\
      forall j, j < l mod w -> (tlev (Ts j) <> S (l / w) /\ Ts' j = Ts j) \/ exists t, Ts j = TN (S (l / w)) [Ts' j; t] /\ tlev (Ts' j) <= l / w
    else (co_child dds a (S l) false = Some None /\ forall j, j < l mod w -> tlev (Ts j) <> S (l / w)) \/
      exists a', co_child dds a (S l) false = Some (Some a') /\ R a' (upd Ts (l mod w) t0).
  Proof.
    intros HR Hp Hat. apply (pos_at dds Hn) in Hat as [_ Hl]; [|apply kw]. destruct (node_child dds Hn Hwf a Ts (l mod w) (l / w) HR (kw l) Hl) as (d & f & t0 & t1 & Hd & Hf & Hrow & HT & L0 & L1 & (g0 & G0 & R0) & g1 & G1 & R1).
    exists t0, t1. split; [done|]. split; [done|]. split; [done|]. unfold co_child. replace (S l - 1) with l by lia. rewrite Hf. cbn [mbind option_bind]. rewrite Hrow, Nat.add_1_r, Nat.eqb_refl, Hd. cbn [mbind option_bind].
    destruct b.
    - rewrite G1. cbn [mbind option_bind]. destruct (clear_ok (l / w) (l mod w) ltac:(pose proof (kw l); lia) (<[l mod w := g1]> a) (upd Ts (l mod w) t1)) as (a' & Ts' & E1 & HR' & H1 & H2); [by eapply (R_upd dds Hn); [|apply kw| |]|].
      rewrite E1. cbn [mbind option_bind]. exists a', Ts'. split; [done|]. split; [done|]. split; [by rewrite H1, upd_same by lia|]. split; [intros j Hj; rewrite H1 by lia; apply upd_other; lia|].
      intros j Hj. destruct (H2 j Hj) as [(A & B)|(t & A & B)]; rewrite upd_other in A by lia; [left; rewrite upd_other in B by lia; done|right; by exists t].
    - destruct (last_ok (S (l / w)) (l mod w) a Ts HR ltac:(pose proof (kw l); lia)) as (b & E & Hb). rewrite E. cbn [mbind option_bind]. destruct b.
      + left. split; [done|]. by apply Hb.
      + right. rewrite G0. cbn [mbind option_bind]. eexists. split; [done|]. by eapply (R_upd dds Hn); [|apply kw| |].
  Qed.
  Lemma take_pos Ts Ts' l t1 : (forall k, k < w -> pos k (Ts k) <= S l) -> tlev t1 <= l / w -> Ts' (l mod w) = t1 -> (forall j, l mod w < j -> Ts' j = Ts j) ->
    (forall j, j < l mod w -> (tlev (Ts j) <> S (l / w) /\ Ts' j = Ts j) \/ exists t, Ts j = TN (S (l / w)) [Ts' j; t] /\ tlev (Ts' j) <= l / w) ->
    forall k, k < w -> pos k (Ts' k) <= l.
  Proof.
    intros Hp L1 E Hhi Hlo k Hk. destruct (decide (k = l mod w)) as [->|Hne]; [rewrite E; by apply pos_child|].
    assert (pos k (Ts k) <= l) by (by apply pos_le; [| |apply Hp]). destruct (decide (l mod w < k)) as [Hgt|Hgt]; [by rewrite Hhi|].
    destruct (Hlo k ltac:(lia)) as [[_ ->]|(t & A & B)]; [done|]. etransitivity; [|done]. apply pos_mono. rewrite A. cbn [tlev]. lia.
  Qed.
  Lemma upd_pos Ts l t0 : (forall k, k < w -> pos k (Ts k) <= S l) -> tlev t0 <= l / w -> forall k, k < w -> pos k (upd Ts (l mod w) t0 k) <= l.
  Proof.
    intros Hp L k Hk. destruct (decide (k = l mod w)) as [->|Hne]; [rewrite upd_same; by apply pos_child|]. rewrite upd_other by done. by apply pos_le; [| |apply Hp].
  Qed.

  (** no color has been taken yet in the present group, or none can be taken any more *)
  Definition phase (v : vec) (l : nat) (Ts : nat -> tree) : Prop :=
    match l with
    | 0 => True
    | S l => (forall j, l mod w < j < w -> v (l / w * w + j + 1) = 0) \/ forall j, j <= l mod w -> tlev (Ts j) <= l / w
    end.
  Lemma phase_next v l Ts : (forall j, l mod w <= j < w -> v (l / w * w + j + 1) = 0) \/ (forall j, j < l mod w -> tlev (Ts j) <= l / w) -> phase v l Ts.
  Proof.
    destruct l as [|l]; [done|]. cbn [phase]. destruct (div_mod_S dds Hn l) as [(H1 & -> & ->)|(H1 & -> & ->)].
    - intros _. left. lia.
    - intros [H|H]; [left|right]; intros j Hj; apply H; lia.
  Qed.
  Lemma div_group l : l / w * w + l mod w + 1 = S l.
  Proof. pose proof (Nat.div_mod l w ltac:(lia)). lia. Qed.
  Lemma track_group c j v : track w j v (S c) = v (c * w + j + 1).
  Proof. unfold track. f_equal. lia. Qed.
  Lemma cnt_low l j : j < l mod w -> cnt j (S l) = S (l / w) /\ cnt j l = S (l / w).
  Proof. intros H. pose proof (kw l). rewrite (cnt_other dds Hn) by lia. unfold P_Color2.cnt. rewrite (proj2 (Nat.ltb_lt _ _) H). lia. Qed.
  Lemma co_eval v M : vec_ok 2 v -> (forall c, c < M -> exactly_one w v c) -> forall l a Ts, R a Ts -> (forall k, k < w -> pos k (Ts k) <= l) -> l <= w * M -> phase v l Ts ->
    zdd_eval (colored dds) l (tr_level w a) a v = true <-> forall k, k < w -> tzdd (cnt k l) (Ts k) (track w k v) = true.
  Proof.
    intros Hv Hone. induction l as [|l IH]; intros a Ts HR Hp HM Hph.
    - cbn [zdd_eval]. destruct (code_spec dds Hn a Ts HR) as [((k & Hk & HT) & ->)|[(HT & ->)|(_ & c & _ & _ & k & Hk & E)]].
      + split; [done|]. intros H. specialize (H k Hk). rewrite HT, tzdd_T0 in H. done.
      + split; [|done]. intros _ k Hk. rewrite (HT k Hk), cnt_0 by done. done.
      + pose proof (Hp k Hk). lia.
    - destruct (code_spec dds Hn a Ts HR) as [((k & Hk & HT) & E)|HC].
      { rewrite E, (eval_zero dds Hn). split; [done|]. intros H. specialize (H k Hk). rewrite HT, tzdd_T0 in H. done. }
      pose proof (kw l) as Hkw. destruct (cnt_S dds Hn l) as [C1 C2].
      assert (l / w < M) as HcM by (apply Nat.div_lt_upper_bound; lia). destruct (Hone (l / w) HcM) as [Hamo (j0 & Hj0 & Hv0)].
      cbn [phase] in Hph. destruct (decide (pos (l mod w) (Ts (l mod w)) = S l)) as [Hat|Hat].
      + assert (tr_level w a = Z.of_nat (S l)) as ->.
        { destruct HC as [(HT & _)|(_ & c & -> & H1 & k & Hk & H2)]; [rewrite (HT _ (kw l)) in Hat; done|]. pose proof (H1 _ (kw l)). pose proof (Hp k Hk). lia. }
        assert (tlev (Ts (l mod w)) = S (l / w)) as HTl by (by apply (pos_at dds Hn) in Hat as [_ ?]).
        assert (Hnone : forall j, l mod w < j < w -> v (l / w * w + j + 1) = 0) by (destruct Hph as [H|H]; [done|]; pose proof (H (l mod w) ltac:(lia)); lia).
        cbn [zdd_eval]. rewrite Z.eqb_refl. cbn [get_child colored]. rewrite Nat2Z.id. destruct (Nat.eqb_spec (v (S l)) 0) as [E0|E0]; cbn [negb].
        * destruct (co_step a Ts l false HR Hp Hat) as (t0 & t1 & HT & L0 & L1 & [[E Hlast]|(a' & E & HR')]); rewrite E; cbn [fst snd].
          -- rewrite (eval_zero dds Hn). split; [done|]. intros H. exfalso.
             assert (j0 < l mod w) as Hj. { destruct (decide (j0 < l mod w)) as [|]; [done|]. destruct (decide (j0 = l mod w)) as [->|]; [by rewrite div_group in Hv0|]. by rewrite Hnone in Hv0 by lia. }
             specialize (H j0 Hj0). destruct (cnt_low l j0 Hj) as [E1 _]. rewrite E1 in H.
             assert (tlev (Ts j0) <= l / w) as HL. { pose proof (pos_cnt dds Hn j0 (Ts j0) (S l) Hj0 (Hp j0 Hj0)). pose proof (Hlast j0 Hj). lia. }
             rewrite tzdd_skip, track_group in H by lia. destruct (Nat.eqb_spec (v (l / w * w + j0 + 1)) 0) as [?|?]; done.
          -- rewrite (IH a' _ HR'); [|by apply upd_pos|lia|].
             ++ split; intros H k Hk; specialize (H k Hk); (destruct (decide (k = l mod w)) as [->|Hne]; [|by rewrite upd_other, <- ?(cnt_other dds Hn k l) in * by done]).
                ** rewrite upd_same, C2 in H. rewrite C1, HT, tzdd_node, (track_at dds Hn), E0. exact H.
                ** rewrite upd_same, C2. rewrite C1, HT, tzdd_node, (track_at dds Hn), E0 in H. exact H.
             ++ apply phase_next. left. intros j Hj. destruct (decide (j = l mod w)) as [->|]; [by rewrite div_group|]. apply Hnone. lia.
        * destruct (co_step a Ts l true HR Hp Hat) as (t0 & t1 & HT & L0 & L1 & a' & Ts' & E & HR' & Ek & Hhi & Hlo). rewrite E. cbn [fst snd].
          assert (v (S l) = 1) as Ev by (pose proof (Hv (S l)); lia).
          rewrite (IH a' Ts' HR'); [|by eapply take_pos|lia|].
          -- assert (forall k, k < w -> tzdd (cnt k l) (Ts' k) (track w k v) = tzdd (cnt k (S l)) (Ts k) (track w k v)) as Heq.
             { intros k Hk. destruct (decide (k = l mod w)) as [->|Hne].
               - by rewrite Ek, C1, C2, HT, tzdd_node, (track_at dds Hn), Ev.
               - destruct (decide (l mod w < k)) as [Hgt|Hgt]; [by rewrite (cnt_other dds Hn), Hhi by done|]. assert (k < l mod w) as Hlt by lia.
                 destruct (Hlo k Hlt) as [[_ ->]|(t & A & B)]; [by rewrite (cnt_other dds Hn)|]. destruct (cnt_low l k Hlt) as [-> ->].
                 assert (track w k v (S (l / w)) = 0) as Z0.
                 { rewrite track_group. destruct (decide (v (l / w * w + k + 1) = 0)) as [|Hnz]; [done|]. destruct Hne. apply Hamo; split; [done|done|done|by rewrite div_group]. }
                 rewrite A, tzdd_node, tzdd_skip, Z0 by lia. done. }
             split; intros H k Hk; [rewrite <- Heq by done|rewrite Heq by done]; by apply H.
          -- apply phase_next. right. intros j Hj. destruct (Hlo j Hj) as [[A ->]|(t & A & B)]; [|done].
             pose proof (pos_cnt dds Hn j (Ts j) (S l) ltac:(lia) (Hp j ltac:(lia))). destruct (cnt_low l j Hj). lia.
      + assert (Hp' : forall k, k < w -> pos k (Ts k) <= l).
        { intros k Hk. destruct (decide (k = l mod w)) as [->|Hne]; [pose proof (Hp _ Hk); lia|by apply pos_le; [| |apply Hp]]. }
        pose proof (level_le a Ts l HR Hp') as Hle. cbn [zdd_eval]. destruct (Z.eqb_spec (tr_level w a) (Z.of_nat (S l))) as [?|?]; [lia|].
        rewrite (skip_level dds Hn Hwf Ts l v Hp'). destruct (Nat.eqb_spec (v (S l)) 0) as [E0|E0]; [|naive_solver].
        rewrite (IH a Ts HR Hp'); [naive_solver|lia|]. apply phase_next. destruct Hph as [H|H]; [left|right; intros j Hj; apply H; lia].
        intros j Hj. destruct (decide (j = l mod w)) as [->|]; [by rewrite div_group|]. apply H. lia.
  Qed.
  Lemma co_sem M v : vec_ok 2 v -> (forall k d, dds !! k = Some d -> row (rt d) <= M) -> (forall c, c < M -> exactly_one w v c) ->
    zdd_sem (colored dds) (w * M) v = true <-> forall k d, dds !! k = Some d -> zdd_sem (dd_spec d) M (track w k v) = true.
  Proof.
    intros Hv HM Hone. destruct root_R as (Ts & HR & HT). unfold zdd_sem at 1. cbn [get_root colored fst snd].
    rewrite (co_eval v M Hv Hone (w * M) _ Ts HR); [apply all_tracks; [done|apply HT]|apply root_pos; [apply HT|done]|done|].
    apply phase_next. rewrite Nat.mul_comm, Nat.mod_mul by lia. right. lia.
  Qed.
  Lemma co_next l a (b : bool) : at_node l a -> co_child dds a (Z.to_nat l) b = Some None \/ exists a' Ts', co_child dds a (Z.to_nat l) b = Some (Some a') /\ R a' Ts' /\ (-1 <= tr_level w a' < l)%Z.
  Proof.
    intros (c & Ts & -> & HR & Hp & Hat). rewrite Nat2Z.id. destruct (co_step a Ts c b HR Hp Hat) as (t0 & t1 & HT & L0 & L1 & H). destruct b.
    - destruct H as (a' & Ts' & E & HR' & Ek & Hhi & Hlo). right. exists a', Ts'. split; [done|]. split; [done|].
      assert (-1 <= tr_level w a' <= Z.of_nat c)%Z; [|lia]. apply (level_le a' Ts' c HR'). by eapply take_pos.
    - destruct H as [[E _]|(a' & E & HR')]; [by left|right]. eexists _, _. split; [done|]. split; [done|].
      assert (-1 <= tr_level w a' <= Z.of_nat c)%Z; [|lia]. apply (level_le a' _ c HR'). by apply upd_pos.
  Qed.
  Lemma co_reach l a : reach (colored dds) l a -> at_node l a.
  Proof.
    intros Hr. induction Hr as [Hp|l a b Hr IH Hb Hp].
    - destruct root_R as (Ts & HR & _). cbn [get_root colored fst snd] in *. by eapply at_node_level.
    - destruct (co_next l a (negb (b =? 0)) IH) as [E|(a' & Ts' & E & HR' & _)]; cbn [get_child colored] in *; rewrite E in *; cbn [fst snd] in *; [lia|]. by eapply at_node_level.
  Qed.
  Lemma co_contract : let sp := colored dds in spec_ok sp /\ spec_congr sp /\ one_code sp.
  Proof.
    apply value_contract; [done|intros l s s'; apply bool_decide_eq_true| |].
    - destruct root_R as (Ts & HR & _). cbn [get_root colored fst]. destruct (code_spec dds Hn _ Ts HR) as [(_ & ->)|[(_ & ->)|(_ & c & -> & _)]]; lia.
    - intros l a b Hr Hb. apply co_reach in Hr. pose proof Hr as (c & _ & -> & _). destruct (co_next _ a (negb (b =? 0)) Hr) as [E|(a' & Ts' & E & _ & H)]; cbn [get_child colored]; rewrite E; cbn [fst]; [lia|done].
  Qed.
  Lemma co_safe l a b : reach (colored dds) l a -> is_Some (co_child dds a (Z.to_nat l) b).
  Proof. intros Hr. apply co_reach in Hr. destruct (co_next l a b Hr) as [E|(a' & Ts' & E & _)]; by eexists. Qed.
  Lemma root_top M : (forall k d, dds !! k = Some d -> row (rt d) <= M) -> top_level (interleave dds) <= w * M /\ top_level (colored dds) <= w * M.
  Proof.
    intros HM. destruct root_R as (Ts & HR & HT). unfold top_level. cbn [get_root interleave colored fst].
    pose proof (level_le (tr_root dds) Ts (w * M) HR (root_pos Ts M (fun k d H => proj2 (HT k d H)) HM)). lia.
  Qed.
End specs.
