(** ZddInterleave and ColoredZdd: several diagrams walked at once. *)
From Verif Require Import Base Sem M_Table Tree M_Color S_Color.
Local Open Scope nat_scope.

Section tracks.
  Context (dds : list dd) (Hn : 0 < length dds) (Hwf : forall k d, dds !! k = Some d -> dd_wf d /\ d_ar d = 2).
  Notation w := (length dds).

  (** how many levels of track [k] are among the lowest [l] *)
  Definition cnt (k l : nat) : nat := if k <? l mod w then l / w + 1 else l / w.
  Lemma cnt_0 k : cnt k 0 = 0.
  Proof. unfold cnt. rewrite Nat.mod_0_l, Nat.div_0_l by lia. done. Qed.
  Lemma div_mod_S l : (l mod w + 1 = w /\ S l / w = l / w + 1 /\ S l mod w = 0) \/ (l mod w + 1 < w /\ S l / w = l / w /\ S l mod w = l mod w + 1).
  Proof.
    pose proof (Nat.mod_upper_bound l w ltac:(lia)). pose proof (Nat.div_mod l w ltac:(lia)) as E.
    destruct (decide (l mod w + 1 = w)) as [H1|H1]; [left|right].
    - split; [done|]. assert (S l = (l / w + 1) * w) as -> by nia. rewrite Nat.div_mul, Nat.mod_mul by lia. done.
    - split; [lia|]. assert (S l = l mod w + 1 + (l / w) * w) as E' by nia. split.
      + rewrite E' at 1. rewrite Nat.div_add, Nat.div_small by lia. lia.
      + rewrite E' at 1. rewrite Nat.mod_add, Nat.mod_small by lia. lia.
  Qed.
  Lemma cnt_S l : cnt (l mod w) (S l) = S (l / w) /\ cnt (l mod w) l = l / w.
  Proof.
    unfold cnt. rewrite (proj2 (Nat.ltb_ge (l mod w) (l mod w))) by lia. split; [|done].
    destruct (div_mod_S l) as [(H1 & -> & ->)|(H1 & -> & ->)]; [destruct (Nat.ltb_spec (l mod w) 0); lia|destruct (Nat.ltb_spec (l mod w) (l mod w + 1)); lia].
  Qed.
  Lemma cnt_other k l : k < w -> k <> l mod w -> cnt k (S l) = cnt k l.
  Proof.
    intros Hk Hne. unfold cnt. destruct (div_mod_S l) as [(H1 & -> & ->)|(H1 & -> & ->)].
    - rewrite (proj2 (Nat.ltb_ge k 0)) by lia. destruct (Nat.ltb_spec k (l mod w)); lia.
    - destruct (Nat.ltb_spec k (l mod w)), (Nat.ltb_spec k (l mod w + 1)); lia.
  Qed.
  Lemma cnt_full k M : cnt k (w * M) = M.
  Proof. unfold cnt. rewrite Nat.mul_comm, Nat.mod_mul, Nat.div_mul by lia. done. Qed.

  (** the level of the interleaved diagram at which track [k] has its next node *)
  Definition pos (k : nat) (T : tree) : nat := if tlev T =? 0 then 0 else (tlev T - 1) * w + k + 1.
  Lemma pos_at k T l : k < w -> pos k T = S l -> k = l mod w /\ tlev T = S (l / w).
  Proof.
    intros Hk. unfold pos. destruct (Nat.eqb_spec (tlev T) 0) as [?|?]; [done|]. intros H. assert (l = k + (tlev T - 1) * w) as -> by lia.
    rewrite Nat.mod_add, Nat.mod_small, Nat.div_add, Nat.div_small by lia. lia.
  Qed.
  Lemma pos_here l T : tlev T = S (l / w) -> pos (l mod w) T = S l.
  Proof. intros E. unfold pos. rewrite E. cbn [Nat.eqb]. pose proof (Nat.div_mod l w ltac:(lia)). nia. Qed.
  Lemma pos_less l T k : k < w -> pos k T <= S l -> pos k T <> S l -> pos k T <= l.
  Proof. lia. Qed.
  Lemma pos_child l k T : k = l mod w -> tlev T <= l / w -> pos k T <= l.
  Proof. intros -> H. unfold pos. destruct (Nat.eqb_spec (tlev T) 0) as [?|?]; [lia|]. pose proof (Nat.div_mod l w ltac:(lia)). nia. Qed.
  Lemma pos_cnt k T l : k < w -> pos k T <= l -> tlev T <= cnt k l.
  Proof.
    intros Hk. unfold pos, cnt. pose proof (Nat.div_mod l w ltac:(lia)). pose proof (Nat.mod_upper_bound l w ltac:(lia)).
    destruct (Nat.eqb_spec (tlev T) 0) as [?|?]; [lia|]. intros H1. destruct (Nat.ltb_spec k (l mod w)); nia.
  Qed.

  (** a state and the trees it stands for *)
  Definition R (a : list nid) (Ts : nat -> tree) : Prop :=
    length a = w /\ forall k, k < w -> exists d f, dds !! k = Some d /\ a !! k = Some f /\ rep (tab d) f (Ts k).
  Lemma level1 f T t k : rep t f T -> (T = T0 /\ tr_level1 w f k = 0%Z) \/ (T = T1 /\ tr_level1 w f k = (-1)%Z) \/
    (T <> T0 /\ T <> T1 /\ tr_level1 w f k = Z.of_nat (pos k T) /\ 0 < pos k T).
  Proof.
    intros H. unfold tr_level1, pos. destruct H as [f H1 H2|f H1 H2|f p ts H1 H2 H3 H4].
    - left. rewrite H1, H2. done.
    - right; left. rewrite H1, H2. done.
    - right; right. change (tlev (TN (row f) ts)) with (row f). destruct (Nat.eqb_spec (row f) 0) as [?|?]; [lia|]. split; [done|]. split; [done|]. split; [done|]; generalize ((row f - 1) * length dds); intros; lia.
  Qed.
  Lemma loop_spec (Ts : nat -> tree) a : forall k lev, (0 <= lev)%Z -> k + length a = w ->
    (forall j f, a !! j = Some f -> exists d, dds !! (k + j) = Some d /\ rep (tab d) f (Ts (k + j))) ->
    ((exists j, k <= j < w /\ Ts j = T0) /\ tr_loop w k a lev = 0%Z) \/
    ((forall j, k <= j < w -> Ts j <> T0) /\ exists c, tr_loop w k a lev = (if (c =? 0)%Z then -1 else c)%Z /\ (lev <= c)%Z /\
      (forall j, k <= j < w -> (Z.of_nat (pos j (Ts j)) <= c)%Z) /\ (c = lev \/ exists j, k <= j < w /\ 0 < pos j (Ts j) /\ c = Z.of_nat (pos j (Ts j)))).
  Proof.
    induction a as [|f a IH]; intros k lev Hlev Hk H; cbn [length] in Hk; cbn [tr_loop].
    - right. split; [lia|]. exists lev. split; [done|]. split; [done|]. split; [lia|by left].
    - destruct (H 0 f eq_refl) as (d & Hd & Hr). rewrite Nat.add_0_r in Hd, Hr.
      assert (Hnext : forall j f0, a !! j = Some f0 -> exists d, dds !! (S k + j) = Some d /\ rep (tab d) f0 (Ts (S k + j))).
      { intros j f0 Hj. destruct (H (S j) f0 Hj) as (d' & H1 & H2). replace (k + S j) with (S k + j) in * by lia. by exists d'. }
      destruct (level1 f (Ts k) (tab d) k Hr) as [(E1 & ->)|[(E1 & ->)|(E1 & E2 & -> & Hp)]].
      + left. split; [exists k; split; [lia|done]|done].
      + cbn [Z.eqb]. replace (Z.max lev (-1)) with lev by lia. destruct (IH (S k) lev Hlev ltac:(lia) Hnext) as [((j & Hj & HT) & E)|(HT & c & E & H1 & H2 & H3)].
        * left. split; [exists j; split; [lia|done]|done].
        * right. split. { intros j Hj. destruct (decide (j = k)) as [->|]; [by rewrite E1|apply HT; lia]. }
          exists c. split; [done|]. split; [done|]. split.
          -- intros j Hj. destruct (decide (j = k)) as [->|]; [rewrite E1; cbn; lia|apply H2; lia].
          -- destruct H3 as [H3|(j & Hj & H3)]; [by left|right; exists j; split; [lia|done]].
      + destruct (Z.eqb_spec (Z.of_nat (pos k (Ts k))) 0) as [?|?]; [lia|]. destruct (IH (S k) (Z.max lev (Z.of_nat (pos k (Ts k)))) ltac:(lia) ltac:(lia) Hnext) as [((j & Hj & HT) & E)|(HT & c & E & H1 & H2 & H3)].
        * left. split; [exists j; split; [lia|done]|done].
        * right. split. { intros j Hj. destruct (decide (j = k)) as [->|]; [done|apply HT; lia]. }
          exists c. split; [done|]. split; [lia|]. split.
          -- intros j Hj. destruct (decide (j = k)) as [->|]; [lia|apply H2; lia].
          -- destruct H3 as [H3|(j & Hj & H3)]; [|right; exists j; split; [lia|done]].
             destruct (Z.max_spec lev (Z.of_nat (pos k (Ts k)))) as [[_ E']|[_ E']]; [right; exists k; split; [lia|split; [done|lia]]|left; lia].
  Qed.
  Lemma tlev_pos0 k T : pos k T = 0 -> T <> T0 -> (forall l ts, T = TN l ts -> 0 < l) -> T = T1.
  Proof. unfold pos. destruct T as [| |l ts]; try done. cbn [tlev]. intros H _ Hl. specialize (Hl l ts eq_refl). destruct (Nat.eqb_spec l 0) as [?|?]; lia. Qed.
  Lemma rep_pos t f T : rep t f T -> forall l ts, T = TN l ts -> 0 < l.
  Proof. intros H l ts ->. by inversion H. Qed.
  Lemma code_spec a Ts : R a Ts ->
    ((exists k, k < w /\ Ts k = T0) /\ tr_level w a = 0%Z) \/
    ((forall k, k < w -> Ts k = T1) /\ tr_level w a = (-1)%Z) \/
    ((forall k, k < w -> Ts k <> T0) /\ exists c, tr_level w a = Z.of_nat (S c) /\ (forall k, k < w -> pos k (Ts k) <= S c) /\ exists k, k < w /\ pos k (Ts k) = S c).
  Proof.
    intros [Hlen HR]. unfold tr_level. destruct (loop_spec Ts a 0 0%Z ltac:(lia) ltac:(lia)) as [((j & Hj & HT) & E)|(HT & c & E & H1 & H2 & H3)].
    - intros j f Hj. destruct (HR j) as (d & f' & Hd & Hf & Hr); [apply lookup_lt_Some in Hj; lia|]. exists d. cbn. split; [done|]. by assert (f = f') as -> by congruence.
    - left. split; [exists j; split; [lia|done]|done].
    - right. destruct (Z.eqb_spec c 0) as [Hc|Hc].
      + left. split; [|done]. intros k Hk. destruct (HR k Hk) as (d & f & _ & _ & Hr). apply (tlev_pos0 k); [pose proof (H2 k ltac:(lia)); lia|apply HT; lia|by eapply rep_pos].
      + right. split; [intros k Hk; apply HT; lia|]. exists (Z.to_nat c - 1). rewrite E. split; [lia|]. split; [intros k Hk; pose proof (H2 k ltac:(lia)); lia|].
        destruct H3 as [H3|(j & Hj & Hp & H3)]; [lia|]. exists j. lia.
  Qed.

  Definition upd (Ts : nat -> tree) (k : nat) (T : tree) : nat -> tree := fun j => if j =? k then T else Ts j.
  Lemma upd_same Ts k T : upd Ts k T k = T.
  Proof. unfold upd. by rewrite Nat.eqb_refl. Qed.
  Lemma upd_other Ts k T j : j <> k -> upd Ts k T j = Ts j.
  Proof. intros H. unfold upd. by rewrite (proj2 (Nat.eqb_neq j k) H). Qed.
  Lemma R_upd a Ts k d g T : R a Ts -> k < w -> dds !! k = Some d -> rep (tab d) g T -> R (<[k := g]> a) (upd Ts k T).
  Proof.
    intros [Hl HR] Hk Hd Hr. split; [by rewrite insert_length|]. intros j Hj. destruct (decide (j = k)) as [->|Hne].
    - exists d, g. rewrite upd_same. split; [done|]. split; [|done]. apply list_lookup_insert. lia.
    - destruct (HR j Hj) as (d' & f & H1 & H2 & H3). exists d', f. rewrite upd_other by done. split; [done|]. split; [|done]. by rewrite list_lookup_insert_ne.
  Qed.
  (** the node at track [k] and its children *)
  Lemma node_child a Ts k i : R a Ts -> k < w -> tlev (Ts k) = S i -> exists d f t0 t1,
    dds !! k = Some d /\ a !! k = Some f /\ row f = S i /\ Ts k = TN (S i) [t0; t1] /\ tlev t0 <= i /\ tlev t1 <= i /\
    (exists g, child (tab d) f 0 = Some g /\ rep (tab d) g t0) /\ exists g, child (tab d) f 1 = Some g /\ rep (tab d) g t1.
  Proof.
    intros [_ HR] Hk Hl. destruct (HR k Hk) as (d & f & Hd & Hf & Hr). destruct (Hwf k d Hd) as [W A]. exists d, f.
    pose proof (rep_lev _ _ _ Hr) as Hrow. remember (Ts k) as T eqn:ET. destruct Hr as [f H1 H2|f H1 H2|f p ts H1 H2 H3 H4]; [done|done|].
    assert (length p = 2) as Hp. { destruct W as (_ & Ht & _). rewrite <- A. unfold tget in H2. destruct (tab d !! row f) as [r|] eqn:Er; [|done]. eapply (wf_arity _ _ Ht); [exact Er|exact H2]. }
    destruct p as [|g0 [|g1 [|]]]; try done. apply Forall2_cons_inv_l in H3 as (t0 & ts0 & R0 & H3 & ->). apply Forall2_cons_inv_l in H3 as (t1 & ts1 & R1 & H3 & ->). apply Forall2_nil_inv_l in H3 as ->.
    rewrite Hl in Hrow. apply Forall_cons in H4 as [L0 H4]. apply Forall_cons in H4 as [L1 _]. exists t0, t1. split; [done|]. split; [done|]. split; [done|]. split; [by rewrite <- Hrow|].
    rewrite (rep_lev _ _ _ R0), (rep_lev _ _ _ R1). split; [lia|]. split; [lia|]. unfold child. rewrite H2. cbn [mbind option_bind lookup list_lookup]. split; [by exists g0|by exists g1].
  Qed.
  Lemma R_row a Ts k f : R a Ts -> k < w -> a !! k = Some f -> row f = tlev (Ts k).
  Proof. intros [_ HR] Hk Hf. destruct (HR k Hk) as (d & f' & _ & Hf' & Hr). rewrite Hf in Hf'. injection Hf' as <-. symmetry. by eapply rep_lev. Qed.
  Lemma tzdd_T0 l v : tzdd l T0 v = false.
  Proof. induction l as [|l IH]; [done|]. cbn [tzdd]. by destruct (_ =? 0). Qed.
  Lemma tzdd_T1 l v : tzdd l T1 v = true <-> forall i, 1 <= i <= l -> v i = 0.
  Proof.
    induction l as [|l IH]; [cbn; split; [lia|done]|]. cbn [tzdd]. destruct (Nat.eqb_spec (v (S l)) 0) as [E|E].
    - rewrite IH. split; intros H i Hi; [destruct (decide (i = S l)) as [->|]; [done|]|]; apply H; lia.
    - split; [done|]. intros H. destruct E. apply H. lia.
  Qed.
  Lemma track_at l v : track w (l mod w) v (S (l / w)) = v (S l).
  Proof. unfold track. f_equal. pose proof (Nat.div_mod l w ltac:(lia)). nia. Qed.
  Lemma eval_zero sp l s v : zdd_eval sp l 0%Z s v = false.
  Proof. induction l as [|l IH]; [done|]. cbn [zdd_eval]. destruct (Z.eqb_spec 0 (Z.of_nat (S l))); [lia|]. by destruct (_ =? 0). Qed.
  (** all tracks have their node below [l]: level [l] must be 0 on both sides *)
  Lemma skip_level Ts l v : (forall k, k < w -> pos k (Ts k) <= l) ->
    (forall k, k < w -> tzdd (cnt k (S l)) (Ts k) (track w k v) = true) <->
    v (S l) = 0 /\ forall k, k < w -> tzdd (cnt k l) (Ts k) (track w k v) = true.
  Proof.
    intros Hp. pose proof (Nat.mod_upper_bound l w ltac:(lia)) as Hk. destruct (cnt_S l) as [E1 E2].
    assert (tlev (Ts (l mod w)) <= l / w) as Hl by (rewrite <- E2; by apply pos_cnt; [|apply Hp]).
    assert (tzdd (cnt (l mod w) (S l)) (Ts (l mod w)) (track w (l mod w) v) = true <-> v (S l) = 0 /\ tzdd (cnt (l mod w) l) (Ts (l mod w)) (track w (l mod w) v) = true) as HS.
    { rewrite E1, E2, tzdd_skip, track_at by lia. destruct (Nat.eqb_spec (v (S l)) 0); naive_solver. }
    split.
    - intros H. pose proof (proj1 HS (H _ Hk)) as [H1 H2]. split; [done|]. intros k Hkn. destruct (decide (k = l mod w)) as [->|]; [done|]. rewrite <- cnt_other by done. by apply H.
    - intros [H1 H2] k Hkn. destruct (decide (k = l mod w)) as [->|]; [apply HS; split; [done|by apply H2]|]. rewrite cnt_other by done. by apply H2.
  Qed.
End tracks.
