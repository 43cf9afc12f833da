(** C58: the building blocks of ddqueens -colored, and the program. *)
From Verif Require Import Base Sem Ex M_Table Tree M_Engine M_Builder P_Builder M_Reducer M_Subset M_Eval S_Eval S_Big M_Conv Props_Conv M_Queen S_Queen P_Queen P_Queen2 P_Queen3 Props_Queen
  M_Equal Props_Reduce S_Api P_Api Props_Api M_Color M_ColorProg S_Color P_Color P_Color2 P_Color3 P_Bridge3.
Local Open Scope nat_scope.

(** OneHotNAryZdd(arity, length): exactly one of each [arity] consecutive levels. *)
Theorem C58_one_hot : forall (m n : nat) (v : vec), 1 <= m -> 1 <= n ->
  zdd_sem (one_hot m n) (m * n) v = true <-> forall i, i < n -> exactly_one m v i.
Proof. intros m n v Hm Hn. rewrite (nary_sem m n Hm true v Hn). unfold exactly_one. naive_solver. Qed.

(** NAryZdd(arity, length): at most one of each [arity - 1] consecutive levels - but never none of the lowest. *)
Theorem C58_nary : forall (m n : nat) (v : vec), 2 <= m -> 1 <= n ->
  zdd_sem (nary_zdd m n) ((m - 1) * n) v = true <->
  (forall i, i < n -> at_most_one (m - 1) v i) /\ exists j, in_group (m - 1) v 0 j.
Proof. intros m n v Hm Hn. rewrite (nary_sem (m - 1) n ltac:(lia) false v Hn). split; [intros H; split; [intros; by apply H|apply (H 0); [lia|by right]]|]. intros [H1 H2] i Hi. split; [by apply H1|]. intros [?| ->]; done. Qed.
(** So it is not "all words over an alphabet of size arity", one digit 0 and arity - 1 levels for the others: *)
Theorem C58_nary_refuted : ~ forall (m n : nat) (v : vec), 2 <= m -> 1 <= n -> vec_ok 2 v ->
  (forall i, i < n -> at_most_one (m - 1) v i) -> zdd_sem (nary_zdd m n) ((m - 1) * n) v = true.
Proof.
  intros H. specialize (H 2 1 (fun _ => 0) ltac:(lia) ltac:(lia) ltac:(intros ?; lia)). apply C58_nary in H as [_ (j & _ & Hj)]; [done|lia|lia|].
  intros i _ j j' [_ A]. done.
Qed.

Lemma nary_contract m n oneHot : 1 <= m -> 1 <= n -> let sp := nary_base m n oneHot in spec_ok sp /\ spec_congr sp /\ one_code sp.
Proof.
  intros Hm Hn. apply value_contract.
  - done.
  - intros l [] []. done.
  - cbn. unfold na_root. lia.
  - intros l s b Hr Hb. apply reach_pos in Hr. cbn. pose proof (na_child_range m oneHot (Z.to_nat l) (negb (b =? 0)) ltac:(lia) ltac:(lia)). lia.
Qed.

Definition boards (dds : list dd) : Prop := 0 < length dds /\ forall k d, dds !! k = Some d -> dd_wf d /\ d_ar d = 2.

(** ZddInterleave(c): the levels of n families, interleaved; n vectors in one. *)
Theorem C58_interleave : forall (dds : list dd) (M : nat) (v : vec), boards dds -> vec_ok 2 v -> (forall k d, dds !! k = Some d -> row (rt d) <= M) ->
  zdd_sem (interleave dds) (length dds * M) v = true <->
  forall k d, dds !! k = Some d -> zdd_sem (dd_spec d) M (track (length dds) k v) = true.
Proof. intros dds M v [Hn Hwf] Hv HM. by apply il_sem. Qed.
(** ZddInterleave(dd, n): the same family in every track. *)
Theorem C58_interleave_same : forall (d : dd) (n : nat) (v : vec), 0 < n -> dd_wf d -> d_ar d = 2 -> vec_ok 2 v ->
  zdd_sem (interleave (il_same d n)) (n * row (rt d)) v = true <->
  forall k, k < n -> zdd_sem (dd_spec d) (row (rt d)) (track n k v) = true.
Proof.
  intros d n v Hn W A Hv. assert (length (il_same d n) = n) as E by apply replicate_length. rewrite <- E at 2.
  rewrite C58_interleave; [|split; [lia|]|done|]; [rewrite E|..].
  - split; [intros H k Hk; apply H, lookup_replicate_2, Hk|]. intros H k d' Hd. apply lookup_replicate in Hd as [-> Hk]. by apply H.
  - intros k d' Hd. apply lookup_replicate in Hd as [-> _]. done.
  - intros k d' Hd. apply lookup_replicate in Hd as [-> _]. done.
Qed.
(** ZddInterleave(dd, n, pos): only track [pos] is constrained. *)
Theorem C58_interleave_at : forall (d : dd) (n pos : nat), pos < n -> dd_wf d -> d_ar d = 2 ->
  exists dds, il_at d n pos = Some dds /\ forall v, vec_ok 2 v ->
  zdd_sem (interleave dds) (n * row (rt d)) v = true <-> zdd_sem (dd_spec d) (row (rt d)) (track n pos v) = true.
Proof.
  intros d n p Hp W A. destruct (C37_universal 2 (row (rt d)) ltac:(lia)) as (dc & E & W' & A' & Hrow & _ & Hall & _). unfold il_at. rewrite E. cbn [mbind option_bind].
  eexists. split; [done|]. intros v Hv. set (dds := map _ _). assert (length dds = n) as El by (unfold dds; by rewrite map_length, seq_length).
  assert (forall k d', dds !! k = Some d' <-> k < n /\ d' = if k =? p then d else dc) as HL.
  { intros k d'. unfold dds. change (map ?f ?l) with (f <$> l). rewrite list_lookup_fmap. split.
    - intros H. apply fmap_Some in H as (x & Hx & ->). apply lookup_seq in Hx as [-> Hx]. done.
    - intros [Hk ->]. by rewrite (proj2 (lookup_seq 0 n k k)) by lia. }
  rewrite <- El at 1. rewrite C58_interleave; [rewrite El| |done|].
  - split; [intros H; apply H, HL; rewrite Nat.eqb_refl; done|]. intros H k d' Hd. apply HL in Hd as [Hk ->]. destruct (Nat.eqb_spec k p) as [->|Hne]; [done|].
    apply Hall. intros i. apply Hv.
  - split; [lia|]. intros k d' Hd. apply HL in Hd as [_ ->]. by destruct (_ =? _).
  - intros k d' Hd. apply HL in Hd as [_ ->]. destruct (_ =? _); [done|]. by eapply (C54_meaning 2 (row (rt d)) AZdd dc _), ad_universal; [lia|].
Qed.

(** ColoredZdd(c) separates the vectors with exactly one color per square as ZddInterleave does. *)
Theorem C58_colored : forall (dds : list dd) (M : nat) (v : vec), boards dds -> vec_ok 2 v -> (forall k d, dds !! k = Some d -> row (rt d) <= M) ->
  (forall c, c < M -> exactly_one (length dds) v c) ->
  zdd_sem (colored dds) (length dds * M) v = true <->
  forall k d, dds !! k = Some d -> zdd_sem (dd_spec d) M (track (length dds) k v) = true.
Proof. intros dds M v [Hn Hwf] Hv HM H1. by apply co_sem. Qed.

(** They keep the contract of specifications, and every access to an array or a node table is in range. *)
Theorem C58_contract :
  (forall m n oneHot, 1 <= m -> 1 <= n -> let sp := nary_base m n oneHot in spec_ok sp /\ spec_congr sp /\ one_code sp) /\
  forall dds, boards dds ->
    (let sp := interleave dds in spec_ok sp /\ spec_congr sp /\ one_code sp /\
       forall l a b, reach sp l a -> b < 2 -> is_Some (il_child dds a (Z.to_nat l) b)) /\
    (let sp := colored dds in spec_ok sp /\ spec_congr sp /\ one_code sp /\
       forall l a b, reach sp l a -> is_Some (co_child dds a (Z.to_nat l) b)).
Proof.
  split; [intros; by apply nary_contract|]. intros dds [Hn Hwf]. split.
  - destruct (il_contract dds Hn Hwf) as (? & ? & ?). split; [done|]. split; [done|]. split; [done|]. intros. by apply il_safe.
  - destruct (co_contract dds Hn Hwf) as (? & ? & ?). split; [done|]. split; [done|]. split; [done|]. intros. by apply co_safe.
Qed.

(** ** the program *)
Section program.
  Context (n : nat) (H31 : 1 <= n <= 31).
  Lemma first_api k : k < n -> api_spec 2 (n * n) AZdd (queen_spec (queens_first n k false)) (means AZdd (queen_spec (queens_first n k false)) (n * n)).
  Proof.
    intros Hk. destruct (C53_contract n false (queens_first n k false) H31 ltac:(right; by exists k)) as (H1 & H2 & H3 & _). apply as_user; [done|done|done|done|].
    unfold top_level. cbn [queen_spec get_root]. rewrite (root_eq (queens_first n k false)) by (cbn; lia). cbn [default id fst]. rewrite Nat2Z.id. cbn [queens_first q_top]. lia.
  Qed.
  Lemma one_hot_api : api_spec 2 (n * (n * n)) AZdd (one_hot n (n * n)) (means AZdd (one_hot n (n * n)) (n * (n * n))).
  Proof. destruct (nary_contract n (n * n) true ltac:(lia) ltac:(nia)) as (? & ? & ?). apply as_user; [done|done|done|done|]. unfold top_level. cbn. unfold na_root. lia. Qed.
  Lemma board_api k d0 d : k < n -> constructed (queen_spec (queens_first n k false)) d0 -> reduction false true d0 d ->
    dd_wf d /\ d_ar d = 2 /\ row (rt d) <= n * n /\ forall v, vec_ok 2 v -> zdd_sem (dd_spec d) (n * n) v = true <-> peaceful n false v /\ on n v (n - 1) (n - 1 - k).
  Proof.
    intros Hk HC HR. assert (api_dd 2 (n * n) AZdd d (means AZdd (queen_spec (queens_first n k false)) (n * n))) as HA.
    { eapply ad_reduce; [|exact HR]. eapply ad_construct; [by apply first_api|exact HC]. }
    apply C54_meaning in HA as (W & A & Hr & Hm); [|lia]. split; [done|]. split; [done|]. split; [done|]. intros v Hv. cbn [means] in Hm. rewrite Hm by done. by apply C53_first_column.
  Qed.
  Context (nqs : list dd) (oh dc : dd) (HB : dc_boards n nqs) (HO : constructed (one_hot n (n * n)) oh) (HD : universal 2 (n * n) = Some dc).
  Lemma dc_facts : dd_wf dc /\ d_ar dc = 2 /\ row (rt dc) <= n * n /\ forall v, vec_ok 2 v -> zdd_sem (dd_spec dc) (n * n) v = true.
  Proof.
    destruct (C37_universal 2 (n * n) ltac:(lia)) as (dc' & E & W & A & Hrow & _ & Hall & _). rewrite E in HD. injection HD as ->. split; [done|]. split; [done|]. split; [by eapply (C54_meaning 2 (n * n) AZdd dc _), ad_universal; [lia|]|].
    intros v Hv. by apply Hall.
  Qed.
  Lemma only_facts k : let l := dc_only nqs dc k in length l = n /\ boards l /\ (forall kk d, l !! kk = Some d -> row (rt d) <= n * n).
  Proof.
    destruct HB as [Hl HB']. destruct dc_facts as (W & A & Hr & _). cbv zeta. assert (length (dc_only nqs dc k) = n) as E by (unfold dc_only; by rewrite imap_length).
    assert (forall kk d, dc_only nqs dc k !! kk = Some d -> dd_wf d /\ d_ar d = 2 /\ row (rt d) <= n * n) as HF.
    { intros kk d. unfold dc_only. rewrite list_lookup_imap. intros H. apply fmap_Some in H as (x & Hx & ->). destruct (_ =? _); [|split_and!; [done|done|lia]].
      destruct (HB' _ _ Hx) as (d0 & HC & HR). apply lookup_lt_Some in Hx. destruct (board_api kk d0 x ltac:(lia) HC HR) as (? & ? & ? & _). done. }
    split; [done|]. split; [split; [lia|]|]; intros kk d Hd; apply HF in Hd as (? & ? & ?); done.
  Qed.
  (** color [k] is a placement with a queen on its square of the last row *)
  Definition color_ok (v : vec) (k : nat) : Prop := peaceful n false (track n k v) /\ on n (track n k v) (n - 1) (n - 1 - k).
  Lemma one_api k : k < n -> api_spec 2 (n * (n * n)) AZdd (colored (dc_only nqs dc k)) (means AZdd (colored (dc_only nqs dc k)) (n * (n * n))).
  Proof.
    intros Hk. destruct (only_facts k) as (E & [Hn Hwf] & HM). destruct (co_contract _ Hn Hwf) as (? & ? & ?). apply as_user; [done|done|done|done|].
    destruct (root_top _ Hn Hwf (n * n) HM) as [_ H']. by rewrite E in H'.
  Qed.
  Lemma one_sem k v : k < n -> vec_ok 2 v -> (forall c, c < n * n -> exactly_one n v c) -> zdd_sem (colored (dc_only nqs dc k)) (n * (n * n)) v = true <-> color_ok v k.
  Proof.
    intros Hk Hv H1. destruct (only_facts k) as (E & Hbd & HM). rewrite <- E at 1. destruct HB as [Hl HB']. rewrite C58_colored; [|done|done|done|by rewrite E]. rewrite E.
    destruct (lookup_lt_is_Some_2 nqs k ltac:(lia)) as [d Hd]. destruct (HB' k d Hd) as (d0 & HC & HR). destruct (board_api k d0 d Hk HC HR) as (_ & _ & _ & HS). destruct dc_facts as (_ & _ & _ & Hall).
    unfold color_ok. rewrite <- HS by (intros i; apply Hv). split.
    - intros H. apply H. unfold dc_only. rewrite list_lookup_imap, Hd. cbn. by rewrite Nat.eqb_refl.
    - intros H kk d' Hd'. unfold dc_only in Hd'. rewrite list_lookup_imap in Hd'. apply fmap_Some in Hd' as (x & Hx & ->). destruct (Nat.eqb_spec kk k) as [->|Hne]; [by assert (x = d) as -> by congruence|].
      apply Hall. intros i. apply Hv.
  Qed.
  Lemma one_dd k ddk : k < n -> dc_one nqs oh dc k ddk -> exists P, api_dd 2 (n * (n * n)) AZdd ddk P /\ forall v, vec_ok 2 v -> P v = true <-> (forall c, c < n * n -> exactly_one n v c) /\ color_ok v k.
  Proof.
    intros Hk (d & HS & HR). eexists. split.
    { eapply ad_reduce; [|exact HR]. eapply ad_subset; [eapply ad_construct; [apply one_hot_api|exact HO]|by apply one_api|exact HS]. }
    intros v Hv. cbn [means]. rewrite andb_true_iff, C58_one_hot by nia. split; intros [H1 H2]; (split; [done|]); by apply one_sem in H2 || apply one_sem.
  Qed.
  Lemma loop_dd k d : dc_loop n nqs oh dc k d -> k < n /\ exists d0 P, api_dd 2 (n * (n * n)) AZdd d0 P /\ reduction false true d0 d /\
    forall v, vec_ok 2 v -> P v = true <-> (forall c, c < n * n -> exactly_one n v c) /\ forall kk, k <= kk < n -> color_ok v kk.
  Proof.
    intros H. induction H as [k ddk E Hone|k d ddk d1 d2 Hl IH Hone HS HR].
    - split; [lia|]. destruct Hone as (d & HS & HR). exists d. eexists. split.
      { eapply ad_subset; [eapply ad_construct; [apply one_hot_api|exact HO]|apply (one_api k); lia|exact HS]. }
      split; [done|]. intros v Hv. cbn [means]. rewrite andb_true_iff, C58_one_hot by nia. split; intros [H1 H2]; (split; [done|]).
      + intros kk Hkk. assert (kk = k) as -> by lia. apply one_sem in H2; [done|lia|done|done].
      + apply one_sem; [lia|done|done|]. apply H2. lia.
    - destruct IH as (Hk & d0 & P & HA & HR0 & HP). split; [lia|]. destruct (one_dd k ddk ltac:(lia) Hone) as (Q & HQ & HQ'). exists d1. eexists. split.
      { eapply ad_subset; [eapply ad_reduce; [exact HA|exact HR0]|apply as_diagram; exact HQ|exact HS]. }
      split; [done|]. intros v Hv. cbn beta. rewrite andb_true_iff, HP, HQ' by done. split.
      + intros [[H1 H2] [_ H3]]. split; [done|]. intros kk Hkk. destruct (decide (kk = k)) as [->|]; [done|]. apply H2. lia.
      + intros [H1 H2]. split; (split; [done|]); [intros kk Hkk; apply H2; lia|apply H2; lia].
  Qed.
  Lemma one_exists k : k < n -> exists ddk, dc_one nqs oh dc k ddk.
  Proof.
    intros Hk. destruct (C54_progress 2 (n * (n * n)) ltac:(lia)) as (_ & PD & PS & _).
    assert (api_dd 2 (n * (n * n)) AZdd oh _) as HA by (eapply ad_construct; [apply one_hot_api|exact HO]).
    destruct (PS _ _ _ _ HA (one_api k Hk)) as [HS _]. destruct (HS false) as [d E].
    assert (subsetted oh (colored (dc_only nqs dc k)) d) as HS' by (by eapply sub_sequential).
    assert (api_dd 2 (n * (n * n)) AZdd d _) as HA' by (eapply ad_subset; [exact HA|by apply one_api|exact HS']).
    destruct (PD _ _ _ HA') as (_ & ([d' E'] & _) & _). exists d', d. split; [done|]. by apply red_sequential.
  Qed.
  Lemma loop_exists k : k < n -> exists d, dc_loop n nqs oh dc (n - 1 - k) d.
  Proof.
    induction k as [|k IH]; intros Hk.
    - destruct (one_exists (n - 1) ltac:(lia)) as [d Hd]. exists d. apply dc_first; [lia|]. by rewrite Nat.sub_0_r.
    - destruct IH as [d Hd]; [lia|]. replace (n - 1 - k) with (S (n - 1 - S k)) in Hd by lia. destruct (one_exists (n - 1 - S k) ltac:(lia)) as [ddk Hk'].
      destruct (loop_dd _ _ Hd) as (_ & d0 & P & HA & HR & _). destruct (one_dd (n - 1 - S k) ddk ltac:(lia) Hk') as (Q & HQ & _).
      destruct (C54_progress 2 (n * (n * n)) ltac:(lia)) as (_ & PD & PS & _).
      assert (api_dd 2 (n * (n * n)) AZdd d P) as HAd by (by eapply ad_reduce).
      destruct (PS _ _ _ _ HAd (as_diagram _ _ _ _ _ HQ)) as [HS _]. destruct (HS false) as [d1 E].
      assert (subsetted d (dd_spec ddk) d1) as HS' by (by eapply sub_sequential).
      assert (api_dd 2 (n * (n * n)) AZdd d1 _) as HA' by (eapply ad_subset; [exact HAd|apply as_diagram; exact HQ|exact HS']).
      destruct (PD _ _ _ HA') as (_ & ([d2 E'] & _) & _). exists d2. eapply dc_next; [done|done|done|]. by apply red_sequential.
  Qed.
End program.

Lemma boards_exist n : 1 <= n <= 31 -> exists nqs, dc_boards n nqs.
Proof.
  intros H. assert (forall k, k < n -> exists d d0, constructed (queen_spec (queens_first n k false)) d0 /\ reduction false true d0 d) as HE.
  { intros k Hk. destruct (C54_progress 2 (n * n) ltac:(lia)) as (PS & PD & _). destruct (PS _ _ _ (first_api n H k Hk)) as [[d0 E] _].
    assert (api_dd 2 (n * n) AZdd d0 _) as HD by (eapply ad_construct; [exact (first_api n H k Hk)|by apply con_sequential]).
    destruct (PD _ _ _ HD) as (_ & ([d E'] & _) & _). exists d, d0. split; [by apply con_sequential|by apply red_sequential]. }
  unfold dc_boards. assert (forall m, m <= n -> exists nqs : list dd, length nqs = m /\ forall k d, nqs !! k = Some d -> exists d0, constructed (queen_spec (queens_first n k false)) d0 /\ reduction false true d0 d) as HM.
  { induction m as [|m IH]; intros Hm; [by exists []|]. destruct IH as (nqs & Hl & HI); [lia|]. destruct (HE m ltac:(lia)) as (d & Hd). exists (nqs ++ [d]). split; [rewrite app_length; cbn; lia|].
    intros k d' Hk. apply lookup_app_Some in Hk as [Hk|[Hk1 Hk2]]; [by apply HI|]. apply list_lookup_singleton_Some in Hk2 as [E <-]. assert (k = m) as -> by lia. done. }
  by apply HM.
Qed.

Lemma colored_api n d : 1 <= n <= 31 -> ddqueens_colored n d ->
  exists d0 P, api_dd 2 (n * (n * n)) AZdd d0 P /\ reduction false true d0 d /\ forall v, vec_ok 2 v -> P v = true <-> colored_queens n v.
Proof.
  intros H (nqs & oh & dc & HB & HO & HD & HL). destruct (loop_dd n H nqs oh dc HB HO HD 0 d HL) as (_ & d0 & P & HA & HR & HP).
  exists d0, P. split; [done|]. split; [done|]. intros v Hv. rewrite HP by done. unfold colored_queens, color_ok. split; intros [H1 H2]; (split; [done|]); intros k Hk; apply H2; lia.
Qed.

(** The program never gets stuck; whatever the schedules, its diagram is the family of the colored boards (every
    square has exactly one of the n colors, the squares of each color are n queens that do not attack each other, and color k is
    on the square k from the end of the last row), it is unique, and zddCardinality prints the number of such boards. *)
Theorem C58_program : forall n, 1 <= n <= 31 ->
  (exists d, ddqueens_colored n d) /\
  (forall d, ddqueens_colored n d ->
     (forall v, vec_ok 2 v -> zdd_sem (dd_spec d) (n * (n * n)) v = true <-> colored_queens n v) /\
     (forall d', ddqueens_colored n d' -> dd_eq false d d' = Some true) /\
     forall junk, exists ds (L : list (list nat)), zdd_cardinality (max_words 2) junk d = Some ds /\ decimal ds (N.of_nat (length L)) /\
       NoDup L /\ forall l, l ∈ L <-> length l = n * (n * n) /\ Forall (fun x => x < 2) l /\ colored_queens n (vec_of_list l)).
Proof.
  intros n H. split.
  - destruct (boards_exist n H) as [nqs HB]. destruct (C54_progress 2 (n * (n * n)) ltac:(lia)) as (PS & _). destruct (PS _ _ _ (one_hot_api n H)) as [[oh E] _].
    destruct (C37_universal 2 (n * n) ltac:(lia)) as (dc & HD & _). assert (constructed (one_hot n (n * n)) oh) as HO by (by apply con_sequential).
    destruct (loop_exists n H nqs oh dc HB HO HD (n - 1) ltac:(lia)) as [d Hd]. rewrite Nat.sub_diag in Hd. exists d, nqs, oh, dc. done.
  - intros d Hd. destruct (colored_api n d H Hd) as (d0 & P & HA & HR & HP).
    assert (api_dd 2 (n * (n * n)) AZdd d P) as HD by (by eapply ad_reduce).
    destruct (C54_meaning 2 (n * (n * n)) AZdd d P ltac:(lia) HD) as (_ & _ & _ & HM). split_and!.
    + intros v Hv. cbn [means] in HM. rewrite HM by done. by apply HP.
    + intros d' Hd'. destruct (colored_api n d' H Hd') as (d0' & P' & HA' & HR' & HP').
      destruct (C54_canonical 2 (n * (n * n)) AZdd false d0 d0' P P' d d' ltac:(lia) HA HA' HR HR' ltac:(done)) as (b & -> & Hb).
      f_equal. apply Hb. intros v Hv. apply eq_true_iff_eq. rewrite HP, HP' by done. done.
    + intros junk. destruct (C54_count 2 (n * (n * n)) d P junk ltac:(lia) HD) as (ds & N & E & HN & L & H1 & -> & H3). exists ds, L.
      split_and!; try done. intros l. rewrite H3. split; intros (Q1 & Q2 & Q3); (split; [done|]); (split; [done|]); apply HP; try done.
      all: intros i; unfold vec_of_list; destruct (le_lt_dec (length l) (i - 1)) as [Hi|Hi]; [rewrite nth_overflow by done; lia|];
        rewrite Forall_forall in Q2; apply Q2, elem_of_list_In, nth_In; done.
Qed.

(** 5 x 5: square (i, j) has color 1 + 2 i - j modulo 5 *)
Definition board5_color (c : nat) : nat := (6 + 2 * (c / 5) - c mod 5) mod 5.
Definition board5 : vec := fun l => if (l - 1) mod 5 =? board5_color ((l - 1) / 5) then 1 else 0.
Lemma board5_group c j : in_group 5 board5 c j <-> j = board5_color c.
Proof.
  unfold in_group, board5. replace (c * 5 + j + 1 - 1) with (j + c * 5) by lia. split.
  - intros [Hj H]. rewrite Nat.mod_add, Nat.mod_small, Nat.div_add, Nat.div_small in H by lia. destruct (Nat.eqb_spec j (board5_color (0 + c))) as [->|]; done.
  - intros ->. assert (board5_color c < 5) as Hj by (apply Nat.mod_upper_bound; lia). split; [done|].
    rewrite Nat.mod_add, Nat.mod_small, Nat.div_add, Nat.div_small by lia. cbn [Nat.add]. by rewrite Nat.eqb_refl.
Qed.
Lemma board5_ok : vec_ok 2 board5.
Proof. intros i. unfold board5. destruct (_ =? _); lia. Qed.
Lemma board5_one c : exactly_one 5 board5 c.
Proof. split; [intros j j' H H'; apply board5_group in H, H'; congruence|]. exists (board5_color c). by apply board5_group. Qed.
Lemma board5_colored : colored_queens 5 board5.
Proof.
  split; [intros; apply board5_one|]. intros k Hk. apply (C53_first_column 5 k false); [lia|done|].
  destruct k as [|[|[|[|[|]]]]]; [vm_compute; reflexivity..|lia].
Qed.
Example C58_case :
  colored_queens 5 board5 /\
  (exists d, ddqueens_colored 5 d /\ zdd_sem (dd_spec d) (5 * (5 * 5)) board5 = true) /\
  (exists dds, boards dds /\ length dds = 5 /\ (forall k d, dds !! k = Some d -> 0 < row (rt d) <= 25) /\
     zdd_sem (interleave dds) (5 * 25) board5 = true /\ zdd_sem (colored dds) (5 * 25) board5 = true /\ zdd_sem (interleave dds) (5 * 25) (fun _ => 1) = false) /\
  zdd_sem (one_hot 3 2) 6 (vec_of_list [0;1;0; 0;0;1]) = true /\ zdd_sem (one_hot 3 2) 6 (vec_of_list [0;1;0; 0;0;0]) = false /\
  zdd_sem (nary_zdd 4 2) 6 (vec_of_list [0;1;0; 0;0;0]) = true /\ zdd_sem (nary_zdd 4 2) 6 (vec_of_list [0;0;0; 0;1;0]) = false.
Proof.
  split; [apply board5_colored|]. split; [|split; [|split_and!; vm_compute; reflexivity]].
  - destruct (C58_program 5 ltac:(lia)) as [[d Hd] H]. exists d. split; [done|]. apply (H d Hd); [apply board5_ok|apply board5_colored].
  - destruct (boards_exist 5 ltac:(lia)) as (nqs & Hl & HB). exists nqs.
    assert (forall k d, nqs !! k = Some d -> dd_wf d /\ d_ar d = 2 /\ row (rt d) <= 5 * 5 /\ forall v, vec_ok 2 v -> zdd_sem (dd_spec d) (5 * 5) v = true <-> peaceful 5 false v /\ on 5 v (5 - 1) (5 - 1 - k)) as HF.
    { intros k d Hd. destruct (HB k d Hd) as (d0 & HC & HR). apply lookup_lt_Some in Hd. apply (board_api 5 ltac:(lia) k d0 d ltac:(lia) HC HR). }
    assert (boards nqs) as Hbd by (split; [lia|intros k d Hd; destruct (HF k d Hd) as (? & ? & _); done]).
    assert (forall k d, nqs !! k = Some d -> row (rt d) <= 25) as HM by (intros k d Hd; apply (HF k d Hd)).
    assert (forall k d, nqs !! k = Some d -> zdd_sem (dd_spec d) 25 (track (length nqs) k board5) = true) as HA.
    { intros k d Hd. rewrite Hl. apply (HF k d Hd); [intros i; apply board5_ok|]. apply lookup_lt_Some in Hd. apply board5_colored. lia. }
    split; [done|]. split; [done|]. split.
    + intros k d Hd. split; [|by apply (HM k)]. destruct (HF k d Hd) as (W & A & Hr & HS). destruct (decide (0 < row (rt d))) as [|Hz]; [done|exfalso].
      pose proof (HA k d Hd) as HA'. destruct W as (Hw1 & Hw2 & Hw3). destruct (rep_exists _ _ Hw2 _ Hw3) as [T HT]. pose proof (rep_lev _ _ _ HT) as HL.
      rewrite (dd_zdd_sem d 25 _ T) in HA'; [|split_and!; done|done|rewrite A; intros i; apply board5_ok]. rewrite Hl in HA'.
      destruct T as [| |l ts]; [by rewrite tzdd_T0 in HA'| |cbn in HL; apply Hz; inversion HT; subst; lia].
      pose proof (proj1 (tzdd_T1 nqs ltac:(lia) 25 _) HA') as H0. apply lookup_lt_Some in Hd. destruct board5_colored as [_ Hc]. destruct (Hc k ltac:(lia)) as [_ (_ & Hj & Hon)]. apply Hon, H0; lia.
    + replace (5 * 25) with (length nqs * 25) by (by rewrite Hl). split; [apply C58_interleave; [done|apply board5_ok|done|done]|]. split; [apply C58_colored; [done|apply board5_ok|done|intros; rewrite Hl; apply board5_one|done]|].
      destruct (zdd_sem (interleave nqs) (length nqs * 25) (fun _ => 1)) eqn:E; [|done]. 
      destruct (lookup_lt_is_Some_2 nqs 0 ltac:(lia)) as [d Hd]. pose proof (proj1 (C58_interleave nqs 25 (fun _ => 1) Hbd ltac:(intros ?; lia) HM) E 0 d Hd) as E1.
      apply (HF 0 d Hd) in E1 as [(qs & ND & Hlen & Hq & Hat) _]; [|intros ?; unfold track; lia].
      exfalso. apply (Hat 0 0 0 1); [apply Hq|apply Hq|done|left; by left]; unfold on, track; lia.
Qed.

Print Assumptions C58_one_hot.
Print Assumptions C58_nary.
Print Assumptions C58_nary_refuted.
Print Assumptions C58_interleave.
Print Assumptions C58_interleave_same.
Print Assumptions C58_interleave_at.
Print Assumptions C58_colored.
Print Assumptions C58_contract.
Print Assumptions C58_program.
