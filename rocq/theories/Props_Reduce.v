(** C04-C11, C38: reduction and equality. *)
From Verif Require Import Base Sem M_Table S_Dd Tree P_Red P_RLevel P_RHash M_Reducer P_RGlobal P_AlgR3 P_Run
  M_Equal P_Equal P_RedProps M_Zero P_Zero P_Wfb M_Builder P_Builder P_Attr Ex.

(** [d'] is a possible result of reducing [d]: with useMP = false (Algorithm R for binary diagrams, the
    hash based algorithm otherwise), with useMP = true for any number of threads and any schedule, or with
    the hash based algorithm applied to a diagram of any arity.
    B, Z = true, false: bddReduce; false, true: zddReduce; false, false: qddReduce. *)
Inductive reduction (B Z : bool) (d d' : dd) : Prop :=
| red_sequential : reduce_seq B Z d = Some d' -> reduction B Z d d'
| red_generic : reduce_hash B Z d = Some d' -> reduction B Z d d'
| red_parallel threads chunks order : 0 < threads -> red_sched_ok threads d chunks order ->
    reduce_mp threads chunks order B Z d = Some d' -> reduction B Z d d'.

(** no run of a reduction accesses anything out of range or fails to end *)
Definition never_fails (B Z : bool) (d : dd) : Prop :=
  is_Some (reduce_seq B Z d) /\ is_Some (reduce_hash B Z d) /\
  forall threads chunks order, 0 < threads -> red_sched_ok threads d chunks order ->
    is_Some (reduce_mp threads chunks order B Z d).

Lemma reduction_reduced B Z d d' : B && Z = false -> B || Z = true -> dd_wf d -> reduction B Z d d' ->
  reduced (mode_of B Z) d d'.
Proof.
  intros H1 H2 Hd [H|H|threads chunks order Ht Hs H].
  - destruct (reduce_seq_ok B Z d H1 H2 Hd) as (x & Ex & Hx). assert (x = d') as -> by congruence. done.
  - destruct (reduce_hash_ok B Z d Hd) as (x & Ex & Hx). assert (x = d') as -> by congruence. done.
  - destruct (reduce_mp_ok threads chunks order B Z d Hd Ht Hs) as (x & Ex & Hx). assert (x = d') as -> by congruence. done.
Qed.
Lemma reduction_total B Z d : B && Z = false -> B || Z = true -> dd_wf d -> never_fails B Z d.
Proof.
  intros H1 H2 Hd. split_and!.
  - destruct (reduce_seq_ok B Z d H1 H2 Hd) as (x & -> & _). done.
  - destruct (reduce_hash_ok B Z d Hd) as (x & -> & _). done.
  - intros threads chunks order Ht Hs. destruct (reduce_mp_ok threads chunks order B Z d Hd Ht Hs) as (x & -> & _). done.
Qed.

(** C04 *)
Theorem C04_bdd_reduce_preserves : forall d, dd_wf d ->
  never_fails true false d /\
  forall d', reduction true false d d' -> dd_wf d' /\ d_ar d' = d_ar d /\
    forall n v, row (rt d) <= n -> vec_ok (d_ar d) v -> bdd_sem (dd_spec d') n v = bdd_sem (dd_spec d) n v.
Proof.
  intros d Hd. split; [by apply reduction_total|]. intros d' H. apply reduction_reduced in H; try done.
  split_and!; [apply H|apply H|]. intros n v Hn Hv. pose proof Hd as (Ha & Hwf & Hvd). destruct (rep_exists _ _ Hwf _ Hvd) as [T HT].
  rewrite (dd_bdd_sem d n v T Hd HT Hv). rewrite (dd_bdd_sem d' n v (red RB T)); [|apply H|by apply H|by rewrite (rd_ar _ _ _ H)].
  eapply tbdd_red; [by eapply rep_tok|done|done|]. by rewrite (rep_lev _ _ _ HT).
Qed.

(** C05 *)
Theorem C05_zdd_reduce_preserves : forall d, dd_wf d ->
  never_fails false true d /\
  forall d', reduction false true d d' -> dd_wf d' /\ d_ar d' = d_ar d /\
    forall n v, row (rt d) <= n -> vec_ok (d_ar d) v -> zdd_sem (dd_spec d') n v = zdd_sem (dd_spec d) n v.
Proof.
  intros d Hd. split; [by apply reduction_total|]. intros d' H. apply reduction_reduced in H; try done.
  split_and!; [apply H|apply H|]. intros n v Hn Hv. pose proof Hd as (Ha & Hwf & Hvd). destruct (rep_exists _ _ Hwf _ Hvd) as [T HT].
  rewrite (dd_zdd_sem d n v T Hd HT Hv). rewrite (dd_zdd_sem d' n v (red RZ T)); [|apply H|by apply H|by rewrite (rd_ar _ _ _ H)].
  eapply tzdd_red; [by eapply rep_tok|done|done|]. by rewrite (rep_lev _ _ _ HT).
Qed.

(** C06: both readings are preserved, accepting paths pass the same levels before and after,
    and equivalent nodes are shared. *)
Definition accepting (d : dd) (bs : list nat) : Prop := last (walk d bs) = Some (-1)%Z.

Theorem C06_qdd_reduce_preserves : forall d, dd_wf d ->
  never_fails false false d /\
  forall d', reduction false false d d' -> dd_wf d' /\ d_ar d' = d_ar d /\ no_duplicates d' /\
    (forall n v, vec_ok (d_ar d) v -> bdd_sem (dd_spec d') n v = bdd_sem (dd_spec d) n v) /\
    (forall n v, vec_ok (d_ar d) v -> zdd_sem (dd_spec d') n v = zdd_sem (dd_spec d) n v) /\
    (forall bs, Forall (fun b => b < d_ar d) bs -> accepting d bs \/ accepting d' bs -> walk d' bs = walk d bs).
Proof.
  intros d Hd. pose proof Hd as (Ha & Hwf & Hvd). destruct (rep_exists _ _ Hwf _ Hvd) as [T HT]. split.
  - split_and!.
    + unfold reduce_seq. destruct (Nat.eqb_spec (d_ar d) 2) as [E|E]; [destruct (reduce_R_qdd d Hd E) as (x & -> & _)|destruct (reduce_hash_ok false false d Hd) as (x & -> & _)]; done.
    + destruct (reduce_hash_ok false false d Hd) as (x & -> & _). done.
    + intros threads chunks order Ht Hs. destruct (reduce_mp_ok threads chunks order false false d Hd Ht Hs) as (x & -> & _). done.
  - intros d' H.
    assert (reduced RQ d d' \/ reducedQ d d') as HR.
    { destruct H as [H|H|threads chunks order Ht Hs H].
      - unfold reduce_seq in H. destruct (Nat.eqb_spec (d_ar d) 2) as [E|E].
        + destruct (reduce_R_qdd d Hd E) as (x & Ex & Hx). assert (x = d') as -> by congruence. by right.
        + destruct (reduce_hash_ok false false d Hd) as (x & Ex & Hx). assert (x = d') as -> by congruence. by left.
      - destruct (reduce_hash_ok false false d Hd) as (x & Ex & Hx). assert (x = d') as -> by congruence. by left.
      - destruct (reduce_mp_ok threads chunks order false false d Hd Ht Hs) as (x & Ex & Hx). assert (x = d') as -> by congruence. by left. }
    assert (d_ar d' = d_ar d /\ dd_wf d' /\ no_duplicates d' /\ exists T', rep (tab d') (rt d') T' /\ (T' = nz T \/ T' = qtop T)) as (H1 & H2 & H3 & T' & H4 & H5).
    { destruct HR as [HR|HR].
      - split_and!; [apply HR|apply HR|by eapply red_no_dup|]. exists (red RQ T). split; [by apply HR|]. left. apply redRQ.
      - split_and!; [apply HR|apply HR|apply uniq_no_dup; [apply HR|intros f g S; apply HR]|]. exists (qtop T). split; [by apply HR|]. by right. }
    split_and!; try done.
    + intros n v Hv. rewrite (dd_bdd_sem d n v T Hd HT Hv), (dd_bdd_sem d' n v T'); try done; [|by rewrite H1].
      destruct H5 as [->| ->]; [apply tbdd_nz|apply tbdd_qtop].
    + intros n v Hv. rewrite (dd_zdd_sem d n v T Hd HT Hv), (dd_zdd_sem d' n v T'); try done; [|by rewrite H1].
      destruct H5 as [->| ->]; [apply tzdd_nz|apply tzdd_qtop].
    + intros bs Hbs. unfold accepting. rewrite (walk_tree d T), (walk_tree d' T'); try done; [|by rewrite H1].
      destruct H5 as [->| ->]; [apply trun_nz|apply trun_qtop].
Qed.

(** C07, C08 *)
Theorem C07_bdd_fully_reduced : forall d d', dd_wf d -> reduction true false d d' ->
  no_bdd_redundant d' /\ no_duplicates d'.
Proof.
  intros d d' Hd H. apply reduction_reduced in H; try done. split; [by eapply red_no_bdd|by eapply red_no_dup].
Qed.
Theorem C08_zdd_fully_reduced : forall d d', dd_wf d -> reduction false true d d' ->
  no_zdd_redundant d' /\ no_duplicates d'.
Proof.
  intros d d' Hd H. apply reduction_reduced in H; try done. split; [by eapply red_no_zdd|by eapply red_no_dup].
Qed.

(** C10: operator== always answers; a positive answer means the same unfolding; for diagrams without
    duplicate nodes the answer is exact.  [same]: the two objects share one node table. *)
Theorem C10_equality_sound : forall same d o, dd_wf d -> dd_wf o -> d_ar d = d_ar o ->
  (same = true -> tab d = tab o) ->
  exists b, dd_eq same d o = Some b /\ (b = true -> same_unfolding d o).
Proof.
  intros same d o Hd Ho Har Hs. pose proof Hd as (_ & Hwf & Hv). pose proof Ho as (_ & Hwf' & Hv').
  destruct (rep_exists _ _ Hwf _ Hv) as [A HA]. destruct (rep_exists _ _ Hwf' _ Hv') as [B HB].
  destruct (dd_eq_ok same d o A B Hd Ho Har Hs HA HB) as (b & E & H1 & _). exists b. split; [done|].
  intros Hb. unfold same_unfolding. apply (proj1 (walk_inj d o A B Hd Ho Har HA HB)). by apply H1.
Qed.
Theorem C10_equality_complete : forall same d o, dd_wf d -> dd_wf o -> d_ar d = d_ar o ->
  (same = true -> tab d = tab o) -> no_duplicates d -> no_duplicates o ->
  exists b, dd_eq same d o = Some b /\ (b = true <-> same_unfolding d o).
Proof.
  intros same d o Hd Ho Har Hs Hn Hn'. pose proof Hd as (_ & Hwf & Hv). pose proof Ho as (_ & Hwf' & Hv').
  destruct (rep_exists _ _ Hwf _ Hv) as [A HA]. destruct (rep_exists _ _ Hwf' _ Hv') as [B HB].
  destruct (dd_eq_ok same d o A B Hd Ho Har Hs HA HB) as (b & E & H1 & H2). exists b. split; [done|]. split.
  - intros Hb. unfold same_unfolding. apply (proj1 (walk_inj d o A B Hd Ho Har HA HB)). by apply H1.
  - intros H. apply H2; [by apply no_dup_uniq|by apply no_dup_uniq|]. by apply (proj2 (walk_inj d o A B Hd Ho Har HA HB)).
Qed.

(** C09 *)
Theorem C09_bdd_canonical : forall n same d1 d2 d1' d2', dd_wf d1 -> dd_wf d2 -> d_ar d1 = d_ar d2 ->
  row (rt d1) <= n -> row (rt d2) <= n ->
  reduction true false d1 d1' -> reduction true false d2 d2' -> (same = true -> tab d1' = tab d2') ->
  exists b, dd_eq same d1' d2' = Some b /\
    (b = true <-> forall v, vec_ok (d_ar d1) v -> bdd_sem (dd_spec d1) n v = bdd_sem (dd_spec d2) n v).
Proof.
  intros n same d1 d2 d1' d2' Hd1 Hd2 Har Hn1 Hn2 H1 H2 Hs. apply reduction_reduced in H1, H2; try done.
  pose proof Hd1 as (Ha & Hwf1 & Hv1). pose proof Hd2 as (_ & Hwf2 & Hv2).
  destruct (rep_exists _ _ Hwf1 _ Hv1) as [A HA]. destruct (rep_exists _ _ Hwf2 _ Hv2) as [B HB].
  destruct (dd_eq_ok same d1' d2' (red RB A) (red RB B)) as (b & E & P1 & P2); try done; [apply H1|apply H2| |by apply H1|by apply H2|].
  { by rewrite (rd_ar _ _ _ H1), (rd_ar _ _ _ H2). }
  exists b. split; [done|].
  pose proof (rep_tok _ _ _ _ Hwf1 HA) as TA. pose proof (rep_tok _ _ _ _ Hwf2 HB) as TB. rewrite <- Har in TB.
  assert (forall v, vec_ok (d_ar d1) v -> bdd_sem (dd_spec d1) n v = tbdd n (red RB A) v /\ bdd_sem (dd_spec d2) n v = tbdd n (red RB B) v) as Hsem.
  { intros v Hv. rewrite (dd_bdd_sem d1 n v A), (dd_bdd_sem d2 n v B); try done; [|by rewrite <- Har].
    rewrite !(tbdd_red (d_ar d1)); try done; [by rewrite (rep_lev _ _ _ HB)|by rewrite (rep_lev _ _ _ HA)]. }
  split.
  - intros Hb v Hv. destruct (Hsem v Hv) as [-> ->]. by rewrite (P1 Hb).
  - intros Heq. apply P2; [by eapply red_uniq|by eapply red_uniq|]. apply (bdd_canon (d_ar d1) n); try done.
    + by apply red_tok. + by apply red_tok. + apply red_idem. + apply red_idem.
    + rewrite <- (rep_lev _ _ _ HA) in Hn1. pose proof (red_lev _ RB _ TA). lia.
    + rewrite <- (rep_lev _ _ _ HB) in Hn2. pose proof (red_lev _ RB _ TB). lia.
    + intros v Hv. destruct (Hsem v Hv) as [<- <-]. by apply Heq.
Qed.
Theorem C09_zdd_canonical : forall n same d1 d2 d1' d2', dd_wf d1 -> dd_wf d2 -> d_ar d1 = d_ar d2 ->
  row (rt d1) <= n -> row (rt d2) <= n ->
  reduction false true d1 d1' -> reduction false true d2 d2' -> (same = true -> tab d1' = tab d2') ->
  exists b, dd_eq same d1' d2' = Some b /\
    (b = true <-> forall v, vec_ok (d_ar d1) v -> zdd_sem (dd_spec d1) n v = zdd_sem (dd_spec d2) n v).
Proof.
  intros n same d1 d2 d1' d2' Hd1 Hd2 Har Hn1 Hn2 H1 H2 Hs. apply reduction_reduced in H1, H2; try done.
  pose proof Hd1 as (Ha & Hwf1 & Hv1). pose proof Hd2 as (_ & Hwf2 & Hv2).
  destruct (rep_exists _ _ Hwf1 _ Hv1) as [A HA]. destruct (rep_exists _ _ Hwf2 _ Hv2) as [B HB].
  destruct (dd_eq_ok same d1' d2' (red RZ A) (red RZ B)) as (b & E & P1 & P2); try done; [apply H1|apply H2| |by apply H1|by apply H2|].
  { by rewrite (rd_ar _ _ _ H1), (rd_ar _ _ _ H2). }
  exists b. split; [done|].
  pose proof (rep_tok _ _ _ _ Hwf1 HA) as TA. pose proof (rep_tok _ _ _ _ Hwf2 HB) as TB. rewrite <- Har in TB.
  assert (forall v, vec_ok (d_ar d1) v -> zdd_sem (dd_spec d1) n v = tzdd n (red RZ A) v /\ zdd_sem (dd_spec d2) n v = tzdd n (red RZ B) v) as Hsem.
  { intros v Hv. rewrite (dd_zdd_sem d1 n v A), (dd_zdd_sem d2 n v B); try done; [|by rewrite <- Har].
    rewrite !(tzdd_red (d_ar d1)); try done; [by rewrite (rep_lev _ _ _ HB)|by rewrite (rep_lev _ _ _ HA)]. }
  split.
  - intros Hb v Hv. destruct (Hsem v Hv) as [-> ->]. by rewrite (P1 Hb).
  - intros Heq. apply P2; [by eapply red_uniq|by eapply red_uniq|]. apply (zdd_canon (d_ar d1) n); try done.
    + by apply red_tok. + by apply red_tok. + apply red_idem. + apply red_idem.
    + rewrite <- (rep_lev _ _ _ HA) in Hn1. pose proof (red_lev _ RZ _ TA). lia.
    + rewrite <- (rep_lev _ _ _ HB) in Hn2. pose proof (red_lev _ RZ _ TB). lia.
    + intros v Hv. destruct (Hsem v Hv) as [<- <-]. by apply Heq.
Qed.

(** C11 *)
Theorem C11_reductions_agree : forall B Z d d1 d2, (B = true /\ Z = false) \/ (B = false /\ Z = true) -> dd_wf d ->
  reduction B Z d d1 -> reduction B Z d d2 ->
  isomorphic d1 d2 /\ dd_eq false d1 d2 = Some true.
Proof.
  intros B Z d d1 d2 Hm Hd H1 H2. apply reduction_reduced in H1, H2; try done; try (by destruct Hm as [[-> ->]|[-> ->]]).
  split; [by eapply reduced_iso|]. pose proof Hd as (Ha & Hwf & Hv). destruct (rep_exists _ _ Hwf _ Hv) as [T HT].
  destruct (dd_eq_ok false d1 d2 (red (mode_of B Z) T) (red (mode_of B Z) T)) as (b & E & _ & P); try done; [apply H1|apply H2| |by apply H1|by apply H2|].
  { by rewrite (rd_ar _ _ _ H1), (rd_ar _ _ _ H2). }
  rewrite E. f_equal. apply P; [by eapply red_uniq|by eapply red_uniq|done].
Qed.
(** the multi-threaded and the hash based qddReduce agree, too *)
Theorem C11_qdd_hash_parallel_agree : forall d d1 d2 threads chunks order, dd_wf d ->
  reduce_hash false false d = Some d1 ->
  0 < threads -> red_sched_ok threads d chunks order -> reduce_mp threads chunks order false false d = Some d2 ->
  isomorphic d1 d2.
Proof.
  intros d d1 d2 threads chunks order Hd H1 Ht Hs H2. eapply (reduced_iso RQ d); [done| |].
  - destruct (reduce_hash_ok false false d Hd) as (x & Ex & Hx). assert (x = d1) as -> by congruence. done.
  - destruct (reduce_mp_ok threads chunks order false false d Hd Ht Hs) as (x & Ex & Hx). assert (x = d2) as -> by congruence. done.
Qed.

(** C38 *)
Theorem C38_empty_flag : forall B Z d d', (B = true /\ Z = false) \/ (B = false /\ Z = true) -> dd_wf d -> zero_unmarked d ->
  reduction B Z d d' ->
  zero_unmarked d' /\
  forall f, held d' f -> (hasEmpty f = true <-> exists h, zero_desc (tab d') 0 f h /\ code h = (0, 1)).
Proof.
  intros B Z d d' Hm Hd Hz H. apply reduction_reduced in H; try done; try (by destruct Hm as [[-> ->]|[-> ->]]).
  pose proof (rd_wf _ _ _ H) as (Ha & Hwf & Hv).
  assert (forall f, held d' f -> hasEmpty f = true <-> exists h, zero_desc (tab d') 0 f h /\ code h = (0, 1)) as Hmain.
  { intros f Hf. destruct (reduced_flags _ d d' f Hd H Hz Hf) as (T & HT & ->).
    destruct (zero_desc_tz (tab d') f T HT) as (h & Hh & Hiff). { intros l ts _. exists (d_ar d'). split; [done|]. by eapply rep_tok. }
    rewrite Hiff. split; [by exists h|]. intros (h' & Hh' & Hc). by rewrite (zero_desc_det _ _ _ _ _ Hh Hh'). }
  split; [|done]. intros f Hf Hc. destruct (attr f) eqn:Ea; [|done]. exfalso.
  assert (hasEmpty f = true) as He by (unfold hasEmpty; rewrite Ea; by destruct (neqb f n1)).
  apply Hmain in He as (h & Hh & Hc'); [|done]. inversion Hc as [[Hr Hcl]]. inversion Hh; subst; [congruence|lia].
Qed.
(** diagrams made by the constructor qualify *)
Theorem C38_constructed : forall sp d, spec_ok sp -> construct_dd sp = Some d -> dd_wf d /\ zero_unmarked d.
Proof.
  intros sp d Hok E. destruct (construct_built sp Hok) as (d0 & E0 & HB). assert (d0 = d) as -> by congruence. split; [apply HB|].
  destruct (construct_unmarked sp d E) as [H1 H2]. intros f [->|(i & c & b & Hi & Hc)] _; [done|].
  unfold child in Hc. destruct (tget (tab d) (mk i c)) as [p|] eqn:Ep; [|done]. cbn [mbind option_bind] in Hc. unfold tget in Ep.
  destruct (tab d !! _) as [x|] eqn:Ex; [|done]. cbn [mbind option_bind] in Ep.
  apply (Forall_lookup_1 _ _ _ _ (Forall_lookup_1 _ _ _ _ (Forall_lookup_1 _ _ _ _ H1 Ex) Ep) Hc).
Qed.
(** [f] may be a reference made by hand (then it carries no flag) or one whose flag is right *)
Theorem C38_zero_descendant : forall d f l, dd_wf d -> valid (tab d) f ->
  (hasEmpty f = true -> exists h, zero_desc (tab d) 0 f h /\ code h = (0, 1)) ->
  exists g h, get_zero_descendant (tab d) f l = Some g /\ zero_desc (tab d) l f h /\ code g = code h.
Proof.
  intros d f l (Ha & Hwf & _) Hv Hf. unfold get_zero_descendant.
  destruct (zero_loop_ok _ _ l f Hwf Ha Hv) as (h & E & Hh).
  destruct (Nat.eqb_spec l 0) as [->|Hl]; simpl; [|by exists h, h].
  destruct (hasEmpty f) eqn:He; [|by exists h, h]. destruct (Hf eq_refl) as (h' & Hh' & Hc). by exists n1, h'.
Qed.

(** ** Cases *)
(** a binary diagram with duplicate nodes, redundant nodes of both kinds, an all-zero node and dead nodes *)
Definition mess2 : dd := Dd 2
  [terminal_row 2;
   [[n0; n1]; [n0; n1]; [n1; n1]; [n1; n0]; [n0; n0]];
   [[mk 1 0; mk 1 1]; [mk 1 0; mk 1 3]; [mk 1 1; mk 1 3]; [mk 1 4; n0]; [mk 1 2; n0]; [n0; n0]];
   [[mk 2 0; mk 2 1]; [mk 2 1; mk 2 2]; [mk 2 4; mk 2 3]];
   [[mk 3 0; mk 3 1]; [mk 3 2; mk 3 1]]] (mk 4 1).
(** a ternary one *)
Definition mess3 : dd := Dd 3
  [terminal_row 3;
   [[n0; n1; n0]; [n0; n1; n0]; [n1; n1; n1]; [n1; n0; n0]];
   [[mk 1 0; mk 1 1; mk 1 0]; [mk 1 0; mk 1 3; n0]; [mk 1 1; mk 1 3; n0]; [n0; n0; n0]];
   [[mk 2 0; mk 2 1; mk 2 3]; [mk 2 2; mk 2 3; mk 1 2]]] (mk 3 1).
Lemma mess2_wf : dd_wf mess2. Proof. by apply dd_wfb_ok. Qed.
Lemma mess3_wf : dd_wf mess3. Proof. by apply dd_wfb_ok. Qed.

(** a schedule for two threads: the second half of a level goes to thread 0, tasks run in reverse order *)
Definition ex_chunks (d : dd) (i : nat) : list (list nat) :=
  let m := match tab d !! i with Some x => length x | None => 0 end in
  [drop (m / 2) (seq 0 m); take (m / 2) (seq 0 m)].
Definition ex_order (i : nat) : list nat := reverse (seq 0 (red_tasks 2)).
Lemma ex_sched_ok d : red_sched_ok 2 d (ex_chunks d) ex_order.
Proof.
  intros i x Hi Hx. unfold ex_chunks. rewrite Hx. split_and!; [done| |apply reverse_Permutation].
  cbn [concat]. rewrite app_nil_r, Permutation_app_comm. by rewrite take_drop.
Qed.

Example C04_case : dd_wf mess2 /\ dd_wf mess3 /\
  exists d2 d2' d3 d3', reduce_seq true false mess2 = Some d2 /\ reduce_mp 2 (ex_chunks mess2) ex_order true false mess2 = Some d2' /\
    reduce_seq true false mess3 = Some d3 /\ reduce_mp 2 (ex_chunks mess3) ex_order true false mess3 = Some d3' /\
    map length (tab mess2) = [2; 5; 6; 3; 2] /\ map length (tab d2) = [2; 2; 2; 2; 2] /\ map length (tab d3) = [2; 2; 1; 2].
Proof.
  split; [apply mess2_wf|]. split; [apply mess3_wf|]. do 4 eexists.
  split_and!; [vm_compute; reflexivity|vm_compute; reflexivity|vm_compute; reflexivity|vm_compute; reflexivity|by vm_compute..].
Qed.
Example C05_case : dd_wf mess2 /\ dd_wf mess3 /\
  exists d2 d3, reduce_seq false true mess2 = Some d2 /\ reduce_seq false true mess3 = Some d3 /\
    map length (tab d2) = [2; 2; 2; 2; 2] /\ map length (tab d3) = [2; 2; 2; 2] /\
    zdd_sem (dd_spec mess2) 4 (fun l => if l =? 4 then 1 else if l =? 2 then 1 else 0) = true.
Proof.
  split; [apply mess2_wf|]. split; [apply mess3_wf|]. do 2 eexists.
  split_and!; [vm_compute; reflexivity|vm_compute; reflexivity|by vm_compute..].
Qed.

(** Algorithm R keeps all-zero nodes that nothing refers to and the root; the other algorithms drop them *)
Example C06_case : dd_wf mess2 /\
  exists d2 d2', reduce_seq false false mess2 = Some d2 /\ reduce_hash false false mess2 = Some d2' /\
    map length (tab d2) = [2; 4; 4; 3; 2] /\ map length (tab d2') = [2; 3; 3; 3; 2] /\
    accepting mess2 [1; 1; 1; 0] /\ walk mess2 [1; 1; 1; 0] = [4; 3; 2; 1; -1]%Z.
Proof.
  split; [apply mess2_wf|]. do 2 eexists.
  split_and!; [vm_compute; reflexivity|vm_compute; reflexivity|by vm_compute..].
Qed.
Example C07_case : dd_wf mess2 /\ ~ no_bdd_redundant mess2 /\ ~ no_zdd_redundant mess2 /\ ~ no_duplicates mess2 /\
  exists d', reduction true false mess2 d' /\ table_size (tab d') = 8.
Proof.
  split; [apply mess2_wf|]. split_and!.
  - intros H. destruct (H 1 4 [n0; n0] ltac:(lia) ltac:(done)) as (b & b' & g & g' & Hb & Hb' & Hne). apply Hne.
    destruct b as [|[|b]]; destruct b' as [|[|b']]; try discriminate; injection Hb as <-; injection Hb' as <-; done.
  - intros H. destruct (H 1 3 [n1; n0] ltac:(lia) ltac:(done)) as (b & g & Hpos & Hb & Hne). apply Hne.
    destruct b as [|[|b]]; simpl in *; [lia| |done]. by injection Hb as <-.
  - intros H. specialize (H 1 0 1 [n0; n1] [n0; n1] ltac:(lia)). assert (0 = 1); [|done]. by apply H.
  - eexists. split; [apply red_sequential; vm_compute; reflexivity|by vm_compute].
Qed.
Example C08_case : dd_wf mess3 /\ exists d', reduction false true mess3 d' /\ table_size (tab d') = 6.
Proof.
  split; [apply mess3_wf|]. eexists. split; [apply red_sequential; vm_compute; reflexivity|by vm_compute].
Qed.
(** two different diagrams of one function, and one of another *)
Definition tiny (f : nid) : dd := Dd 2 [terminal_row 2; [[n0; n1]; [n1; n1]; [n0; n1]]; [[mk 1 0; mk 1 2]; [mk 1 0; mk 1 1]]] f.
Example C09_case : dd_wf (tiny (mk 2 0)) /\ dd_wf (tiny (mk 1 0)) /\
  exists d1 d2 d3, reduction true false (tiny (mk 2 0)) d1 /\ reduction true false (tiny (mk 1 0)) d2 /\ reduction true false (tiny (mk 2 1)) d3 /\
    dd_eq false (tiny (mk 2 0)) (tiny (mk 1 0)) = Some false /\ dd_eq false d1 d2 = Some true /\ dd_eq false d1 d3 = Some false.
Proof.
  split; [by apply dd_wfb_ok|]. split; [by apply dd_wfb_ok|]. do 3 eexists.
  split_and!; [apply red_sequential; vm_compute; reflexivity|apply red_sequential; vm_compute; reflexivity|apply red_sequential; vm_compute; reflexivity|by vm_compute..].
Qed.
Example C11_case : dd_wf mess2 /\ red_sched_ok 2 mess2 (ex_chunks mess2) ex_order /\
  exists d1 d2 d3, reduce_R true false mess2 = Some d1 /\ reduce_hash true false mess2 = Some d2 /\
    reduce_mp 2 (ex_chunks mess2) ex_order true false mess2 = Some d3 /\ d1 <> d3 /\ dd_eq false d1 d3 = Some true.
Proof.
  split; [apply mess2_wf|]. split; [apply ex_sched_ok|]. do 3 eexists.
  split_and!; [vm_compute; reflexivity|vm_compute; reflexivity|vm_compute; reflexivity|by vm_compute..].
Qed.
Example C10_case : dd_wf (tiny (mk 2 1)) /\
  exists d1 d2, reduction false true (tiny (mk 2 1)) d1 /\ reduction false true d1 d2 /\
    no_duplicates d1 /\ no_duplicates d2 /\ dd_eq false d1 d2 = Some true.
Proof.
  assert (dd_wf (tiny (mk 2 1))) as Hwf by (by apply dd_wfb_ok). split; [done|].
  destruct (reduction_total false true _ eq_refl eq_refl Hwf) as [[d1 H1] _].
  assert (reduction false true (tiny (mk 2 1)) d1) as R1 by (by apply red_sequential).
  pose proof (proj1 (proj2 (C05_zdd_reduce_preserves _ Hwf) d1 R1)) as Hwf1.
  destruct (reduction_total false true _ eq_refl eq_refl Hwf1) as [[d2 H2] _].
  assert (reduction false true d1 d2) as R2 by (by apply red_sequential).
  exists d1, d2. split_and!; try done.
  - by apply (C08_zdd_fully_reduced _ _ Hwf).
  - by apply (C08_zdd_fully_reduced _ _ Hwf1).
  - vm_compute in H1. injection H1 as <-. vm_compute in H2. injection H2 as <-. by vm_compute.
Qed.
Example C38_case : dd_wf mess2 /\ zero_unmarked mess2 /\
  exists d', reduction false true mess2 d' /\ attr (rt d') = true /\ held d' (mk 3 0) /\ held d' (Nid 1 1 true) /\
    get_zero_descendant (tab d') (rt d') 1 = Some (Nid 1 1 true) /\ get_zero_descendant (tab d') (rt d') 0 = Some n1 /\
    get_zero_descendant (tab d') (mk 4 0) 2 = Some (mk 2 0).
Proof.
  split; [apply mess2_wf|]. split.
  { intros f [->|(i & c & b & Hi & Hc)] _; [done|].
    assert (Forall (Forall (Forall (fun g => attr g = false))) (tab mess2)) as Hall by (vm_compute; repeat constructor).
    unfold child in Hc. destruct (tget (tab mess2) (mk i c)) as [p|] eqn:Ep; [|done]. cbn [mbind option_bind] in Hc. unfold tget in Ep.
    destruct (tab mess2 !! _) as [x|] eqn:Ex; [|done]. cbn [mbind option_bind] in Ep.
    apply (Forall_lookup_1 _ _ _ _ (Forall_lookup_1 _ _ _ _ (Forall_lookup_1 _ _ _ _ Hall Ex) Ep) Hc). }
  eexists. split_and!; [apply red_sequential; vm_compute; reflexivity|by vm_compute| | |by vm_compute..].
  - right. exists 4, 0, 0. by split; [lia|].
  - right. exists 4, 1, 0. by split; [lia|].
Qed.

(** ** Refutations *)
(** without the condition on duplicates operator== is not complete: a diagram is not even equal to its own
    copy (DdStructure.hpp 329-331 keeps one column per distinct node) *)
Theorem C10_unconditional_completeness_refuted : exists d, dd_wf d /\ same_unfolding d d /\ dd_eq false d d = Some false.
Proof.
  exists (tiny (mk 2 0)). split; [by apply dd_wfb_ok|]. split; [by intros bs _|]. by vm_compute.
Qed.
(** qddReduce does not give the same diagram with and without useMP: Algorithm R never deletes the root
    when all its branches are the 0-terminal (DdReducer.hpp 238-241), the others do *)
Theorem C11_qdd_agreement_refuted : exists d d1 d2 threads chunks order, dd_wf d /\ 0 < threads /\
  red_sched_ok threads d chunks order /\ reduce_seq false false d = Some d1 /\
  reduce_mp threads chunks order false false d = Some d2 /\ dd_eq false d1 d2 = Some false /\ rt d2 = n0 /\ row (rt d1) = 1.
Proof.
  exists (Dd 2 [terminal_row 2; [[n0; n0]]] (mk 1 0)). do 2 eexists. exists 2, (ex_chunks (Dd 2 [terminal_row 2; [[n0; n0]]] (mk 1 0))), ex_order.
  split_and!; [by apply dd_wfb_ok|lia|apply ex_sched_ok|vm_compute; reflexivity|vm_compute; reflexivity|by vm_compute..].
Qed.

Print Assumptions C04_bdd_reduce_preserves.
Print Assumptions C05_zdd_reduce_preserves.
Print Assumptions C06_qdd_reduce_preserves.
Print Assumptions C07_bdd_fully_reduced.
Print Assumptions C08_zdd_fully_reduced.
Print Assumptions C09_bdd_canonical.
Print Assumptions C09_zdd_canonical.
Print Assumptions C10_equality_sound.
Print Assumptions C10_equality_complete.
Print Assumptions C11_reductions_agree.
Print Assumptions C38_empty_flag.
Print Assumptions C38_constructed.
Print Assumptions C38_zero_descendant.
