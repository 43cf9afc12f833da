(** Level by level to the whole diagram: reduce_ and reduceMP_. *)
From Verif Require Import Base Sem M_Table Tree P_Red M_Index P_Index P_RLevel M_Hash P_Hash M_Reducer P_RHash P_RMP.

Section global.
  Context (a : nat) (Ha : 0 < a) (md : rmode) (t : table) (Hwf : table_wf a t).
  Context (root0 : nid) (Tr : tree) (Hroot : rep t root0 Tr).
  Notation N := (length t).
  Notation n := (row root0).

  Record ginv (i : nat) (s : rstate) : Prop := {
    g_ilen : length (s_in s) = N;
    g_in : forall r, i < r -> r < N -> s_in s !! r = t !! r;
    g_out : oinv a md t i (s_out s);
    g_idl : length (s_ids s) = N;
    g_ids : forall r, r <= i -> (r = 0 \/ exists i', i < i' < N /\ refs t i' r) -> good md t (s_out s) (s_ids s) r;
    g_root1 : i < n -> s_root s = root0;
    g_root2 : 0 < n -> n <= i -> rep (s_out s) (s_root s) (red md Tr) /\ (clean t -> hasEmpty (s_root s) = tz Tr)
  }.

  Lemma n_lt : n < N.
  Proof.
    destruct (decide (n = 0)) as [E0|E0].
    - rewrite E0. destruct (wf_term a t Hwf) as (r & Hr & _). by apply lookup_lt_Some in Hr.
    - pose proof (rep_valid _ _ _ Hroot) as Hv. unfold valid in Hv. destruct (Nat.eqb_spec (row root0) 0) as [|_]; [done|].
      destruct Hv as [p Hp]. unfold tget in Hp. destruct (t !! row root0) as [r|] eqn:E; [|done]. by eapply lookup_lt_Some.
  Qed.

  Lemma ginv_init s : s_in s = t -> s_ids s = [n0; n1] :: replicate (N - 1) [] ->
    s_out s = terminal_row a :: replicate (N - 1) [] -> s_root s = root0 -> ginv 0 s.
  Proof.
    intros E1 E2 E3 E4.
    assert (0 < N) as HN. { destruct (wf_term a t Hwf) as (r & Hr & _). by apply lookup_lt_Some in Hr. }
    constructor.
    - by rewrite E1.
    - intros. by rewrite E1.
    - rewrite E3. by apply oinv_init.
    - rewrite E2. simpl. rewrite replicate_length. lia.
    - intros r Hr _. assert (r = 0) as -> by lia. apply (good_terminal a Ha). by rewrite E2.
    - done.
    - lia.
  Qed.

  Lemma canon_row i s x : 0 < i -> ginv (i - 1) s -> t !! i = Some x ->
    exists cans, Forall2 (fun p p' => mapM (canon (s_ids s)) p = Some p') x cans /\ canned md t (s_out s) x cans /\
      Forall (fun p => 0 < length p) cans /\ Forall (Forall (fun g => row g < i)) cans.
  Proof.
    intros Hi HG Hx. assert (i < N) as HiN by (by eapply lookup_lt_Some).
    assert (forall g, (exists p, p ∈ x /\ g ∈ p) -> exists f, canon (s_ids s) g = Some f /\ cok md t (s_out s) g f) as Hcan.
    { intros g (p & Hp & Hg). apply elem_of_list_lookup in Hp as [j Hj]. apply elem_of_list_lookup in Hg as [b Hb].
      destruct (wf_child a t Hwf i x j p b g Hi Hx Hj Hb) as [Hlt Hv].
      destruct (rep_exists a t Hwf g Hv) as [S HS].
      destruct (g_ids _ _ HG (row g) ltac:(lia)) as (l & Hl & Hgood).
      { right. exists i. split; [lia|]. exists j, b, g. split; [|done]. unfold child, tget. simpl. rewrite Hx. simpl. by rewrite Hj. }
      destruct (Hgood (col g) S) as (f & Hf & Hrep & Hat).
      { apply (rep_code t g); [done|]. done. }
      exists f. split; [unfold canon; by rewrite Hl|]. by exists S. }
    assert (exists cans, Forall2 (fun p p' => mapM (canon (s_ids s)) p = Some p') x cans /\ canned md t (s_out s) x cans) as (cans & C1 & C2).
    { clear -Hcan. unfold canned. induction x as [|p x IH]; [exists []; split; constructor|].
      destruct IH as (cans & C1 & C2). { intros g (q & Hq & Hg). apply Hcan. exists q. split; [by right|done]. }
      assert (exists p', Forall2 (fun g f => canon (s_ids s) g = Some f) p p' /\ Forall2 (cok md t (s_out s)) p p') as (p' & Q1 & Q2).
      { assert (forall g, g ∈ p -> exists f, canon (s_ids s) g = Some f /\ cok md t (s_out s) g f) as Hp.
        { intros g Hg. apply Hcan. exists p. split; [by left|done]. }
        clear -Hp. induction p as [|g p IH]; [exists []; split; constructor|].
        destruct IH as (p' & Q1 & Q2). { intros g' Hg'. apply Hp. by right. }
        destruct (Hp g ltac:(by left)) as (f & F1 & F2). exists (f :: p'). split; by constructor. }
      exists (p' :: cans). split; constructor; try done. by apply mapM_Some_2. }
    exists cans. split_and!; try done.
    - apply Forall_lookup. intros j p' Hp'. destruct (Forall2_lookup_r _ _ _ _ _ C2 Hp') as (p & Hp & HF).
      rewrite <- (Forall2_length _ _ _ HF), (wf_arity a t Hwf i x j p Hx Hp). done.
    - apply Forall_lookup. intros j p' Hp'. destruct (Forall2_lookup_r _ _ _ _ _ C2 Hp') as (p & Hp & HF).
      apply Forall_lookup. intros b f Hf. destruct (Forall2_lookup_r _ _ _ _ _ HF Hf) as (g & Hg & (S & S1 & S2 & _)).
      eapply rep_row; [exact Ha| |apply (g_out _ _ HG)|exact S2]. lia.
  Qed.

  Lemma ginv_step i s x cans newId outrow hi lo L in' ids' root' :
    0 < i -> i <= n -> ginv (i - 1) s -> t !! i = Some x -> canned md t (s_out s) x cans ->
    lcontract md i cans newId outrow -> index_ok t hi lo -> lo !! i = Some L ->
    clear_rows L (<[i := newId]> (s_ids s)) = Some ids' -> new_root n i newId (s_root s) = Some root' ->
    length in' = N -> (forall r, i < r -> r < N -> in' !! r = t !! r) ->
    ginv i (RS in' ids' (<[i := outrow]> (s_out s)) root').
  Proof.
    intros Hi Hin HG Hx Hc HL Hidx HLo Hids Hnr Hil Hir. pose proof n_lt as Hn.
    destruct (ix_lo _ _ _ Hidx i ltac:(lia)) as (L' & HL' & HLnd & HLs). assert (L' = L) as -> by congruence.
    pose proof (g_out _ _ HG) as HO.
    assert (0 < i < N) as HiN by lia.
    destruct (clear_rows_ok L (<[i := newId]> (s_ids s))) as (ids2 & E2 & I1 & I2 & _).
    { apply Forall_forall. intros r Hr. apply HLs in Hr. rewrite insert_length, (g_idl _ _ HG). lia. }
    assert (ids2 = ids') as -> by congruence. clear E2.
    constructor; cbn [s_in s_ids s_out s_root].
    - done.
    - done.
    - exact (step_oinv a Ha md t Hwf i (s_out s) HiN HO x Hx cans Hc newId outrow HL).
    - rewrite I1, insert_length. apply HG.
    - intros r Hr Href.
      assert (r ∉ L) as HrL.
      { intros HrL. apply HLs in HrL as (? & ? & Hno). destruct Href as [->|(i' & ? & ?)]; [lia|]. by apply (Hno i'). }
      destruct (decide (r = i)) as [->|Hne].
      + exists newId. split.
        * rewrite I2 by done. apply list_lookup_insert. rewrite (g_idl _ _ HG). lia.
        * intros c S HS. exact (step_good a Ha md t Hwf i (s_out s) HiN HO x Hx cans Hc newId outrow HL c S HS).
      + destruct (g_ids _ _ HG r ltac:(lia)) as (l & Hl & Hgood).
        { destruct Href as [->|(i' & ? & ?)]; [by left|right]. exists i'. split; [lia|done]. }
        exists l. split; [rewrite I2 by done; by rewrite list_lookup_insert_ne|].
        intros c S HS. destruct (Hgood c S HS) as (f & F1 & F2 & F3). exists f. split_and!; try done.
        exact (rep_mono a Ha md t i (s_out s) HiN HO outrow f _ F2).
    - intros Hlt. unfold new_root in Hnr. destruct (Nat.eqb_spec i (row root0)) as [|_]; [lia|]. rewrite <- (g_root1 _ _ HG) by lia. congruence.
    - intros Hpos Hle. assert (i = n) as Ei by lia. unfold new_root in Hnr. destruct (Nat.eqb_spec i (row root0)) as [_|]; [|lia].
      rewrite (g_root1 _ _ HG) in Hnr by lia.
      destruct (step_good a Ha md t Hwf i (s_out s) HiN HO x Hx cans Hc newId outrow HL (col root0) Tr) as (f & F1 & F2 & F3).
      { apply (rep_code t root0); [|done]. unfold code. simpl. congruence. }
      assert (f = root') as -> by congruence. done.
  Qed.

  Lemma root_col x : t !! n = Some x -> 0 < n -> col root0 < length x.
  Proof.
    intros Hx Hpos. pose proof (rep_valid _ _ _ Hroot) as Hv. unfold valid in Hv. destruct (Nat.eqb_spec (row root0) 0) as [|_]; [lia|].
    destruct Hv as [p Hp]. unfold tget in Hp. rewrite Hx in Hp. by eapply lookup_lt_Some.
  Qed.
End global.

(** the level functions keep the invariant *)
Section hash_levels.
  Context (a : nat) (Ha : 0 < a) (B Z : bool) (t : table) (Hwf : table_wf a t).
  Context (root0 : nid) (Tr : tree) (Hroot : rep t root0 Tr).
  Notation md := (mode_of B Z).
  Notation n := (row root0).
  Context (hi lo : list (list nat)) (Hidx : index_ok t hi lo).

  Lemma reduce_level_ginv i s : 0 < i -> i <= n -> ginv a md t root0 Tr (i - 1) s ->
    exists s', reduce_level B Z a n lo s i = Some s' /\ ginv a md t root0 Tr i s'.
  Proof.
    intros Hi Hin HG. pose proof (n_lt a t Hwf root0 Tr Hroot) as Hn.
    destruct (lookup_lt_is_Some_2 t i ltac:(lia)) as [x Hx].
    destruct (canon_row a Ha md t Hwf root0 Tr i s x Hi HG Hx) as (cans & C1 & C2 & C3 & C4).
    destruct (ix_lo _ _ _ Hidx i ltac:(lia)) as (L & HL & _ & HLs).
    destruct (reduce_level_ok B Z i a n lo s x cans L []) as (newId & outrow & ids & root & E & HC & Hids & Hr).
    - rewrite (g_in _ _ _ _ _ _ _ HG) by lia. done.
    - done.
    - done.
    - done.
    - done.
    - apply Forall_forall. intros r Hr. apply HLs in Hr. rewrite (g_idl _ _ _ _ _ _ _ HG). lia.
    - rewrite (g_idl _ _ _ _ _ _ _ HG). lia.
    - apply (oi_hi _ _ _ _ _ (g_out _ _ _ _ _ _ _ HG)); lia.
    - intros ->. rewrite (g_root1 _ _ _ _ _ _ _ HG) by lia. by eapply root_col.
    - eexists. split; [exact E|]. eapply ginv_step; try done.
      + rewrite insert_length. apply HG.
      + intros r H1 H2. rewrite list_lookup_insert_ne by lia. apply (g_in _ _ _ _ _ _ _ HG); lia.
  Qed.

  Lemma mp_level_ginv tasks chunks order i s : 0 < tasks ->
    (forall x, t !! i = Some x -> concat chunks ≡ₚ seq 0 (length x)) -> order ≡ₚ seq 0 tasks ->
    0 < i -> i <= n -> ginv a md t root0 Tr (i - 1) s ->
    exists s', mp_level B Z a n tasks chunks order lo s i = Some s' /\ ginv a md t root0 Tr i s'.
  Proof.
    intros Ht Hch Hord Hi Hin HG. pose proof (n_lt a t Hwf root0 Tr Hroot) as Hn.
    destruct (lookup_lt_is_Some_2 t i ltac:(lia)) as [x Hx].
    destruct (canon_row a Ha md t Hwf root0 Tr i s x Hi HG Hx) as (cans & C1 & C2 & C3 & C4).
    destruct (ix_lo _ _ _ Hidx i ltac:(lia)) as (L & HL & _ & HLs).
    destruct (mp_level_ok B Z i tasks Ht cans C3 chunks ltac:(rewrite <- (Forall2_length _ _ _ C1); by apply Hch) a n lo order s x L [])
      as (newId & outrow & ids & root & E & HC & Hids & Hr).
    - rewrite (g_in _ _ _ _ _ _ _ HG) by lia. done.
    - done.
    - done.
    - done.
    - apply Forall_forall. intros r Hr. apply HLs in Hr. rewrite (g_idl _ _ _ _ _ _ _ HG). lia.
    - rewrite (g_idl _ _ _ _ _ _ _ HG). lia.
    - apply (oi_hi _ _ _ _ _ (g_out _ _ _ _ _ _ _ HG)); lia.
    - intros ->. rewrite (g_root1 _ _ _ _ _ _ _ HG) by lia. by eapply root_col.
    - done.
    - eexists. split; [exact E|]. eapply ginv_step; try done.
      + rewrite insert_length. apply HG.
      + intros r H1 H2. rewrite list_lookup_insert_ne by lia. apply (g_in _ _ _ _ _ _ _ HG); lia.
  Qed.
End hash_levels.

(** ** Whole reductions *)
Lemma level_loop {S} (f : S -> nat -> option S) (P : nat -> S -> Prop) n s :
  P 0 s -> (forall i s, 0 < i -> i <= n -> P (i - 1) s -> exists s', f s i = Some s' /\ P i s') ->
  exists s', ofold f (seq 1 n) s = Some s' /\ P n s'.
Proof.
  intros H0 Hs. destruct (ofold_inv f (fun pre s => length pre <= n /\ P (length pre) s) (seq 1 n) s) as (s' & E & _ & HP).
  - split; [simpl; lia|done].
  - intros pre i post s1 Hl [Hle HP].
    assert (length pre < n) as Hlt.
    { apply (f_equal length) in Hl. rewrite seq_length, app_length in Hl. simpl in Hl. lia. }
    assert (i = 1 + length pre) as ->.
    { assert (seq 1 n !! length pre = Some i) as Hx.
      { rewrite Hl. rewrite lookup_app_r by lia. by rewrite Nat.sub_diag. }
      apply lookup_seq in Hx. lia. }
    destruct (Hs (1 + length pre) s1) as (s2 & E2 & HP2); [lia|lia| |].
    { by replace (1 + length pre - 1) with (length pre) by lia. }
    exists s2. split; [done|]. rewrite app_length. simpl length. split; [lia|]. by replace (length pre + 1) with (1 + length pre) by lia.
  - rewrite seq_length in HP. by exists s'.
Qed.

(** the diagram with terminals re-initialised *)
Definition init_tab (d : dd) : table := <[0 := terminal_row (d_ar d)]> (tab d).

Lemma init_tab_get d f : 0 < row f -> tget (init_tab d) f = tget (tab d) f.
Proof. intros H. apply tget_insert_ne. lia. Qed.
Lemma init_tab_rep d f T : rep (init_tab d) f T <-> rep (tab d) f T.
Proof.
  revert f. induction T as [| |l ts IH] using tree_ind'; intros f.
  - split; inversion 1; subst; by apply rep_0.
  - split; inversion 1; subst; by apply rep_1.
  - assert (forall p, Forall2 (rep (init_tab d)) p ts <-> Forall2 (rep (tab d)) p ts) as HF.
    { clear f. induction IH as [|T ts HT IH IHF]; intros p.
      - split; inversion 1; constructor.
      - split; intros H; inversion H; subst; constructor; try (by apply HT); by apply IHF. }
    split; intros H; inversion H as [| |f' p ts' Hr Hg HFF Hlt]; subst; econstructor; try done; try (by apply HF);
      rewrite init_tab_get in *; done.
Qed.
Lemma init_tab_valid d f : valid (init_tab d) f <-> valid (tab d) f.
Proof. unfold valid. destruct (Nat.eqb_spec (row f) 0) as [E|E]; [done|]. by rewrite init_tab_get by lia. Qed.
Lemma init_tab_wf d : table_wf (d_ar d) (tab d) -> table_wf (d_ar d) (init_tab d).
Proof.
  intros [W1 W2 W3]. destruct W1 as (r0 & Hr0 & _). pose proof (lookup_lt_Some _ _ _ Hr0) as HN.
  assert (forall i, 0 < i -> init_tab d !! i = tab d !! i) as Hne by (intros; unfold init_tab; apply list_lookup_insert_ne; lia).
  constructor.
  - exists (terminal_row (d_ar d)). split; [by apply list_lookup_insert|]. split; [done|].
    unfold terminal_row. repeat constructor; apply replicate_length.
  - intros i r j p Hr Hj. destruct (decide (i = 0)) as [->|].
    + unfold init_tab in Hr. rewrite list_lookup_insert in Hr by done. inversion Hr; subst. unfold terminal_row in Hj.
      destruct j as [|[|j]]; simpl in Hj; inversion Hj; apply replicate_length.
    + rewrite Hne in Hr by lia. by eapply W2.
  - intros i r j p b g Hi Hr Hj Hb. rewrite Hne in Hr by lia. destruct (W3 i r j p b g Hi Hr Hj Hb). split; [done|].
    by apply init_tab_valid.
Qed.
Lemma init_tab_len d : length (init_tab d) = length (tab d).
Proof. apply insert_length. Qed.

(** What a reduction with deletion rule [md] delivers. *)
Record reduced (md : rmode) (d d' : dd) : Prop := {
  rd_ar : d_ar d' = d_ar d;
  rd_wf : dd_wf d';
  rd_inv : oinv (d_ar d) md (init_tab d) (row (rt d)) (tab d');
  rd_rep : forall T, rep (tab d) (rt d) T -> rep (tab d') (rt d') (red md T);
  rd_attr : clean (tab d) -> (code (rt d) = (0, 0) -> attr (rt d) = false) ->
            forall T, rep (tab d) (rt d) T -> hasEmpty (rt d') = tz T
}.

Lemma ginv_reduced md d T s : dd_wf d -> rep (tab d) (rt d) T ->
  ginv (d_ar d) md (init_tab d) (rt d) T (row (rt d)) s ->
  (row (rt d) = 0 -> s_root s = rt d) -> reduced md d (Dd (d_ar d) (s_out s) (s_root s)).
Proof.
  intros (Ha & Hwf & Hv) HT HG H0.
  assert (rep (s_out s) (s_root s) (red md T)) as Hrep.
  { destruct (decide (row (rt d) = 0)) as [E|E]; [|apply HG; lia].
    rewrite H0 by done. inversion HT; subst; try lia; [by apply rep_0|by apply rep_1]. }
  constructor; cbn [d_ar tab rt].
  - done.
  - split_and!; [done|apply (oi_wf _ _ _ _ _ (g_out _ _ _ _ _ _ _ HG))|by eapply rep_valid].
  - apply HG.
  - intros T' HT'. by rewrite (rep_det _ _ _ _ HT' HT).
  - intros Hcl Hat T' HT'. rewrite (rep_det _ _ _ _ HT' HT).
    assert (clean (init_tab d)) as Hcl'.
    { intros i c b g Hi Hg. apply (Hcl i c b g Hi). unfold child in *. rewrite init_tab_get in Hg by done. done. }
    destruct (decide (row (rt d) = 0)) as [E|E]; [|apply HG; [lia|lia|done]].
    rewrite H0 by done. by eapply hasEmpty_term.
Qed.

Lemma reduce_hash_ok B Z d : dd_wf d -> exists d', reduce_hash B Z d = Some d' /\ reduced (mode_of B Z) d d'.
Proof.
  intros Hd. pose proof Hd as (Ha & Hwf & Hv). unfold reduce_hash.
  destruct (rep_exists _ _ Hwf _ Hv) as [T HT].
  pose proof (init_tab_wf d Hwf) as Hwf'. pose proof (proj2 (init_tab_rep d (rt d) T) HT) as HT'.
  destruct (make_index_ok _ _ Hwf') as (hi & lo & Ei & Hidx).
  change (s_in (red_init d)) with (init_tab d). rewrite Ei. cbn [mbind option_bind].
  destruct (level_loop (reduce_level B Z (d_ar d) (row (rt d)) lo) 
    (fun i s => ginv (d_ar d) (mode_of B Z) (init_tab d) (rt d) T i s /\ (row (rt d) = 0 -> s_root s = rt d)) (row (rt d)) (red_init d)) as (s & -> & HG & H0).
  - split; [|done]. apply (ginv_init _ Ha); try done; cbn [red_init s_ids s_out]; by rewrite init_tab_len.
  - intros i s Hi Hin [HG _]. destruct (reduce_level_ginv (d_ar d) Ha B Z _ Hwf' (rt d) T HT' hi lo Hidx i s Hi Hin HG) as (s' & E & HG').
    exists s'. split_and!; [done|done|lia].
  - cbn [mbind option_bind]. eexists. split; [done|]. by eapply ginv_reduced.
Qed.

(** a legal schedule of a parallel reduction: at each level the columns are distributed over the threads,
    and the tasks are executed in some order *)
Definition red_sched_ok (threads : nat) (d : dd) (chunks : nat -> list (list nat)) (order : nat -> list nat) : Prop :=
  forall i x, 0 < i -> tab d !! i = Some x ->
    length (chunks i) = threads /\ concat (chunks i) ≡ₚ seq 0 (length x) /\ order i ≡ₚ seq 0 (red_tasks threads).

Lemma reduce_mp_ok threads chunks order B Z d : dd_wf d -> 0 < threads -> red_sched_ok threads d chunks order ->
  exists d', reduce_mp threads chunks order B Z d = Some d' /\ reduced (mode_of B Z) d d'.
Proof.
  intros Hd Hthr Hsch. pose proof Hd as (Ha & Hwf & Hv). unfold reduce_mp.
  destruct (rep_exists _ _ Hwf _ Hv) as [T HT].
  pose proof (init_tab_wf d Hwf) as Hwf'. pose proof (proj2 (init_tab_rep d (rt d) T) HT) as HT'.
  destruct (make_index_ok _ _ Hwf') as (hi & lo & Ei & Hidx).
  change (s_in (red_init d)) with (init_tab d). rewrite Ei. cbn [mbind option_bind].
  destruct (level_loop (fun s i => mp_level B Z (d_ar d) (row (rt d)) (red_tasks threads) (chunks i) (order i) lo s i)
    (fun i s => ginv (d_ar d) (mode_of B Z) (init_tab d) (rt d) T i s /\ (row (rt d) = 0 -> s_root s = rt d)) (row (rt d)) (red_init d)) as (s & -> & HG & H0).
  - split; [|done]. apply (ginv_init _ Ha); try done; cbn [red_init s_ids s_out]; by rewrite init_tab_len.
  - intros i s Hi Hin [HG _].
    assert (forall x, init_tab d !! i = Some x -> tab d !! i = Some x) as Hrow.
    { intros x Hx. unfold init_tab in Hx. by rewrite list_lookup_insert_ne in Hx by lia. }
    assert (i < length (tab d)) as HiN.
    { rewrite <- (init_tab_len d). pose proof (n_lt _ _ Hwf' _ _ HT'). lia. }
    destruct (lookup_lt_is_Some_2 _ _ HiN) as [x0 Hx0].
    destruct (mp_level_ginv (d_ar d) Ha B Z _ Hwf' (rt d) T HT' hi lo Hidx (red_tasks threads) (chunks i) (order i) i s) as (s' & E & HG').
    + unfold red_tasks. pose proof (primeSize_ge (N.of_nat (10 * threads))). lia.
    + intros x Hx. by apply (Hsch i x Hi (Hrow x Hx)).
    + by apply (Hsch i x0 Hi Hx0).
    + done.
    + done.
    + done.
    + exists s'. split_and!; [done|done|lia].
  - cbn [mbind option_bind]. eexists. split; [done|]. by eapply ginv_reduced.
Qed.
