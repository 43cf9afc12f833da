(** The levels of reduceMP_ meet the contract of P_RLevel.v, for every schedule. *)
From Verif Require Import Base Sem M_Table Tree P_Red M_Index P_Index P_RLevel M_Hash P_Hash M_Reducer P_RHash.

Lemma NoDup_omap_fst {C} (F : nat -> option (nat * C)) l : (forall j e, F j = Some e -> fst e = j) ->
  NoDup l -> NoDup (map fst (omap F l)).
Proof.
  intros HF Hnd. induction Hnd as [|j l Hj Hnd IH]; [constructor|]. simpl. destruct (F j) as [e|] eqn:E; [|done].
  simpl. constructor; [|done]. rewrite (HF _ _ E). intros Hin. apply Hj.
  apply elem_of_list_fmap in Hin as (e' & E' & He'). apply elem_of_list_omap in He' as (j' & Hj' & Ej').
  rewrite (HF _ _ Ej') in E'. by subst.
Qed.

Lemma take_S_sum l k v : l !! k = Some v -> sum_list (take (S k) l) = sum_list (take k l) + v.
Proof. intros H. rewrite (take_S_r l k v H). rewrite sum_list_with_app. simpl. lia. Qed.

Lemma base_loop_ok tasks base : 0 < tasks -> length base = S tasks -> base !! 0 = Some 0 ->
  exists base', ofold base_step (seq 1 (tasks - 1)) base = Some base' /\
    forall k, k <= tasks -> base' !! k = Some (sum_list (take (S k) base)).
Proof.
  intros Ht Hl H0.
  destruct (ofold_inv base_step (fun pre b => length pre <= tasks - 1 /\ length b = S tasks /\
     (forall k, k <= S (length pre) -> b !! k = Some (sum_list (take (S k) base))) /\
     (forall k, S (length pre) < k -> b !! k = base !! k)) (seq 1 (tasks - 1)) base) as (b' & E & P1 & P2 & P3 & P4).
  - simpl. split_and!; [lia|done| |done]. intros k Hk. destruct base as [|v0 base]; [done|]. simpl in H0. inversion H0; subst.
    destruct k as [|[|k]]; [done| |lia]. simpl in Hl. destruct base as [|v1 base]; [simpl in Hl; lia|]. simpl. do 2 f_equal. lia.
  - intros pre x post b Hl' (P1 & P2 & P3 & P4).
    assert (x = S (length pre)) as ->.
    { assert (seq 1 (tasks - 1) !! length pre = Some x) as Hx.
      { rewrite Hl'. rewrite lookup_app_r by lia. by rewrite Nat.sub_diag. }
      apply lookup_seq in Hx. lia. }
    assert (length pre < tasks - 1) as Hlt.
    { apply (f_equal length) in Hl'. rewrite seq_length, app_length in Hl'. simpl in Hl'. lia. }
    unfold base_step. rewrite (P3 (S (length pre))) by lia. cbn [mbind option_bind].
    destruct (lookup_lt_is_Some_2 base (S (S (length pre))) ltac:(lia)) as [w Hw].
    rewrite (P4 (S (S (length pre)))) by lia. rewrite Hw. cbn [mbind option_bind]. eexists. split; [done|]. rewrite app_length. simpl length.
    split_and!; [lia|by rewrite insert_length| |].
    + intros k Hk. destruct (decide (k = S (S (length pre)))) as [->|].
      * rewrite list_lookup_insert by lia. f_equal. rewrite (take_S_sum base (S (S (length pre))) w Hw). lia.
      * rewrite list_lookup_insert_ne by lia. apply P3. lia.
    + intros k Hk. rewrite list_lookup_insert_ne by lia. apply P4. lia.
  - rewrite seq_length in P3. exists b'. split; [done|]. intros k Hk. apply P3. lia.
Qed.

Definition off (base : list nat) (k : nat) : nat := sum_list (take (S k) base).
Lemma off_mono base k k' : k <= k' -> k' < length base -> off base k <= off base k'.
Proof.
  intros H Hl. induction H as [|k' H IH]; [done|]. specialize (IH ltac:(lia)).
  destruct (lookup_lt_is_Some_2 base (S k') Hl) as [v Hv]. unfold off in *. rewrite (take_S_sum base (S k') v Hv). lia.
Qed.
Lemma off_S base k v : base !! S k = Some v -> off base (S k) = off base k + v.
Proof. intros Hv. unfold off. by rewrite (take_S_sum base (S k) v Hv). Qed.
Lemma off_inj base x x' v v' c c' : base !! S x = Some v -> base !! S x' = Some v' -> c < v -> c' < v' ->
  off base x + c = off base x' + c' -> x = x' /\ c = c'.
Proof.
  intros Hv Hv' Hc Hc' E.
  pose proof (lookup_lt_Some _ _ _ Hv). pose proof (lookup_lt_Some _ _ _ Hv').
  pose proof (off_S _ _ _ Hv). pose proof (off_S _ _ _ Hv').
  destruct (Nat.lt_trichotomy x x') as [Hlt|[->|Hlt]].
  - pose proof (off_mono base (S x) x' ltac:(lia) ltac:(lia)). lia.
  - lia.
  - pose proof (off_mono base (S x') x ltac:(lia) ltac:(lia)). lia.
Qed.
Lemma off_surj base tasks k : base !! 0 = Some 0 -> tasks < length base -> k < off base tasks ->
  exists x v c, x < tasks /\ base !! S x = Some v /\ c < v /\ k = off base x + c.
Proof.
  intros H0. induction tasks as [|tasks IH]; intros Hl Hk.
  - destruct base as [|v base]; [done|]. simpl in H0. inversion H0; subst. unfold off in Hk. simpl in Hk. lia.
  - destruct (lookup_lt_is_Some_2 base (S tasks) Hl) as [v Hv]. pose proof (off_S _ _ _ Hv).
    destruct (decide (k < off base tasks)) as [Hlt|Hge].
    + destruct (IH ltac:(lia) Hlt) as (x & w & c & ? & ? & ? & ?). exists x, w, c. split_and!; try done. lia.
    + exists tasks, v, (k - off base tasks). split_and!; try done; lia.
Qed.

Lemma mp_ids0 B Z (cans : list node) : Forall (fun p => 0 < length p) cans ->
  exists newId0, mapM (fun p => del ← node_del B Z p; if (del : bool) then head p else Some n0) cans = Some newId0 /\
    length newId0 = length cans /\ forall k p, cans !! k = Some p -> delc (mode_of B Z) p = true -> newId0 !! k = head p.
Proof.
  intros Hne. induction Hne as [|p cs Hp Hne IH]; [by exists []|]. destruct IH as (l & E & L0 & D0). simpl. rewrite E.
  rewrite node_del_delc by done. cbn [mbind option_bind]. destruct p as [|g p]; [simpl in Hp; lia|].
  destruct (delc (mode_of B Z) (g :: p)) eqn:Hd; cbn [head mbind option_bind].
  - exists (g :: l). split_and!; [done|simpl; lia|]. intros [|k] q Hq Hdq; simpl in Hq; [inversion Hq; subst; done|by apply D0].
  - exists (n0 :: l). split_and!; [done|simpl; lia|]. intros [|k] q Hq Hdq; simpl in Hq; [inversion Hq; subst; congruence|by apply D0].
Qed.

Section mp.
  Context (B Z : bool) (i tasks : nat) (Ht : 0 < tasks) (cans : list node) (Hne : Forall (fun p => 0 < length p) cans)
    (chunks : list (list nat)) (Hch : concat chunks ≡ₚ seq 0 (length cans)).
  Notation md := (mode_of B Z).

  Definition tsk (q : node) : nat := N.to_nat (node_hash q mod N.of_nat tasks).
  Definition isit (x k : nat) (q : node) : Prop := cans !! k = Some q /\ delc md q = false /\ tsk q = x.

  Lemma tsk_lt q : tsk q < tasks.
  Proof. unfold tsk. pose proof (N.mod_lt (node_hash q) (N.of_nat tasks) ltac:(lia)). lia. Qed.

  Definition tsel (x j : nat) : option (nat * node) :=
    p ← cans !! j; del ← node_del B Z p;
    if negb del && (node_hash p mod N.of_nat tasks =? N.of_nat x)%N then Some (j, p) else None.

  Lemma tsel_fst x j e : tsel x j = Some e -> fst e = j.
  Proof.
    unfold tsel. destruct (cans !! j) as [p|]; [|done]. cbn [mbind option_bind]. destruct (node_del B Z p) as [b|]; [|done].
    cbn [mbind option_bind]. destruct (_ && _); [|done]. by intros [= <-].
  Qed.
  Lemma tsel_iff x j k q : tsel x j = Some (k, q) <-> j = k /\ isit x k q.
  Proof.
    unfold tsel, isit. destruct (cans !! j) as [p|] eqn:Hp; cbn [mbind option_bind].
    - rewrite node_del_delc by (by apply (Forall_lookup_1 _ _ _ _ Hne Hp)). cbn [mbind option_bind]. split.
      + destruct (delc md p) eqn:Hd; cbn [negb andb]; [done|].
        destruct (N.eqb_spec (node_hash p mod N.of_nat tasks) (N.of_nat x)) as [E|E]; [|done].
        intros [= <- <-]. split_and!; try done. unfold tsk. rewrite E. lia.
      + intros (-> & E & Hd & Ht'). assert (q = p) as -> by congruence. rewrite Hd. cbn [negb andb].
        destruct (N.eqb_spec (node_hash p mod N.of_nat tasks) (N.of_nat x)) as [|E']; [done|]. exfalso. apply E'. unfold tsk in Ht'. lia.
    - split; [done|]. intros (-> & E & _). congruence.
  Qed.

  Lemma items_alt x : task_items B Z tasks cans chunks x = omap (tsel x) (concat (map reverse chunks)).
  Proof.
    unfold task_items. clear Hch. induction chunks as [|ch cs IH]; [done|]. cbn [map concat]. rewrite omap_app. by rewrite <- IH.
  Qed.

  Lemma concat_rev : concat (map reverse chunks) ≡ₚ seq 0 (length cans).
  Proof.
    rewrite <- Hch. clear Hch. induction chunks as [|ch cs IH]; [done|]. simpl. rewrite IH. by rewrite reverse_Permutation.
  Qed.

  Lemma items_iff x k q : (k, q) ∈ task_items B Z tasks cans chunks x <-> isit x k q.
  Proof.
    rewrite items_alt, elem_of_list_omap. split.
    - intros (j & _ & H). apply tsel_iff in H. tauto.
    - intros H. exists k. split; [|by apply tsel_iff]. rewrite concat_rev. apply elem_of_seq.
      destruct H as [H _]. apply lookup_lt_Some in H. lia.
  Qed.
  Lemma items_nodup x : NoDup (map fst (task_items B Z tasks cans chunks x)).
  Proof.
    rewrite items_alt. apply NoDup_omap_fst; [apply tsel_fst|]. rewrite concat_rev. apply NoDup_seq.
  Qed.

  Lemma uniq_run_ok ri nid0 items n : NoDup (map fst items) ->
    (forall k q, (k, q) ∈ items -> k < length nid0 /\ 0 < length q) ->
    exists u newId jj, ofold (uniq_step ri) items (ht_init n, nid0, 0) = Some (u, newId, jj) /\
      uinv ri nid0 (fun k q => (k, q) ∈ items) u newId jj.
  Proof.
    intros Hnd Hin.
    destruct (ofold_inv (uniq_step ri) (fun pre '(u, newId, jj) => uinv ri nid0 (fun k q => (k, q) ∈ pre) u newId jj)
      items (ht_init n, nid0, 0)) as ([[u newId] jj] & E & HP).
    - eapply uinv_iff; [|apply uinv_init]. intros k q. simpl. split; [done|]. intros H. by apply elem_of_nil in H.
    - intros pre [j p] post [[u newId] jj] Hl HP.
      destruct (Hin j p) as [Hj Hp]. { rewrite Hl. apply elem_of_app. right. by left. }
      destruct (uniq_step_ok ri nid0 _ u newId jj j p HP) as (u' & newId' & jj' & E & HU); [|done|done|].
      { intros q Hq. rewrite Hl, map_app in Hnd. simpl in Hnd. apply NoDup_app in Hnd as (_ & Hd & _).
        apply (Hd j); [|by left]. apply elem_of_list_fmap. by exists (j, q). }
      exists (u', newId', jj'). split; [done|]. eapply uinv_iff; [|exact HU]. intros k q. simpl.
      rewrite elem_of_app, elem_of_list_singleton. split; [intros [?|[-> ->]]; [by left|by right]|].
      intros [?|[= -> ->]]; [by left|by right].
    - exists u, newId, jj. by split.
  Qed.

  Record tinfo (x : nat) (newId : list nid) (jj : nat) : Prop := {
    ti_id : forall k q, isit x k q -> exists f k' q' g, newId !! k = Some f /\ row f = i + x /\ col f < jj /\
      cans !! k' = Some q' /\ map code q' = map code q /\ q' !! 0 = Some g /\ attr f = hasEmpty g;
    ti_col : forall k q k' q' f f', isit x k q -> isit x k' q' -> newId !! k = Some f -> newId !! k' = Some f' ->
      col f = col f' <-> map code q = map code q';
    ti_surj : forall c, c < jj -> exists k q f, isit x k q /\ newId !! k = Some f /\ col f = c
  }.

  Lemma tinfo_ext x newId newId' jj : (forall k q, isit x k q -> newId' !! k = newId !! k) -> tinfo x newId jj -> tinfo x newId' jj.
  Proof.
    intros E [H1 H2 H3]. constructor.
    - intros k q Hk. rewrite (E k q Hk). by apply H1.
    - intros k q k' q' f f' Hk Hk'. rewrite (E k q Hk), (E k' q' Hk'). by apply H2.
    - intros c Hc. destruct (H3 c Hc) as (k & q & f & Hk & ?). exists k, q, f. by rewrite (E k q Hk).
  Qed.

  Lemma mp_tasks_ok order newId0 : order ≡ₚ seq 0 tasks -> length newId0 = length cans ->
    exists newId base, ofold (mp_task B Z i tasks cans chunks) order (newId0, replicate (S tasks) 0) = Some (newId, base) /\
      length newId = length cans /\ length base = S tasks /\ base !! 0 = Some 0 /\
      (forall k p, cans !! k = Some p -> delc md p = true -> newId !! k = newId0 !! k) /\
      (forall x, x < tasks -> exists jj, base !! S x = Some jj /\ tinfo x newId jj).
  Proof.
    intros Hord Hlen.
    destruct (ofold_inv (mp_task B Z i tasks cans chunks) (fun pre '(newId, base) =>
      length newId = length cans /\ length base = S tasks /\ base !! 0 = Some 0 /\
      (forall k p, cans !! k = Some p -> delc md p = true -> newId !! k = newId0 !! k) /\
      (forall x, x ∈ pre -> exists jj, base !! S x = Some jj /\ tinfo x newId jj))
      order (newId0, replicate (S tasks) 0)) as ([newId base] & E & P1 & P2 & P3 & P4 & P5).
    - split_and!; try done; [by rewrite replicate_length|]. intros x Hx. by apply elem_of_nil in Hx.
    - intros pre x post [newId base] Hl (P1 & P2 & P3 & P4 & P5).
      assert (x < tasks) as Hx.
      { assert (x ∈ order) as Hin by (rewrite Hl; apply elem_of_app; right; by left). rewrite Hord in Hin. apply elem_of_seq in Hin. lia. }
      assert (x ∉ pre) as Hxp.
      { assert (NoDup order) as Hnd by (rewrite Hord; apply NoDup_seq). rewrite Hl in Hnd. apply NoDup_app in Hnd as (_ & Hd & _).
        intros Hin. apply (Hd x Hin). by left. }
      unfold mp_task. destruct (lookup_lt_is_Some_2 base (S x) ltac:(lia)) as [v Hv]. rewrite Hv. cbn [mbind option_bind].
      destruct (Nat.eqb_spec (length (task_items B Z tasks cans chunks x)) 0) as [Hz|Hz].
      + eexists. split; [done|]. cbn beta iota. split_and!; try done; [by rewrite insert_length|by rewrite list_lookup_insert_ne|].
        intros y Hy. apply elem_of_app in Hy as [Hy|Hy].
        * rewrite list_lookup_insert_ne by (intros [= ->]; done). by apply P5.
        * apply elem_of_list_singleton in Hy as ->. exists 0. split; [by apply list_lookup_insert; lia|].
          assert (forall k q, ~ isit x k q) as Hno.
          { intros k q Hk. apply items_iff in Hk. apply nil_length_inv in Hz. rewrite Hz in Hk. by apply elem_of_nil in Hk. }
          constructor; [intros k q Hk; by destruct (Hno k q)|intros k q k' q' f f' Hk; by destruct (Hno k q)|intros c Hc; lia].
      + destruct (uniq_run_ok (i + x) newId (task_items B Z tasks cans chunks x)
          (length (task_items B Z tasks cans chunks x) * 2) (items_nodup x)) as (u & newId' & jj & -> & HU).
        { intros k q Hk. apply items_iff in Hk as (Hk & _). rewrite P1. split; [by eapply lookup_lt_Some|].
          by apply (Forall_lookup_1 _ _ _ _ Hne Hk). }
        cbn [mbind option_bind]. eexists. split; [done|]. cbn beta iota.
        assert (uinv (i + x) newId (isit x) u newId' jj) as HU'.
        { eapply uinv_iff; [|exact HU]. intros k q. apply items_iff. }
        split_and!.
        * by rewrite (u_len _ _ _ _ _ _ HU').
        * by rewrite insert_length.
        * by rewrite list_lookup_insert_ne.
        * intros k p Hk Hd. rewrite (u_old _ _ _ _ _ _ HU'); [by eapply P4|]. intros q (Hq & Hdq & _). congruence.
        * intros y Hy. apply elem_of_app in Hy as [Hy|Hy].
          -- rewrite list_lookup_insert_ne by (intros [= ->]; done). destruct (P5 y Hy) as (w & Hw & Hti). exists w. split; [done|].
             eapply tinfo_ext; [|exact Hti]. intros k q (Hk & Hd & Hy'). apply (u_old _ _ _ _ _ _ HU').
             intros q' (Hk' & _ & Hx'). assert (q' = q) as -> by congruence. congruence.
          -- apply elem_of_list_singleton in Hy as ->. exists jj. split; [by apply list_lookup_insert; lia|]. constructor.
             ++ intros k q Hk. destruct (u_id _ _ _ _ _ _ HU' k q Hk) as (f & k' & q' & g & F1 & F2 & F3 & (F4 & _) & F5).
                exists f, k', q', g. done.
             ++ apply (u_col _ _ _ _ _ _ HU').
             ++ apply (u_surj _ _ _ _ _ _ HU').
    - exists newId, base. split_and!; try done. intros x Hx. apply P5. rewrite Hord. apply elem_of_seq. lia.
  Qed.

  Definition conv (base : list nat) (f : nid) : nid :=
    if i <=? row f then Nid i (col f + off base (row f - i)) (attr f) else f.

  Lemma mp_level_ok a n lo order s x L o0 :
    s_in s !! i = Some x -> Forall2 (fun p p' => mapM (canon (s_ids s)) p = Some p') x cans ->
    Forall (Forall (fun g => row g < i)) cans ->
    lo !! i = Some L -> Forall (fun r => r < length (s_ids s)) L -> i < length (s_ids s) ->
    s_out s !! i = Some o0 -> (i = n -> col (s_root s) < length x) -> order ≡ₚ seq 0 tasks ->
    exists newId outrow ids root, mp_level B Z a n tasks chunks order lo s i = Some (RS (<[i := []]> (s_in s)) ids (<[i := outrow]> (s_out s)) root) /\
      lcontract md i cans newId outrow /\ clear_rows L (<[i := newId]> (s_ids s)) = Some ids /\
      new_root n i newId (s_root s) = Some root.
  Proof.
    intros Hx HF Hrows HL HLr Hil Ho0 Hroot Hord. unfold mp_level. rewrite Hx. cbn [mbind option_bind].
    pose proof (Forall2_length _ _ _ HF) as Hlen.
    assert (mapM (mapM (canon (s_ids s))) x = Some cans) as -> by (by apply mapM_Some_2).
    cbn [mbind option_bind].
    assert (exists newId0, mapM (fun p => del ← node_del B Z p; if (del : bool) then head p else Some n0) cans = Some newId0 /\
      length newId0 = length cans /\ forall k p, cans !! k = Some p -> delc md p = true -> newId0 !! k = head p) as (newId0 & -> & L0 & D0).
    { by apply mp_ids0. }
    cbn [mbind option_bind]. rewrite HL. cbn [mbind option_bind].
    destruct (lookup_lt_is_Some_2 (s_ids s) i Hil) as [y Hy]. rewrite Hy. cbn [mbind option_bind].
    destruct (mp_tasks_ok order newId0 Hord L0) as (newId1 & base & -> & N1 & N2 & N3 & N4 & N5). cbn [mbind option_bind].
    destruct (base_loop_ok tasks base Ht N2 N3) as (base' & -> & HB). cbn [mbind option_bind].
    rewrite HB by lia. change (sum_list (take (S tasks) base)) with (off base tasks). cbn [mbind option_bind].
    unfold set_row. rewrite Ho0. cbn [mbind option_bind]. set (tot := off base tasks).
    assert (i < length (s_out s)) as Hio by (by eapply lookup_lt_Some).
    assert (forall j p, cans !! j = Some p -> delc md p = false -> exists f jj f1 k' q' g, newId1 !! j = Some f /\ row f = i + tsk p /\
       base !! S (tsk p) = Some jj /\ col f < jj /\ f1 = Nid i (col f + off base (tsk p)) (attr f) /\ conv base f = f1 /\ col f1 < tot /\
       cans !! k' = Some q' /\ map code q' = map code p /\ q' !! 0 = Some g /\ attr f = hasEmpty g) as Hnd.
    { intros j p Hp Hd. pose proof (tsk_lt p) as Htl. destruct (N5 (tsk p) Htl) as (jj & Hjj & Hti).
      destruct (ti_id _ _ _ Hti j p) as (f & k' & q' & g & F1 & F2 & F3 & F4 & F5 & F6 & F7); [done|].
      eexists f, jj, _, k', q', g. split_and!; try done.
      - unfold conv. destruct (Nat.leb_spec i (row f)); [|lia]. rewrite F2. by replace (i + tsk p - i) with (tsk p) by lia.
      - simpl. pose proof (off_S _ _ _ Hjj). pose proof (off_mono base (S (tsk p)) tasks ltac:(lia) ltac:(lia)). unfold tot. lia. }
    assert (forall j p, cans !! j = Some p -> delc md p = true -> exists g, newId1 !! j = Some g /\ head p = Some g /\ row g < i /\ conv base g = g) as Hdl.
    { intros j p Hp Hd. rewrite (N4 j p Hp Hd), (D0 j p Hp Hd). pose proof (Forall_lookup_1 _ _ _ _ Hrows Hp) as Hr.
      pose proof (Forall_lookup_1 _ _ _ _ Hne Hp) as Hl. destruct p as [|g p]; [simpl in Hl; lia|]. inversion Hr; subst.
      exists g. split_and!; try done. unfold conv. destruct (Nat.leb_spec i (row g)); [lia|done]. }
    set (fids := map (conv base) newId1).
    assert (forall j f, newId1 !! j = Some f -> fids !! j = Some (conv base f)) as Hfids.
    { intros j f Hf. unfold fids. rewrite list_lookup_fmap, Hf. done. }
    destruct (ofor_inv (mp_fill i cans base') (fun J '(newId, o) => exists w, o = <[i := w]> (s_out s) /\ length w = tot /\
        filled md cans fids J w /\ length newId = length cans /\ forall j, newId !! j = if j <? J then fids !! j else newId1 !! j)
      (length x) (newId1, <[i := replicate tot (junk_node a)]> (s_out s))) as ([newId o'] & -> & w & -> & W1 & W2 & W3 & W4).
    - eexists. split_and!; [done|by rewrite replicate_length|apply filled_0|done|done].
    - intros J [newId o] HJ (w & -> & W1 & W2 & W3 & W4). unfold mp_fill.
      destruct (lookup_lt_is_Some_2 cans J ltac:(lia)) as [p Hp].
      rewrite (W4 J), Nat.ltb_irrefl.
      destruct (delc md p) eqn:Hd.
      + destruct (Hdl J p Hp Hd) as (g & G1 & G2 & G3 & G4). rewrite G1. cbn [mbind option_bind].
        destruct (Nat.leb_spec i (row g)); [lia|]. eexists. split; [done|]. cbn beta iota. exists w. split_and!; try done.
        * by eapply filled_del.
        * intros j. rewrite W4. destruct (Nat.ltb_spec j J), (Nat.ltb_spec j (S J)); try done; try lia.
          assert (j = J) as -> by lia. rewrite (Hfids J g G1), G4. done.
      + destruct (Hnd J p Hp Hd) as (f & jj & f1 & k' & q' & g & F1 & F2 & F3 & F4 & F5 & F6 & F7 & _). rewrite F1. cbn [mbind option_bind].
        destruct (Nat.leb_spec i (row f)); [|lia]. pose proof (tsk_lt p).
        rewrite HB by lia. cbn [mbind option_bind]. change (sum_list (take (S (row f - i)) base)) with (off base (row f - i)).
        assert (Nid i (col f + off base (row f - i)) (attr f) = f1) as ->.
        { rewrite F5, F2. by replace (i + tsk p - i) with (tsk p) by lia. }
        rewrite Hp. cbn [mbind option_bind].
        assert (row f1 = i) as Er1 by (by rewrite F5).
        assert (tset (<[i:=w]> (s_out s)) f1 p = Some (<[i := <[col f1 := p]> w]> (s_out s))) as ->.
        { unfold tset. rewrite Er1. rewrite list_lookup_insert by done. cbn [mbind option_bind].
          destruct (lookup_lt_is_Some_2 w (col f1) ltac:(lia)) as [z ->]. cbn [mbind option_bind]. by rewrite list_insert_insert. }
        cbn [mbind option_bind]. eexists. split; [done|]. cbn beta iota. eexists. split_and!; [done|by rewrite insert_length| | |].
        * apply filled_set; try done; [|lia]. by rewrite (Hfids J f F1), F6.
        * by rewrite insert_length.
        * intros j. destruct (decide (j = J)) as [->|Hj].
          -- rewrite list_lookup_insert by lia. destruct (Nat.ltb_spec J (S J)); [|lia]. by rewrite (Hfids J f F1), F6.
          -- rewrite list_lookup_insert_ne by done. rewrite W4. destruct (Nat.ltb_spec j J), (Nat.ltb_spec j (S J)); try done; lia.
    - cbn [mbind option_bind].
      assert (newId = fids) as ->.
      { apply list_eq. intros j. rewrite W4. destruct (Nat.ltb_spec j (length x)); [done|].
        rewrite !lookup_ge_None_2; [done| |]; [unfold fids; rewrite map_length; lia|lia]. }
      destruct (clear_rows_ok L (<[i := fids]> (s_ids s))) as (ids & Eids & _).
      { eapply Forall_impl; [exact HLr|]. intros r Hr. simpl. by rewrite insert_length. }
      rewrite Eids. cbn [mbind option_bind]. unfold new_root.
      assert (exists root, (if i =? n then fids !! col (s_root s) else Some (s_root s)) = Some root) as [root Er].
      { destruct (Nat.eqb_spec i n) as [e|]; [|eauto]. apply lookup_lt_is_Some_2. rewrite W3. specialize (Hroot e). lia. }
      rewrite Er. cbn [mbind option_bind]. exists fids, w, ids, root. split_and!; [done| |done|done].
      apply (lcontract_intro md i cans fids tot w); try done.
      + intros j p Hp. by apply (Forall_lookup_1 _ _ _ _ Hne) in Hp.
      + intros j p Hp Hd. destruct (Hdl j p Hp Hd) as (g & G1 & G2 & G3 & G4). by rewrite (Hfids j g G1), G4, G2.
      + intros j p Hp Hd. destruct (Hnd j p Hp Hd) as (f & jj & f1 & k' & q' & g & F1 & F2 & F3 & F4 & F5 & F6 & F7 & F8 & F9 & F10 & F11).
        exists f1, k', q', g. split_and!; try done; [by rewrite (Hfids j f F1), F6|by rewrite F5|by rewrite F5].
      + intros j p j' p' f f' Hp Hd Hp' Hd' Hf Hf'.
        destruct (Hnd j p Hp Hd) as (h & jj & f1 & ? & ? & ? & F1 & F2 & F3 & F4 & F5 & F6 & F7 & _).
        destruct (Hnd j' p' Hp' Hd') as (h' & jj' & f1' & ? & ? & ? & F1' & F2' & F3' & F4' & F5' & F6' & F7' & _).
        rewrite (Hfids j h F1), F6 in Hf. rewrite (Hfids j' h' F1'), F6' in Hf'.
        assert (f = f1) as -> by congruence. assert (f' = f1') as -> by congruence. rewrite F5, F5'. cbn [col].
        destruct (N5 (tsk p) (tsk_lt p)) as (jx & Hjx & Hti). split.
        * intros E. destruct (off_inj base (tsk p) (tsk p') jj jj' (col h) (col h') F3 F3' F4 F4' ltac:(lia)) as [Et Ec].
          by apply (ti_col _ _ _ Hti j p j' p' h h').
        * intros E. assert (tsk p = tsk p') as Et by (unfold tsk; by rewrite (node_hash_codes p p' E)).
          assert (col h = col h') as ->; [|by rewrite Et]. by apply (ti_col _ _ _ Hti j p j' p' h h').
      + intros c q Hq. assert (c < tot) as Hc by (rewrite <- W1; by eapply lookup_lt_Some).
        destruct (off_surj base tasks c N3 ltac:(lia) Hc) as (xx & v & cc & X1 & X2 & X3 & X4).
        destruct (N5 xx X1) as (jx & Hjx & Hti). assert (jx = v) as -> by congruence.
        destruct (ti_surj _ _ _ Hti cc X3) as (k & q0 & f & (K1 & K2 & K2') & K3 & K4).
        destruct (Hnd k q0 K1 K2) as (h & jj & f1 & ? & ? & ? & F1 & F2 & F3 & F4 & F5 & F6 & F7 & _).
        assert (h = f) as -> by congruence.
        destruct (W2 k q0 f1) as (j' & q' & f' & V1 & V2 & V3 & V4 & V5 & V6);
          [rewrite Hlen; by eapply lookup_lt_Some|done|done|by rewrite (Hfids k f F1), F6|].
        assert (col f1 = c) as Ec. { rewrite F5. simpl. rewrite K2'. lia. }
        rewrite Ec in *. assert (q' = q) as -> by congruence. by exists j', f'.
  Qed.
End mp.
